(** Properties C57 and C58: the factory for TA-Lib transformers. *)
From Coq Require Import Reals String Ascii Lia.
From Verif Require Import Series Feat_Model TAFactory_Model TAFactory_Spec TAFactory_Proofs TAFactory_Proofs2.
Local Open Scope nat_scope.
Local Open Scope string_scope.

(** C57. A doc string NAME(a, b[, k=?, l=?]) is read as the arguments a, b and the optional arguments k, l. *)
Theorem C57_signature (V : Type) (d : ta_dict V) f name fname args kwargs more :
  get_ta_func V d name = Ok f -> ta_doc V f = Some (doc_of fname args kwargs more) ->
  plain_name fname -> args <> [] -> Forall plain_name args -> Forall plain_name kwargs -> further_lines more ->
  get_args_kwargs V d name = Ok (args, match kwargs with [] => None | _ => Some kwargs end).
Proof. exact (c57 V d f name fname args kwargs more). Qed.
Print Assumptions C57_signature.

Example bbands_doc : doc_of "BBANDS" ["real"] ["timeperiod"; "nbdevup"] "" = "BBANDS(real[, timeperiod=?, nbdevup=?])". Proof. reflexivity. Qed.
Definition bbands : ta_func nat :=
  Build_ta_func nat (Some (doc_of "BBANDS" ["real"] ["timeperiod"; "nbdevup"] (String newline "Bollinger Bands (Overlap Studies)")))
    (fun columns _ => match columns with [c] => Ok (Several [c; c; c]) | _ => Err TypeError end).
Definition adx : ta_func nat :=
  Build_ta_func nat (Some (doc_of "ADX" ["high"; "low"; "close"] ["timeperiod"] "")) (fun columns _ => match columns with [c; _; _] => Ok (One c) | _ => Err TypeError end).
Definition correl : ta_func nat :=
  Build_ta_func nat (Some (doc_of "CORREL" ["real0"; "real1"] [] "")) (fun columns _ => match columns with [_; c] => Ok (One c) | _ => Err TypeError end).
Definition library : ta_dict nat := [("BBANDS", bbands); ("ADX", adx); ("CORREL", correl)].
Example C57_bbands : get_args_kwargs nat library "BBANDS" = Ok (["real"], Some ["timeperiod"; "nbdevup"]). Proof. reflexivity. Qed.
Example C57_adx : get_args_kwargs nat library "ADX" = Ok (["high"; "low"; "close"], Some ["timeperiod"]). Proof. reflexivity. Qed.
Example C57_correl : get_args_kwargs nat library "CORREL" = Ok (["real0"; "real1"], None). Proof. reflexivity. Qed.
Lemma names_plain l : forallb (fun n => match n with "" => false | _ => true end && forallb (fun c => negb (existsb (Ascii.eqb c) (list_ascii_of_string "()[], =?" ++ [newline]))) (list_ascii_of_string n)) l = true ->
  Forall plain_name l.
Proof.
  rewrite forallb_forall, Forall_forall. intros H n Hn. specialize (H n Hn). apply Bool.andb_true_iff in H as [H1 H2]. split; [now intros ->|].
  rewrite forallb_forall in H2. apply Forall_forall. intros c Hc Hi. specialize (H2 c Hc). rewrite Bool.negb_true_iff, <- Bool.not_true_iff_false in H2. apply H2.
  apply existsb_exists. exists c. split; auto. apply Ascii.eqb_refl.
Qed.
Example C57_hypotheses_met : get_ta_func nat library "BBANDS" = Ok bbands /\ Forall plain_name ["BBANDS"; "real"; "timeperiod"; "nbdevup"] /\
  further_lines (String newline "Bollinger Bands (Overlap Studies)").
Proof. split; [reflexivity|]. split; [now apply names_plain|right; eexists; reflexivity]. Qed.

(** A function documented without any argument cannot be parsed: the pattern wants at least one character. *)
Theorem C57_no_arguments_refuted (V : Type) (d : ta_dict V) f name : get_ta_func V d name = Ok f -> ta_doc V f = Some (doc_of "NOW" [] [] "") ->
  get_args_kwargs V d name = Err AttributeError.
Proof. intros Hf Hd. unfold get_args_kwargs. rewrite Hf. cbn [bind]. now rewrite Hd. Qed.
Print Assumptions C57_no_arguments_refuted.

(** Splitting a text loses nothing, and no piece contains the separator. *)
Theorem C57_split : forall sep s, sep <> [] -> joined sep (split sep s) = s /\ Forall (fun x => forall a b, x <> (a ++ sep ++ b)%list) (split sep s).
Proof. exact c57_split. Qed.
Print Assumptions C57_split.
Example C57_split_case : split (list_ascii_of_string "[, ") (list_ascii_of_string "real[, a[") =
  [list_ascii_of_string "real"; list_ascii_of_string "a["].
Proof. reflexivity. Qed.

(** A function without documentation cannot be parsed, nor one whose documentation has more than one optional part. *)
Theorem C57_undocumented (V : Type) (d : ta_dict V) f name : get_ta_func V d name = Ok f -> ta_doc V f = None -> get_args_kwargs V d name = Err TypeError.
Proof. intros Hf Hd. unfold get_args_kwargs. rewrite Hf. cbn [bind]. now rewrite Hd. Qed.
Print Assumptions C57_undocumented.
Theorem C57_two_optional_parts (V : Type) (d : ta_dict V) f name fname args k1 k2 : get_ta_func V d name = Ok f ->
  ta_doc V f = Some (fname ++ "(" ++ comma_separated args ++ "[, " ++ k1 ++ "=?][, " ++ k2 ++ "=?])") ->
  plain_name fname -> Forall plain_name args -> plain_name k1 -> plain_name k2 ->
  get_args_kwargs V d name = Err ValueError.
Proof. exact (c57_two V d f name fname args k1 k2). Qed.
Print Assumptions C57_two_optional_parts.
Example C57_two_optional_parts_case : get_args_kwargs nat [("MAMA", Build_ta_func nat (Some "MAMA(real[, fastlimit=?][, slowlimit=?])") (fun _ _ => Ok (One [])))] "MAMA" = Err ValueError /\
  Forall plain_name ["MAMA"; "real"; "fastlimit"; "slowlimit"].
Proof. split; [reflexivity|]. now apply names_plain. Qed.

(** C58. A transformer is created exactly if the inputs, the mapping and the keywords are acceptable, and then it applies the
    function to the columns they stand for. Missing: surplus column names, a first column called real1 and an empty keyword
    dictionary for a function without keywords; see the refutations below. *)
Theorem C58_accepted_partial (V : Type) (d : ta_dict V) name f fname args kwargs more col m kw :
  get_ta_func V d name = Ok f -> ta_doc V f = Some (doc_of fname args kwargs more) ->
  plain_name fname -> args <> [] -> Forall plain_name args -> Forall plain_name kwargs -> further_lines more ->
  NoDup args -> (In "real" args -> ~ In "real0" args /\ ~ In "real1" args) ->
  tidy col -> proper m -> (kwargs = [] -> kw <> Some []) ->
  ((exists t, create_transformer V d name col m kw = Ok t) <->
   (exists cols cols' k, inputs args col cols /\ mapped cols m cols' /\ keywords kwargs kw k)) /\
  (forall t cols cols' k, create_transformer V d name col m kw = Ok t -> inputs args col cols -> mapped cols m cols' -> keywords kwargs kw k ->
     runs f cols' k t).
Proof. exact (c58_accept V d name f fname args kwargs more col m kw). Qed.
Print Assumptions C58_accepted_partial.

(** What is not accepted is refused with a ValueError, or with a TypeError for a mapping that is no dictionary; only a list of
    fewer than two columns for a function of two surfaces as an IndexError. *)
Theorem C58_rejected (V : Type) (d : ta_dict V) name f fname args kwargs more col m kw e :
  get_ta_func V d name = Ok f -> ta_doc V f = Some (doc_of fname args kwargs more) ->
  plain_name fname -> args <> [] -> Forall plain_name args -> Forall plain_name kwargs -> further_lines more ->
  create_transformer V d name col m kw = Err e ->
  e = ValueError \/ e = TypeError /\ m = MOther \/ e = IndexError /\ In "real0" args /\ In "real1" args /\ exists l, col = CList l /\ List.length l < 2.
Proof. exact (c58_errors V d name f fname args kwargs more col m kw e). Qed.
Print Assumptions C58_rejected.

Theorem C58_unknown_function (V : Type) (d : ta_dict V) name col m kw : ~ In name (map fst d) -> create_transformer V d name col m kw = Err ValueError.
Proof. exact (c58_unknown V d name col m kw). Qed.
Print Assumptions C58_unknown_function.

Definition bars : frame := {| f_index := [1; 2]%Z; f_cols := [("h", [Fin 3%R; Fin 4%R]); ("low", [Fin 1%R; Fin 2%R]); ("close", [Fin 2%R; Fin 3%R])] |}.
Definition applied (r : result (frame -> result (list (list (ext R))))) : result (list (list (ext R))) := do t <- r ;; t bars.
Example C58_bbands : applied (create_transformer nat library "BBANDS" (CStr "close") MNone (Some [("timeperiod", 20)])) =
  Ok [[Fin 2%R; Fin 2%R; Fin 2%R]; [Fin 3%R; Fin 3%R; Fin 3%R]].
Proof. reflexivity. Qed.
Example C58_adx : applied (create_transformer nat library "ADX" CNone (MDict [("high", "h")]) None) = Ok [[Fin 3%R]; [Fin 4%R]]. Proof. reflexivity. Qed.
Example C58_adx_missing_column : applied (create_transformer nat library "ADX" CNone MNone None) = Err ValueError. Proof. reflexivity. Qed.
Example C58_adx_wrong_keyword : applied (create_transformer nat library "ADX" CNone MNone (Some [("period", 3)])) = Err ValueError. Proof. reflexivity. Qed.
Example C58_hypotheses_met : inputs ["real"] (CStr "close") ["close"] /\ mapped ["high"; "low"] (MDict [("high", "h")]) ["h"; "low"] /\
  keywords ["timeperiod"; "nbdevup"] (Some [("timeperiod", 20)]) [("timeperiod", 20)] /\ inputs ["real0"; "real1"] (CList [Some "a"; Some "b"]) ["a"; "b"] /\
  tidy (CList [Some "a"; Some "b"]) /\ proper (MDict [("high", "h")]).
Proof.
  split; [|split; [|split; [|split; [|split]]]].
  - apply (one_input ["real"] "close"); cbn; intuition discriminate.
  - constructor; [intros k; cbn; tauto|]. constructor; [left; cbn; now left|]. constructor; [right|constructor]. split; [reflexivity|]. cbn. intuition discriminate.
  - constructor. intros k; cbn; tauto.
  - apply (two_inputs ["real0"; "real1"] "a" "b"); cbn; intuition discriminate.
  - split; [cbn; lia|]. now intros c0 r [= <- _].
  - repeat constructor. easy.
Qed.

(** Column names beyond the second are dropped without a word. *)
Theorem C58_surplus_columns_refuted (V : Type) (d : ta_dict V) name f fname more c0 c1 c2 rest : get_ta_func V d name = Ok f ->
  ta_doc V f = Some (doc_of fname ["real0"; "real1"] [] more) -> plain_name fname -> further_lines more ->
  create_transformer V d name (CList (Some c0 :: Some c1 :: Some c2 :: map Some rest)) MNone None = create_transformer V d name (CList [Some c0; Some c1]) MNone None.
Proof.
  intros Hf Hdoc Hn Hm. unfold create_transformer. rewrite Hf. cbn [bind].
  rewrite (c57 V d f name fname ["real0"; "real1"] [] more) by (auto; try easy; now apply names_plain). cbn [bind fst snd]. unfold check_and_set_args. cbn -[set_first].
  replace (forallb _ (map Some rest)) with true; [reflexivity|]. symmetry. apply forallb_forall. intros o Ho. now apply in_map_iff in Ho as (s & <- & _).
Qed.
Print Assumptions C58_surplus_columns_refuted.
(** If the first column is called real1, the second name overwrites it: the function gets the columns c1 and real1. *)
Theorem C58_real1_refuted (V : Type) (d : ta_dict V) name f fname more c1 : get_ta_func V d name = Ok f ->
  ta_doc V f = Some (doc_of fname ["real0"; "real1"] [] more) -> plain_name fname -> further_lines more ->
  create_transformer V d name (CList [Some "real1"; Some c1]) MNone None = create_transformer V d name (CList [Some c1; Some "real1"]) MNone None.
Proof.
  intros Hf Hdoc Hn Hm. unfold create_transformer. rewrite Hf. cbn [bind].
  rewrite (c57 V d f name fname ["real0"; "real1"] [] more) by (auto; try easy; now apply names_plain). cbn [bind fst snd]. unfold check_and_set_args. cbn.
  destruct (String.eqb_spec c1 "real1") as [->|H]; reflexivity.
Qed.
Print Assumptions C58_real1_refuted.
(** The empty dictionary of keywords is refused by functions without keywords. *)
Theorem C58_empty_keywords_refuted (V : Type) (d : ta_dict V) name f fname args more col m t : get_ta_func V d name = Ok f ->
  ta_doc V f = Some (doc_of fname args [] more) -> plain_name fname -> args <> [] -> Forall plain_name args -> further_lines more ->
  create_transformer V d name col m None = Ok t -> create_transformer V d name col m (Some []) = Err ValueError.
Proof.
  intros Hf Hdoc Hn Hne Ha Hm. unfold create_transformer. rewrite Hf. cbn [bind]. rewrite (c57 V d f name fname args [] more) by (auto; easy). cbn [bind fst snd].
  destruct (check_and_set_args args col m); [reflexivity|discriminate].
Qed.
Print Assumptions C58_empty_keywords_refuted.
Example C58_refutations_met : applied (create_transformer nat library "CORREL" (CList [Some "low"; Some "close"; Some "h"]) MNone None) = Ok [[Fin 2%R]; [Fin 3%R]] /\
  applied (create_transformer nat library "CORREL" (CList [Some "low"; Some "close"]) MNone (Some [])) = Err ValueError.
Proof. split; reflexivity. Qed.
