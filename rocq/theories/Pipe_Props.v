(** The strategy pipeline and the trader: C53-C56, C70-C73. *)
From Coq Require Import String QArith.
From Verif Require Import Prelude Num Pipe_Model Pipe_Spec Pipe_Proofs2 Pipe_Proofs4 Pipe_Proofs5 Pipe_Proofs6 Pipe_Proofs7 Pipe_Proofs8 Pipe_Proofs9 Pipe_Proofs12.
Open Scope nat_scope.
(** For the examples. *)
Ltac run := vm_compute; reflexivity.

(** * Concrete pipelines for the examples *)
Definition q (z : Z) : ext Q := Fin (inject_Z z).
(** A transformer that keeps the close only, and one that keeps everything. *)
Definition ex_close (f : frame Q) : result (frame Q) :=
  do c <- column f "close" ;; Ok {| columns := ["close"%string]; rows := map (fun e => (fst e, [snd e])) c |}.
(** A model for rows of two numbers: it compares them. *)
Definition ex_pred (r : list (ext Q)) : ext Q := if eltb (nth 0 r NaN) (nth 1 r NaN) then q 1 else q (-1).
Definition ex_prob (r : list (ext Q)) : list (ext Q) := if eltb (nth 0 r NaN) (nth 1 r NaN) then [Fin (1 # 4); Fin (3 # 4)] else [Fin (2 # 3); Fin (1 # 3)].
Definition of_width {V} (n : nat) (h : list (ext Q) -> V) (rs : list (list (ext Q))) : result (list V) :=
  if forallb (fun r => Nat.eqb (List.length r) n) rs then Ok (map h rs) else Err ValueError.
Definition ex_primary : model Q := {| predict := of_width 2 ex_pred; predict_proba := of_width 2 ex_prob; classes := [q (-1); q 1]; n_classes := 2; fitted := true |}.
Definition ex_meta : model Q := {| predict := of_width 4 (fun _ => q 1); predict_proba := of_width 4 (fun r => [Fin (1 # 5); Fin (4 # 5)]); classes := [q 0; q 1]; n_classes := 2; fitted := true |}.
Definition ex_sizer (l : list (Z * (ext Q * ext Q * option (ext Q)))) : result (list (Z * ext Q)) := Ok (map (fun e => (fst e, fst (fst (snd e)))) l).
Definition ex_p (closing : option (dict (frame Q) -> result (option string))) (bars_tr : option (frame Q -> result (frame Q))) (meta : option (model Q)) (sizer : bool) : pipeline Q := {|
  primary_transformers := [("bars", bars_tr); ("slow", None)]%string; meta_transformers := match meta with Some _ => [("bars"%string, Some ex_close)] | None => [] end;
  align_on := "bars"; align_how := [("slow", "mean")]%string; primary_model := Some ex_primary; metalabeling_model := meta;
  use_proba := true; use_predictions := true; bet_sizer := if sizer then Some ex_sizer else None; closing_positions_model := closing |}.
Definition ex_bars : frame Q := {| columns := ["close"%string]; rows := [(10, [q 5]); (20, [q 2]); (30, [q 9]); (40, [q 1])]%Z |}.
Definition ex_slow : frame Q := {| columns := ["f"%string]; rows := [(12, [q 3]); (15, [q 5]); (35, [q 6]); (50, [q 8])]%Z |}.
Definition ex_X : dict (frame Q) := [("bars", ex_bars); ("slow", ex_slow)]%string.

(** ** C53: alignment *)

(** The frame that decides the times stays; in the others, the value of a column at an alignment time combines the rows
    of the column after the previous alignment time and up to this one, or is carried from before if there are none. *)
Theorem C53_alignment : forall (p : pipeline Q) P M P' M' lead, align_on p <> ""%string -> lookup P (align_on p) = Ok lead ->
  increasingZ (index lead) -> after_1700 (index lead) -> fine P -> fine M ->
  align p (P, M) = Ok (P', M') -> Forall2 (aligned_entry p lead) P P' /\ Forall2 (aligned_entry p lead) M M'.
Proof. exact align_entries. Qed.
Print Assumptions C53_alignment.
(** Each feature row up to the last alignment time is in exactly one window. *)
Theorem C53_once : forall al t, increasingZ al -> (exists hi, In hi al /\ (t <= hi)%Z) -> exists! i, belongs al i t = true.
Proof. exact windows_once. Qed.
Print Assumptions C53_once.
(** ... which is that of the first alignment time at or after it. *)
Theorem C53_not_before : forall al i t, belongs al i t = true -> exists hi, nth_error al i = Some hi /\ (t <= hi)%Z.
Proof.
  intros al i t H. unfold belongs in H. apply andb_true_iff in H. destruct H as (H & _). destruct (nth_error al i) as [hi|]; [|discriminate]. exists hi. split; [reflexivity|now apply Z.leb_le].
Qed.
Print Assumptions C53_not_before.
(** Two inputs that agree up to a time have aligned frames that agree up to this time. *)
Theorem C53_causal : forall (A : Type) (HA : Arith A) how key al al' T (f f' g g' : frame A),
  increasingZ al -> increasingZ al' -> after_1700 al -> after_1700 al' ->
  columns f = columns f' -> upto T (rows f) = upto T (rows f') -> filter (fun t => (t <=? T)%Z) al = filter (fun t => (t <=? T)%Z) al' ->
  align_frame how key al f = Ok g -> align_frame how key al' f' = Ok g' -> upto T (rows g) = upto T (rows g').
Proof. exact @align_no_lookahead. Qed.
Print Assumptions C53_causal.
(** When a frame can be aligned: a method is only needed if some window has two rows. *)
Theorem C53_accepted : forall (A : Type) (HA : Arith A) how key al (f : frame A), increasingZ al -> after_1700 al -> after_1700 (index f) -> columns f <> [] ->
  (is_ok (align_frame how key al f) = true <->
   rows f <> [] /\ al <> [] /\
   ((exists i, 2 <= List.length (window f al i)) -> exists name, lookup how key = Ok name /\ In name ["mean"; "min"; "max"]%string)).
Proof. exact @align_accepts. Qed.
Print Assumptions C53_accepted.
Example C53_case : exists P' M', align (ex_p None None None false) (ex_X, []) = Ok (P', M') /\
  map snd P' = [ex_bars; {| columns := ["f"%string]; rows := [(10, [NaN]); (20, [Fin (8 # 2)]); (30, [Fin (8 # 2)]); (40, [q 6])]%Z |}].
Proof. do 2 eexists. split; run. Qed.
Example C53_hypotheses : increasingZ (index ex_bars) /\ after_1700 (index ex_bars) /\ fine ex_X.
Proof. unfold fine, after_1700, proper. repeat (split || constructor); cbn; try reflexivity; lia. Qed.

(** ** C54: data sets *)

Theorem C54_primary : forall (A : Type) (HA : Arith A) (p : pipeline A) X y X' y', create_dataset_primary p X y true = Ok (X', y') ->
  index X' = map fst y' /\ rows X' <> [] /\ columns X' <> [] /\ (forall t row x, In (t, row) (rows X') -> In x row -> exists v, x = Fin v) /\
  (forall t x, In (t, x) y' -> In (t, x) y /\ exists v, x = Fin v).
Proof.
  intros A HA p X y X' y' H. unfold create_dataset_primary in H. destruct (raise_if _ _); [|discriminate]. cbn [bind] in H. destruct (features_of p X) as [fs|]; [|discriminate]. cbn [bind] in H.
  exact (align_X_y_ok _ _ _ _ H).
Qed.
Print Assumptions C54_primary.
(** Exactly the times with a label at which all features are there, in the order of the labels, with these features. *)
Theorem C54_primary_content : forall (A : Type) (HA : Arith A) (p : pipeline A) X y P M X' y', features_of p X = Ok (P, M) -> good_frames P -> NoDup (map fst y) ->
  create_dataset_primary p X y true = Ok (X', y') ->
  columns X' = concat (map columns (map snd P)) /\ NoDup (index X') /\ (forall t, In t (index X') <-> usable (map snd P) y t) /\
  (exists keep, index X' = filter keep (map fst y)) /\ (forall t row, In (t, row) (rows X') -> made_of (map snd P) t row).
Proof.
  intros A HA p X y P M X' y' Hf HP Hy H. unfold create_dataset_primary in H. destruct (raise_if _ _); [|discriminate]. cbn [bind] in H. rewrite Hf in H. cbn [bind fst] in H.
  destruct (align_X_y_content P y X' y' HP Hy H) as (H1 & H2 & H3 & H4 & H5). split; [exact H1|]. split; [exact H2|]. split; [exact H3|]. split; [exact H4|]. intros t row Hr. exact (proj1 (H5 t row Hr)).
Qed.
Print Assumptions C54_primary_content.
(** The targets are the labels -1, 0 and 1; other labels are refused. *)
Theorem C54_primary_labels : forall (p : pipeline Q) X y X' y', create_dataset_primary p X y true = Ok (X', y') -> forall t x, In (t, x) y' -> In (t, x) y /\ label x.
Proof. exact primary_labels. Qed.
Print Assumptions C54_primary_labels.
Theorem C54_refused : forall (p : pipeline Q) X y drop_na t x, In (t, x) y -> x <> NaN -> ~ label x ->
  create_dataset_primary p X y drop_na = Err AssertionError /\ create_dataset_metalabeling p X y = Err AssertionError.
Proof. exact primary_rejects. Qed.
Print Assumptions C54_refused.
Theorem C54_metalabeling : forall (A : Type) (HA : Arith A) (p : pipeline A) X y P M X' y', features_of p X = Ok (P, M) -> good_frames P -> good_frames M -> NoDup (map fst y) ->
  create_dataset_metalabeling p X y = Ok (X', y') ->
  index X' = map fst y' /\ NoDup (index X') /\
  (forall t, In t (index X') <-> usable (map snd P) y t /\ Forall (complete_at t) (map snd M)) /\
  exists Xp yp, create_dataset_primary p X y true = Ok (Xp, yp) /\
    (forall t row, In (t, row) (rows X') -> ~ In NaN row /\ exists base pred prob, made_of (map snd M) t base /\ row = base ++ pred ++ prob /\
       (if use_predictions p then exists q, pred = [q] /\ said predict (primary_model p) Xp t q else pred = []) /\
       (if use_proba p then said predict_proba (primary_model p) Xp t prob else prob = [])) /\
    (forall t v, In (t, v) y' -> exists l q, In (t, l) y /\ said predict (primary_model p) Xp t q /\ v = Fin (if eeqb q l then a1 else a0)).
Proof. exact @dataset_meta_ok. Qed.
Print Assumptions C54_metalabeling.
(** A meta-label is 1 exactly where the primary prediction is the label, and otherwise 0. *)
Theorem C54_metalabels : forall (p : pipeline Q) X y P M X' y', features_of p X = Ok (P, M) -> good_frames P -> good_frames M -> NoDup (map fst y) ->
  create_dataset_metalabeling p X y = Ok (X', y') ->
  exists Xp yp, create_dataset_primary p X y true = Ok (Xp, yp) /\
    forall t v, In (t, v) y' -> exists l q, In (t, Fin l) y /\ said predict (primary_model p) Xp t q /\
      (v = Fin 1%Q /\ (exists r, q = Fin r /\ (r == l)%Q) \/ v = Fin 0%Q /\ ~ (exists r, q = Fin r /\ (r == l)%Q)).
Proof. exact meta_labels. Qed.
Print Assumptions C54_metalabels.
Definition ex_y : list (Z * ext Q) := [(40, q (-1)); (10, q 1); (20, q 1); (30, NaN); (25, NaN)]%Z.
Example C54_case : create_dataset_primary (ex_p None None None false) ex_X ex_y true =
  Ok ({| columns := ["close"; "f"]%string; rows := [(40, [q 1; q 6]); (20, [q 2; Fin (8 # 2)])]%Z |}, [(40, q (-1)); (20, q 1)]%Z) /\
  create_dataset_metalabeling (ex_p None None (Some ex_meta) false) ex_X ex_y =
  Ok ({| columns := ["close"; "primary_side_pred"; "primary_side_pred_proba_0"; "primary_side_pred_proba_1"]%string;
         rows := [(20, [q 2; q 1; Fin (1 # 4); Fin (3 # 4)]); (40, [q 1; q 1; Fin (1 # 4); Fin (3 # 4)])]%Z |}, [(20, q 1); (40, q 0)]%Z).
Proof. split; run. Qed.
Example C54_hypotheses : exists P M, features_of (ex_p None None (Some ex_meta) false) ex_X = Ok (P, M) /\ good_frames P /\ good_frames M /\ NoDup (map fst ex_y).
Proof.
  do 2 eexists. split; [reflexivity|]. unfold good_frames. split; [|split]; repeat constructor; cbn; try discriminate; intros H; repeat (destruct H as [H|H]; [discriminate|]); exact H.
Qed.
(** The columns: those of the features, then one for the prediction and one for every class, if these are wanted. *)
Theorem C54_meta_columns : forall (A : Type) (HA : Arith A) (p : pipeline A) X y P M X' y', features_of p X = Ok (P, M) -> create_dataset_metalabeling p X y = Ok (X', y') ->
  columns X' = concat (map columns (map snd M)) ++ prediction_columns p.
Proof. exact @dataset_meta_columns. Qed.
Print Assumptions C54_meta_columns.
(** It is made whenever the data set of the primary model is, and this model gives one prediction per row and, if these are
    wanted, one probability per class. (Predictions without probabilities must cover all times of the features.) *)
Theorem C54_meta_accepted : forall (A : Type) (HA : Arith A) (p : pipeline A) X y P M m Xp yp v w, features_of p X = Ok (P, M) -> good_frames P -> good_frames M -> M <> [] -> NoDup (map fst y) ->
  create_dataset_primary p X y true = Ok (Xp, yp) -> primary_model p = Some m ->
  predict m (map snd (rows Xp)) = Ok v -> length v = length (rows Xp) ->
  (use_predictions p = true -> ~ In NaN v) ->
  (use_predictions p = true -> use_proba p = false -> forall t, Forall (complete_at t) (map snd M) -> In t (index Xp)) ->
  (use_proba p = true -> predict_proba m (map snd (rows Xp)) = Ok w /\ length w = length (rows Xp) /\ Forall (fun r => length r = n_classes m /\ ~ In NaN r) w) ->
  is_ok (create_dataset_metalabeling p X y) = true.
Proof. exact @dataset_meta_accepts. Qed.
Print Assumptions C54_meta_accepted.
Example C54_meta_hypotheses : let p := ex_p None None (Some ex_meta) false in exists Xp yp m v w, create_dataset_primary p ex_X ex_y true = Ok (Xp, yp) /\ primary_model p = Some m /\
  predict m (map snd (rows Xp)) = Ok v /\ length v = length (rows Xp) /\ ~ In NaN v /\ use_proba p = true /\ use_predictions p = true /\
  predict_proba m (map snd (rows Xp)) = Ok w /\ length w = length (rows Xp) /\ Forall (fun r => length r = n_classes m /\ ~ In NaN r) w /\
  prediction_columns p = ["primary_side_pred"; "primary_side_pred_proba_0"; "primary_side_pred_proba_1"]%string.
Proof.
  do 5 eexists. split; [run|]. split; [reflexivity|]. cbn. repeat (split || constructor); cbn; try discriminate; intros H; repeat (destruct H as [H|H]; [discriminate|]); exact H.
Qed.
(** With drop_na=False nothing is dropped and the times need not agree. *)
Example C54_no_dropping : exists X', create_dataset_primary (ex_p None None None false) ex_X ex_y false = Ok (X', ex_y) /\ index X' = [10; 20; 30; 40]%Z /\ row_at X' 10 = [q 5; NaN].
Proof. eexists. split; [run|]. split; run. Qed.

(** ** C55: closing positions *)

(** The closing model is never asked: whatever it says, nothing is returned. *)
Theorem C55_refuted : forall (A : Type) (p : pipeline A) X, determine_positions_to_close p X = Ok None.
Proof. exact @closing_never_asked. Qed.
Print Assumptions C55_refuted.
Example C55_case : exists m, closing_positions_model (ex_p (Some m) None None false) = Some m /\ m ex_X = Ok (Some "all"%string) /\ determine_positions_to_close (ex_p (Some m) None None false) ex_X = Ok None.
Proof. exists (fun _ => Ok (Some "all"%string)). repeat split. Qed.

(** ** C56: repeating create_position *)

Definition ex_trader (bars_tr : option (frame Q -> result (frame Q))) (meta : option (model Q)) (sl : option (ext Q)) : trader Q := {|
  strategy := ex_p None bars_tr meta true; num_expiration_bars := q 7; volatility_adjusted := true; stop_loss_factor := sl; profit_taking_factor := Some (q 3);
  daily_vol := fun times _ => Ok (map (fun t => (t, Fin (inject_Z t / 10)%Q)) (tl times)) |}.
Definition ex_heap : list (frame Q) := [ex_bars; ex_slow].
Definition ex_addr : dict nat := [("bars", 0); ("slow", 1)]%string.

(** The caller's bars are changed, and the second call fails. *)
Theorem C56_refuted : exists (tr : trader Q) h X h' pos valid, Forall proper h /\ create_position tr h X = Ok (h', pos, valid) /\ h' <> h /\ create_position tr h' X = Err ValueError.
Proof.
  exists (ex_trader None None (Some (q 2))), ex_heap, ex_addr. do 3 eexists. split; [repeat constructor|]. split; [run|]. split; [|run]. discriminate.
Qed.
Print Assumptions C56_refuted.
(** In general: every call that succeeds leaves the three columns in the caller's bars, and nothing else is changed. *)
Theorem C56_written : forall (A : Type) (HA : Arith A) (tr : trader A) h X h' pos valid, Forall proper h -> create_position tr h X = Ok (h', pos, valid) ->
  exists a f f', lookup X (align_on (strategy tr)) = Ok a /\ nth_error h a = Some f /\ nth_error h' a = Some f' /\ same_except_bars f f' /\
    (forall name, In name ["stop_loss"; "profit_taking"; "num_expiration_bars"]%string -> is_ok (column f' name) = true) /\
    List.length h' = List.length h /\ (forall b, b <> a -> nth_error h' b = nth_error h b).
Proof.
  intros A HA tr h X h' pos valid Hh H. destruct (position_ok tr h X h' pos valid Hh H) as (Xf & s & bars & _ & _ & Hb & _).
  destruct (bars_ok tr h X h' bars Hh Hb) as (a & f & f' & vol & sl & pt & H1 & H2 & _ & _ & _ & Hc & _ & H3 & H4 & _ & H5 & H6 & H7). rewrite Hc in H5. exists a, f, f'. repeat (split; [assumption|]). exact H7.
Qed.
Print Assumptions C56_written.
(** What is left of the claim: if no transformer looks at these columns, repeating the call gives the same result and changes nothing more. *)
Theorem C56_repeat_partial : forall (A : Type) (HA : Arith A) (tr : trader A) h X h' pos valid, Forall proper h -> bars_not_used (strategy tr) X ->
  create_position tr h X = Ok (h', pos, valid) -> create_position tr h' X = Ok (h', pos, valid).
Proof. exact @position_again. Qed.
Print Assumptions C56_repeat_partial.
Example C56_hypotheses : bars_not_used (strategy (ex_trader (Some ex_close) None (Some (q 2)))) ex_addr /\ is_ok (create_position (ex_trader (Some ex_close) None (Some (q 2))) ex_heap ex_addr) = true.
Proof.
  split; [|reflexivity]. split.
  - intros key tr Hin. cbn in Hin. destruct Hin as [[= _ <-]|[Hin|[]]]; [|discriminate]. intros f f' (_ & H). unfold ex_close. rewrite (H "close"%string); [reflexivity|]. cbn. intros [E|[E|[E|[]]]]; discriminate.
  - intros key a Hin. cbn in Hin. destruct Hin as [Hin|[[= <-]|[]]]; [discriminate|]. cbn. congruence.
Qed.

(** ** C70: signals do not look ahead *)

Theorem C70_no_lookahead : forall (A : Type) (HA : Arith A) T (p : pipeline A) X X' df df',
  causal_transformers (primary_transformers p) -> causal_transformers (meta_transformers p) ->
  (forall m, primary_model p = Some m -> rowwise m) -> (forall m, metalabeling_model p = Some m -> rowwise m) -> (forall s, bet_sizer p = Some s -> rowwise_sizer s) ->
  sorted_lead p X -> sorted_lead p X' ->
  (forall P M, features_of p X = Ok (P, M) -> good_frames P /\ good_frames M) -> (forall P M, features_of p X' = Ok (P, M) -> good_frames P /\ good_frames M) ->
  agree_dict T X X' -> get_side_and_size p X = Ok df -> get_side_and_size p X' = Ok df' ->
  forall t row, (t <= T)%Z -> (In (t, row) (rows df) <-> In (t, row) (rows df')).
Proof. exact @signal_no_lookahead. Qed.
Print Assumptions C70_no_lookahead.
Definition ex_p70 := ex_p None (Some ex_close) (Some ex_meta) true.
Definition ex_X70 : dict (frame Q) := [("bars", {| columns := ["close"%string]; rows := [(10, [q 5]); (20, [q 2]); (30, [q 9]); (40, [q 100]); (45, [q 0])]%Z |});
  ("slow", {| columns := ["f"%string]; rows := [(12, [q 3]); (15, [q 5]); (31, [q 0])]%Z |})]%string.
Example C70_case : get_side_and_size ex_p70 ex_X = Ok {| columns := ["side"; "size"]%string; rows := [(20, [q 1; Fin (4 # 5)]); (30, [q (-1); Fin (4 # 5)]); (40, [q 1; Fin (4 # 5)])]%Z |} /\
  get_side_and_size ex_p70 ex_X70 = Ok {| columns := ["side"; "size"]%string; rows := [(20, [q 1; Fin (4 # 5)]); (30, [q (-1); Fin (4 # 5)]); (40, [q (-1); Fin (4 # 5)]); (45, [q (-1); Fin (4 # 5)])]%Z |}.
Proof. split; run. Qed.
Lemma ex_close_causal : causal_transformer ex_close.
Proof.
  intros T f f' g g' (Hc & Hr) H H'. unfold ex_close, column in H, H'. rewrite <- Hc in H'. destruct (column_position "close" (columns f)) as [k|]; [|discriminate]. cbn [bind] in H, H'.
  destruct (mapM _ (rows f)) as [c|] eqn:E in H; [|discriminate]. destruct (mapM _ (rows f')) as [c'|] eqn:E' in H'; [|discriminate]. injection H as <-. injection H' as <-.
  split; [reflexivity|]. cbn [rows]. clear Hc.
  assert (Hu : forall (rs : list (Z * list (ext Q))) c, mapM (fun r => do x <- get (snd r) k ;; Ok (fst r, x)) rs = Ok c ->
     mapM (fun r => do x <- get (snd r) k ;; Ok (fst r, x)) (upto T rs) = Ok (upto T c)).
  { induction rs as [|[t r] rs IH]; intros c0 H; cbn [mapM fst snd] in H; [injection H as <-; reflexivity|]. destruct (get r k) as [x|] eqn:Ex; [|discriminate]. cbn [bind] in H.
    destruct (mapM _ rs) as [c1|]; [|discriminate]. cbn [bind] in H. injection H as <-. unfold upto in *. cbn [filter fst]. destruct (t <=? T)%Z; [|now apply IH]. cbn [mapM fst snd]. rewrite Ex. cbn [bind].
    rewrite (IH c1 eq_refl). reflexivity. }
  assert (Hm : forall c : list (Z * ext Q), upto T (map (fun e => (fst e, [snd e])) c) = map (fun e => (fst e, [snd e])) (upto T c)).
  { induction c0 as [|e c0 IH]; [reflexivity|]. unfold upto in *. cbn [map filter fst]. destruct (fst e <=? T)%Z; cbn [map]; now rewrite IH. }
  rewrite !Hm. f_equal. apply Hu in E, E'. rewrite Hr in E. congruence.
Qed.
Lemma of_width_rowwise {V} n (h : list (ext Q) -> V) : exists h', forall rs v, of_width n h rs = Ok v -> v = map h' rs.
Proof. exists h. intros rs v. unfold of_width. destruct (forallb _ rs); [|discriminate]. congruence. Qed.
Example C70_hypotheses : causal_transformers (primary_transformers ex_p70) /\ causal_transformers (meta_transformers ex_p70) /\
  (forall m, primary_model ex_p70 = Some m -> rowwise m) /\ (forall m, metalabeling_model ex_p70 = Some m -> rowwise m) /\ (forall s, bet_sizer ex_p70 = Some s -> rowwise_sizer s) /\
  sorted_lead ex_p70 ex_X /\ sorted_lead ex_p70 ex_X70 /\
  (forall P M, features_of ex_p70 ex_X = Ok (P, M) -> good_frames P /\ good_frames M) /\ (forall P M, features_of ex_p70 ex_X70 = Ok (P, M) -> good_frames P /\ good_frames M) /\
  agree_dict 30 ex_X ex_X70.
Proof.
  split; [intros key tr Hin; cbn in Hin; destruct Hin as [[= _ <-]|[Hin|[]]]; [apply ex_close_causal|discriminate]|].
  split; [intros key tr Hin; cbn in Hin; destruct Hin as [[= _ <-]|[]]; apply ex_close_causal|].
  split; [intros m [= <-]; split; apply of_width_rowwise|]. split; [intros m [= <-]; split; apply of_width_rowwise|].
  split; [intros s [= <-]; exists (fun x => fst (fst x)); intros l v [= <-]; reflexivity|].
  split; [intros P M lead [= <- <-] [= <-]; repeat (split || constructor); cbn; lia|]. split; [intros P M lead [= <- <-] [= <-]; repeat (split || constructor); cbn; lia|].
  assert (Hg : forall X P M, (match features_of ex_p70 X with Ok (P0, M0) => forallb (fun f => unique_index (index f) && negb (Nat.eqb (List.length (columns f)) 0)) (map snd P0 ++ map snd M0) | Err _ => true end) = true ->
     features_of ex_p70 X = Ok (P, M) -> good_frames P /\ good_frames M).
  { intros X P M Hb E. rewrite E in Hb. rewrite forallb_app, andb_true_iff, !forallb_forall in Hb. destruct Hb as (H1 & H2).
    unfold good_frames. rewrite !Forall_forall. split; intros f Hf; [specialize (H1 f Hf) as Hx|specialize (H2 f Hf) as Hx]; apply andb_true_iff in Hx; destruct Hx as (Hx & Hy); apply Pipe_Proofs3.unique_index_spec in Hx; (split; [exact Hx|]);
      intros E0; rewrite E0 in Hy; discriminate. }
  split; [intros P M; apply Hg; reflexivity|]. split; [intros P M; apply Hg; reflexivity|].
  repeat constructor.
Qed.

(** ** C71: side and size *)

Theorem C71_side_and_size : forall (A : Type) (HA : Arith A) (p : pipeline A) X P M df, features_of p X = Ok (P, M) -> good_frames P -> (metalabeling_model p <> None -> good_frames M) ->
  get_side_and_size p X = Ok df ->
  columns df = ["side"; "size"]%string /\ NoDup (index df) /\
  exists Xp Xs sizes, complete_rows (map snd P) Xp /\ decider_features p (P, M) Xp Xs /\ right_sizes p Xp Xs sizes /\
    (forall t, In t (index Xp) -> exists side, said predict (primary_model p) Xp t side) /\
    (forall t, In t (index Xs) -> exists probs, said predict_proba (decider p) Xs t probs) /\
    forall t row, In (t, row) (rows df) <-> exists side size, row = [side; size] /\ side <> NaN /\ size <> NaN /\ said predict (primary_model p) Xp t side /\ In (t, size) sizes.
Proof. exact @side_and_size_ok. Qed.
Print Assumptions C71_side_and_size.
(** The probability that is used without metalabeling model is the greatest, and the class that the sizer is given is the first that has it. *)
Theorem C71_greatest : forall l : list (ext Q), l <> [] -> ~ In NaN l -> exists k, argmax l = Ok k /\ first_greatest k (row_max l) l.
Proof. exact argmax_greatest. Qed.
Print Assumptions C71_greatest.
Example C71_case : get_side_and_size (ex_p None None None false) ex_X = Ok {| columns := ["side"; "size"]%string; rows := [(20, [q 1; Fin (3 # 4)]); (30, [q (-1); Fin (2 # 3)]); (40, [q 1; Fin (3 # 4)])]%Z |} /\
  first_greatest 1 (q 3) [q 1; q 3; q 3].
Proof.
  split; [run|]. split; [run|]. intros [|[|[|j]]] y Hy; cbn in Hy; try (injection Hy as <-); try (destruct j; discriminate); split; try reflexivity; lia.
Qed.

(** ** C72: positions *)

(** A position puts the signal of a time beside its strategy bars. *)
Theorem C72_position : forall (A : Type) (HA : Arith A) (tr : trader A) h X h' pos valid, Forall proper h -> create_position tr h X = Ok (h', pos, valid) ->
  exists Xf signal bars, deref h X = Ok Xf /\ create_signal tr Xf = Ok (signal, valid) /\ create_strategy_bars tr h X = Ok (h', bars) /\
    columns pos = ["side"; "size"; "stop_loss"; "profit_taking"; "num_expiration_bars"]%string /\ NoDup (index pos) /\
    (forall t, In t (index pos) <-> In t (index signal) \/ In t (index bars)) /\
    forall t row, In (t, row) (rows pos) -> exists s b, row = s ++ b /\ (In (t, s) (rows signal) \/ (~ In t (index signal) /\ s = [NaN; NaN])) /\ (In (t, b) (rows bars) \/ (~ In t (index bars) /\ b = [NaN; NaN; NaN])).
Proof. exact @position_ok. Qed.
Print Assumptions C72_position.
(** The strategy bars of a time: its volatility times the factors, and the number of bars. *)
Theorem C72_bars : forall (A : Type) (HA : Arith A) (tr : trader A) h X h' bars, Forall proper h -> create_strategy_bars tr h X = Ok (h', bars) ->
  exists a f vol sl pt, lookup X (align_on (strategy tr)) = Ok a /\ nth_error h a = Some f /\ stop_loss_factor tr = Some sl /\ profit_taking_factor tr = Some pt /\
    volatility tr f vol /\ columns bars = ["stop_loss"; "profit_taking"; "num_expiration_bars"]%string /\
    rows bars = map (fun t => (t, [emul (vol t) sl; emul (vol t) pt; num_expiration_bars tr])) (index f).
Proof.
  intros A HA tr h X h' bars Hh H. destruct (bars_ok tr h X h' bars Hh H) as (a & f & f' & vol & sl & pt & H1 & H2 & H3 & H4 & H5 & H6 & H7 & _). exists a, f, vol, sl, pt. repeat (split; [assumption|]). exact H7.
Qed.
Print Assumptions C72_bars.
(** A signal is flagged as valid exactly if all sides are in [-1, 1] and all sizes in [0, 1]. *)
Theorem C72_valid : forall (tr : trader Q) X signal valid, create_signal tr X = Ok (signal, valid) ->
  get_side_and_size (strategy tr) X = Ok signal /\ columns signal = ["side"; "size"]%string /\ (forall t row, In (t, row) (rows signal) -> exists side size, row = [side; size]) /\
  (valid = true <-> forall t side size, In (t, [side; size]) (rows signal) -> exists a b, side = Fin a /\ size = Fin b /\ (-1 <= a <= 1)%Q /\ (0 <= b <= 1)%Q).
Proof.
  intros tr X signal valid H. destruct (signal_flag tr X signal valid H) as (H1 & H2 & H3 & H4). split; [exact H1|]. split; [exact H2|]. split; [exact H3|]. rewrite H4. split; intros Hv t side size Hin.
  - destruct (Hv t side size Hin) as (E1 & E2 & E3 & E4). destruct side as [a| | |]; try discriminate. destruct size as [b| | |]; try discriminate. exists a, b. apply eleb_Q_Fin in E1, E2, E3, E4. cbn [aopp a1 a0 Arith_Q] in *. auto.
  - destruct (Hv t side size Hin) as (a & b & -> & -> & Ha & Hb). rewrite !eleb_Q_Fin. cbn [aopp a1 a0 Arith_Q]. tauto.
Qed.
Print Assumptions C72_valid.
(** Repeated times in any input are refused. *)
Theorem C72_duplicates : forall (A : Type) (HA : Arith A) (tr : trader A) X kf, In kf X -> ~ NoDup (index (snd kf)) -> create_signal tr X = Err ValueError.
Proof. exact @signal_rejects_duplicates. Qed.
Print Assumptions C72_duplicates.
Example C72_case : exists h' bars, create_strategy_bars (ex_trader None None (Some (q 2))) ex_heap ex_addr = Ok (h', bars) /\
  rows bars = [(10, [NaN; NaN; q 7]); (20, [Fin (40 # 10); Fin (60 # 10); q 7]); (30, [Fin (60 # 10); Fin (90 # 10); q 7]); (40, [Fin (80 # 10); Fin (120 # 10); q 7])]%Z.
Proof. do 2 eexists. split; run. Qed.
Example C72_position_case : exists h' pos, create_position (ex_trader None None (Some (q 2))) ex_heap ex_addr = Ok (h', pos, true) /\
  row_at pos 10 = [NaN; NaN; NaN; NaN; q 7] /\ row_at pos 20 = [q 1; Fin (3 # 4); Fin (40 # 10); Fin (60 # 10); q 7].
Proof. do 2 eexists. split; [run|]. split; run. Qed.

(** ** C73: the optional factors *)

(** The factors are optional arguments with default None, but without both no position can be made: TypeError. *)
Theorem C73_refuted : forall (A : Type) (HA : Arith A) (tr : trader A) h X, stop_loss_factor tr = None \/ profit_taking_factor tr = None ->
  is_ok (create_strategy_bars tr h X) = false /\ is_ok (create_position tr h X) = false.
Proof. exact @bars_need_factors. Qed.
Print Assumptions C73_refuted.
Theorem C73_type_error : forall (A : Type) (HA : Arith A) (tr : trader A) h X Xf a f, stop_loss_factor tr = None \/ profit_taking_factor tr = None -> deref h X = Ok Xf ->
  Forall (fun kf => NoDup (index (snd kf))) Xf -> lookup X (align_on (strategy tr)) = Ok a -> nth_error h a = Some f -> (exists vol, volatility tr f vol) ->
  create_strategy_bars tr h X = Err TypeError.
Proof. exact @bars_type_error. Qed.
Print Assumptions C73_type_error.
Example C73_case : create_strategy_bars (ex_trader None None None) ex_heap ex_addr = Err TypeError /\ is_ok (create_strategy_bars (ex_trader None None (Some (q 2))) ex_heap ex_addr) = true.
Proof. split; run. Qed.
