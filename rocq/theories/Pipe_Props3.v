(** The feature transformers of a strategy (C88), data sets in which nothing is dropped (C54), and when a position can be made (C72). *)
From Coq Require Import String QArith.
From Verif Require Import Prelude Num Pipe_Model Pipe_Spec Pipe_Spec2 Pipe_Proofs9 Pipe_Proofs11 Pipe_Proofs13 Pipe_Props.
Open Scope nat_scope.

(** ** C88: the features *)

(** Each transformer is applied to the frame of its own name and nothing else; without a transformer the frame is taken as it is. *)
Theorem C88_transformed : forall (A : Type) (p : pipeline A) X P M, transform p X = Ok (P, M) ->
  expected_names p X /\ Forall2 (made_by X) (primary_transformers p) P /\ Forall2 (made_by X) (meta_transformers p) M.
Proof. exact @transform_ok. Qed.
Print Assumptions C88_transformed.
(** It fails exactly if the names do not fit or a transformer does not accept its frame. *)
Theorem C88_accepted : forall (A : Type) (p : pipeline A) X,
  is_ok (transform p X) = true <->
  expected_names p X /\ forall name t, In (name, Some t) (primary_transformers p ++ meta_transformers p) -> exists f, lookup X name = Ok f /\ is_ok (t f) = true.
Proof. exact @transform_accepts. Qed.
Print Assumptions C88_accepted.
(** A frame too many or too few is refused, also when signals or data sets are wanted. *)
Theorem C88_wrong_names : forall (A : Type) (HA : Arith A) (p : pipeline A) X, ~ expected_names p X -> transform p X = Err AssertionError /\ features_of p X = Err AssertionError.
Proof. exact @features_wrong_names. Qed.
Print Assumptions C88_wrong_names.
(** The features that the models see have the names of the transformers of that model. *)
Theorem C88_names : forall (A : Type) (HA : Arith A) (p : pipeline A) X P M, features_of p X = Ok (P, M) ->
  map fst P = map fst (primary_transformers p) /\ map fst M = map fst (meta_transformers p).
Proof. exact @features_keys. Qed.
Print Assumptions C88_names.
(** Without alignment they are what the transformers make; with alignment, they are that after aligning with the features
    of the primary model under the chosen name. *)
Theorem C88_not_aligned : forall (A : Type) (HA : Arith A) (p : pipeline A) X, align_on p = ""%string -> features_of p X = transform p X.
Proof. exact @features_not_aligned. Qed.
Print Assumptions C88_not_aligned.
Theorem C88_aligned : forall (p : pipeline Q) X P M, align_on p <> ""%string -> features_of p X = Ok (P, M) ->
  exists P0 M0 lead, transform p X = Ok (P0, M0) /\ lookup P0 (align_on p) = Ok lead /\ In (align_on p, lead) P0 /\
    (increasingZ (index lead) -> after_1700 (index lead) -> fine P0 -> fine M0 -> Forall2 (aligned_entry p lead) P0 P /\ Forall2 (aligned_entry p lead) M0 M).
Proof. exact features_aligned. Qed.
Print Assumptions C88_aligned.
(** The name to align on must be one of the primary model's. *)
Theorem C88_no_lead : forall (A : Type) (HA : Arith A) (p : pipeline A) X, align_on p <> ""%string -> ~ In (align_on p) (map fst (primary_transformers p)) ->
  is_ok (transform p X) = true -> features_of p X = Err KeyError.
Proof. exact @features_no_lead. Qed.
Print Assumptions C88_no_lead.

Definition ex_wide : dict (frame Q) := [("bars", {| columns := ["open"; "close"]%string; rows := [(10, [q 4; q 5]); (20, [q 6; q 2])]%Z |}); ("slow", ex_slow)]%string.
Definition ex_p88 (on : string) : pipeline Q := {|
  primary_transformers := [("bars", None); ("slow", None)]%string; meta_transformers := [("bars"%string, Some ex_close)];
  align_on := on; align_how := [("slow", "mean")]%string; primary_model := None; metalabeling_model := None;
  use_proba := true; use_predictions := true; bet_sizer := None; closing_positions_model := None |}.
Example C88_case :
  transform (ex_p88 "") ex_wide = Ok (ex_wide, [("bars"%string, {| columns := ["close"%string]; rows := [(10, [q 5]); (20, [q 2])]%Z |})]) /\
  transform (ex_p88 "") [("bars"%string, ex_bars)] = Err AssertionError /\
  (exists P M, features_of (ex_p88 "bars") ex_wide = Ok (P, M) /\ lookup P "slow" = Ok {| columns := ["f"%string]; rows := [(10, [NaN]); (20, [Fin (8 # 2)])]%Z |}).
Proof. split; [run|]. split; [run|]. do 2 eexists. split; run. Qed.
Example C88_hypotheses : expected_names (ex_p88 "bars") ex_wide /\ ~ expected_names (ex_p88 "bars") [("bars"%string, ex_bars)] /\
  ~ In "other"%string (map fst (primary_transformers (ex_p88 "other"))) /\ is_ok (transform (ex_p88 "other") ex_wide) = true /\ fine ex_wide.
Proof.
  split; [intros k; cbn; tauto|]. split; [intros H; destruct (proj2 (H "slow"%string)) as [E|[]]; [cbn; tauto|discriminate E]|]. split; [cbn; intros [E|[E|[]]]; discriminate E|]. split; [run|].
  unfold fine, after_1700, proper. repeat (split || constructor); cbn; try reflexivity; lia.
Qed.

(** ** C54: a data set in which nothing is dropped *)

(** With drop_na=False all labels are returned as they are, with one row for every time at which some features are there. *)
Theorem C54_keeps_all : forall (A : Type) (HA : Arith A) (p : pipeline A) X y P M X' y', features_of p X = Ok (P, M) -> Forall (fun f => NoDup (index f)) (map snd P) ->
  create_dataset_primary p X y false = Ok (X', y') ->
  y' = y /\ columns X' = concat (map columns (map snd P)) /\ NoDup (index X') /\
  (forall t, In t (index X') <-> exists f, In f (map snd P) /\ In t (index f)) /\
  (forall t row, In (t, row) (rows X') -> exists parts, row = concat parts /\ Forall2 (cells_or_missing t) (map snd P) parts).
Proof. exact @dataset_keeps_all. Qed.
Print Assumptions C54_keeps_all.
Theorem C54_keeps_all_accepted : forall (A : Type) (HA : Arith A) (p : pipeline A) X y P M, features_of p X = Ok (P, M) -> Forall (fun f => NoDup (index f)) (map snd P) -> P <> [] ->
  labels_ok y = true -> is_ok (create_dataset_primary p X y false) = true.
Proof. exact @dataset_keeps_all_accepts. Qed.
Print Assumptions C54_keeps_all_accepted.
Example C54_keeps_all_case : exists P M, features_of (ex_p88 "") ex_wide = Ok (P, M) /\ Forall (fun f => NoDup (index f)) (map snd P) /\ labels_ok ex_y = true /\
  create_dataset_primary (ex_p88 "") ex_wide ex_y false =
  Ok ({| columns := ["open"; "close"; "f"]%string;
         rows := [(10, [q 4; q 5; NaN]); (12, [NaN; NaN; q 3]); (15, [NaN; NaN; q 5]); (20, [q 6; q 2; NaN]); (35, [NaN; NaN; q 6]); (50, [NaN; NaN; q 8])]%Z |}, ex_y).
Proof.
  do 2 eexists. split; [run|]. split; [|split; run]. unfold index. cbn. repeat constructor; cbn; lia.
Qed.

(** ** C72: positions *)

(** If there are a signal and strategy bars then there is a position, unless the signal has repeated times. *)
Theorem C72_succeeds : forall (A : Type) (HA : Arith A) (tr : trader A) h X Xf signal valid h' bars, Forall proper h -> deref h X = Ok Xf ->
  create_signal tr Xf = Ok (signal, valid) -> create_strategy_bars tr h X = Ok (h', bars) ->
  (NoDup (index signal) -> exists pos, create_position tr h X = Ok (h', pos, valid)) /\
  (~ NoDup (index signal) -> create_position tr h X = Err ValueError).
Proof. exact @position_result. Qed.
Print Assumptions C72_succeeds.
