(** A higher threshold of the CUSUM filter. *)
From Coq Require Import QArith Lqa.
From Verif Require Import Series Cusum_Spec Cusum_Model Cusum_Proofs Stricter_Spec.
Local Open Scope nat_scope.

Definition one (b : bool) : nat := if b then 1 else 0.
(** What one side of the filter does with the difference [d]: fires or not, and its accumulator. *)
Definition side_step (h : Q) (d : ext Q) (p : Q) (fires : bool) (p1 : Q) : Prop :=
  (0 <= p1)%Q /\
  match d with
  | Fin x => if fires then (h < p + x)%Q /\ (p1 == 0)%Q else (p + x <= h)%Q /\ (p + x <= p1)%Q /\ ((p1 == 0)%Q \/ (p1 == p + x)%Q)
  | PInf => fires = true /\ (p1 == 0)%Q
  | _ => fires = false /\ (p1 == 0)%Q
  end.

Ltac fired u v :=
  solve [eexists _, _, u, v; split; [reflexivity|]; split; [reflexivity|]; split; [cbn; lia|];
         unfold side_step; cbn; repeat split; try lra; try (left; lra); try (right; lra)].
Lemma step_sides : forall h st t d p n, (0 <= h)%Q -> pos st = Fin p -> neg st = Fin n -> (0 <= p <= h)%Q -> (- h <= n <= 0)%Q ->
  exists p1 n1 up down, pos (cusum_step h st t d) = Fin p1 /\ neg (cusum_step h st t d) = Fin n1 /\
    length (picked (cusum_step h st t d)) = length (picked st) + one up + one down /\
    side_step h d p up p1 /\ side_step h (eopp d) (- n) down (- n1) /\ (p1 <= h)%Q /\ (- h <= n1)%Q.
Proof.
  intros h st t d p n Hh Hp Hn Bp Bn. unfold cusum_step. rewrite Hp, Hn. cbv zeta. destruct d as [d| | |].
  - unfold py_max, py_min. cbn [eadd eltb eopp]. destruct (altb a0 (aadd p d)) eqn:E1; destruct (altb (aadd n d) a0) eqn:E2; cbn [eltb];
    match goal with |- context[altb ?x (aopp h)] => destruct (altb x (aopp h)) eqn:E3 end;
    try match goal with |- context[altb h ?x] => destruct (altb h x) eqn:E4 end;
    repeat match goal with H : altb _ _ = true |- _ => apply altb_Q_true in H; cbn in H | H : altb _ _ = false |- _ => apply altb_Q_false in H; cbn in H end;
    try (exfalso; lra); cbn [pos neg picked]; rewrite ?app_length; cbn [length];
    first [fired true false|fired false true|fired false false].
  - unfold py_max, py_min, eltb, eopp, eadd. destruct (altb a0 (aopp h)) eqn:E1; [apply altb_Q_true in E1; cbn in E1; exfalso; lra|]. cbn [pos neg picked].
    exists 0%Q, 0%Q, true, false. rewrite app_length. unfold side_step. cbn. repeat split; try lra. lia.
  - unfold py_max, py_min, eltb, eopp, eadd. cbn [pos neg picked].
    exists 0%Q, 0%Q, false, true. rewrite app_length. unfold side_step. cbn. repeat split; try lra. lia.
  - unfold py_max, py_min, eltb, eopp, eadd. destruct (altb h a0) eqn:E1; [apply altb_Q_true in E1; cbn in E1; exfalso; lra|].
    destruct (altb a0 (aopp h)) eqn:E2; [apply altb_Q_true in E2; cbn in E2; exfalso; lra|]. cbn [pos neg picked].
    exists 0%Q, 0%Q, false, false. unfold side_step. cbn. repeat split; try lra. lia.
Qed.

(** The stricter side has fired less often, or as often and has accumulated no more. *)
Definition behind (k k' : nat) (p p' : Q) : Prop := k' < k \/ (k' = k /\ (p' <= p)%Q).
Lemma behind_step : forall h h' d p p' f f' p1 p1' k k', (h <= h')%Q -> side_step h d p f p1 -> side_step h' d p' f' p1' ->
  behind k k' p p' -> behind (k + one f) (k' + one f') p1 p1'.
Proof.
  intros h h' d p p' f f' p1 p1' k k' Hh [P S] [P' S'] B. unfold behind in *.
  destruct d as [d| | |]; [|destruct S as [-> S], S' as [-> S']; cbn; destruct B as [B|[B _]]; [left; lia|right; split; [lia|lra]] ..].
  destruct f, f'; cbn [one].
  - destruct B as [B|[B _]]; [left; lia|right; split; [lia|lra]].
  - destruct B as [B|[B _]]; left; lia.
  - destruct B as [B|[B L]]; [|exfalso; lra]. destruct (Nat.eq_dec (k' + 1) (k + 0)) as [E|E]; [right; split; [lia|lra]|left; lia].
  - destruct B as [B|[B L]]; [left; lia|right; split; [lia|]]. destruct S' as (S1 & S2 & [S3|S3]), S as (T1 & T2 & [T3|T3]); lra.
Qed.

Lemma run_behind : forall h h' l, (0 <= h)%Q -> (h <= h')%Q -> forall st st' p n p' n' a b a' b',
  pos st = Fin p -> neg st = Fin n -> (0 <= p <= h)%Q -> (- h <= n <= 0)%Q ->
  pos st' = Fin p' -> neg st' = Fin n' -> (0 <= p' <= h')%Q -> (- h' <= n' <= 0)%Q ->
  length (picked st) = a + b -> length (picked st') = a' + b' -> behind a a' p p' -> behind b b' (- n) (- n') ->
  length (picked (run h' l st')) <= length (picked (run h l st)).
Proof.
  intros h h' l Hh Hh'. induction l as [|[t d] l IH]; intros st st' p n p' n' a b a' b' P N Bp Bn P' N' Bp' Bn' L L' U D.
  - cbn. rewrite L, L'. destruct U as [U|[U _]], D as [D|[D _]]; lia.
  - change (run h ((t, d) :: l) st) with (run h l (cusum_step h st t d)). change (run h' ((t, d) :: l) st') with (run h' l (cusum_step h' st' t d)).
    destruct (step_sides h st t d p n Hh P N Bp Bn) as (p1 & n1 & u & v & P1 & N1 & L1 & S1 & T1 & B1 & B2).
    destruct (step_sides h' st' t d p' n' ltac:(lra) P' N' Bp' Bn') as (p1' & n1' & u' & v' & P1' & N1' & L1' & S1' & T1' & B1' & B2').
    pose proof (proj1 S1). pose proof (proj1 T1). pose proof (proj1 S1'). pose proof (proj1 T1').
    apply (IH _ _ p1 n1 p1' n1' (a + one u) (b + one v) (a' + one u') (b' + one v')); auto; try (split; lra); try lia; [apply (behind_step h h' d p p' u u'); auto|apply (behind_step h h' (eopp d) (- n) (- n') v v'); auto].
Qed.

Lemma fewer_events : forall h h' X out out', (0 <= h)%Q -> (h <= h')%Q -> cusum_transform h X = Ok out -> cusum_transform h' X = Ok out' ->
  length out' <= length out.
Proof.
  intros h h' X out out' Hh Hh' O O'. apply transform_ok in O as [_ ->]. apply transform_ok in O' as [_ ->].
  apply (run_behind h h' _ Hh Hh' init init 0%Q 0%Q 0%Q 0%Q 0 0 0 0); cbn; try reflexivity; try (split; lra); right; split; [reflexivity|lra|reflexivity|lra].
Qed.

Lemma inc_le_last : forall l x m, increasingZ (l ++ x :: m) -> forall t, In t (l ++ [x]) -> (t <= x)%Z.
Proof.
  induction l as [|a l IH]; intros x m I t Ht; [cbn in Ht; destruct Ht as [->|[]]; lia|]. cbn [app] in *. inversion I as [|? ? I1 I2]; subst.
  destruct Ht as [->|Ht]; [|exact (IH x m I1 t Ht)]. rewrite Forall_forall in I2. assert (t < x)%Z; [|lia]. apply I2. apply in_or_app. right. now left.
Qed.

Lemma c101_cusum : forall h h' X out out', (0 <= h)%Q -> (h <= h')%Q -> increasingZ (map fst X) ->
  cusum_transform h X = Ok out -> cusum_transform h' X = Ok out' -> no_earlier out out'.
Proof.
  intros h h' X out out' Hh Hh' I O O'. split; [exact (fewer_events h h' X out out' Hh Hh' O O')|]. intros k t' K.
  assert (J : In t' (map fst X)).
  { apply nth_error_In in K. destruct (c23_first _ _ _ O') as [S _]. apply (subseq_in _ _ _ S) in K. destruct X; [destruct K|now right]. }
  apply in_map_iff in J as (r & R1 & R2). apply in_split in R2 as (A & B & E).
  assert (E' : X = (A ++ [r]) ++ B) by (rewrite <- app_assoc; exact E). rewrite E' in O, O'.
  destruct (c24 _ _ _ _ O) as (a & b & Oa & -> & Sa & Sb). destruct (c24 _ _ _ _ O') as (a' & b' & Oa' & -> & Sa' & Sb').
  assert (ND : NoDup (map fst X)) by (rewrite E'; exact (proj2 (c23_first _ _ _ O'))).
  assert (K1 : k < length a').
  { destruct (Nat.ltb_spec k (length a')) as [G|G]; [exact G|exfalso]. rewrite nth_error_app2 in K by exact G. apply nth_error_In in K. apply (subseq_in _ _ _ Sb') in K.
    rewrite E', map_app, map_app in ND. cbn in ND. rewrite <- app_assoc in ND. cbn in ND. apply NoDup_remove_2 in ND. apply ND. rewrite R1. apply in_or_app. now right. }
  pose proof (fewer_events h h' _ a a' Hh Hh' Oa Oa') as F.
  destruct (nth_error a k) as [t|] eqn:G; [|apply nth_error_None in G; lia].
  exists t. split; [rewrite nth_error_app1 by lia; exact G|]. apply nth_error_In in G. apply (subseq_in _ _ _ Sa) in G.
  rewrite E, map_app in I. cbn [map] in I. rewrite R1 in I.
  apply (inc_le_last _ _ _ I). rewrite map_app in G. cbn [map] in G. rewrite R1 in G. destruct A; [destruct G|now right].
Qed.
