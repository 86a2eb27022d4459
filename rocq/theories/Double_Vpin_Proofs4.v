(** The frame-level statements on VPIN in double precision, and a run on decimal volumes. *)
From Coq Require Import Reals ZArith QArith Qreals Lra Lia List String.
From Verif Require Import Prelude PreludeFacts Num Series Feat_Model Feat_Spec Feat_Proofs Feat_Proofs5 Feat_Proofs6 Double_Model Double_Spec Double_Proofs Double_Proofs2
  Rounding_Model Rounding_Proofs Rounding_Arith_Model Rounding_Arith_Proofs Roll_Model Double_Vpin_Model Double_Vpin_Spec Double_Vpin_Proofs Double_Vpin_Proofs2 Double_Vpin_Proofs3.
Import ListNotations.
Local Open Scope R_scope.
Local Notation length := List.length.

Lemma running_values (A : Arith R) w vn bn sn X v b s : lookup vn X = Some v -> lookup bn X = Some b -> lookup sn X = Some s ->
  vpin_running A w vn bn sn X = @vpin_values R A w v b s.
Proof. intros Hv Hb Hs. unfold vpin_running. present. unfold column. rewrite Hv, Hb, Hs. reflexivity. Qed.

Lemma kahan_length {A} `{Arith A} w l : length (kahan_sum w l) = length l.
Proof.
  unfold kahan_sum, roll. rewrite <- (seq_length (length l) 0) at 2. generalize (seq 0 (length l)) as rows.
  match goal with |- forall rows, length (roll_loop _ _ _ _ _ ?s _) = _ => generalize s end.
  intros s rows. revert s. induction rows as [|i rows IH]; intros s; [reflexivity|]. cbn [roll_loop length]. f_equal. apply IH.
Qed.
Lemma zipw_len {A B C} (f : A -> B -> C) x y : length (zipw f x y) = Nat.min (length x) (length y).
Proof. unfold zipw. now rewrite map_length, combine_length. Qed.
Lemma c115_never_fails (A : Arith R) w vn bn sn X v b s :
  lookup vn X = Some v -> lookup bn X = Some b -> lookup sn X = Some s -> length b = length v -> length s = length v ->
  exists out, vpin_running A w vn bn sn X = Ok out /\ length out = length v /\
    forall i, (w <= i < length v)%nat -> exists y, nth_error out i = Some y /\ y <> NaN.
Proof.
  intros Hv Hb Hs Lb Ls. rewrite (running_values A w vn bn sn X v b s Hv Hb Hs). unfold vpin_values. cbv zeta. rewrite no_nan_A. cbn [raise_if bind].
  eexists. split; [reflexivity|]. set (l := zipw ediv _ _). assert (L : length l = length v).
  { unfold l. rewrite zipw_len, !kahan_length, map_length, zipw_len. lia. }
  split; [rewrite app_length, map_length, firstn_length, skipn_length; lia|].
  intros i Hi. rewrite nth_error_app2 by (rewrite firstn_length; lia). rewrite firstn_length, Nat.min_l by lia.
  rewrite nth_error_map, nth_error_skipn''. replace (w + (i - w))%nat with i by lia.
  destruct (nth_error l i) as [x|] eqn:E; [|apply nth_error_None in E; lia]. cbn [option_map]. eexists. split; [reflexivity|]. destruct x; discriminate.
Qed.

Lemma c115_ticks e w vn bn sn X (bars : list (option (Z * Z))) : (-1074 <= e)%Z -> (0 < w)%nat ->
  lookup vn X = Some (map (in_double e) (traded bars)) ->
  lookup bn X = Some (map (in_double e) (bought bars)) -> lookup sn X = Some (map (in_double e) (sold bars)) ->
  (forall b s, In (Some (b, s)) bars -> (0 <= b /\ 0 <= s)%Z) ->
  (forall i, (i < length bars)%nat -> (window_size w (traded bars) i < 2 ^ 53)%Z) ->
  exists out out', vpin w vn bn sn X = Ok out /\ vpin_running Arith_double w vn bn sn X = Ok out' /\ Forall2 rounds_to out out'.
Proof.
  intros He Hw Hv Hb Hs Hpos Hsize. destruct (c115_values e w bars He Hw Hpos Hsize) as (out & out' & E1 & E2 & F). exists out, out'.
  rewrite <- c115_exact by exact Hw. rewrite !(running_values _ w vn bn sn X _ _ _ Hv Hb Hs). auto.
Qed.

Lemma c115_vpin e w vn bn sn X (bars : list (Z * Z)) : (-1074 <= e)%Z -> (0 < w)%nat ->
  let units f := map (fun p => IZR (f p) * powerRZ 2 e) bars in
  let v := units (fun p => fst p + snd p)%Z in let b := units fst in let s := units snd in
  has_column X vn v -> has_column X bn b -> has_column X sn s ->
  (forall p, In p bars -> (0 <= fst p /\ 0 <= snd p)%Z) ->
  (forall i, (i < length bars)%nat -> (window_size w (traded (map Some bars)) i < 2 ^ 53)%Z) ->
  exists out, vpin_running Arith_double w vn bn sn X = Ok out /\ length out = length bars /\ forall i, (i < length bars)%nat ->
    let total := rsum (trailing w (row v) i) in let imbalance := rsum (trailing w (fun j => Rabs (row b j - row s j)) i) in
    exists y, nth_error out i = Some y /\
      ((i + 1 < w)%nat -> y = NaN) /\
      ((w <= i + 1)%nat -> total = 0 -> y = if Nat.eqb i (w - 1) then NaN else Fin 0) /\
      ((w <= i + 1)%nat -> total <> 0 -> exists q, y = Fin q /\ nearest (imbalance / total) q /\ 0 <= q <= 1).
Proof.
  intros He Hw units v b s Hv Hb Hs Hpos Hsize. assert (P : 0 < powerRZ 2 e) by (apply powerRZ_lt; lra).
  destruct (c115_ticks e w vn bn sn X (map Some bars) He Hw) as (out & out' & E1 & E2 & F).
  - unfold has_column in Hv. rewrite Hv. f_equal. unfold traded, v, units. rewrite !map_map. reflexivity.
  - unfold has_column in Hb. rewrite Hb. f_equal. unfold bought, b, units. rewrite !map_map. reflexivity.
  - unfold has_column in Hs. rewrite Hs. f_equal. unfold sold, s, units. rewrite !map_map. reflexivity.
  - intros x y Hin. apply in_map_iff in Hin as (p & [= ->] & Hin). apply (Hpos _ Hin).
  - intros i Hi. rewrite map_length in Hi. now apply Hsize.
  - exists out'. split; [exact E2|].
    assert (Lv : length v = length bars) by apply map_length. assert (Lb : length b = length bars) by apply map_length. assert (Ls : length s = length bars) by apply map_length.
    destruct (c41 w X vn bn sn v b s) as (out0 & E0 & L0 & H0); auto; try lia.
    + apply Forall_forall. intros x Hx. apply in_map_iff in Hx as (p & <- & Hp). destruct (Hpos _ Hp) as [A _]. apply IZR_le in A. nra.
    + apply Forall_forall. intros x Hx. apply in_map_iff in Hx as (p & <- & Hp). destruct (Hpos _ Hp) as [_ A]. apply IZR_le in A. nra.
    + intros i Hi. unfold row. rewrite Lv in Hi. destruct (nth_error bars i) as [p|] eqn:Ep; [|apply nth_error_None in Ep; lia].
      assert (N : forall f, nth i (units f) 0 = IZR (f p) * powerRZ 2 e) by (intros f; apply nth_error_nth; unfold units; rewrite nth_error_map, Ep; reflexivity).
      unfold v, b, s. rewrite !N, plus_IZR. ring.
    + rewrite E1 in E0. injection E0 as <-. assert (LF : length out = length out') by (clear - F; induction F; cbn; congruence).
      split; [lia|]. intros i Hi. destruct (H0 i ltac:(lia)) as (y0 & Ny & A & B & C). cbv zeta in *.
      assert (R : exists y, nth_error out' i = Some y /\ rounds_to y0 y).
      { clear - F Ny. revert i Ny. induction F as [|x y l l' Hxy F IH]; intros [|i] Ny; cbn in *; try discriminate; [injection Ny as ->; eauto|eauto]. }
      destruct R as (y & Ny' & R). exists y. split; [exact Ny'|]. split; [|split].
      * intros Hi'. specialize (A Hi'). subst y0. exact R.
      * intros Hi' Et. specialize (B Hi' Et). subst y0. destruct (Nat.eqb i (w - 1)); [exact R|]. destruct R as (q & -> & _ & N). f_equal.
        specialize (N 0 is_double_0). rewrite !Rminus_0_r, Rabs_R0 in N. destruct (Req_dec q 0); auto. pose proof (Rabs_pos_lt q). lra.
      * intros Hi' Et. destruct (C Hi' Et) as (q0 & -> & -> & Q). destruct R as (q & -> & N). exists q. split; [reflexivity|]. split; [exact N|].
        destruct N as [Dq N]. pose proof (N 0 is_double_0) as N0. pose proof (N 1 is_double_1) as N1. revert N0 N1.
        set (x := _ / _) in *. unfold Rabs. repeat destruct (Rcase_abs _); lra.
Qed.

(** ** Decimal volumes *)

Definition rounded_vpin (w : nat) (bars : list (Q * Q)) : result (list (ext Q)) :=
  @vpin_values Q Arith_rounded w (map (fun p => Fin (rounded (rounded (fst p) + rounded (snd p))%Q)) bars)
    (map (fun p => Fin (rounded (fst p))) bars) (map (fun p => Fin (rounded (snd p))) bars).
Lemma decimal_run w bars : decimal_vpin w bars = match rounded_vpin w bars with Ok out => Ok (map real out) | Err e => Err e end.
Proof.
  unfold rounded_vpin. rewrite <- c115_executable. unfold decimal_vpin. rewrite !map_map. cbn [real].
  f_equal; apply map_ext; intros p; now rewrite !rounded_double, ?Q2R_plus, ?rounded_double.
Qed.
