(** Thresholds of the rules. *)
From Coq Require Import Reals Lra Lia ZArith String.
From Verif Require Import PreludeFacts Series Feat_Model Feat_Spec Feat_Proofs Feat_Proofs2 Feat_Proofs7 Stricter_Spec.
Local Open Scope nat_scope.

Lemma elt_fin : forall (x : ext R) (a b : R), (a <= b)%R -> eltb x (Fin a) = true -> eltb x (Fin b) = true.
Proof. intros x a b H. destruct x as [x| | |]; cbn; auto. destruct (Rlt_dec x a), (Rlt_dec x b); auto; lra. Qed.
Lemma fin_elt : forall (x : ext R) (a b : R), (a <= b)%R -> eltb (Fin b) x = true -> eltb (Fin a) x = true.
Proof. intros x a b H. destruct x as [x| | |]; cbn; auto. destruct (Rlt_dec b x), (Rlt_dec a x); auto; lra. Qed.
Lemma lt_both : forall (x : ext R) (a b : R), (a <= b)%R -> eltb x (Fin a) = true -> eltb (Fin b) x = true -> False.
Proof. intros x a b H. destruct x as [x| | |]; cbn; try discriminate. destruct (Rlt_dec x a), (Rlt_dec b x); try discriminate; lra. Qed.

Definition reversion (th : R) (x : ext R) : ext R :=
  if eltb x (Fin (- th)%R) then Fin 1%R else if eltb (Fin th) x then Fin (-1)%R else Fin 0%R.
Lemma reversion_fewer : forall th th' d, (0 <= th <= th')%R -> reversion th' d = Fin 0%R \/ reversion th d = reversion th' d.
Proof.
  intros th th' d H. unfold reversion. destruct (eltb d (Fin (- th')%R)) eqn:A.
  - right. rewrite (elt_fin d (- th') (- th)) by (auto; lra). reflexivity.
  - destruct (eltb (Fin th') d) eqn:B; [|now left]. right. destruct (eltb d (Fin (- th)%R)) eqn:A'; [exfalso; apply (lt_both d (- th) th'); auto; lra|].
    rewrite (fin_elt d th th') by (auto; lra). reflexivity.
Qed.
Lemma c101_mean_reversion : forall ema th th' X out out', (0 <= th <= th')%R -> mean_reversion_predict ema th X = Ok out ->
  mean_reversion_predict ema th' X = Ok out' -> fewer_signals out out'.
Proof.
  intros ema th th' X out out' H O O'. unfold mean_reversion_predict in O, O'. destruct (ta_transform ema "close" X) as [e|]; [|discriminate]. cbn [bind] in O, O'.
  destruct (column "close" X) as [c|]; [|discriminate]. cbn [bind] in O, O'. cbv zeta in O, O'. injection O as O. injection O' as O'.
  change (map (reversion th) (zipw ediv (zipw esub c e) e) = out) in O. change (map (reversion th') (zipw ediv (zipw esub c e) e) = out') in O'. subst out out'.
  split; [now rewrite !map_length|]. intros i x N. rewrite nth_error_map in N |- *. destruct (nth_error _ i) as [d|]; [|discriminate].
  injection N as <-. destruct (reversion_fewer th th' d H) as [K|K]; [now left|right]. cbn [option_map]. now rewrite K.
Qed.

(** A signal that is 1 where [P] and one that is 1 where [Q], when every [Q] is a [P]. *)
Lemma signals_fewer : forall n (P Q : nat -> Prop) a b, (forall i, Q i -> P i) -> signals n P a -> signals n Q b -> fewer_signals a b.
Proof.
  intros n P Q a b H [La A] [Lb B]. split; [congruence|]. intros i x N. assert (L : i < n) by (rewrite <- Lb; apply nth_error_Some; congruence).
  destruct (B i L) as [[Qi N']|[_ N']]; rewrite N in N'; injection N' as ->; [|now left]. right. destruct (A i L) as [[_ N']|[Pi _]]; [exact N'|]. elim Pi. auto.
Qed.
Lemma c101_rsi_confirmation : forall rsi th th' period period' w X c out out', (th' <= th)%R -> 1 <= period <= period' -> 1 <= w ->
  lookup "close" X = Some c -> List.length (rsi c) = List.length c ->
  rsi_confirmation_predict rsi th period w X = Ok out -> rsi_confirmation_predict rsi th' period' w X = Ok out' -> fewer_signals out out'.
Proof.
  intros rsi th th' cp cp' w X c out out' Hth Hcp Hw Hc L O O'.
  destruct (rsi_confirmation_rule rsi th cp w X c ltac:(lia) Hw Hc L) as (o1 & E1 & S1). destruct (rsi_confirmation_rule rsi th' cp' w X c ltac:(lia) Hw Hc L) as (o2 & E2 & S2).
  rewrite O in E1. injection E1 as <-. rewrite O' in E2. injection E2 as <-. refine (signals_fewer _ _ _ _ _ _ S1 S2). cbv beta.
  intros i (A & B & C). split; [lia|]. split; [|exact C]. intros j J. destruct (B j ltac:(lia)) as (x & X1 & X2). exists x. split; [exact X1|].
  destruct X2 as [->|(v & -> & V)]; [now left|right]. exists v. split; [reflexivity|lra].
Qed.
Lemma c101_bar_arrival : forall rsi a b X c out out', narrower a b -> well_formed X -> 1 <= arr_fast a -> 1 <= arr_slow a -> max_diff a <> 0%Z ->
  lookup "close" X = Some c -> List.length (rsi c) = List.length c ->
  bar_rsi_predict rsi a X = Ok out -> bar_rsi_predict rsi b X = Ok out' -> fewer_signals out out'.
Proof.
  intros rsi a b X c out out' (N1 & N2 & N3 & N4 & N5 & N6 & N7) Hw Hf Hs Hm Hc L O O'.
  destruct (bar_rsi_rule rsi a X c Hw Hf Hs Hm Hc L) as (o1 & E1 & S1). destruct (bar_rsi_rule rsi b X c Hw ltac:(lia) ltac:(lia) ltac:(congruence) Hc L) as (o2 & E2 & S2).
  rewrite O in E1. injection E1 as <-. rewrite O' in E2. injection E2 as <-. refine (signals_fewer _ _ _ _ _ _ S1 S2). cbv beta.
  rewrite N5, N6, N7. intros i (A & B & (x & C1 & C2 & C3) & D). repeat (split; [assumption|]). split; [exists x; split; [exact C1|split]|lra].
  - destruct C2 as [->|(v & -> & V)]; [now left|right]. exists v. split; [reflexivity|lra].
  - destruct C3 as [->|(v & -> & V)]; [now left|right]. exists v. split; [reflexivity|lra].
Qed.
