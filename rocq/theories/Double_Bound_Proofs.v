(** Error bounds for the compensated running sums and means in doubles. *)
From Coq Require Import Reals ZArith Lra Lia List.
From Flocq Require Import Core.
From Verif Require Import Prelude PreludeFacts Num Series DailyVol_Model Feat_Model Feat_Spec Feat_Proofs Feat_Proofs3 Roll_Model Roll_Proofs
  Double_Model Double_Spec Double_Proofs Double_Proofs2 Double_Boot_Proofs2 Double_Bet_Proofs2 Double_Vpin_Model Double_Vpin_Proofs Double_Cross_Model Double_Cross_Proofs Double_Bound_Spec.
Import ListNotations.
Local Open Scope nat_scope.
Local Notation length := List.length.

(** The loop, for states whose distance from the window grows with the number of updates. *)
Section Indexed.
  Context {S : Type} (addf removef : S -> R -> S) (output : S -> ext R) (empty : S) (Rep : nat -> S -> list R -> Prop) (ok : list R -> Prop) (w lim : nat).
  Hypothesis Hw : 0 < w.
  Hypothesis He : Rep 0 empty [].
  Hypothesis Hmono : forall n s v, Rep n s v -> Rep (Datatypes.S n) s v.
  Hypothesis Hadd : forall n s v x, n < lim -> Rep n s v -> ok (v ++ [x]) -> Rep (Datatypes.S n) (addf s x) (v ++ [x]).
  Hypothesis Hrem : forall n s v x, n < lim -> Rep n s (x :: v) -> Rep (Datatypes.S n) (removef s x) v.
  Lemma indexed_loop l : (forall i, i < length l -> ok (finite_vals (slice (start w i) (Datatypes.S i) l))) -> 2 * length l <= lim ->
    forall n i s, i + n <= length l -> Rep (2 * i) s (finite_vals (slice (previous w i) i l)) ->
    Forall2 (fun i o => exists s, Rep (2 * (i + 1)) s (finite_vals (slice (start w i) (Datatypes.S i) l)) /\ o = output s)
      (seq i n) (roll_loop (if_finite addf) (if_finite removef) output w l s (seq i n)).
  Proof.
    intros Hok Hlim. induction n as [|n IH]; intros i s L H; [constructor|]. cbn [seq roll_loop].
    assert (P : previous w i <= start w i <= i) by (unfold previous, start; destruct i; lia).
    assert (P1 : start w i <= Datatypes.S (previous w i)) by (unfold previous, start; destruct i; lia).
    replace (match i with 0 => [] | Datatypes.S j => slice (start w j) (start w i) l end) with (slice (previous w i) (start w i) l)
      by (destruct i; [unfold previous, start; now replace (1 - w) with 0 by lia|reflexivity]).
    rewrite (slice_split l _ (start w i)) in H by exact P.
    assert (H1 : Rep (Datatypes.S (2 * i)) (fold_left (if_finite removef) (slice (previous w i) (start w i) l) s) (finite_vals (slice (start w i) i l))).
    { assert (L1 : length (slice (previous w i) (start w i) l) <= 1) by (unfold slice; rewrite firstn_length, skipn_length; lia).
      destruct (slice (previous w i) (start w i) l) as [|y [|y' r]]; cbn [length] in L1; [..|lia]; cbn [fold_left].
      - apply Hmono. exact H.
      - cbn [app] in H. destruct y; cbn [if_finite finite_vals flat_map app] in *; [apply Hrem; [lia|exact H]|apply Hmono; exact H..]. }
    specialize (Hok i ltac:(lia)). rewrite (slice_split l (start w i) i (Datatypes.S i)) in Hok by (clear - P; lia).
    assert (E : exists x, slice i (Datatypes.S i) l = [x]).
    { unfold slice. replace (Datatypes.S i - i) with 1 by lia. destruct (skipn i l) as [|x r] eqn:Er; [|now exists x].
      apply (f_equal (@length _)) in Er. rewrite skipn_length in Er. cbn in Er. lia. }
    destruct E as [x E]. rewrite E in *. rewrite finite_vals_app in Hok. cbn [fold_left].
    assert (H' : Rep (2 * (i + 1)) (if_finite addf (fold_left (if_finite removef) (slice (previous w i) (start w i) l) s) x) (finite_vals (slice (start w i) (Datatypes.S i) l))).
    { rewrite (slice_split l (start w i) i (Datatypes.S i)) by (clear - P; lia). replace (2 * (i + 1)) with (Datatypes.S (Datatypes.S (2 * i))) by lia.
      rewrite E, finite_vals_app. destruct x; cbn [if_finite finite_vals flat_map app] in *;
        [apply Hadd; auto; lia|rewrite app_nil_r; apply Hmono; exact H1..]. }
    constructor; [eexists; split; [exact H'|reflexivity]|]. apply IH; [lia|]. replace (2 * Datatypes.S i) with (2 * (i + 1)) by lia. exact H'.
  Qed.
  Lemma indexed_roll l i o : (forall i, i < length l -> ok (finite_vals (slice (Datatypes.S i - w) (Datatypes.S i) l))) -> 2 * length l <= lim ->
    nth_error (roll (if_finite addf) (if_finite removef) output empty w l) i = Some o ->
    exists s, Rep (2 * (i + 1)) s (finite_vals (slice (Datatypes.S i - w) (Datatypes.S i) l)) /\ o = output s.
  Proof.
    intros Hok Hlim Ho. pose proof (indexed_loop l Hok Hlim (length l) 0 empty ltac:(lia) He) as F. unfold roll in Ho.
    assert (G : forall n a xs, Forall2 (fun i o => exists s, Rep (2 * (i + 1)) s (finite_vals (slice (start w i) (Datatypes.S i) l)) /\ o = output s) (seq a n) xs ->
      forall i, nth_error xs i = Some o -> exists s, Rep (2 * (a + i + 1)) s (finite_vals (slice (start w (a + i)) (Datatypes.S (a + i)) l)) /\ o = output s).
    { induction n as [|n IH]; intros a xs Fx j Hj; inversion Fx as [|? y ? r Hy Fr]; subst; [destruct j; discriminate|].
      destruct j as [|j]; cbn in Hj; [injection Hj as <-; rewrite Nat.add_0_r; exact Hy|]. replace (a + Datatypes.S j) with (Datatypes.S a + j) by lia. apply (IH (Datatypes.S a) r Fr j Hj). }
    exact (G _ _ _ F i Ho).
  Qed.
End Indexed.

Local Open Scope R_scope.
Notation DA := Arith_double.

(** One compensated addition: s + v, up to rounding, and the new compensation. *)
Lemma step_bound B s v c : is_double s -> is_double v -> is_double c -> 0 <= B -> Rabs s + Rabs v <= B -> Rabs c <= 3 * eps64 * B ->
  let y := to_double (v + - c) in
  let t := to_double (s + y) in
  let c' := to_double (to_double (t + - s) + - y) in
  Rabs (t - (s + v)) <= 6 * eps64 * B /\ Rabs c' <= 3 * eps64 * B.
Proof.
  intros Ds Dv Dc HB H Hc y t c'. pose proof (error_sum v (- c) Dv (is_double_opp c Dc)) as E1. fold y in E1.
  assert (Dy : is_double y) by apply to_double_is. pose proof (error_sum s y Ds Dy) as E2. fold t in E2. assert (Dt : is_double t) by apply to_double_is.
  pose proof (error_sum t (- s) Dt (is_double_opp s Ds)) as E3. set (z := to_double (t + - s)) in *. assert (Dz : is_double z) by apply to_double_is.
  pose proof (error_sum z (- y) Dz (is_double_opp y Dy)) as E4. unfold c'. fold z. clear Ds Dv Dc Dy Dt Dz. clearbody y t z.
  set (d := to_double (z + - y)) in *. clearbody d. clear c'.
  assert (Rs : Rabs s + Rabs v <= B) by exact H. unfold eps64 in *.
  assert (A1 : Rabs (y - (v + - c)) <= / 9007199254740992 * (101 / 100) * B).
  { eapply Rle_trans; [exact E1|]. pose proof (Rabs_triang v (- c)). rewrite Rabs_Ropp in H0. pose proof (Rabs_pos s). pose proof (Rabs_pos v). lra. }
  assert (Y : Rabs (y - v) <= / 9007199254740992 * 5 * B).
  { apply abs_le in A1, Hc. apply Rabs_le. lra. }
  assert (A2 : Rabs (t - (s + y)) <= / 9007199254740992 * (101 / 100) * B).
  { eapply Rle_trans; [exact E2|]. apply abs_le in Y. assert (Rabs (s + y) <= 101 / 100 * B); [|lra].
    replace (s + y) with (s + v + (y - v)) by ring. eapply Rle_trans; [apply Rabs_triang|]. pose proof (Rabs_triang s v). assert (Rabs (y - v) <= / 9007199254740992 * 5 * B) by (apply Rabs_le; lra). lra. }
  assert (A3 : Rabs (z - (t + - s)) <= / 9007199254740992 * (102 / 100) * B).
  { eapply Rle_trans; [exact E3|]. assert (Rabs (t + - s) <= 102 / 100 * B); [|lra].
    pose proof (Rabs_pos s). assert (Rabs v <= B) by lra. apply abs_le in A2, Y, H1. apply Rabs_le. lra. }
  assert (A4 : Rabs (d - (z + - y)) <= / 9007199254740992 * (1 / 100) * B).
  { eapply Rle_trans; [exact E4|]. assert (Rabs (z + - y) <= / 100 * B); [|lra]. apply abs_le in A2, A3. apply Rabs_le. lra. }
  apply abs_le in A1, A2, A3, A4, Y, Hc. split; apply Rabs_le; lra.
Qed.

Section Bound.
  Variables (M : R) (w N : nat).
  Hypothesis HM : powerRZ 2 (-1000) <= M.
  Hypothesis Hw : (0 < w)%nat.
  Hypothesis HN : (Z.of_nat N * (Z.of_nat w + 2) <= 2 ^ 49)%Z.
  Let B := INR (w + 2) * M.
  Let unit := 6 * eps64 * B.
  Lemma M_pos : 0 < M. Proof. eapply Rlt_le_trans; [|exact HM]. apply powerRZ_lt. lra. Qed.
  Lemma B_pos : 0 < B. Proof. unfold B. apply Rmult_lt_0_compat; [apply lt_0_INR; lia|apply M_pos]. Qed.
  Lemma drift n : (n <= 2 * N)%nat -> INR n * unit <= M.
  Proof.
    intros Hn. assert (INR n * INR (w + 2) <= 2 * IZR (2 ^ 49)).
    { rewrite !INR_IZR_INZ, <- !mult_IZR. apply IZR_le. nia. }
    unfold unit, B. replace (INR n * (6 * eps64 * (INR (w + 2) * M))) with (6 * eps64 * (INR n * INR (w + 2)) * M) by ring.
    assert (6 * eps64 * (INR n * INR (w + 2)) <= 1) by (unfold eps64; change (IZR (2 ^ 49)) with 562949953421312 in H; lra). pose proof M_pos. nra.
  Qed.
  Definition fits (v : list R) : Prop := (length v <= w)%nat /\ forall x, In x v -> is_double x /\ Rabs x <= M.
  Definition near (n : nat) (s : kahan R) (v : list R) : Prop :=
    fits v /\ k_nobs s = length v /\ is_double (k_sum s) /\ is_double (k_add s) /\ is_double (k_remove s) /\
    Rabs (k_add s) <= 3 * eps64 * B /\ Rabs (k_remove s) <= 3 * eps64 * B /\ Rabs (k_sum s - lsum v) <= INR n * unit.
  Lemma sum_fits v : fits v -> Rabs (lsum v) <= INR (length v) * M.
  Proof.
    intros [_ H]. induction v as [|x v IH]; [cbn; rewrite Rabs_R0; lra|]. rewrite lsum_cons. cbn [length]. rewrite S_INR.
    eapply Rle_trans; [apply Rabs_triang|]. pose proof (proj2 (H x (or_introl eq_refl))). specialize (IH ltac:(intros; apply H; now right)). lra.
  Qed.
  Lemma unit_pos : 0 < unit. Proof. unfold unit. pose proof B_pos. pose proof eps64_pos. apply Rmult_lt_0_compat; lra. Qed.
  Lemma near_mono n s v : near n s v -> near (S n) s v.
  Proof. intros (F & E & A1 & A2 & A3 & A4 & A5 & A6). refine (conj F (conj E (conj A1 (conj A2 (conj A3 (conj A4 (conj A5 _))))))). rewrite S_INR. pose proof unit_pos. lra. Qed.
  Lemma size n s v x : (n < 2 * N)%nat -> near n s v -> Rabs x <= M -> (length v <= w)%nat -> Rabs (k_sum s) + Rabs x <= B.
  Proof.
    intros Hn (F & _ & _ & _ & _ & _ & _ & A6) Hx Hl. pose proof (drift n ltac:(lia)) as D. pose proof (sum_fits v F) as S0.
    assert (L : INR (length v) * M <= INR w * M) by (apply Rmult_le_compat_r; [pose proof M_pos; lra|apply le_INR; exact Hl]).
    unfold B. rewrite plus_INR. cbn [INR]. replace (k_sum s) with (lsum v + (k_sum s - lsum v)) by ring. pose proof (Rabs_triang (lsum v) (k_sum s - lsum v)). lra.
  Qed.
  Lemma near_add n s v x : (n < 2 * N)%nat -> near n s v -> fits (v ++ [x]) -> near (S n) (@add_sum R DA s x) (v ++ [x]).
  Proof.
    intros Hn H Fx. pose proof H as (F & E & A1 & A2 & A3 & A4 & A5 & A6). pose proof (proj2 Fx x ltac:(apply in_or_app; right; now left)) as [Dx Bx].
    assert (Lv : (length v <= w)%nat) by apply F. pose proof (size n s v x Hn H Bx Lv) as Sz.
    destruct (step_bound B (k_sum s) x (k_add s) A1 Dx A2 ltac:(pose proof B_pos; lra) Sz A4) as [S1 S2].
    split; [exact Fx|]. cbn [add_sum k_nobs k_sum k_add k_remove]. split; [rewrite app_length; cbn; lia|]. unfold asub. cbn [aadd aopp Arith_double].
    split; [apply to_double_is|]. split; [apply to_double_is|]. split; [exact A3|]. split; [exact S2|]. split; [exact A5|].
    rewrite lsum_snoc, S_INR. unfold unit in *. apply abs_le in S1, A6. apply Rabs_le. lra.
  Qed.
  Lemma near_remove n s v x : (n < 2 * N)%nat -> near n s (x :: v) -> near (S n) (@remove_sum R DA s x) v.
  Proof.
    intros Hn H. pose proof H as (F & E & A1 & A2 & A3 & A4 & A5 & A6). pose proof (proj2 F x (or_introl eq_refl)) as [Dx Bx].
    assert (Lv : (length (x :: v) <= w)%nat) by apply F.
    pose proof (size n s (x :: v) (- x) Hn H ltac:(rewrite Rabs_Ropp; exact Bx) Lv) as Sz.
    destruct (step_bound B (k_sum s) (- x) (k_remove s) A1 (is_double_opp x Dx) A3 ltac:(pose proof B_pos; lra) Sz A5) as [S1 S2].
    split; [split; [cbn in Lv; lia|intros; apply F; now right]|]. cbn [remove_sum k_nobs k_sum k_add k_remove]. split; [rewrite E; reflexivity|]. unfold asub. cbn [aadd aopp Arith_double].
    split; [apply to_double_is|]. split; [exact A2|]. split; [apply to_double_is|]. split; [exact A4|]. split; [exact S2|].
    rewrite lsum_cons in A6. rewrite S_INR. unfold unit in *. apply abs_le in S1, A6. apply Rabs_le. lra.
  Qed.
  Lemma near_0 : near 0 {| k_nobs := 0; k_sum := 0; k_add := 0; k_remove := 0 |} [].
  Proof.
    pose proof B_pos as P. pose proof eps64_pos as P'. assert (Z : 0 <= 3 * eps64 * B) by (apply Rmult_le_pos; lra). pose proof is_double_0.
    split; [split; [cbn; lia|intros x []]|]. cbn [k_nobs k_sum k_add k_remove]. rewrite Rabs_R0. refine (conj eq_refl (conj H (conj H (conj H (conj Z (conj Z _)))))).
    replace (0 - lsum []) with 0 by (unfold lsum; cbn; lra). rewrite Rabs_R0. cbn [INR]. lra.
  Qed.
  Lemma windows_fit l i : held_below M l -> fits (finite_vals (slice (S i - w) (S i) l)).
  Proof.
    intros H. split.
    - transitivity (length (slice (S i - w) (S i) l)); [apply finite_length|]. unfold slice. rewrite firstn_length, skipn_length. lia.
    - intros x Hx. apply H. unfold finite_vals in Hx. apply in_flat_map in Hx as (y & Hy & Hx). destruct y; cbn in Hx; try easy. destruct Hx as [<-|[]].
      unfold slice in Hy. apply in_firstn in Hy. rewrite <- (firstn_skipn (S i - w) l). apply in_or_app. now right.
  Qed.
  Lemma sum_row l i x y : held_below M l -> (length l <= N)%nat -> nth_error (@kahan_sum R DA w l) i = Some x -> nth_error (rolling w agg_sum l) i = Some y ->
    close_to (INR (i + 1) * INR (w + 2) * M / 2 ^ 49) x y.
  Proof.
    intros Hl HlN Hx Hy. destruct (indexed_roll (@add_sum R DA) (@remove_sum R DA) (calc_sum w) {| k_nobs := 0; k_sum := 0; k_add := 0; k_remove := 0 |} near fits w (2 * N) Hw near_0 near_mono
      near_add near_remove l i x ltac:(intros; now apply windows_fit) ltac:(lia) Hx) as (s & (_ & E & _ & _ & _ & _ & _ & A) & ->).
    assert (Hi : (i < length l)%nat). { rewrite <- (rolling_length w agg_sum l). apply nth_error_Some. congruence. }
    unfold rolling in Hy. rewrite nth_error_map, nth_error_seq_lt in Hy by exact Hi. cbn [option_map Nat.add] in Hy. injection Hy as <-.
    unfold calc_sum. rewrite E. destruct (Nat.leb w _); [|exact I]. cbn [close_to agg_sum]. eapply Rle_trans; [exact A|].
    replace (INR (2 * (i + 1))) with (2 * INR (i + 1)) by (rewrite mult_INR; reflexivity). unfold unit, B. pose proof M_pos as P. pose proof (pos_INR (i + 1)) as P1. pose proof (pos_INR (w + 2)) as P2.
    assert (Q : 0 <= INR (i + 1) * INR (w + 2) * M) by (repeat apply Rmult_le_pos; lra).
    replace (2 * INR (i + 1) * (6 * eps64 * (INR (w + 2) * M))) with (12 * eps64 * (INR (i + 1) * INR (w + 2) * M)) by ring.
    rewrite (pow_IZR 2 49). change (IZR (2 ^ Z.of_nat 49)) with 562949953421312. unfold eps64. lra.
  Qed.

  Definition nearm (n : nat) (s : @kmean R) (v : list R) : Prop := near n (fst s) v /\ snd s = negatives v.
  Lemma nearm_mono n s v : nearm n s v -> nearm (S n) s v.
  Proof. intros [H E]. split; [now apply near_mono|exact E]. Qed.
  Lemma nearm_add n s v x : (n < 2 * N)%nat -> nearm n s v -> fits (v ++ [x]) -> nearm (S n) (@add_mean R DA s x) (v ++ [x]).
  Proof.
    intros Hn [H E] F. split; cbn [add_mean fst snd]; [now apply near_add|]. rewrite E. unfold negatives. rewrite filter_app, app_length. cbn. destruct (Rlt_dec x 0); cbn; lia.
  Qed.
  Lemma nearm_remove n s v x : (n < 2 * N)%nat -> nearm n s (x :: v) -> nearm (S n) (@remove_mean R DA s x) v.
  Proof.
    intros Hn [H E]. split; cbn [remove_mean fst snd]; [now apply near_remove|]. rewrite E. unfold negatives. cbn. destruct (Rlt_dec x 0); reflexivity.
  Qed.
  Lemma tiny_M : tiny <= eps64 / 1000 * M.
  Proof.
    apply Rle_trans with (eps64 / 1000 * powerRZ 2 (-1000)); [|apply Rmult_le_compat_l; [unfold eps64; lra|exact HM]].
    unfold tiny. rewrite <- bpow2. replace (-1075)%Z with (-75 + -1000)%Z by lia. rewrite bpow_plus. apply Rmult_le_compat_r; [apply bpow_ge_0|].
    change (bpow radix2 (-75)) with (/ 37778931862957161709568). unfold eps64. lra.
  Qed.
  Lemma mean_row l i x y : held_below M l -> (length l <= N)%nat -> nth_error (@kahan_mean R DA w l) i = Some x -> nth_error (rolling w agg_mean l) i = Some y ->
    close_to (INR (i + 1) * M / 2 ^ 47) x y.
  Proof.
    intros Hl HlN Hx Hy. destruct (indexed_roll (@add_mean R DA) (@remove_mean R DA) (@calc_mean R DA w) ({| k_nobs := 0; k_sum := 0; k_add := 0; k_remove := 0 |}, 0%nat) nearm fits w (2 * N) Hw (conj near_0 eq_refl) nearm_mono
      nearm_add nearm_remove l i x ltac:(intros; now apply windows_fit) ltac:(lia) Hx) as (s & ((F & E & _ & _ & _ & _ & _ & A) & G) & ->).
    assert (Hi : (i < length l)%nat). { rewrite <- (rolling_length w agg_mean l). apply nth_error_Some. congruence. }
    unfold rolling in Hy. rewrite nth_error_map, nth_error_seq_lt in Hy by exact Hi. cbn [option_map Nat.add] in Hy. apply (f_equal (fun o => match o with Some z => z | None => NaN end)) in Hy. cbv beta iota zeta in Hy. subst y.
    set (v := finite_vals (slice (S i - w) (S i) l)) in *. clearbody v. unfold calc_mean. rewrite E, G. destruct (Nat.leb_spec w (length v)) as [L|L]; [|exact I].
    assert (Lw : length v = w) by (pose proof (proj1 F); lia). rewrite Lw. destruct (Nat.ltb_spec 0 w) as [_|?]; [|lia]. cbn [andb]. rewrite anat_double by nia.
    replace (agg_mean v) with (Fin (lsum v / INR w)) by (destruct v; [cbn in Lw; lia|]; unfold agg_mean, mean; now rewrite Lw).
    unfold adiv. cbn [amul ainv altb a0 Arith_double]. fold (Rdiv (k_sum (fst s)) (INR w)). set (q := k_sum (fst s) / INR w).
    assert (W : 1 <= INR w) by (change 1 with (INR 1); apply le_INR; lia). pose proof M_pos as P. pose proof (sum_fits v F) as SF. rewrite Lw in SF.
    assert (I0 : 0 < / INR w) by (apply Rinv_0_lt_compat; lra).
    assert (Q0 : Rabs (lsum v / INR w) <= M).
    { unfold Rdiv. rewrite Rabs_mult, (Rabs_pos_eq (/ INR w)) by lra. apply Rmult_le_reg_r with (INR w); [lra|]. rewrite Rmult_assoc, Rinv_l by lra. lra. }
    assert (D1 : Rabs (q - lsum v / INR w) <= INR (2 * (i + 1)) * unit * / INR w).
    { unfold q, Rdiv. rewrite <- Rmult_minus_distr_r, Rabs_mult, (Rabs_pos_eq (/ INR w)) by lra. apply Rmult_le_compat_r; lra. }
    assert (D2 : INR (2 * (i + 1)) * unit * / INR w <= 36 * eps64 * INR (i + 1) * M).
    { replace (INR (2 * (i + 1))) with (2 * INR (i + 1)) by (rewrite mult_INR; reflexivity). unfold unit, B.
      replace (2 * INR (i + 1) * (6 * eps64 * (INR (w + 2) * M)) * / INR w) with (12 * eps64 * INR (i + 1) * M * (INR (w + 2) * / INR w)) by ring.
      replace (36 * eps64 * INR (i + 1) * M) with (12 * eps64 * INR (i + 1) * M * 3) by ring. apply Rmult_le_compat_l.
      - pose proof (pos_INR (i + 1)). pose proof eps64_pos. repeat apply Rmult_le_pos; lra.
      - apply Rmult_le_reg_r with (INR w); [lra|]. rewrite Rmult_assoc, Rinv_l by lra. rewrite plus_INR. cbn [INR]. lra. }
    assert (D3 : Rabs (q - lsum v / INR w) <= M).
    { eapply Rle_trans; [exact D1|]. pose proof (drift (2 * (i + 1)) ltac:(lia)) as D. apply Rle_trans with (M * / INR w); [apply Rmult_le_compat_r; lra|].
      apply Rmult_le_reg_r with (INR w); [lra|]. rewrite Rmult_assoc, Rinv_l by lra. nra. }
    set (m := lsum v / INR w) in *.
    assert (D4 : Rabs (to_double q - q) <= 3 * eps64 * M).
    { eapply Rle_trans; [apply error_any|]. pose proof tiny_M as T. assert (Rabs q <= 2 * M) by (apply abs_le in Q0, D3; apply Rabs_le; lra). pose proof eps64_pos. unfold eps64 in *. lra. }
    assert (D5 : Rabs (to_double q - m) <= INR (i + 1) * M / 2 ^ 47).
    { assert (1 <= INR (i + 1)) by (change 1 with (INR 1); apply le_INR; lia). assert (M <= INR (i + 1) * M) by nra. rewrite (pow_IZR 2 47). change (IZR (2 ^ Z.of_nat 47)) with 140737488355328.
      assert (D6 : Rabs (q - m) <= 36 * eps64 * (INR (i + 1) * M)) by lra. unfold eps64 in *. set (z := INR (i + 1) * M) in *. clearbody z. apply abs_le in D4, D6. apply Rabs_le. lra. }
    clear D1 D2 D3 D4.
    destruct (Nat.eqb_spec (negatives v) 0) as [Z|Z].
    - assert (Sg : 0 <= m) by (apply no_negatives in Z; unfold m, Rdiv; apply Rmult_le_pos; lra). destruct (Rlt_dec (to_double q) 0) as [X|X]; cbn [andb].
      + cbn [close_to]. eapply Rle_trans; [|exact D5]. rewrite !Rabs_left1 by lra. lra.
      + destruct (Nat.eqb_spec (negatives v) w) as [?|_]; [lia|]. exact D5.
    - cbn [andb]. destruct (Nat.eqb_spec (negatives v) w) as [Y|Y]; [|exact D5]. rewrite <- Lw in Y. apply all_negatives in Y.
      assert (Sg : m <= 0) by (unfold m, Rdiv; nra). destruct (Rlt_dec 0 (to_double q)) as [X|X]; [|exact D5]. cbn [andb close_to]. eapply Rle_trans; [|exact D5]. rewrite !Rabs_pos_eq by lra. lra.
  Qed.
End Bound.
