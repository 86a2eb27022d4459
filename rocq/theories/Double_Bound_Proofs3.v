(** VPIN in doubles: how far it is from the exact VPIN, as long as the windows hold enough volume. *)
From Coq Require Import Reals ZArith Lra Lia List String.
From Flocq Require Import Core.
From Verif Require Import Prelude PreludeFacts Num Series DailyVol_Model Feat_Model Feat_Spec Feat_Proofs Feat_Proofs3 Roll_Model Roll_Proofs Roll_Proofs2
  Double_Model Double_Spec Double_Proofs Double_Proofs2 Double_Boot_Proofs2 Double_Bet_Proofs2 Double_Vpin_Model Double_Vpin_Proofs Double_Bound_Spec Double_Bound_Proofs Double_Bound_Proofs2.
Import ListNotations.
Local Open Scope R_scope.
Local Notation length := List.length.

Lemma vpin_rows (A : Arith R) w v b s : exists out, @vpin_values R A w v b s = Ok out /\
  forall i y, nth_error (zipw (@ediv R A) (@kahan_sum R A w (map (@eabs R A) (zipw (@esub R A) b s))) (@kahan_sum R A w v)) i = Some (Fin y) -> nth_error out i = Some (Fin y).
Proof.
  unfold vpin_values. set (f := zipw ediv _ _). cbv zeta. set (g := fun x : ext R => if is_nan x then Fin a0 else x).
  set (out := (firstn w f ++ map g (skipn w f))%list).
  assert (E : existsb is_nan (skipn w out) = false).
  { apply Bool.not_true_iff_false. intros H. apply existsb_exists in H as (x & Hx & Hn). unfold out in Hx. rewrite skipn_app in Hx. apply in_app_or in Hx as [Hx|Hx].
    - rewrite skipn_all2 in Hx by (rewrite firstn_length; lia). destruct Hx.
    - assert (Hx' : In x (map g (skipn w f))). { rewrite <- (firstn_skipn (w - length (firstn w f)) (map g (skipn w f))). apply in_or_app. now right. }
      apply in_map_iff in Hx' as (z & <- & _). unfold g in Hn. destruct z; cbn in Hn; discriminate. }
  rewrite E. cbn [raise_if bind]. exists out. split; [reflexivity|]. intros i y Hy. unfold out.
  assert (Hi : (i < length f)%nat) by (apply nth_error_Some; congruence).
  destruct (Nat.lt_ge_cases i w) as [L|L].
  - rewrite nth_error_app1 by (rewrite firstn_length; lia). now rewrite nth_error_firstn_lt by exact L.
  - rewrite nth_error_app2 by (rewrite firstn_length; lia). rewrite firstn_length, Nat.min_l by lia. rewrite nth_error_map.
    assert (N : nth_error (skipn w f) (i - w) = nth_error f i).
    { rewrite <- (firstn_skipn w f) at 2. rewrite nth_error_app2 by (rewrite firstn_length; lia). rewrite firstn_length, Nat.min_l by lia. reflexivity. }
    rewrite N, Hy. reflexivity.
Qed.

Section Vpin.
  Variables (M : R) (w : nat) (bars : list (R * R * R)).
  Hypothesis HM : powerRZ 2 (-1000) <= M.
  Hypothesis Hw : (0 < w)%nat.
  Hypothesis HN : (Z.of_nat (length bars) * (Z.of_nat w + 2) <= 2 ^ 49)%Z.
  Hypothesis Hbars : forall v b s, In (v, b, s) bars -> is_double v /\ is_double b /\ is_double s /\ 0 <= v <= M /\ 0 <= b <= M /\ 0 <= s <= M /\ Rabs (b - s) <= 2 * v.
  Local Notation V := (map (fun t => Fin (bar_volume t)) bars).
  Local Notation B := (map (fun t => Fin (bar_bought t)) bars).
  Local Notation S := (map (fun t => Fin (bar_sold t)) bars).
  Definition imbalance_held (t : R * R * R) : R := Rabs (to_double (bar_bought t - bar_sold t)).
  Local Notation imbalance := bar_imbalance.
  Lemma zip_map {A C D E} (g : C -> D -> E) (f : A -> C) (h : A -> D) l : zipw g (map f l) (map h l) = map (fun t => g (f t) (h t)) l.
  Proof. unfold zipw. induction l as [|t l IH]; [reflexivity|]. cbn. now f_equal. Qed.
  Lemma held_imbalances : map (@eabs R DA) (zipw (@esub R DA) B S) = map (fun t => Fin (imbalance_held t)) bars.
  Proof.
    rewrite zip_map, map_map. apply map_ext. intros t. unfold imbalance_held, esub. cbn [eopp eadd eabs aopp aadd Arith_double].
    change (bar_bought t + - bar_sold t) with (bar_bought t - bar_sold t). set (x := to_double _). change (@altb R DA x (@a0 R DA)) with (if Rlt_dec x 0 then true else false). destruct (Rlt_dec x  0); f_equal; [rewrite Rabs_left by lra|rewrite Rabs_pos_eq by lra]; reflexivity.
  Qed.
  Lemma exact_imbalances : map (@eabs R Arith_R) (zipw (@esub R Arith_R) B S) = map (fun t => Fin (imbalance t)) bars.
  Proof.
    rewrite zip_map, map_map. apply map_ext. intros t. unfold bar_imbalance, esub. cbn [eopp eadd eabs aopp aadd Arith_R].
    change (bar_bought t + - bar_sold t) with (bar_bought t - bar_sold t). set (x := bar_bought t - bar_sold t). change (@altb R Arith_R x (@a0 R Arith_R)) with (if Rlt_dec x 0 then true else false). destruct (Rlt_dec x  0); f_equal; [rewrite Rabs_left by lra|rewrite Rabs_pos_eq by lra]; reflexivity.
  Qed.
  Lemma bar t : In t bars -> is_double (bar_volume t) /\ 0 <= bar_volume t <= M /\ is_double (imbalance_held t) /\ imbalance_held t <= M /\ imbalance t <= 2 * bar_volume t /\ Rabs (imbalance_held t - imbalance t) <= eps64 * M.
  Proof.
    intros Ht. destruct t as [[v b] s]. destruct (Hbars v b s Ht) as (Dv & Db & Ds & Hv & Hb & Hs & Hi). unfold imbalance_held, bar_imbalance, bar_volume, bar_bought, bar_sold. cbn [fst snd].
    pose proof (error_diff b s Db Ds) as E. assert (L : to_double (b - s) <= b) by (apply to_double_le_double; [exact Db|lra]).
    assert (G : - s <= to_double (b - s)) by (apply to_double_ge_double; [now apply is_double_opp|lra]). assert (Hm : Rabs (b - s) <= M) by (apply Rabs_le; lra).
    repeat split; try assumption; try lra.
    - unfold Rabs. destruct (Rcase_abs _); [apply is_double_opp|]; apply to_double_is.
    - apply Rabs_le. lra.
    - eapply Rle_trans; [apply Rabs_triang_inv2|]. eapply Rle_trans; [exact E|]. apply Rmult_le_compat_l; [unfold eps64; lra|exact Hm].
  Qed.
  Lemma held_volumes : held_below M V.
  Proof. intros x Hx. apply in_map_iff in Hx as (t & E & Ht). injection E as <-. destruct (bar t Ht) as (D & P & _). split; [exact D|apply Rabs_le; lra]. Qed.
  Lemma held_held : held_below M (map (fun t => Fin (imbalance_held t)) bars).
  Proof. intros x Hx. apply in_map_iff in Hx as (t & E & Ht). injection E as <-. destruct (bar t Ht) as (_ & P & D & H & _). split; [exact D|]. rewrite Rabs_pos_eq by (unfold imbalance_held; apply Rabs_pos). exact H. Qed.
  Definition window_total (f : R * R * R -> R) (i : nat) : R := lsum (map f (slice (Datatypes.S i - w) (Datatypes.S i) bars)).
  Lemma rolled f i : (w <= Datatypes.S i)%nat -> (i < length bars)%nat -> nth_error (rolling w agg_sum (map (fun t => Fin (f t)) bars)) i = Some (Fin (window_total f i)).
  Proof.
    intros Hi Hn. unfold rolling. rewrite map_length, nth_error_map, nth_error_seq_lt by exact Hn. cbn [option_map Nat.add]. f_equal. cbv zeta. rewrite slice_map.
    assert (F : forall l, finite_vals (map (fun t => Fin (f t)) l) = map f l) by (clear; induction l as [|t l IH]; [reflexivity|cbn; now f_equal]).
    rewrite F, map_length. unfold window_total. assert (L : length (slice (Datatypes.S i - w) (Datatypes.S i) bars) = w) by (unfold slice; rewrite firstn_length, skipn_length; lia).
    rewrite L, Nat.leb_refl. destruct (slice (Datatypes.S i - w) (Datatypes.S i) bars) as [|t l]; [cbn in L; lia|]. reflexivity.
  Qed.
  Lemma sum_le (f g : R * R * R -> R) l : (forall t, In t l -> f t <= g t) -> lsum (map f l) <= lsum (map g l).
  Proof. induction l as [|t l IH]; intros H; [cbn; lra|]. cbn [map]. rewrite !lsum_cons. specialize (IH ltac:(intros; apply H; now right)). specialize (H t (or_introl eq_refl)). lra. Qed.
  Lemma in_window i t : In t (slice (Datatypes.S i - w) (Datatypes.S i) bars) -> In t bars.
  Proof. intros H. unfold slice in H. apply in_firstn in H. rewrite <- (firstn_skipn (Datatypes.S i - w) bars). apply in_or_app. now right. Qed.
  Lemma sum_const k (l : list (R * R * R)) : lsum (map (fun _ => k) l) = INR (length l) * k.
  Proof. induction l as [|t l IH]; [cbn; lra|]. cbn [map]. rewrite lsum_cons, IH. replace (INR (length (t :: l))) with (INR (length l) + 1) by (rewrite <- S_INR; reflexivity). lra. Qed.
  Lemma sum_mult k (f : R * R * R -> R) l : lsum (map (fun t => k * f t) l) = k * lsum (map f l).
  Proof. induction l as [|t l IH]; [cbn; lra|]. cbn [map]. rewrite !lsum_cons, IH. lra. Qed.
  Lemma sum_plus (f g : R * R * R -> R) l : lsum (map (fun t => f t + g t) l) = lsum (map f l) + lsum (map g l).
  Proof. induction l as [|t l IH]; [cbn; lra|]. cbn [map]. rewrite !lsum_cons, IH. lra. Qed.
  Lemma window_len i : (length (slice (Datatypes.S i - w) (Datatypes.S i) bars) <= w)%nat.
  Proof. unfold slice. rewrite firstn_length, skipn_length. lia. Qed.
  Lemma totals i : 0 <= window_total imbalance i <= 2 * window_total bar_volume i /\ window_total bar_volume i <= INR w * M /\
    Rabs (window_total imbalance_held i - window_total imbalance i) <= INR w * (eps64 * M).
  Proof.
    pose proof (M_pos M HM) as P. pose proof (window_len i) as L. apply le_INR in L. unfold window_total. set (l := slice _ _ bars) in *. assert (H : forall t, In t l -> In t bars) by (intros t; apply in_window).
    repeat split.
    - assert (0 <= lsum (map (fun _ => 0) l)) by (rewrite sum_const; lra). eapply Rle_trans; [exact H0|]. apply sum_le. intros t _. apply Rabs_pos.
    - rewrite <- sum_mult. apply sum_le. intros t Ht. apply (bar t (H t Ht)).
    - eapply Rle_trans; [apply (sum_le bar_volume (fun _ => M)); intros t Ht; apply (bar t (H t Ht))|]. rewrite sum_const. now apply Rmult_le_compat_r; [lra|].
    - assert (E : 0 <= eps64 * M) by (unfold eps64; lra). apply Rle_trans with (INR (length l) * (eps64 * M)); [|now apply Rmult_le_compat_r]. rewrite <- (sum_const (eps64 * M)).
      assert (A1 : lsum (map imbalance_held l) <= lsum (map (fun t => imbalance t + eps64 * M) l)) by (apply sum_le; intros t Ht; destruct (bar t (H t Ht)) as (_ & _ & _ & _ & _ & Q); apply abs_le in Q; lra).
      assert (A2 : lsum (map imbalance l) <= lsum (map (fun t => imbalance_held t + eps64 * M) l)) by (apply sum_le; intros t Ht; destruct (bar t (H t Ht)) as (_ & _ & _ & _ & _ & Q); apply abs_le in Q; lra).
      rewrite sum_plus in A1, A2. apply Rabs_le. lra.
  Qed.
  Lemma quotient E T D T' D' : 0 < E -> 2 * E <= T -> T <= 2 ^ 49 * E -> 0 <= D <= 2 * T -> Rabs (T' - T) <= E -> Rabs (D' - D) <= 17 / 16 * E ->
    0 < T' /\ Rabs (to_double (D' / T') - D / T) <= 8 * E / T.
  Proof.
    intros HE HT HT2 HD ET ED. apply abs_le in ET, ED. assert (T1 : T / 2 <= T') by lra. split; [lra|].
    assert (C : Rabs (D' / T' - D / T) <= 49 / 8 * (E / T)).
    { replace (D' / T' - D / T) with (((D' - D) - D / T * (T' - T)) / T') by (field; lra).
      assert (DT : 0 <= D / T <= 2). { split; [apply Rmult_le_pos; [lra|left; apply Rinv_0_lt_compat; lra]|]. apply Rmult_le_reg_r with T; [lra|]. unfold Rdiv. rewrite Rmult_assoc, Rinv_l by lra. lra. }
      unfold Rdiv at 1. rewrite Rabs_mult, (Rabs_pos_eq (/ T')) by (left; apply Rinv_0_lt_compat; lra).
      assert (K : Rabs (D' - D - D / T * (T' - T)) <= 49 / 16 * E) by (apply Rabs_le; set (q := D / T) in *; split; nra).
      assert (I : / T' <= 2 * / T). { replace (2 * / T) with (/ (T / 2)) by (field; lra). apply Rinv_le_contravar; lra. }
      replace (49 / 8 * (E / T)) with (49 / 16 * E * (2 * / T)) by (field; lra). apply Rmult_le_compat; [apply Rabs_pos|left; apply Rinv_0_lt_compat; lra|exact K|exact I]. }
    assert (U : / 2 ^ 49 <= E / T <= 1 / 2).
    { split; apply Rmult_le_reg_r with T; try lra; unfold Rdiv; rewrite ?(Rmult_assoc E), ?Rinv_l by lra; [|lra]. apply Rmult_le_reg_l with (2 ^ 49); [apply pow_lt; lra|]. rewrite <- Rmult_assoc, Rinv_r by (apply pow_nonzero; lra). lra. }
    assert (DT : 0 <= D / T <= 2). { split; [apply Rmult_le_pos; [lra|left; apply Rinv_0_lt_compat; lra]|]. apply Rmult_le_reg_r with T; [lra|]. unfold Rdiv. rewrite Rmult_assoc, Rinv_l by lra. lra. }
    replace (8 * E / T) with (8 * (E / T)) by (field; lra). set (u := E / T) in *. set (q := D / T) in *. set (q' := D' / T') in *. pose proof (error_any q') as R.
    assert (TY : tiny <= eps64 / 1000). { pose proof (tiny_M 1 1 0 ltac:(rewrite <- bpow2; apply (bpow_le radix2 (-1000) 0); lia) Nat.lt_0_1). lra. }
    rewrite (pow_IZR 2 49) in U. change (IZR (2 ^ Z.of_nat 49)) with 562949953421312 in U. apply abs_le in C. assert (Q6 : Rabs q' <= 6) by (apply Rabs_le; lra). unfold eps64 in *. apply abs_le in R. apply Rabs_le. lra.
  Qed.
  Lemma c120_vpin_rows i : (w <= Datatypes.S i)%nat -> (i < length bars)%nat -> INR (i + 1) * INR (w + 2) * M / 2 ^ 48 <= window_total bar_volume i ->
    exists y, nth_error (zipw (@ediv R DA) (@kahan_sum R DA w (map (@eabs R DA) (zipw (@esub R DA) B S))) (@kahan_sum R DA w V)) i = Some (Fin y) /\
      nth_error (zipw (@ediv R Arith_R) (@kahan_sum R Arith_R w (map (@eabs R Arith_R) (zipw (@esub R Arith_R) B S))) (@kahan_sum R Arith_R w V)) i = Some (Fin (window_total imbalance i / window_total bar_volume i)) /\
      Rabs (y - window_total imbalance i / window_total bar_volume i) <= INR (i + 1) * INR (w + 2) * M / 2 ^ 46 / window_total bar_volume i.
  Proof.
    intros Hwi Hi Hvol. rewrite held_imbalances, exact_imbalances, !kahan_real by exact Hw. rewrite !zipw_nth, !rolled by assumption. pose proof (M_pos M HM) as P.
    assert (LK : forall l, length l = length bars -> exists x, nth_error (@kahan_sum R DA w l) i = Some x).
    { intros l Hl. destruct (nth_error (@kahan_sum R DA w l) i) eqn:E; [eauto|]. apply nth_error_None in E. unfold kahan_sum in E. rewrite Double_Z_Proofs.roll_len in E. lia. }
    destruct (LK V (map_length _ _)) as (xv & Ev). destruct (LK (map (fun t => Fin (imbalance_held t)) bars) (map_length _ _)) as (xd & Ed).
    pose proof (sum_row M w (length bars) HM Hw HN _ i xv _ held_volumes ltac:(rewrite map_length; lia) Ev (rolled bar_volume i Hwi Hi)) as Cv.
    pose proof (sum_row M w (length bars) HM Hw HN _ i xd _ held_held ltac:(rewrite map_length; lia) Ed (rolled imbalance_held i Hwi Hi)) as Cd.
    rewrite Ev, Ed. destruct xv as [T'| | |]; try easy. destruct xd as [D'| | |]; try easy. cbn [close_to] in Cv, Cd.
    destruct (totals i) as (HD & HT & HI). set (T := window_total bar_volume i) in *. set (D := window_total imbalance i) in *. set (D0 := window_total imbalance_held i) in *.
    set (E := INR (i + 1) * INR (w + 2) * M / 2 ^ 49) in *.
    assert (N1 : 1 <= INR (i + 1)) by (change 1 with (INR 1); apply le_INR; lia). assert (W2 : INR (w + 2) = INR w + 2) by (rewrite plus_INR; cbn; lra). pose proof (pos_INR w) as W0.
    assert (Ew : INR w * M <= 2 ^ 49 * E). { unfold E. replace (2 ^ 49 * (INR (i + 1) * INR (w + 2) * M / 2 ^ 49)) with (INR (i + 1) * (INR (w + 2) * M)) by (field; apply pow_nonzero; lra). rewrite W2. assert (0 <= (INR w + 2) * M) by nra. nra. }
    assert (HE : 0 < E). { unfold E. apply Rmult_lt_0_compat; [|apply Rinv_0_lt_compat, pow_lt; lra]. rewrite W2. apply Rmult_lt_0_compat; nra. }
    assert (E2 : 2 * E <= T). { replace (2 * E) with (INR (i + 1) * INR (w + 2) * M / 2 ^ 48); [exact Hvol|]. unfold E. field. }
    assert (ED : Rabs (D' - D) <= 17 / 16 * E).
    { assert (INR w * (eps64 * M) <= E / 16). { rewrite (pow_IZR 2 49) in Ew. change (IZR (2 ^ Z.of_nat 49)) with 562949953421312 in Ew. unfold eps64. set (k := INR w * M) in *. replace (INR w * (/ 9007199254740992 * M)) with (k / 9007199254740992) by (unfold k; field). lra. }
      apply abs_le in HI, Cd. apply Rabs_le. lra. }
    destruct (quotient E T D T' D' HE E2 ltac:(lra) HD Cv ED) as (T0 & Q).
    exists (to_double (D' / T')). split; [|split].
    - cbn [ediv]. change (@aeqb R DA T' (@a0 R DA)) with (if Req_EM_T T' 0 then true else false). destruct (Req_EM_T T' 0); [lra|]. reflexivity.
    - cbn [ediv]. change (@aeqb R Arith_R T (@a0 R Arith_R)) with (if Req_EM_T T 0 then true else false). destruct (Req_EM_T T 0); [lra|]. reflexivity.
    - eapply Rle_trans; [exact Q|]. right. unfold E. field. lra.
  Qed.
End Vpin.

Lemma last_window w bars f i : (w <= S i)%nat -> last_total w bars f i = window_total w bars f i.
Proof. intros H. unfold last_total, window_total, slice. now replace (S i - (S i - w))%nat with w by lia. Qed.
Lemma c120_vpin M w vn bn sn X (bars : list (R * R * R)) : powerRZ 2 (-1000) <= M -> (0 < w)%nat -> (Z.of_nat (length bars) * (Z.of_nat w + 2) <= 2 ^ 49)%Z ->
  lookup vn X = Some (map (fun t => Fin (bar_volume t)) bars) -> lookup bn X = Some (map (fun t => Fin (bar_bought t)) bars) -> lookup sn X = Some (map (fun t => Fin (bar_sold t)) bars) ->
  (forall v b s, In (v, b, s) bars -> is_double v /\ is_double b /\ is_double s /\ 0 <= v <= M /\ 0 <= b <= M /\ 0 <= s <= M /\ Rabs (b - s) <= 2 * v) ->
  exists out out', vpin w vn bn sn X = Ok out /\ vpin_running DA w vn bn sn X = Ok out' /\
    forall i, (w <= S i)%nat -> (i < length bars)%nat -> INR (i + 1) * INR (w + 2) * M / 2 ^ 48 <= last_total w bars bar_volume i ->
      exists x y, nth_error out i = Some (Fin x) /\ nth_error out' i = Some (Fin y) /\ x = last_total w bars bar_imbalance i / last_total w bars bar_volume i /\
        Rabs (y - x) <= INR (i + 1) * INR (w + 2) * M / 2 ^ 46 / last_total w bars bar_volume i.
Proof.
  intros HM Hw HN Hv Hb Hs Hbars. rewrite <- c115_exact by exact Hw. unfold vpin_running. 
  assert (C : check_missing_columns X [vn; bn; sn] = Ok tt) by (unfold check_missing_columns; cbn; rewrite Hv, Hb, Hs; reflexivity).
  rewrite C. cbn [bind]. unfold column. rewrite Hv, Hb, Hs. cbn [bind].
  destruct (vpin_rows Arith_R w (map (fun t => Fin (bar_volume t)) bars) (map (fun t => Fin (bar_bought t)) bars) (map (fun t => Fin (bar_sold t)) bars)) as (out & E & R).
  destruct (vpin_rows DA w (map (fun t => Fin (bar_volume t)) bars) (map (fun t => Fin (bar_bought t)) bars) (map (fun t => Fin (bar_sold t)) bars)) as (out' & E' & R').
  exists out, out'. split; [exact E|]. split; [exact E'|]. intros i Hi Hn Ht. rewrite !last_window in * by exact Hi. destruct (c120_vpin_rows M w bars HM Hw HN Hbars i Hi Hn Ht) as (y & A & B & Q).
  eexists _, y. split; [apply R; exact B|]. split; [apply R'; exact A|]. split; [reflexivity|exact Q].
Qed.
