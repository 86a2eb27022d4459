(** Labels do not depend on earlier rows, except through the volatility. *)
From Coq Require Import ZArith Lia List String Permutation.
From Verif Require Import Prelude PreludeFacts Num Series Boot_Proofs DailyVol_Proofs Label_Model Label_Spec Label_Proofs Label_Proofs2 Label_Proofs3 Label_Proofs4 Label_Cut_Spec.
Import ListNotations.
Local Notation length := List.length.
Local Open Scope nat_scope.

Lemma nth_skip {B} (l : list B) m i : nth_error (skipn m l) i = nth_error l (m + i).
Proof. revert m. induction l as [|x l IH]; intros [|m]; cbn; try reflexivity; [now destruct i|apply IH]. Qed.
Lemma inc_skip m l : increasingZ l -> increasingZ (skipn m l).
Proof. unfold increasingZ. revert m. induction l as [|x l IH]; intros [|m] H; cbn; try assumption. inversion H; subst. now apply IH. Qed.
Lemma in_skip {B} m (l : list B) x : In x (skipn m l) -> In x l.
Proof. revert m. induction l as [|y l IH]; intros [|m]; cbn; try tauto. intros H. right. now apply (IH m). Qed.

Section Cut.
  Context {A : Type} `{HA : Arith A}.
  Variables (idx : list Z) (close : list (ext A)) (m i : nat) (n : Z).
  Hypotheses (Hinc : increasingZ idx) (Hn : (0 <= n)%Z) (Hi : m + i < length idx).
  Lemma vertical_cut t : vertical (skipn m idx) n i t <-> vertical idx n (m + i) t.
  Proof.
    unfold vertical. split; intros (p & P & E).
    - exists (m + p). rewrite nth_skip in E. split; [lia|exact E].
    - exists (p - m). rewrite nth_skip. replace (m + (p - m)) with p by lia. split; [lia|exact E].
  Qed.
  Lemma search_end_cut t : search_end (skipn m idx) n i t <-> search_end idx n (m + i) t.
  Proof.
    unfold search_end. rewrite vertical_cut, nth_skip, skipn_length. replace (m + (length idx - m - 1)) with (length idx - 1) by lia.
    split; (intros [H|[H K]]; [now left|right; split; [|exact K]]); intros u Hu; apply (H u); now apply vertical_cut.
  Qed.
  Lemma touch_cut e s test t : touch (skipn m idx) (skipn m close) i e s test t <-> touch idx close (m + i) e s test t.
  Proof.
    unfold touch. split; intros (t0 & c0 & k & c & A1 & A2 & A3 & A4 & A5 & A6).
    - rewrite nth_skip in A1. rewrite nth_skip in A2. rewrite nth_skip in A3. rewrite nth_skip in A4. exists t0, c0, (m + k), c. tauto.
    - assert (m + i <= k) by (apply (incZ_nth_le _ Hinc _ _ _ _ A1 A3); lia). exists t0, c0, (k - m), c. rewrite !nth_skip. replace (m + (k - m)) with k by lia. tauto.
  Qed.
  Lemma barrier_cut pt sl w s t : barrier_time (skipn m idx) (skipn m close) i n pt sl w s t <-> barrier_time idx close (m + i) n pt sl w s t.
  Proof.
    unfold barrier_time. rewrite vertical_cut. split; (intros [H|(e & E & H)]; [now left|right; exists e; split; [now apply search_end_cut|]]); rewrite !touch_cut in *; exact H.
  Qed.
  Lemma touched_cut pt sl w s : touched (skipn m idx) (skipn m close) i n pt sl w s <-> touched idx close (m + i) n pt sl w s.
  Proof. unfold touched. split; intros (e & t & E & H); exists e, t; (split; [now apply search_end_cut|]); rewrite !touch_cut in *; exact H. Qed.
End Cut.

Section Rows.
  Context {A : Type} `{HA : Arith A}.
  Lemma cut_times m (y y' : frame A) : without_first m y y' -> valid_times (f_index y) -> valid_times (f_index y').
  Proof. intros [E _] [I V]. rewrite E. split; [now apply inc_skip|]. intros t Ht. apply V. exact (in_skip _ _ _ Ht). Qed.
  Lemma cut_formed m (y y' : frame A) : without_first m y y' -> well_formed y -> well_formed y'.
  Proof. intros [E C] W name col H. rewrite C in H. destruct (column y name) as [c|] eqn:K; [|discriminate]. injection H as <-. rewrite E, !skipn_length, (W _ _ K). reflexivity. Qed.
  Lemma cut_row dv dv' order order' cfg (y y' : frame A) out out' m i (o o' : out_row A) :
    valid_times (f_index y) -> well_formed y -> without_first m y y' ->
    Permutation order (seq 0 (length (f_index y))) -> Permutation order' (seq 0 (length (f_index y'))) -> (0 <= n_expiration_bars cfg)%Z ->
    transform dv order cfg y = Ok out -> transform dv' order' cfg y' = Ok out' ->
    nth_error out (m + i) = Some o -> nth_error out' i = Some o' -> o_vol o' = o_vol o -> o' = o.
  Proof.
    intros HV HW HC HP HP' Hn HT HT' Ho Ho' Ew. pose proof (cut_times _ _ _ HC HV) as HV'. pose proof (cut_formed _ _ _ HC HW) as HW'. destruct HC as [Ei Ec].
    destruct (out_row_vol _ _ _ _ _ _ _ HV HW HP HT Ho) as (close & vol & Hc & _ & _ & Hi & (t0 & s & _ & _ & Ht0 & Hs & _)).
    destruct (out_row_vol _ _ _ _ _ _ _ HV' HW' HP' HT' Ho') as (close' & vol' & Hc' & _ & _ & Hi' & (t0' & s' & _ & _ & Ht0' & Hs' & _)).
    assert (close' = skipn m close) by (rewrite Ec, Hc in Hc'; cbn in Hc'; congruence). subst close'.
    assert (s' = s). { unfold event_side in *. rewrite Ec in Hs'. destruct (column y "side") as [l|]; cbn [option_map] in Hs'; [rewrite nth_skip in Hs'; congruence|congruence]. } subst s'.
    destruct (is_nan (o_vol o)) eqn:En.
    { destruct (c27_novol _ _ _ _ _ _ _ HV HW HP HT Ho En) as (X1 & X2 & X3). destruct (c27_novol _ _ _ _ _ _ _ HV' HW' HP' HT' Ho' ltac:(now rewrite Ew)) as (Y1 & Y2 & Y3). destruct o, o'. cbn in *. congruence. }
    pose proof (c27 _ _ _ _ _ _ _ _ _ HV HW HP Hc Hs HT Ho En) as C1. pose proof (c27 _ _ _ _ _ _ _ _ _ HV' HW' HP' Hc' Hs' HT' Ho' ltac:(now rewrite Ew)) as C2. rewrite Ew, Ei in C2.
    assert (Ee : o_end o' = o_end o).
    { assert (HE : forall t, o_end o' = Some t <-> o_end o = Some t) by (intros t; rewrite C1, C2; split; apply least_ext; intros u; split; apply barrier_cut; (apply HV || assumption)).
      destruct (o_end o) as [t|]; [now apply HE|]. destruct (o_end o') as [t|]; auto. symmetry. now apply HE. }
    destruct (o_end o) as [t|] eqn:Et.
    - destruct (c28 _ _ _ _ _ _ _ _ _ _ HV HW HP Hc Hs HT Ho Et) as (p & c0 & c & Hp & Hc0 & Hcp & HR). destruct (c28 _ _ _ _ _ _ _ _ _ _ HV' HW' HP' Hc' Hs' HT' Ho' Ee) as (p' & c0' & c' & Hp' & Hc0' & Hcp' & HR').
      cbv zeta in HR, HR'. rewrite Ew, Ei in HR'. rewrite Ei, nth_skip in Hp'. rewrite nth_skip in Hc0', Hcp'. assert (m + p' = p) by (eapply incZ_nth_inj; [apply HV| |]; eauto). subst p. assert (c' = c) by congruence. assert (c0' = c0) by congruence. subst c' c0'.
      destruct HR as (R1 & R2 & R3). destruct HR' as (R1' & R2' & R3').
      pose proof (touched_cut (f_index y) close m i (n_expiration_bars cfg) (proj1 HV) Hn Hi (profit_taking_factor cfg) (stop_loss_factor cfg) (o_vol o) s) as T.
      assert (El : o_label o' = o_label o).
      { pose proof (hit_dec _ _ _ _ _ _ _ _ _ HV HW HP Hc Hs HT Ho) as Hd. cbv zeta in Hd. destruct Hd as [Hd|Hd].
        - rewrite R3, R3'; auto. right. now apply T.
        - destruct (expiration_label cfg) eqn:Ex; [rewrite R2, R2'; auto; intros K; apply Hd, T, K|rewrite R3, R3'; auto]. }
      destruct o, o'. cbn in *. congruence.
    - destruct (c28_noend _ _ _ _ _ _ _ HV HW HP HT Ho Et) as (X1 & X2). destruct (c28_noend _ _ _ _ _ _ _ HV' HW' HP' HT' Ho' Ee) as (Y1 & Y2). destruct o, o'. cbn in *. congruence.
  Qed.
  Lemma out_len dv order cfg (y : frame A) out : valid_times (f_index y) -> well_formed y -> Permutation order (seq 0 (length (f_index y))) -> transform dv order cfg y = Ok out -> length out = length (f_index y).
  Proof. intros HV HW HP HT. destruct (transform_rows _ _ _ _ _ HV HW HP HT) as (close & vol & _ & _ & _ & _ & _ & _ & Lo & _). exact Lo. Qed.
  Lemma list_ext {B} (l l' : list B) : length l = length l' -> (forall i x y, nth_error l i = Some x -> nth_error l' i = Some y -> x = y) -> l = l'.
  Proof. revert l'. induction l as [|x l IH]; intros [|y l'] L H; cbn in L; try discriminate; [reflexivity|]. rewrite (H 0 x y eq_refl eq_refl). f_equal. apply IH; [lia|]. intros i a b. exact (H (S i) a b). Qed.
  Lemma cut_fixed dv dv' order order' cfg (y y' : frame A) out out' m :
    valid_times (f_index y) -> well_formed y -> without_first m y y' ->
    Permutation order (seq 0 (length (f_index y))) -> Permutation order' (seq 0 (length (f_index y'))) -> (0 <= n_expiration_bars cfg)%Z -> volatility_adjusted cfg = false ->
    transform dv order cfg y = Ok out -> transform dv' order' cfg y' = Ok out' -> out' = skipn m out.
  Proof.
    intros HV HW HC HP HP' Hn Hva HT HT'. pose proof (cut_times _ _ _ HC HV) as HV'. pose proof (cut_formed _ _ _ HC HW) as HW'. apply list_ext.
    - rewrite skipn_length, (out_len _ _ _ _ _ HV HW HP HT), (out_len _ _ _ _ _ HV' HW' HP' HT'), (proj1 HC). apply skipn_length.
    - intros i o' o Ho' Ho. rewrite nth_skip in Ho. apply (cut_row dv dv' order order' cfg y y' out out' m i o o'); auto.
      destruct (out_row_vol _ _ _ _ _ _ _ HV HW HP HT Ho) as (c1 & vol & _ & Hv & Hw & _). destruct (out_row_vol _ _ _ _ _ _ _ HV' HW' HP' HT' Ho') as (c2 & vol' & _ & Hv' & Hw' & _).
      unfold row_vols in Hv, Hv'. rewrite Hva in Hv, Hv'. injection Hv as <-. injection Hv' as <-. rewrite nth_error_map in Hw, Hw'. destruct (nth_error (f_index y) (m + i)), (nth_error (f_index y') i); cbn in Hw, Hw'; congruence.
  Qed.
End Rows.
