(** The queue of candidates of a rolling maximum or minimum, and the rolling covariance. *)
From Coq Require Import Reals Lra Lia Sorted.
From Verif Require Import Prelude PreludeFacts Num Series DailyVol_Model Feat_Model Roll_Model Roll_Proofs.
Local Open Scope nat_scope.

Lemma sorted_app {A} (P : A -> A -> Prop) a b : StronglySorted P (a ++ b) <-> StronglySorted P a /\ StronglySorted P b /\ forall x y, In x a -> In y b -> P x y.
Proof.
  induction a as [|z a IH]; cbn [app].
  - split; [intros H; split; [constructor|split; [exact H|contradiction]]|tauto].
  - split.
    + intros H. inversion H as [|? ? H1 H2]; subst. apply IH in H1. destruct H1 as (A1 & A2 & A3). rewrite Forall_app in H2. destruct H2 as [F1 F2]. split; [|split].
      * now constructor.
      * exact A2.
      * intros x y [<-|I] J; [rewrite Forall_forall in F2; now apply F2|now apply A3].
    + intros (H1 & H2 & H3). inversion H1 as [|? ? A1 A2]; subst. constructor; [apply IH; split; [exact A1|split; [exact H2|intros x y I J; apply H3; [now right|exact J]]]|].
      apply Forall_app. split; [exact A2|]. apply Forall_forall. intros y J. apply H3; [now left|exact J].
Qed.
Lemma drop_while_split {A} (p : A -> bool) l : l = (take_while p l ++ drop_while p l)%list /\ Forall (fun x => p x = true) (take_while p l) /\
  match drop_while p l with [] => True | y :: _ => p y = false end.
Proof.
  induction l as [|x l (IH1 & IH2 & IH3)]; [repeat split; constructor|]. cbn. destruct (p x) eqn:E.
  - cbn [app]. split; [now rewrite <- IH1|]. split; [now constructor|exact IH3].
  - repeat split; [constructor|exact E].
Qed.
Lemma drop_back_split {A} (p : A -> bool) l : exists tail, l = (drop_back_while p l ++ tail)%list /\ Forall (fun x => p x = true) tail /\
  (drop_back_while p l = [] \/ exists front y, drop_back_while p l = (front ++ [y])%list /\ p y = false).
Proof.
  unfold drop_back_while. destruct (drop_while_split p (rev l)) as (E & F & G). exists (rev (take_while p (rev l))). split; [|split].
  - rewrite <- rev_app_distr, <- E. symmetry. apply rev_involutive.
  - apply Forall_rev. exact F.
  - destruct (drop_while p (rev l)) as [|y r]; [now left|right]. exists (rev r), y. split; [reflexivity|exact G].
Qed.
Lemma while_seq s lo n : lo <= s <= lo + n ->
  take_while (fun j => Nat.ltb j s) (seq lo n) = seq lo (s - lo) /\ drop_while (fun j => Nat.ltb j s) (seq lo n) = seq s (lo + n - s).
Proof.
  revert lo. induction n as [|n IH]; intros lo H.
  - replace s with lo by lia. rewrite Nat.sub_diag. cbn. now replace (lo + 0 - lo) with 0 by lia.
  - cbn [seq take_while drop_while]. destruct (Nat.ltb_spec lo s) as [L|L].
    + destruct (IH (S lo) ltac:(lia)) as [A B]. rewrite A, B. replace (s - lo) with (S (s - S lo)) by lia. split; [reflexivity|f_equal; lia].
    + replace s with lo by lia. rewrite Nat.sub_diag. split; [reflexivity|]. replace (lo + S n - lo) with (S n) by lia. reflexivity.
Qed.

Section Extreme.
  Context (better : R -> R -> bool) (w : nat) (l : list (ext R)).
  Hypothesis Hw : 0 < w.
  Hypothesis total : forall a b, better a b = false -> better b a = true.
  Hypothesis trans : forall a b c, better a b = true -> better b c = true -> better a c = true.
  Let val j := nth j l NaN.
  Let fin j := is_finite (val j).
  Let before a b := a < b /\ gives_way better (val b) (val a) = false.
  Lemma refl a : better a a = true.
  Proof. destruct (better a a) eqn:E; [reflexivity|]. now rewrite <- E, (total a a E). Qed.

  Record inv (lo hi : nat) (s : queues) : Prop := {
    i_range : forall j, In j (q s) -> lo <= j < hi;
    i_sorted : StronglySorted before (q s);
    i_cover : forall k v, lo <= k < hi -> val k = Fin v -> exists j u, In j (q s) /\ k <= j /\ val j = Fin u /\ better u v = true;
    i_win : win s = seq lo (hi - lo);
    i_nobs : q_nobs s = length (filter fin (win s))
  }.
  Lemma step_inv lo i s : inv lo i s -> lo <= start w i -> lo <= i -> inv (start w i) (S i) (extreme_step better w l s i) /\ q (extreme_step better w l s i) <> [].
  Proof.
    intros [Ra So Co Wi No] Hlo Hi. assert (Hst : start w i <= i) by (unfold start; lia). unfold extreme_step. cbv zeta. fold (val i). set (x := val i) in *.
    set (p := fun j => gives_way better x (nth j l NaN)). destruct (drop_back_split p (q s)) as (tail & E & T & D). set (Q1 := drop_back_while p (q s)) in *.
    assert (So1 : StronglySorted before Q1) by (rewrite E in So; apply sorted_app in So; tauto).
    assert (In1 : forall j, In j Q1 -> In j (q s)) by (intros j J; rewrite E; apply in_app_iff; now left).
    assert (K : forall j, In j Q1 -> gives_way better x (val j) = false).
    { intros j J. destruct D as [D|(front & y & D & Hy)]; [rewrite D in J; contradiction|]. rewrite D in J. apply in_app_iff in J. destruct J as [J|[<-|[]]]; [|exact Hy].
      rewrite D in So1. apply sorted_app in So1. destruct So1 as (_ & _ & S3). destruct (S3 j y J ltac:(now left)) as [_ S4]. unfold p in Hy. fold (val y) in Hy.
      unfold gives_way in *. destruct (val j) as [vj| | |]; try discriminate. destruct x as [n| | |]; try reflexivity. destruct (val y) as [vy| | |]; try discriminate.
      destruct (better n vj) eqn:B; [|reflexivity]. rewrite <- Hy. symmetry. apply trans with vj; [exact B|]. apply total, S4. }
    assert (SoQ : StronglySorted before (Q1 ++ [i])).
    { apply sorted_app. split; [exact So1|]. split; [constructor; constructor|]. intros a b A [<-|[]]. split; [apply Ra, In1, A|exact (K a A)]. }
    set (out := fun j => Nat.ltb j (start w i)). destruct (drop_while_split out (Q1 ++ [i])) as (E2 & T2 & D2). set (Q2 := drop_while out (Q1 ++ [i])) in *. set (gone := take_while out (Q1 ++ [i])) in *.
    assert (Keep : forall j, In j (Q1 ++ [i]) -> start w i <= j -> In j Q2).
    { intros j J L. rewrite E2 in J. apply in_app_iff in J. destruct J as [J|J]; [|exact J]. rewrite Forall_forall in T2. apply T2 in J. unfold out in J. apply Nat.ltb_lt in J. lia. }
    assert (So2 : StronglySorted before Q2) by (rewrite E2 in SoQ; apply sorted_app in SoQ; tauto).
    assert (In2 : forall j, In j Q2 -> In j (Q1 ++ [i])) by (intros j J; rewrite E2; apply in_app_iff; now right).
    destruct (while_seq (start w i) lo (S i - lo) ltac:(lia)) as [W1 W2].
    assert (WE : (win s ++ [i])%list = seq lo (S i - lo)).
    { rewrite Wi. replace (S i - lo) with (S (i - lo)) by lia. rewrite seq_S. do 2 f_equal. lia. }
    split; [constructor; cbn [q win q_nobs]|cbn [q]].
    - intros j J. split.
      + destruct Q2 as [|y Q2]; [contradiction|]. unfold out in D2. apply Nat.ltb_ge in D2. destruct J as [<-|J]; [exact D2|]. inversion So2 as [|? ? _ F]; subst. rewrite Forall_forall in F. apply F in J. destruct J as [J _]. lia.
      + apply In2, in_app_iff in J. destruct J as [J|[<-|[]]]; [|lia]. apply In1, Ra in J. lia.
    - exact So2.
    - intros k v [Hk1 Hk2] V. destruct (Nat.eq_dec k i) as [->|N].
      + exists i, v. split; [apply Keep; [apply in_app_iff; right; now left|exact Hst]|]. split; [lia|]. split; [exact V|apply refl].
      + destruct (Co k v ltac:(lia) V) as (j & u & J & L & U & B). rewrite E in J. apply in_app_iff in J. destruct J as [J|J].
        * exists j, u. split; [apply Keep; [apply in_app_iff; now left|lia]|]. repeat split; assumption.
        * rewrite Forall_forall in T. apply T in J. unfold p in J. fold (val j) in J. rewrite U in J. unfold gives_way in J. destruct x as [n| | |] eqn:X; try discriminate.
          exists i, n. split; [apply Keep; [apply in_app_iff; right; now left|exact Hst]|]. split; [lia|]. split; [exact X|]. now apply trans with u.
    - rewrite WE. unfold out. rewrite W2. f_equal. lia.
    - assert (FE : length (filter fin (win s ++ [i])) = if is_finite x then S (q_nobs s) else q_nobs s).
      { rewrite filter_app, app_length, <- No. cbn [filter]. unfold fin. fold x. destruct (is_finite x); cbn; lia. }
      rewrite <- FE, WE. unfold out. rewrite W1, W2. fold fin. replace (S i - lo) with ((start w i - lo) + (lo + (S i - lo) - start w i)) at 1 by lia. rewrite seq_app, filter_app, app_length.
      replace (lo + (start w i - lo)) with (start w i) by lia. change (fun j : nat => is_finite (nth j l NaN)) with fin. lia.
    - intros N. assert (In i Q2) by (apply Keep; [apply in_app_iff; right; now left|exact Hst]). rewrite N in *. contradiction.
  Qed.

  (** The window as a list of values. *)
  Lemma window_vals lo n : lo + n <= length l -> finite_vals (slice lo (lo + n) l) = flat_map (fun j => match val j with Fin v => [v] | _ => [] end) (seq lo n).
  Proof.
    revert lo. induction n as [|n IH]; intros lo H.
    - unfold slice. now replace (lo + 0 - lo) with 0 by lia.
    - rewrite (slice_split l lo (S lo)) by lia. rewrite finite_vals_app. replace (lo + S n) with (S lo + n) by lia. rewrite IH by lia. cbn [seq flat_map]. f_equal.
      unfold slice. replace (S lo - lo) with 1 by lia. unfold val. clear IH. revert lo H. induction l as [|x r IHr]; intros lo H; [cbn in H; lia|]. destruct lo as [|lo]; [cbn; destruct x; reflexivity|]. cbn [skipn nth]. apply IHr. cbn in H. lia.
  Qed.
  Lemma count_vals js : length (flat_map (fun j => match val j with Fin v => [v] | _ => [] end) js) = length (filter fin js).
  Proof. induction js as [|j js IH]; [reflexivity|]. cbn [flat_map filter]. rewrite app_length, IH. unfold fin, is_finite. destruct (val j); reflexivity. Qed.

  Definition best (v : list R) (b : R) : Prop := In b v /\ forall x, In x v -> better b x = true.
  Context (agg : list R -> ext R).
  Hypothesis Hagg : forall v b, best v b -> agg v = Fin b.
  Lemma output_spec i s : i < length l -> inv (start w i) (S i) s -> q s <> [] ->
    extreme_output w l s = let v := finite_vals (slice (S i - w) (S i) l) in if Nat.leb w (length v) then agg v else NaN.
  Proof.
    intros Hi [Ra So Co Wi No] N. cbv zeta. fold (start w i). assert (Hst : start w i <= i) by (unfold start; lia).
    replace (slice (start w i) (S i) l) with (slice (start w i) (start w i + (S i - start w i)) l) by (f_equal; lia).
    rewrite window_vals by lia. rewrite count_vals. unfold extreme_output. destruct (q s) as [|j r] eqn:Q; [congruence|]. rewrite No, Wi.
    destruct (Nat.leb_spec w (length (filter fin (seq (start w i) (S i - start w i))))) as [L|L]; [|reflexivity]. fold (val j).
    assert (Full : forall k, start w i <= k < S i -> exists v, val k = Fin v).
    { intros k Hk. destruct (fin k) eqn:F; [unfold fin, is_finite in F; destruct (val k) as [v| | |]; try discriminate; now exists v|]. exfalso.
      assert (I : In k (seq (start w i) (S i - start w i))) by (apply in_seq; lia). apply in_split in I. destruct I as (a & b & E). rewrite E in L. rewrite filter_app, app_length in L. cbn [filter] in L. rewrite F in L.
      pose proof (f_equal (@length nat) E) as Len. rewrite seq_length, app_length in Len. cbn [length] in Len.
      assert (FL : forall x : list nat, length (filter fin x) <= length x) by (induction x as [|y x IH]; [cbn; lia|]; cbn; destruct (fin y); cbn; lia).
      pose proof (FL a). pose proof (FL b). unfold start in *. lia. }
    destruct (Full j (Ra j ltac:(now left))) as [u U]. rewrite U. symmetry. apply Hagg. split.
    - apply in_flat_map. exists j. split; [apply in_seq; specialize (Ra j ltac:(now left)); lia|]. rewrite U. now left.
    - intros x X. apply in_flat_map in X. destruct X as (k & Ik & X). apply in_seq in Ik. destruct (val k) as [v| | |] eqn:V; try contradiction. destruct X as [<-|[]].
      destruct (Co k v ltac:(lia) V) as (j' & u' & J & _ & U' & B). apply trans with u'; [|exact B]. destruct J as [<-|J]; [rewrite U in U'; injection U' as <-; apply refl|].
      inversion So as [|? ? _ F]; subst. rewrite Forall_forall in F. destruct (F j' J) as [_ G]. rewrite U, U' in G. apply total. exact G.
  Qed.
  Lemma extreme_loop_spec : forall n i lo s, i + n <= length l -> inv lo i s -> lo <= start w i -> lo <= i ->
    extreme_loop better w l s (seq i n) = map (fun i => let v := finite_vals (slice (S i - w) (S i) l) in if Nat.leb w (length v) then agg v else NaN) (seq i n).
  Proof.
    induction n as [|n IH]; intros i lo s Hn I H1 H2; [reflexivity|]. cbn [seq extreme_loop map]. destruct (step_inv lo i s I H1 H2) as [I' N]. f_equal.
    - apply output_spec; [lia|exact I'|exact N].
    - apply IH with (start w i); [lia|exact I'|unfold start; lia|unfold start; lia].
  Qed.
  Lemma roll_extreme_eq : roll_extreme better w l = rolling w agg l.
  Proof.
    unfold roll_extreme, rolling. apply extreme_loop_spec with 0; [lia| |lia|lia]. constructor; cbn; try reflexivity; try contradiction; try constructor. intros k v H. lia.
  Qed.
End Extreme.

Lemma fold_max r : forall x, In (fold_left Rmax r x) (x :: r) /\ forall y, In y (x :: r) -> (y <= fold_left Rmax r x)%R.
Proof.
  induction r as [|z r IH]; intros x; cbn [fold_left]; [split; [now left|intros y [<-|[]]; lra]|]. destruct (IH (Rmax x z)) as [A B]. split.
  - destruct A as [A|A]; [|right; now right]. rewrite <- A. unfold Rmax. destruct (Rle_dec x z); [right; now left|now left].
  - intros y [<-|[<-|Y]]; [apply Rle_trans with (Rmax x z); [apply Rmax_l|apply B; now left]|apply Rle_trans with (Rmax x z); [apply Rmax_r|apply B; now left]|apply B; now right].
Qed.
Lemma fold_min r : forall x, In (fold_left Rmin r x) (x :: r) /\ forall y, In y (x :: r) -> (fold_left Rmin r x <= y)%R.
Proof.
  induction r as [|z r IH]; intros x; cbn [fold_left]; [split; [now left|intros y [<-|[]]; lra]|]. destruct (IH (Rmin x z)) as [A B]. split.
  - destruct A as [A|A]; [|right; now right]. rewrite <- A. unfold Rmin. destruct (Rle_dec x z); [now left|right; now left].
  - intros y [<-|[<-|Y]]; [apply Rle_trans with (Rmin x z); [apply B; now left|apply Rmin_l]|apply Rle_trans with (Rmin x z); [apply B; now left|apply Rmin_r]|apply B; now right].
Qed.
Lemma dec_true a b : (if Rle_dec a b then true else false) = true <-> (a <= b)%R.
Proof. destruct (Rle_dec a b); split; auto; discriminate. Qed.
Lemma dec_false a b : (if Rle_dec a b then true else false) = false <-> ~ (a <= b)%R.
Proof. destruct (Rle_dec a b); split; auto; try discriminate; tauto. Qed.
Lemma roll_max_eq w l : 0 < w -> roll_max w l = rolling w agg_max l.
Proof.
  intros Hw. unfold roll_max. apply roll_extreme_eq; [exact Hw|..].
  - intros a b H. apply dec_false in H. apply dec_true. lra.
  - intros a b c H K. apply dec_true in H. apply dec_true in K. apply dec_true. lra.
  - intros v b [I B]. destruct v as [|x r]; [contradiction|]. cbn [agg_max]. f_equal. destruct (fold_max r x) as [F G]. apply Rle_antisym; [apply dec_true, B, F|apply G, I].
Qed.
Lemma roll_min_eq w l : 0 < w -> roll_min w l = rolling w agg_min l.
Proof.
  intros Hw. unfold roll_min. apply roll_extreme_eq; [exact Hw|..].
  - intros a b H. apply dec_false in H. apply dec_true. lra.
  - intros a b c H K. apply dec_true in H. apply dec_true in K. apply dec_true. lra.
  - intros v b [I B]. destruct v as [|x r]; [contradiction|]. cbn [agg_min]. f_equal. destruct (fold_min r x) as [F G]. apply Rle_antisym; [apply G, I|apply dec_true, B, F].
Qed.

(** Covariance. *)
Lemma zipw_maps {A B C D} (f : B -> C -> D) (g : A -> B) (h : A -> C) l : zipw f (map g l) (map h l) = map (fun x => f (g x) (h x)) l.
Proof. unfold zipw. induction l as [|x l IH]; [reflexivity|]. cbn in *. now rewrite IH. Qed.
Lemma slice_map {A B} (f : A -> B) i j l : slice i j (map f l) = map f (slice i j l).
Proof. unfold slice. now rewrite skipn_map, firstn_map. Qed.
Definition both (h : ext R * ext R -> ext R) (hr : R * R -> R) : Prop :=
  forall p, match p with (Fin a, Fin b) => h p = Fin (hr (a, b)) | _ => is_finite (h p) = false end.
Lemma both_vals h hr l : both h hr -> finite_vals (map h l) = map hr (finite_pairs l).
Proof.
  intros H. induction l as [|p l IH]; [reflexivity|]. cbn [map finite_vals finite_pairs flat_map]. fold (finite_vals (map h l)) (finite_pairs l). rewrite IH. specialize (H p).
  destruct p as [[a| | |] [b| | |]]; try (destruct (h _); [discriminate|reflexivity..]). now rewrite H.
Qed.
Lemma count_finite l : length (filter is_finite l) = length (finite_vals l).
Proof. induction l as [|[x| | |] l IH]; cbn; auto. Qed.
Local Open Scope R_scope.
Lemma asign_zero : asign (0 : R) = Eq.
Proof. unfold asign. cbn. destruct (Rlt_dec 0 0) as [H|H]; [exfalso; lra|reflexivity]. Qed.
Lemma both_x : both (fun p => eadd (fst p) (emul (Fin 0) (snd p))) (fun p => fst p + 0 * snd p).
Proof. intros [[a| | |] [b| | |]]; cbn; unfold mul_sign; cbn; rewrite ?asign_zero; reflexivity. Qed.
Lemma both_y : both (fun p => eadd (snd p) (emul (Fin 0) (fst p))) (fun p => snd p + 0 * fst p).
Proof. intros [[a| | |] [b| | |]]; cbn; unfold mul_sign; cbn; rewrite ?asign_zero; reflexivity. Qed.
Lemma both_xy (op : ext R -> ext R -> ext R) (rop : R -> R -> R) : (forall a b, op (Fin a) (Fin b) = Fin (rop a b)) -> (forall x, op NaN x = NaN) -> (forall x, op x NaN = NaN) ->
  both (fun p => op (eadd (fst p) (emul (Fin 0) (snd p))) (eadd (snd p) (emul (Fin 0) (fst p)))) (fun p => rop (fst p + 0 * snd p) (snd p + 0 * fst p)).
Proof.
  intros H N1 N2 [[a| | |] [b| | |]]; cbn; rewrite ?asign_zero; cbn; rewrite ?N1, ?N2; try reflexivity. apply H.
Qed.
Lemma both_mul : both (fun p => emul (eadd (fst p) (emul (Fin 0) (snd p))) (eadd (snd p) (emul (Fin 0) (fst p)))) (fun p => (fst p + 0 * snd p) * (snd p + 0 * fst p)).
Proof. apply (both_xy emul Rmult); [reflexivity|reflexivity|now intros []]. Qed.
Lemma both_add : both (fun p => eadd (eadd (fst p) (emul (Fin 0) (snd p))) (eadd (snd p) (emul (Fin 0) (fst p)))) (fun p => (fst p + 0 * snd p) + (snd p + 0 * fst p)).
Proof. apply (both_xy eadd Rplus); [reflexivity|reflexivity|now intros []]. Qed.
Lemma roll_cov_eq w s t : (0 < w)%nat -> roll_cov w s t = rolling_cov w s t.
Proof.
  intros Hw. unfold roll_cov, rolling_cov. cbv zeta. set (X := zipw (fun a b => eadd a (emul (Fin 0) b)) s t). set (Y := zipw (fun a b => eadd b (emul (Fin 0) a)) s t).
  unfold zipw in X, Y. set (P := combine s t) in *. rewrite !roll_mean_eq by exact Hw. unfold roll_count, rolling.
  assert (LX : length X = length P) by (unfold X; now rewrite map_length). assert (LY : length Y = length P) by (unfold Y; now rewrite map_length).
  assert (EP : forall op : ext R -> ext R -> ext R, zipw op X Y = map (fun p => op (eadd (fst p) (emul (Fin 0) (snd p))) (eadd (snd p) (emul (Fin 0) (fst p)))) P) by (intros op; unfold X, Y; apply zipw_maps).
  rewrite !EP, !map_length, LX, LY, !zipw_maps, !map_map, !zipw_maps. apply map_ext. intros i. unfold start. set (L := slice (S i - w) (S i) P).
  rewrite count_finite, !slice_map. fold L. unfold X, Y. rewrite !slice_map. fold L.
  rewrite (both_vals _ _ L both_x), (both_vals _ _ L both_y), (both_vals _ _ L both_mul), (both_vals _ _ L both_add), !map_length.
  set (v := finite_pairs L). destruct (Nat.leb_spec w (length v)) as [H|H]; [|reflexivity].
  assert (N : v <> []) by (intros E; rewrite E in H; cbn in H; lia).
  rewrite (map_ext (fun p => fst p + 0 * snd p) fst) by (intros p; ring). rewrite (map_ext (fun p => snd p + 0 * fst p) snd) by (intros p; ring).
  rewrite (map_ext (fun p => (fst p + 0 * snd p) * (snd p + 0 * fst p)) (fun p => fst p * snd p)) by (intros p; ring).
  assert (M : forall g : R * R -> R, agg_mean (map g v) = Fin (mean (map g v))) by (intros g; destruct v; [congruence|reflexivity]). rewrite !M.
  unfold agg_cov. destruct (Nat.leb_spec (length v) 1) as [K|K].
  - destruct v as [|[a b] [|p v']] eqn:E; [congruence| |cbn in K; lia]. unfold mean. cbn. destruct (Req_EM_T (1 + - (1)) 0) as [_|Q]; [|exfalso; apply Q; ring].
    replace ((a * b + 0) / 1 + - ((a + 0) / 1 * ((b + 0) / 1))) with 0 by field. replace (asign (1 : R)) with Gt.
    + cbn. now rewrite asign_zero.
    + unfold asign. cbn. destruct (Rlt_dec 1 0); [lra|]. destruct (Rlt_dec 0 1); [reflexivity|lra].
  - assert (1 < INR (length v)) by (replace 1 with (INR 1) by reflexivity; now apply lt_INR). cbn [esub eadd eopp emul ediv aadd aopp amul adiv aeqb Arith_R a0].
    destruct (Req_EM_T (INR (length v) + - (1)) 0) as [Q|_]; [lra|]. cbn [emul]. f_equal.
Qed.
