(** Proofs: windows in terms of the last values; moving-average crossover. *)
From Coq Require Import Reals Lra Lia ZArith String.
From Verif Require Import PreludeFacts Series DailyVol_Model Feat_Model Feat_Spec Feat_Proofs Feat_Proofs2.
Local Open Scope nat_scope.

Lemma nth_error_seq_lt n : forall a i, i < n -> nth_error (seq a n) i = Some (a + i).
Proof. induction n as [|n IH]; intros a [|i] H; cbn [seq nth_error]; try lia; [f_equal; lia|]. rewrite IH by lia. f_equal. lia. Qed.
Lemma slice_nth {A} (d : A) l i j : i <= j <= List.length l -> slice i j l = map (fun k => nth (i + k) l d) (seq 0 (j - i)).
Proof.
  intros H. unfold slice. remember (j - i) as n eqn:En. assert (Hn : i + n <= List.length l) by lia. clear H En j. revert i Hn.
  induction n as [|n IH]; intros i Hn; [reflexivity|].
  assert (E : skipn i l = nth i l d :: skipn (S i) l).
  { clear IH. revert i Hn. induction l as [|x l IHl]; intros i Hn; cbn [List.length] in Hn; [lia|]. destruct i; [reflexivity|]. cbn [skipn nth]. apply IHl. lia. }
  rewrite E. cbn [firstn seq map]. rewrite Nat.add_0_r. f_equal. rewrite IH by lia. rewrite <- seq_shift, map_map. apply map_ext. intros k. f_equal. lia.
Qed.
Lemma finite_length l : List.length (finite_vals l) <= List.length l.
Proof. induction l as [|x l IH]; [reflexivity|]. destruct x; cbn [finite_vals flat_map app List.length]; fold (finite_vals l); lia. Qed.
Lemma finite_all l : if Nat.leb (List.length l) (List.length (finite_vals l)) then all_numbers l = Some (finite_vals l) else all_numbers l = None.
Proof.
  induction l as [|x l IH]; [reflexivity|]. pose proof (finite_length l). destruct x; cbn [finite_vals flat_map app List.length all_numbers] in *; fold (finite_vals l) in *.
  - cbn [Nat.leb]. destruct (Nat.leb _ _); rewrite IH; reflexivity.
  - destruct (Nat.leb_spec (S (List.length l)) (List.length (finite_vals l))); [lia|reflexivity].
  - destruct (Nat.leb_spec (S (List.length l)) (List.length (finite_vals l))); [lia|reflexivity].
  - destruct (Nat.leb_spec (S (List.length l)) (List.length (finite_vals l))); [lia|reflexivity].
Qed.
Lemma rolling_nth w agg l i : 1 <= w -> i < List.length l ->
  nth_error (rolling w agg l) i = Some (match last_values w l i with Some v => agg v | None => NaN end).
Proof.
  intros Hw Hi. unfold rolling. rewrite nth_error_map, nth_error_seq_lt by auto. cbn [option_map Nat.add]. f_equal. cbv zeta. unfold last_values.
  replace (i + 1) with (S i) by lia. destruct (Nat.ltb_spec (S i) w).
  - destruct (Nat.leb_spec w (List.length (finite_vals (slice (S i - w) (S i) l)))); auto. exfalso.
    pose proof (finite_length (slice (S i - w) (S i) l)) as Hf. unfold slice in Hf at 2. rewrite firstn_length in Hf. lia.
  - rewrite (slice_nth NaN) by lia. replace (S i - (S i - w)) with w by lia. set (v := map _ _).
    assert (Hv : List.length v = w) by (unfold v; now rewrite map_length, seq_length). pose proof (finite_all v) as Hf. rewrite Hv in Hf.
    destruct (Nat.leb w _); rewrite Hf; reflexivity.
Qed.
Lemma all_numbers_length l v : all_numbers l = Some v -> List.length v = List.length l.
Proof.
  revert v. induction l as [|[x| | |] l IH]; cbn; intros v H; try discriminate; [now injection H as <-|].
  destruct (all_numbers l); cbn in H; [|discriminate]. injection H as <-. cbn. f_equal. now apply IH.
Qed.
Lemma last_values_length w l i v : last_values w l i = Some v -> List.length v = w /\ w <= i + 1.
Proof.
  unfold last_values. destruct (Nat.ltb_spec (i + 1) w); [discriminate|]. intros E. apply all_numbers_length in E. rewrite map_length, seq_length in E. auto.
Qed.
Lemma all_numbers_fin l : all_numbers (map Fin l) = Some l.
Proof. induction l as [|x l IH]; cbn; [reflexivity|]. now rewrite IH. Qed.
Lemma mean_average v : mean v = average v.
Proof. reflexivity. Qed.
Lemma ma_nth w l i : 1 <= w -> i < List.length l ->
  nth_error (rolling w agg_mean l) i = Some (match moving_average w l i with Some v => Fin v | None => NaN end).
Proof.
  intros Hw Hi. rewrite rolling_nth by auto. unfold moving_average. destruct (last_values w l i) as [v|] eqn:E; cbn [option_map]; [|reflexivity].
  apply last_values_length in E as [E _]. destruct v; [cbn in E; lia|]. reflexivity.
Qed.

(** ** Label-based assignment *)
Lemma zipw_nth {A B C} (f : A -> B -> C) x y i : nth_error (zipw f x y) i =
  match nth_error x i, nth_error y i with Some a, Some b => Some (f a b) | _, _ => None end.
Proof.
  unfold zipw. rewrite nth_error_map. revert y i. induction x as [|a x IH]; intros [|b y] [|i]; cbn [combine nth_error option_map]; auto.
  - now destruct (nth_error x i).
Qed.
Lemma mask_sel_sub {A} (l : list A) : forall m x, In x (mask_sel l m) -> In x l.
Proof. induction l as [|a l IH]; intros [|[] m] x H; cbn [mask_sel] in H; try contradiction; [destruct H as [->|H]; [now left|]|]; right; eauto. Qed.
Lemma mask_sel_member idx : NoDup idx -> forall mask i t b, nth_error idx i = Some t -> nth_error mask i = Some b -> existsb (Z.eqb t) (mask_sel idx mask) = b.
Proof.
  assert (Hsub : forall idx mask t, existsb (Z.eqb t) (mask_sel idx mask) = true -> In (t : Z) idx).
  { intros ix mask t H. apply existsb_exists in H as (u & Hu & E). apply Z.eqb_eq in E as <-. now apply mask_sel_sub in Hu. }
  induction idx as [|a idx IH]; intros Hd mask [|i] t b Ht Hb; cbn [nth_error] in Ht; try discriminate.
  - injection Ht as ->. destruct mask as [|b' mask]; [discriminate|]. injection Hb as ->. inversion Hd as [|? ? Hn Hd']. subst.
    destruct b; cbn [mask_sel existsb].
    + now rewrite Z.eqb_refl.
    + destruct (existsb (Z.eqb t) (mask_sel idx mask)) eqn:E; auto. apply Hsub in E. contradiction.
  - destruct mask as [|b' mask]; [discriminate|]. cbn [nth_error] in Hb. inversion Hd as [|? ? Hn Hd']. subst.
    specialize (IH Hd' mask i t b Ht Hb). cbn [mask_sel]. destruct b'; cbn [existsb]; [|exact IH].
    destruct (Z.eqb_spec t a) as [->|]; [|exact IH]. exfalso. apply Hn. eapply nth_error_In; eauto.
Qed.
Lemma list_ext {A} (l l' : list A) : (forall i, nth_error l i = nth_error l' i) -> l = l'.
Proof.
  revert l'. induction l as [|x l IH]; intros [|y l'] H; auto; try (specialize (H 0); discriminate).
  pose proof (H 0) as H0. injection H0 as ->. f_equal. apply IH. intros i. exact (H (S i)).
Qed.
(** With distinct labels the assignment is by row. *)
Lemma loc_set_mask idx mask v side : NoDup idx -> List.length mask = List.length idx ->
  loc_set idx (mask_sel idx mask) v side = zipw (fun (b : bool) (x : ext R) => if b then v else x) mask side.
Proof.
  intros Hd Hl. unfold loc_set. apply list_ext. intros i. rewrite !zipw_nth.
  destruct (nth_error idx i) as [t|] eqn:Et.
  - destruct (nth_error mask i) as [b|] eqn:Eb; [|apply nth_error_None in Eb; assert (i < List.length idx) by (apply nth_error_Some; congruence); lia].
    rewrite (mask_sel_member idx Hd mask i t b Et Eb). reflexivity.
  - apply nth_error_None in Et. replace (nth_error mask i) with (@None bool); [reflexivity|]. symmetry. apply nth_error_None. lia.
Qed.

(** ** Forward filling *)
Lemma ffill_firstn l : forall last n, ffill_from last (firstn n l) = firstn n (ffill_from last l).
Proof. induction l as [|x l IH]; intros last [|n]; cbn [firstn ffill_from]; auto. now rewrite IH. Qed.
Lemma ffill_length l : forall last, List.length (ffill_from last l) = List.length l.
Proof. induction l as [|x l IH]; intros last; cbn; auto. Qed.
(** Value of a filled row: the most recent value that is not missing. *)
Lemma ffill_nth l : forall last i, i < List.length l ->
  (exists j x, j <= i /\ nth_error l j = Some x /\ is_nan x = false /\ (forall k, j < k <= i -> nth_error l k = Some NaN) /\ nth_error (ffill_from last l) i = Some x) \/
  ((forall k, k <= i -> nth_error l k = Some NaN) /\ nth_error (ffill_from last l) i = Some last).
Proof.
  induction l as [|a l IH]; intros last i Hi; cbn [List.length] in Hi; [lia|]. cbn [ffill_from]. destruct i as [|i].
  - cbn [nth_error]. destruct (is_nan a) eqn:Ea.
    + right. split; auto. intros k Hk. assert (k = 0) as -> by lia. cbn. destruct a; try discriminate; auto.
    + left. exists 0, a. repeat split; auto; intros; lia.
  - cbn [nth_error]. destruct (IH (if is_nan a then last else a) i ltac:(lia)) as [(j & x & H1 & H2 & H3 & H4 & H5)|(H1 & H2)].
    + left. exists (S j), x. repeat split; auto; [lia|]. intros [|k] Hk; [lia|]. cbn. apply H4. lia.
    + destruct (is_nan a) eqn:Ea.
      * right. split; auto. intros [|k] Hk; [destruct a; try discriminate; auto|]. cbn. apply H1. lia.
      * left. exists 0, a. repeat split; auto; [lia|]. intros [|k] Hk; [lia|]. cbn. apply H1. lia.
Qed.

(** ** Crossings *)
Definition up_mask (fast slow : nat) (c : list (ext R)) : list bool :=
  zipw andb (zipw eleb (shift1 (rolling fast agg_mean c)) (shift1 (rolling slow agg_mean c)))
            (zipw (fun f s => eltb s f) (rolling fast agg_mean c) (rolling slow agg_mean c)).
Definition down_mask (fast slow : nat) (c : list (ext R)) : list bool :=
  zipw andb (zipw (fun f s => eleb s f) (shift1 (rolling fast agg_mean c)) (shift1 (rolling slow agg_mean c)))
            (zipw eltb (rolling fast agg_mean c) (rolling slow agg_mean c)).
Lemma up_mask_length f s c : List.length (up_mask f s c) = List.length c.
Proof. unfold up_mask. rewrite !zipw_length, !shift1_length, !rolling_length. lia. Qed.
Lemma down_mask_length f s c : List.length (down_mask f s c) = List.length c.
Proof. unfold down_mask. rewrite !zipw_length, !shift1_length, !rolling_length. lia. Qed.
Lemma shift1_nth (l : list (ext R)) i : i < List.length l -> nth_error (shift1 l) i = match i with 0 => Some NaN | S j => nth_error l j end.
Proof.
  intros Hi. unfold shift1. rewrite nth_error_firstn_lt by auto. now destruct i.
Qed.
Lemma eltb_R (a b : R) : eltb (Fin a) (Fin b) = true <-> (a < b)%R.
Proof. cbn [eltb altb Arith_R]. destruct (Rlt_dec a b); split; intros; auto; try discriminate; contradiction. Qed.
Lemma eleb_R (a b : R) : eleb (Fin a) (Fin b) = true <-> (a <= b)%R.
Proof.
  unfold eleb. cbn [eltb eeqb altb aeqb Arith_R]. destruct (Rlt_dec a b), (Req_EM_T a b); cbn [orb]; split; intros; auto; try lra; discriminate.
Qed.
Lemma eltb_NaN_l x : eltb (A := R) NaN x = false. Proof. reflexivity. Qed.
Lemma eltb_NaN_r x : eltb (A := R) x NaN = false. Proof. now destruct x. Qed.
Lemma eleb_NaN_l x : eleb (A := R) NaN x = false. Proof. reflexivity. Qed.
Lemma eleb_NaN_r x : eleb (A := R) x NaN = false. Proof. unfold eleb. now destruct x. Qed.

Lemma up_mask_nth f s c i : 1 <= f -> 1 <= s -> i < List.length c ->
  exists b, nth_error (up_mask f s c) i = Some b /\ (b = true <-> up_crossing f s c i).
Proof.
  intros Hf Hs Hi. unfold up_mask. rewrite !zipw_nth, !shift1_nth by (rewrite rolling_length; lia). rewrite !ma_nth by auto. destruct i as [|j].
  - eexists. split; [reflexivity|]. cbn [andb eleb eltb eeqb]. split; [discriminate|]. intros (j & ? & ? & ? & ? & ? & _). discriminate.
  - rewrite !ma_nth by lia. eexists. split; [reflexivity|]. rewrite andb_true_iff. split.
    + destruct (moving_average f c j) as [f0|] eqn:E1; [|rewrite eleb_NaN_l; intros []; discriminate].
      destruct (moving_average s c j) as [s0|] eqn:E2; [|rewrite eleb_NaN_r; intros []; discriminate].
      destruct (moving_average f c (S j)) as [f1|] eqn:E3; [|rewrite eltb_NaN_r; intros []; discriminate].
      destruct (moving_average s c (S j)) as [s1|] eqn:E4; [|rewrite eltb_NaN_l; intros []; discriminate].
      rewrite eleb_R, eltb_R. intros [H1 H2]. exists j, f0, s0, f1, s1. repeat split; auto.
    + intros (j' & f0 & s0 & f1 & s1 & E & E1 & E2 & E3 & E4 & H1 & H2). injection E as <-. rewrite E1, E2, E3, E4, eleb_R, eltb_R. auto.
Qed.
Lemma down_mask_nth f s c i : 1 <= f -> 1 <= s -> i < List.length c ->
  exists b, nth_error (down_mask f s c) i = Some b /\ (b = true <-> down_crossing f s c i).
Proof.
  intros Hf Hs Hi. unfold down_mask. rewrite !zipw_nth, !shift1_nth by (rewrite rolling_length; lia). rewrite !ma_nth by auto. destruct i as [|j].
  - eexists. split; [reflexivity|]. cbn [andb eleb eltb eeqb]. split; [discriminate|]. intros (j & ? & ? & ? & ? & ? & _). discriminate.
  - rewrite !ma_nth by lia. eexists. split; [reflexivity|]. rewrite andb_true_iff. split.
    + destruct (moving_average f c j) as [f0|] eqn:E1; [|rewrite eleb_NaN_r; intros []; discriminate].
      destruct (moving_average s c j) as [s0|] eqn:E2; [|rewrite eleb_NaN_l; intros []; discriminate].
      destruct (moving_average f c (S j)) as [f1|] eqn:E3; [|rewrite eltb_NaN_l; intros []; discriminate].
      destruct (moving_average s c (S j)) as [s1|] eqn:E4; [|rewrite eltb_NaN_r; intros []; discriminate].
      rewrite eleb_R, eltb_R. intros [H1 H2]. exists j, f0, s0, f1, s1. repeat split; auto.
    + intros (j' & f0 & s0 & f1 & s1 & E & E1 & E2 & E3 & E4 & H1 & H2). injection E as <-. rewrite E1, E2, E3, E4, eleb_R, eltb_R. auto.
Qed.
Lemma crossings_exclusive f s c i : up_crossing f s c i -> down_crossing f s c i -> False.
Proof.
  intros (j & f0 & s0 & f1 & s1 & E & E1 & E2 & E3 & E4 & H1 & H2) (j' & f0' & s0' & f1' & s1' & E' & E1' & E2' & E3' & E4' & H1' & H2').
  rewrite E3 in E3'. rewrite E4 in E4'. injection E3' as <-. injection E4' as <-. lra.
Qed.

(** The side by row, before filling. *)
Definition raw_side (f s : nat) (fill : bool) (c : list (ext R)) : list (ext R) :=
  zipw (fun (b : bool) (x : ext R) => if b then Fin 1%R else x) (up_mask f s c)
    (zipw (fun (b : bool) (x : ext R) => if b then Fin (-1)%R else x) (down_mask f s c) (map (fun _ => if fill then NaN else Fin 0%R) c)).
Lemma crossover_eq f s fill name X c : NoDup (f_index X) -> well_formed X -> lookup name X = Some c ->
  ma_crossover f s fill name X = Ok (fillna0 (ffill (raw_side f s fill c))).
Proof.
  intros Hd Hw E. pose proof (lookup_length _ _ _ Hw E) as Hl. unfold ma_crossover, column. rewrite E. cbn [bind]. cbv zeta. f_equal. f_equal. f_equal.
  unfold down_cross_indices, up_cross_indices. fold (up_mask f s c). fold (down_mask f s c).
  rewrite !loc_set_mask; auto; [|rewrite down_mask_length; auto|rewrite up_mask_length; auto]. unfold raw_side.
  f_equal. f_equal. assert (Hm : forall (v : ext R) (l : list Z) (l' : list (ext R)), List.length l' = List.length l -> map (fun _ => v) l = map (fun _ => v) l').
  { intros v. induction l as [|a l IH]; intros [|b l'] H; try discriminate; cbn; auto. f_equal. apply IH. now injection H. }
  now apply Hm.
Qed.
Lemma raw_side_nth f s fill c i : 1 <= f -> 1 <= s -> i < List.length c ->
  exists x, nth_error (raw_side f s fill c) i = Some x /\
    (up_crossing f s c i /\ x = Fin 1%R \/ down_crossing f s c i /\ x = Fin (-1)%R \/
     ~ up_crossing f s c i /\ ~ down_crossing f s c i /\ x = if fill then NaN else Fin 0%R).
Proof.
  intros Hf Hs Hi. unfold raw_side. rewrite !zipw_nth. destruct (up_mask_nth f s c i Hf Hs Hi) as (bu & Eu & Hu). destruct (down_mask_nth f s c i Hf Hs Hi) as (bd & Ed & Hdn).
  rewrite Eu, Ed, nth_error_map. destruct (nth_error c i) eqn:Ec; [|apply nth_error_None in Ec; lia]. cbn [option_map]. eexists. split; [reflexivity|].
  destruct bu; [left; split; auto; now apply Hu|]. destruct bd; [right; left; split; auto; now apply Hdn|]. right. right.
  repeat split; auto; intros H; [apply Hu in H|apply Hdn in H]; discriminate.
Qed.
Lemma side_length f s fill c : List.length (raw_side f s fill c) = List.length c.
Proof. unfold raw_side. rewrite !zipw_length, map_length, up_mask_length, down_mask_length. lia. Qed.

Lemma c39_plain f s name X c : 1 <= f -> 1 <= s -> NoDup (f_index X) -> well_formed X -> lookup name X = Some c ->
  exists side, ma_crossover f s false name X = Ok (map Fin side) /\ List.length side = List.length (f_index X) /\
    forall i d, nth_error side i = Some d -> direction f s c i d.
Proof.
  intros Hf Hs Hd Hw E. rewrite (crossover_eq f s false name X c) by auto.
  assert (Hn : forall i x, nth_error (raw_side f s false c) i = Some x -> exists d, x = Fin d /\ direction f s c i d).
  { intros i x Hx. assert (Hi : i < List.length c) by (rewrite <- (side_length f s false c); apply nth_error_Some; congruence).
    destruct (raw_side_nth f s false c i Hf Hs Hi) as (y & Ey & H). rewrite Hx in Ey. injection Ey as <-. unfold direction.
    destruct H as [[H ->]|[[H ->]|[H1 [H2 ->]]]]; eexists; split; try reflexivity; auto. }
  assert (Hm : forall l, (forall i x, nth_error l i = Some x -> exists d, x = Fin d /\ direction f s c i d) ->
            exists ds, l = map Fin ds).
  { induction l as [|x l IH]; intros H; [now exists []|]. destruct (H 0 x eq_refl) as (d & -> & _).
    assert (Hl : forall i y, nth_error l i = Some y -> exists d, y = Fin d) by (intros i y Hy; destruct (H (S i) y Hy) as (d' & -> & _); eauto).
    clear - Hl. revert d. assert (Hg : exists ds, l = map Fin ds).
    { induction l as [|y l IHl]; [now exists []|]. destruct (Hl 0 y eq_refl) as (d & ->). destruct (IHl (fun i z Hz => Hl (S i) z Hz)) as (ds & ->). now exists (d :: ds). }
    destruct Hg as (ds & ->). intros d. now exists (d :: ds). }
  destruct (Hm _ Hn) as (ds & Eds). exists ds. rewrite Eds. split; [|split].
  - f_equal. assert (Hf0 : forall last l, ffill_from last (map Fin l) = map Fin l).
    { intros last l. revert last. induction l as [|a l IHl]; intros last; cbn [map ffill_from is_nan]; [reflexivity|]. now rewrite IHl. }
    unfold ffill. rewrite Hf0. unfold fillna0. rewrite map_map. reflexivity.
  - rewrite <- (lookup_length _ _ _ Hw E), <- (side_length f s false c), Eds. now rewrite map_length.
  - intros i d Hi. destruct (Hn i (Fin d)) as (d' & Ed & Hdir); [rewrite Eds, nth_error_map, Hi; reflexivity|]. now injection Ed as <-.
Qed.
Lemma c39_filled f s name X c : 1 <= f -> 1 <= s -> NoDup (f_index X) -> well_formed X -> lookup name X = Some c ->
  exists side, ma_crossover f s true name X = Ok (map Fin side) /\ List.length side = List.length (f_index X) /\
    forall i d, nth_error side i = Some d -> most_recent_direction f s c i d.
Proof.
  intros Hf Hs Hd Hw E. rewrite (crossover_eq f s true name X c) by auto. set (raw := raw_side f s true c).
  assert (Hlen : List.length raw = List.length c) by apply side_length.
  assert (Hdir : forall i, i < List.length c -> (nth_error raw i = Some NaN /\ direction f s c i 0) \/
            exists d, (d = 1 \/ d = -1)%R /\ nth_error raw i = Some (Fin d) /\ direction f s c i d).
  { intros i Hi. destruct (raw_side_nth f s true c i Hf Hs Hi) as (x & Ex & [[H ->]|[[H ->]|[H1 [H2 ->]]]]).
    - right. exists 1%R. unfold direction. split; [auto|split; auto 7].
    - right. exists (-1)%R. unfold direction. split; [auto|split; auto 7].
    - left. unfold direction. split; auto. }
  assert (Hrow : forall i, i < List.length c -> exists d, nth_error (fillna0 (ffill raw)) i = Some (Fin d) /\ most_recent_direction f s c i d).
  { intros i Hi. unfold fillna0, ffill. rewrite nth_error_map. destruct (ffill_nth raw NaN i ltac:(lia)) as [(j & x & H1 & H2 & H3 & H4 & ->)|[H1 ->]]; cbn [option_map].
    - rewrite H3. destruct (Hdir j ltac:(lia)) as [[En _]|(d & Hd1 & En & Hdd)]; rewrite H2 in En.
      + injection En as ->. discriminate.
      + injection En as ->. exists d. split; auto. left. exists j. repeat split; auto. intros k Hk. destruct (Hdir k ltac:(lia)) as [[_ H]|(d' & _ & En' & _)]; auto.
        rewrite (H4 k Hk) in En'. discriminate.
    - exists 0%R. split; auto. right. split; auto. intros k Hk. destruct (Hdir k ltac:(lia)) as [[_ H]|(d' & _ & En' & _)]; auto. rewrite (H1 k Hk) in En'. discriminate. }
  assert (Hl2 : List.length (fillna0 (ffill raw)) = List.length c) by (unfold fillna0, ffill; now rewrite map_length, ffill_length).
  assert (Hg : forall l, (forall i, i < List.length l -> exists d, nth_error l i = Some (Fin d)) -> exists ds : list R, l = map Fin ds).
  { induction l as [|y l IHl]; intros H; [now exists []|]. destruct (H 0 ltac:(cbn; lia)) as (d & Ey). injection Ey as ->.
    destruct (IHl (fun i Hi => H (S i) ltac:(cbn; lia))) as (ds & ->). now exists (d :: ds). }
  destruct (Hg (fillna0 (ffill raw))) as (ds & Eds). { intros i Hi. rewrite Hl2 in Hi. destruct (Hrow i Hi) as (d & Ed & _). eauto. }
  exists ds. rewrite Eds. split; auto. split.
  - rewrite <- (lookup_length _ _ _ Hw E), <- Hl2, Eds. now rewrite map_length.
  - intros i d Hi. assert (Hic : i < List.length c) by (rewrite <- Hl2, Eds, map_length; apply nth_error_Some; congruence).
    destruct (Hrow i Hic) as (d' & Ed & Hm). rewrite Eds, nth_error_map, Hi in Ed. cbn in Ed. injection Ed as <-. exact Hm.
Qed.

(** ** Look-ahead of the crossover *)
Lemma raw_side_firstn f s fill c n : raw_side f s fill (firstn n c) = firstn n (raw_side f s fill c).
Proof. unfold raw_side, up_mask, down_mask. push. reflexivity. Qed.
Lemma in_firstn {A} n (l : list A) x : In x (firstn n l) -> In x l.
Proof. intros H. rewrite <- (firstn_skipn n l). apply in_or_app. auto. Qed.
Lemma NoDup_firstn {A} n (l : list A) : NoDup l -> NoDup (firstn n l).
Proof.
  intros H. revert n. induction H as [|x l Hx Hl IH]; intros [|n]; cbn [firstn]; constructor; auto. intros Hin. apply Hx. now apply (in_firstn n).
Qed.
Lemma NoDup_skipn {A} n (l : list A) : NoDup l -> NoDup (skipn n l).
Proof. revert l. induction n as [|n IH]; intros [|x l] H; auto. cbn [skipn]. apply IH. now inversion H. Qed.
Lemma head_wf n X : well_formed X -> well_formed (head n X).
Proof.
  intros H c Hc. cbn [head f_cols f_index] in *. apply in_map_iff in Hc as (d & <- & Hd). cbn [snd]. rewrite !firstn_length, (H d Hd). reflexivity.
Qed.
Lemma drop_wf n X : well_formed X -> well_formed (drop n X).
Proof.
  intros H c Hc. cbn [drop f_cols f_index] in *. apply in_map_iff in Hc as (d & <- & Hd). cbn [snd]. rewrite !skipn_length, (H d Hd). reflexivity.
Qed.
Lemma crossover_causal f s fill name X n : well_formed X -> NoDup (f_index X) ->
  ma_crossover f s fill name (head n X) = match ma_crossover f s fill name X with Ok out => Ok (firstn n out) | Err e => Err e end.
Proof.
  intros Hw Hd. destruct (lookup name X) as [c|] eqn:E.
  - rewrite (crossover_eq f s fill name X c) by auto. rewrite (crossover_eq f s fill name (head n X) (firstn n c)).
    + rewrite raw_side_firstn. unfold fillna0, ffill. now rewrite ffill_firstn, firstn_map.
    + now apply NoDup_firstn.
    + now apply head_wf.
    + rewrite lookup_head, E. reflexivity.
  - unfold ma_crossover, column. rewrite lookup_head, E. reflexivity.
Qed.
Lemma crossover_forgets f s name X m : 1 <= f -> f <= s -> well_formed X -> NoDup (f_index X) ->
  match ma_crossover f s false name X, ma_crossover f s false name (drop m X) with
  | Ok out, Ok out' => skipn s out' = skipn (m + s) out
  | Err e, Err e' => e = e'
  | _, _ => False
  end.
Proof.
  intros Hf Hs Hw Hd. destruct (lookup name X) as [c|] eqn:E.
  - rewrite (crossover_eq f s false name X c) by auto. rewrite (crossover_eq f s false name (drop m X) (skipn m c));
      [|now apply NoDup_skipn|now apply drop_wf|rewrite lookup_drop, E; reflexivity].
    assert (Hz : forall c, fillna0 (ffill (raw_side f s false c)) = raw_side f s false c).
    { intros c0. assert (Hno : Forall (fun x => is_nan x = false) (raw_side f s false c0)).
      { apply Forall_forall. intros x Hx. apply In_nth_error in Hx as (i & Hx).
        assert (Hi : i < List.length c0) by (rewrite <- (side_length f s false c0); apply nth_error_Some; congruence).
        destruct (raw_side_nth f s false c0 i ltac:(lia) ltac:(lia) Hi) as (y & Ey & H). rewrite Hx in Ey. injection Ey as <-.
        destruct H as [[_ ->]|[[_ ->]|[_ [_ ->]]]]; reflexivity. }
      unfold ffill. generalize (NaN (A := R)) as last. induction Hno as [|x l Hx Hl IH]; intros last; [reflexivity|]. cbn [ffill_from]. rewrite Hx.
      unfold fillna0. cbn [map]. rewrite Hx. f_equal. apply IH. }
    rewrite !Hz. refine (proj2 (_ : agree m s _ _)). unfold raw_side.
    assert (Hr : forall w, 1 <= w <= s -> agree m (s - 1) (rolling w agg_mean c) (rolling w agg_mean (skipn m c))).
    { intros w Hw'. apply (agree_weaken m (w - 1)); [lia|]. apply (agree_rolling m w _ 0); [lia|]. apply agree_skipn. }
    assert (Hr1 : forall w, 1 <= w <= s -> agree m s (rolling w agg_mean c) (rolling w agg_mean (skipn m c))).
    { intros w Hw'. apply (agree_weaken m (s - 1)); [lia|auto]. }
    assert (Hr2 : forall w, 1 <= w <= s -> agree m s (shift1 (rolling w agg_mean c)) (shift1 (rolling w agg_mean (skipn m c)))).
    { intros w Hw'. replace s with ((s - 1) + 1) by lia. apply agree_shift1. auto. }
    unfold up_mask, down_mask. repeat apply agree_zipw; auto; try (apply Hr1; lia); try (apply Hr2; lia). rewrite <- skipn_map. apply agree_skipn.
  - unfold ma_crossover, column. rewrite lookup_drop, E. reflexivity.
Qed.

(** With repeated labels a later crossing also changes an earlier row. *)
Definition two_bars : frame := {| f_index := [0; 1; 1]%Z; f_cols := [("close"%string, [Fin 1%R; Fin 1%R; Fin 2%R])] |}.
Lemma crossover_duplicates :
  ma_crossover 1 2 false "close" two_bars = Ok [Fin 0%R; Fin 1%R; Fin 1%R] /\
  ma_crossover 1 2 false "close" (head 2 two_bars) = Ok [Fin 0%R; Fin 0%R].
Proof.
  assert (E1 : mean [1]%R = 1%R) by (unfold mean, lsum; cbn; lra). assert (E2 : mean [2]%R = 2%R) by (unfold mean, lsum; cbn; lra).
  assert (E3 : mean [1; 1]%R = 1%R) by (unfold mean, lsum; cbn; lra). assert (E4 : mean [1; 2]%R = (3 / 2)%R) by (unfold mean, lsum; cbn; lra).
  assert (R1 : rolling 1 agg_mean [Fin 1%R; Fin 1%R; Fin 2%R] = [Fin 1%R; Fin 1%R; Fin 2%R]).
  { unfold rolling. cbn [List.length seq map]. unfold slice, finite_vals. cbn. unfold agg_mean. now rewrite E1, E2. }
  assert (R2 : rolling 2 agg_mean [Fin 1%R; Fin 1%R; Fin 2%R] = [NaN; Fin 1%R; Fin (3 / 2)%R]).
  { unfold rolling. cbn [List.length seq map]. unfold slice, finite_vals. cbn. unfold agg_mean. now rewrite E3, E4. }
  assert (L1 : forall a b : R, (a < b)%R -> eltb (Fin a) (Fin b) = true) by (intros; now apply eltb_R).
  assert (L2 : forall a b : R, ~ (a < b)%R -> eltb (Fin a) (Fin b) = false) by (intros a b H; destruct (eltb (Fin a) (Fin b)) eqn:E; auto; apply eltb_R in E; contradiction).
  assert (L3 : forall a b : R, (a <= b)%R -> eleb (Fin a) (Fin b) = true) by (intros; now apply eleb_R).
  assert (U : up_mask 1 2 [Fin 1%R; Fin 1%R; Fin 2%R] = [false; false; true]).
  { unfold up_mask. rewrite R1, R2. unfold shift1, zipw. cbn [List.length firstn combine map fst snd]. rewrite eleb_NaN_l, eleb_NaN_r. rewrite (L3 1 1)%R by lra. rewrite (L1 (3/2) 2)%R by lra. reflexivity. }
  assert (D : down_mask 1 2 [Fin 1%R; Fin 1%R; Fin 2%R] = [false; false; false]).
  { unfold down_mask. rewrite R1, R2. unfold shift1, zipw. cbn [List.length firstn combine map fst snd]. rewrite !eleb_NaN_l. rewrite (L2 2 (3/2))%R by lra. rewrite !andb_false_r. reflexivity. }
  split.
  - unfold ma_crossover. cbn [column lookup two_bars f_cols f_index find fst snd String.eqb Ascii.eqb Bool.eqb option_map bind]. cbv zeta.
    unfold up_cross_indices, down_cross_indices. fold (up_mask 1 2 [Fin 1%R; Fin 1%R; Fin 2%R]). fold (down_mask 1 2 [Fin 1%R; Fin 1%R; Fin 2%R]). rewrite U, D. reflexivity.
  - rewrite (crossover_eq 1 2 false "close" (head 2 two_bars) (firstn 2 [Fin 1%R; Fin 1%R; Fin 2%R])).
    + rewrite raw_side_firstn. unfold raw_side. rewrite U, D. reflexivity.
    + cbn. repeat constructor; cbn; intuition lia.
    + intros c Hc. cbn in Hc. destruct Hc as [<-|[]]. reflexivity.
    + reflexivity.
Qed.
