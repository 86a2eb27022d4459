(** Proofs for get_daily_vol. *)
From Coq Require Import Reals Lra.
From Verif Require Import PreludeFacts Series Causal Boot_Model Boot_Proofs DailyVol_Model Cusum_Proofs Weights_Proofs2.
Local Open Scope nat_scope.

Lemma filter_length_le {A} (f : A -> bool) l : length (filter f l) <= length l.
Proof. induction l as [|x l IH]; cbn; auto. destruct (f x); cbn; lia. Qed.

Lemma incZ_cons x l : increasingZ (x :: l) <-> increasingZ l /\ forall y, In y l -> (x < y)%Z.
Proof.
  unfold increasingZ. split.
  - intros HS. inversion HS as [|? ? HS' HF]. subst. rewrite Forall_forall in HF. auto.
  - intros [HS HF]. constructor; auto. now apply Forall_forall.
Qed.

Lemma incZ_app l m : increasingZ (l ++ m) <-> increasingZ l /\ increasingZ m /\ forall x y, In x l -> In y m -> (x < y)%Z.
Proof.
  induction l as [|a l IH]; cbn [app].
  - split; [|tauto]. intros. repeat split; auto. constructor. easy.
  - rewrite !incZ_cons, IH. split.
    + intros ((H1 & H2 & H3) & H4). repeat split; auto; try (intros; apply H4; apply in_or_app; tauto).
      intros x y [->|Hx] Hy; [apply H4; apply in_or_app; tauto|auto].
    + intros ((H1 & H2) & H3 & H4). repeat split; auto.
      * intros x y Hx Hy. apply H4; cbn; auto.
      * intros y Hy. apply in_app_or in Hy as [Hy|Hy]; [auto|apply H4; cbn; auto].
Qed.

Lemma incZ_nth_inj l i j x : increasingZ l -> nth_error l i = Some x -> nth_error l j = Some x -> i = j.
Proof.
  intros HS Hi Hj. apply increasingZ_NoDup in HS. rewrite NoDup_nth_error in HS. apply HS.
  - apply nth_error_Some. congruence.
  - congruence.
Qed.

Lemma position_nth l : increasingZ l -> forall k t, nth_error l k = Some t -> position t l = Some k.
Proof.
  induction l as [|x l IH]; intros HS k t Hk; [now destruct k|]. apply incZ_cons in HS as [HS Hx].
  destruct k as [|k]; cbn in *.
  - injection Hk as ->. now rewrite Z.eqb_refl.
  - assert (In t l) by eauto using nth_error_In. specialize (Hx t H).
    destruct (Z.eqb_spec t x); [lia|]. now rewrite (IH HS k t).
Qed.

Lemma filter_lt_firstn l v : increasingZ l -> filter (fun t => t <? v)%Z l = firstn (searchsorted l v) l.
Proof.
  unfold searchsorted. induction l as [|x l IH]; intros HS; auto. apply incZ_cons in HS as [HS Hx]. cbn [filter].
  destruct (Z.ltb_spec x v).
  - cbn [length firstn]. now rewrite IH at 1.
  - assert (filter (fun t => t <? v)%Z l = []) as ->; [|reflexivity].
    clear IH HS. induction l as [|y l IH]; auto. cbn. pose proof (Hx y (or_introl eq_refl)).
    destruct (Z.ltb_spec y v); [lia|]. apply IH. intros; apply Hx. now right.
Qed.

Lemma searchsorted_mono l u v : (u <= v)%Z -> searchsorted l u <= searchsorted l v.
Proof.
  intros H. unfold searchsorted. induction l as [|x l IH]; cbn; auto.
  destruct (Z.ltb_spec x u); destruct (Z.ltb_spec x v); cbn; try lia.
Qed.

Lemma searchsorted_pos l v : 0 < searchsorted l v <-> exists u, In u l /\ (u < v)%Z.
Proof.
  unfold searchsorted. split.
  - intros H. destruct (filter _ l) as [|u r] eqn:E; [cbn in H; lia|]. exists u.
    assert (In u (filter (fun t => t <? v)%Z l)) by (rewrite E; now left). apply filter_In in H0. split; [tauto|]. lia.
  - intros (u & Hu & Hlt). destruct (filter _ l) as [|w r] eqn:E; [|cbn; lia].
    assert (In u (filter (fun t => t <? v)%Z l)) by (apply filter_In; split; auto; lia). rewrite E in H. easy.
Qed.

(** The reference bar. *)
Lemma searchsorted_ref l v p : increasingZ l -> searchsorted l v = S p ->
  exists u, nth_error l p = Some u /\ (u < v)%Z /\ forall u', In u' l -> (u' < v)%Z -> (u' <= u)%Z.
Proof.
  intros HS Hp. pose proof (filter_lt_firstn l v HS) as E. rewrite Hp in E.
  assert (Hlen : S p <= length l).
  { rewrite <- Hp. unfold searchsorted. apply filter_length_le. }
  destruct (nth_error l p) as [u|] eqn:Eu; [|apply nth_error_None in Eu; lia].
  exists u. split; auto.
  assert (Hin : In u (firstn (S p) l)).
  { apply nth_error_In with p. rewrite <- Eu. 
    transitivity (nth_error (firstn (S p) l ++ skipn (S p) l) p); [|now rewrite firstn_skipn].
    rewrite nth_error_app1; auto. rewrite firstn_length. lia. }
  split.
  - rewrite <- E in Hin. apply filter_In in Hin as [_ Hin]. lia.
  - intros u' Hu' Hlt. assert (In u' (firstn (S p) l)) as H'.
    { rewrite <- E. apply filter_In. split; auto. lia. }
    apply In_nth_error in H' as [q Hq].
    assert (q < S p).
    { assert (q < length (firstn (S p) l)) by (apply nth_error_Some; congruence). rewrite firstn_length in H. lia. }
    assert (nth_error l q = Some u') as Hq'.
    { rewrite <- (firstn_skipn (S p) l). rewrite nth_error_app1; auto. apply nth_error_Some. congruence. }
    destruct (Nat.eq_dec q p) as [->|Hne]; [rewrite Eu in Hq'; injection Hq' as ->; lia|].
    assert (q < p) by lia. pose proof (incZ_nth_lt l HS q p u' u Hq' Eu ltac:(lia)). lia.
Qed.

(** Positive entries of a non-decreasing list of naturals form a suffix. *)
Lemma filter_pos_suffix (l : list nat) : (forall i j a b, i <= j -> nth_error l i = Some a -> nth_error l j = Some b -> a <= b) ->
  filter (fun p => Nat.ltb 0 p) l = skipn (length l - length (filter (fun p => Nat.ltb 0 p) l)) l.
Proof.
  induction l as [|x l IH]; intros H; auto.
  assert (Hl : forall i j a b, i <= j -> nth_error l i = Some a -> nth_error l j = Some b -> a <= b).
  { intros i j a b Hij Hi Hj. apply (H (S i) (S j)); auto; lia. }
  cbn [filter]. destruct (Nat.ltb_spec 0 x).
  - assert (filter (fun p => Nat.ltb 0 p) l = l) as E.
    { assert (Hall : forall y, In y l -> 0 < y).
      { intros y Hy. apply In_nth_error in Hy as [k Hk]. specialize (H 0 (S k) x y ltac:(lia) eq_refl Hk). lia. }
      clear - Hall. induction l as [|y l IH]; auto. cbn [filter]. pose proof (Hall y (or_introl eq_refl)).
      destruct (Nat.ltb_spec 0 y); [|lia]. f_equal. apply IH. intros; apply Hall. now right. }
    cbn [length]. rewrite E, Nat.sub_diag. reflexivity.
  - pose proof (filter_length_le (fun p => Nat.ltb 0 p) l).
    cbn [length]. replace (S (length l) - length (filter (fun p => Nat.ltb 0 p) l)) with
      (S (length l - length (filter (fun p => Nat.ltb 0 p) l))) by lia. cbn [skipn]. auto.
Qed.

Section Generic.
  Context {A : Type} `{Arith A}.

  Lemma loc_value_nth idx (vals : list (ext A)) k t v : increasingZ idx ->
    nth_error idx k = Some t -> nth_error vals k = Some v -> loc_value idx vals t = Ok v.
  Proof.
    intros HS Hk Hv. unfold loc_value. rewrite (position_nth _ HS _ _ Hk). now apply get_Ok.
  Qed.

  Lemma nth_error_skipn {B} (l : list B) m j : nth_error (skipn m l) j = nth_error l (m + j).
  Proof. revert l. induction m as [|m IH]; intros [|x l]; cbn; auto. now destruct j. Qed.

  Lemma nth_some {B} (l : list B) k : k < length l -> exists x, nth_error l k = Some x.
  Proof. intros Hk. destruct (nth_error l k) eqn:E; [eauto|]. apply nth_error_None in E. lia. Qed.

  Lemma c31 idx (close : list (ext A)) : increasingZ idx -> length close = length idx ->
    exists r m, daily_returns idx close = Ok r /\ m <= length idx /\ map fst r = skipn m idx /\
      (forall k t, nth_error idx k = Some t ->
         (k < m <-> forall u, In u idx -> ~ (u < t - one_day)%Z)) /\
      (forall k t c, nth_error idx k = Some t -> nth_error close k = Some c -> m <= k ->
         exists j u d, nth_error idx j = Some u /\ (u < t - one_day)%Z /\
           (forall u', In u' idx -> (u' < t - one_day)%Z -> (u' <= u)%Z) /\
           nth_error close j = Some d /\
           nth_error r (k - m) = Some (t, esub (ediv c d) (Fin a1))).
  Proof.
    intros HS HL. unfold daily_returns.
    set (pos := map (fun t => searchsorted idx (t - one_day)) idx).
    set (fl := filter (fun p => Nat.ltb 0 p) pos).
    assert (Hpl : length pos = length idx) by (unfold pos; apply map_length).
    assert (Hfl : length fl <= length idx) by (rewrite <- Hpl; apply filter_length_le).
    set (m := length idx - length fl).
    assert (Hmono : forall i j a b, i <= j -> nth_error pos i = Some a -> nth_error pos j = Some b -> a <= b).
    { intros i j a b Hij Hi Hj. unfold pos in *. rewrite nth_error_map in Hi, Hj.
      destruct (nth_error idx i) as [ti|] eqn:Ei; [|discriminate]. destruct (nth_error idx j) as [tj|] eqn:Ej; [|discriminate].
      cbn in Hi, Hj. injection Hi as <-. injection Hj as <-. apply searchsorted_mono.
      pose proof (incZ_nth_le idx HS i j ti tj Ei Ej). lia. }
    assert (Hsuf : fl = skipn m pos).
    { unfold m, fl. rewrite <- Hpl. now apply filter_pos_suffix. }
    (* positions *)
    assert (Hposk : forall k t, nth_error idx k = Some t -> nth_error pos k = Some (searchsorted idx (t - one_day))).
    { intros k t Hk. unfold pos. now rewrite nth_error_map, Hk. }
    assert (Hm : forall k t, nth_error idx k = Some t -> (k < m <-> searchsorted idx (t - one_day) = 0)).
    { intros k t Hk. split; intros Hlt.
      - destruct (searchsorted idx (t - one_day)) as [|p] eqn:E; auto. exfalso.
        (* then all later are positive: the filter has at least n - k entries *)
        assert (length idx - k <= length fl); [|lia].
        assert (Hall : forall y, In y (skipn k pos) -> Nat.ltb 0 y = true).
        { intros y Hy. apply In_nth_error in Hy as [j Hj]. rewrite nth_error_skipn in Hj.
          pose proof (Hmono k (k + j) _ _ ltac:(lia) (Hposk k t Hk) Hj). apply Nat.ltb_lt. lia. }
        unfold fl. rewrite <- (firstn_skipn k pos), filter_app, app_length.
        assert (filter (fun p => Nat.ltb 0 p) (skipn k pos) = skipn k pos) as ->.
        { clear - Hall. induction (skipn k pos) as [|y l IH]; auto. cbn [filter]. rewrite (Hall y (or_introl eq_refl)). f_equal.
          apply IH. intros; apply Hall. now right. }
        rewrite skipn_length. lia.
      - destruct (Nat.lt_ge_cases k m) as [|Hge]; auto. exfalso.
        assert (In (searchsorted idx (t - one_day)) fl) as Hin.
        { rewrite Hsuf. apply nth_error_In with (k - m). rewrite nth_error_skipn.
          replace (m + (k - m)) with k by lia. auto. }
        unfold fl in Hin. apply filter_In in Hin as [_ Hin]. apply Nat.ltb_lt in Hin. lia. }
    assert (Hfk : forall k t, nth_error idx k = Some t -> m <= k -> nth_error fl (k - m) = Some (searchsorted idx (t - one_day))).
    { intros k t Hk Hge. rewrite Hsuf, nth_error_skipn. replace (m + (k - m)) with k by lia. auto. }
    (* the three look-ups succeed *)
    assert (E1 : mapM (fun p => get idx (p - 1)) fl = Ok (map (fun p => nth (p - 1) idx 0%Z) fl)).
    { apply mapM_ok_map. intros p Hp. unfold fl in Hp. apply filter_In in Hp as [Hp1 Hp2]. apply Nat.ltb_lt in Hp2.
      unfold pos in Hp1. apply in_map_iff in Hp1 as (t & <- & _).
      assert (searchsorted idx (t - one_day) <= length idx) by apply filter_length_le.
      unfold get. rewrite (nth_error_nth' idx 0%Z) by lia. reflexivity. }
    rewrite E1. cbn [bind]. fold m.
    assert (Hval : forall t, In t idx -> exists v, loc_value idx close t = Ok v /\
        forall k, nth_error idx k = Some t -> nth_error close k = Some v).
    { intros t Ht. apply In_nth_error in Ht as [k Hk].
      assert (k < length close) by (rewrite HL; apply nth_error_Some; congruence).
      destruct (nth_some close k H0) as [v Hv]. exists v. split; [eapply loc_value_nth; eauto|].
      intros k' Hk'. replace k' with k; auto. eapply incZ_nth_inj; eauto. }
    assert (forall l, (forall t, In t l -> In t idx) -> exists vs, mapM (loc_value idx close) l = Ok vs) as Hmap.
    { induction l as [|t l IH]; intros Hin; [exists []; auto|]. destruct IH as [vs Hvs]; [intros; apply Hin; now right|].
      destruct (Hval t (Hin t (or_introl eq_refl))) as (v & Hv & _). exists (v :: vs). cbn. now rewrite Hv, Hvs. }
    assert (Hsk : forall t, In t (skipn m idx) -> In t idx).
    { intros t Ht. rewrite <- (firstn_skipn m idx). apply in_or_app. auto. }
    destruct (Hmap (skipn m idx) Hsk) as [cur Hcur]. rewrite Hcur. cbn [bind].
    destruct (Hmap (map (fun p => nth (p - 1) idx 0%Z) fl)) as [ref Href].
    { intros t Ht. apply in_map_iff in Ht as (p & <- & Hp). unfold fl in Hp. apply filter_In in Hp as [Hp1 Hp2].
      apply Nat.ltb_lt in Hp2. unfold pos in Hp1. apply in_map_iff in Hp1 as (t & <- & _).
      assert (searchsorted idx (t - one_day) <= length idx) by apply filter_length_le. apply nth_In. lia. }
    rewrite Href. cbn [bind].
    eexists _, m. split; [reflexivity|]. split; [unfold m; lia|].
    pose proof (mapM_length _ _ _ Hcur) as Lcur. pose proof (mapM_length _ _ _ Href) as Lref.
    rewrite skipn_length in Lcur. rewrite map_length in Lref.
    assert (Lfl : length fl = length idx - m) by (unfold m; lia).
    split; [|split].
    - apply map_fst_combine. unfold zipw. rewrite !map_length, combine_length, skipn_length. lia.
    - intros k t Hk. rewrite (Hm k t Hk). split.
      + intros E u Hu Hlt. assert (0 < searchsorted idx (t - one_day)); [|lia]. apply searchsorted_pos. eauto.
      + intros Hno. destruct (searchsorted idx (t - one_day)) as [|p] eqn:E; auto. exfalso.
        assert (0 < searchsorted idx (t - one_day)) as Hp by lia. apply searchsorted_pos in Hp as (u & Hu & Hlt). eapply Hno; eauto.
    - intros k t c Hk Hc Hge.
      assert (searchsorted idx (t - one_day) <> 0) as Hnz by (rewrite <- (Hm k t Hk); lia).
      destruct (searchsorted idx (t - one_day)) as [|p] eqn:Ep; [congruence|].
      destruct (searchsorted_ref idx _ p HS Ep) as (u & Hu & Hlt & Hmax).
      assert (p < length close) as Hpc by (rewrite HL; apply nth_error_Some; congruence).
      destruct (nth_some close p Hpc) as [d Hd]. exists p, u, d. repeat split; auto.
      assert (nth_error cur (k - m) = Some c) as Ec.
      { assert (nth_error (skipn m idx) (k - m) = Some t) as Hk' by (rewrite nth_error_skipn; replace (m + (k - m)) with k by lia; auto).
        destruct (mapM_nth _ _ _ _ _ Hcur Hk') as (v & Hv & Hl). rewrite Hv. f_equal.
        rewrite (loc_value_nth idx close k t c) in Hl by auto. congruence. }
      assert (nth_error ref (k - m) = Some d) as Ed.
      { assert (nth_error (map (fun p => nth (p - 1) idx 0%Z) fl) (k - m) = Some u) as Hk'.
        { rewrite nth_error_map, (Hfk k t Hk Hge), Ep. cbn. rewrite Nat.sub_0_r. f_equal. now apply nth_error_nth. }
        destruct (mapM_nth _ _ _ _ _ Href Hk') as (v & Hv & Hl). rewrite Hv. f_equal.
        rewrite (loc_value_nth idx close p u d) in Hl by auto. congruence. }
      apply nth_error_combine.
      + rewrite nth_error_skipn. replace (m + (k - m)) with k by lia. auto.
      + rewrite nth_error_map. erewrite nth_error_zipw by eauto. reflexivity.
  Qed.
End Generic.

(** ** The exponentially weighted standard deviation *)

Lemma ewm_std_length span l : length (ewm_std span l) = length l.
Proof. unfold ewm_std. now rewrite map_length, seq_length. Qed.

Lemma ewm_std_causal span : causal (ewm_std span).
Proof.
  intros xs ys. unfold ewm_std. rewrite firstn_map, app_length, firstn_seq. rewrite Nat.min_l by lia.
  apply map_ext_in. intros k Hk. apply in_seq in Hk. unfold ewm_std_at.
  assert (ewm_obs span (xs ++ ys) k = ewm_obs span xs k) as ->; [|reflexivity].
  unfold ewm_obs. rewrite !flat_map_concat_map. f_equal. apply map_ext_in. intros j Hj. apply in_seq in Hj.
  rewrite nth_error_app1 by lia. reflexivity.
Qed.

Lemma ewm_std_nonneg span l k v : nth_error (ewm_std span l) k = Some v -> v = NaN \/ exists s, v = Fin s /\ (0 <= s)%R.
Proof.
  intros Hk. unfold ewm_std in Hk. rewrite nth_error_map in Hk. destruct (nth_error (seq 0 (length l)) k); [|discriminate].
  cbn in Hk. injection Hk as <-. unfold ewm_std_at. destruct (ewm_obs span l n) as [|o obs]; [auto|].
  destruct (Rlt_dec _ _); [|auto]. right. eexists. split; [reflexivity|]. apply sqrt_pos.
Qed.
