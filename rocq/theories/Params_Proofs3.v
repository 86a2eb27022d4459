(** Parameters of estimators: what the constructors accept. *)
From Coq Require Import String QArith.
From Verif Require Import Prelude PreludeFacts Num Params_Model Params_Spec Params_Proofs Params_Proofs2.
Local Open Scope nat_scope.
Local Open Scope string_scope.

Lemma proper_construct c kw : proper c kw -> construct c kw = (do a <- init c (bound c kw) ;; Ok {| class_of := c; attributes := a |}).
Proof.
  intros (K & H1 & H2). unfold construct.
  replace (existsb _ kw) with false; [|symmetry; apply not_true_is_false; intros X; apply existsb_exists in X; destruct X as ([k v] & I & X)].
  - cbn [raise_if bind]. replace (existsb _ (parameters c)) with false; [reflexivity|].
    symmetry; apply not_true_is_false; intros X; apply existsb_exists in X; destruct X as ([k [v|]] & I & X); [discriminate|].
    cbn [snd fst] in X. apply negb_true_iff in X. specialize (H2 k I). rewrite <- has_name_iff in H2. congruence.
  - cbn [fst] in X. apply negb_true_iff in X. assert (Y : In k (map fst (parameters c))) by (apply H1; apply in_map_iff; now exists (k, v)).
    rewrite <- has_name_iff in Y. congruence.
Qed.
Lemma improper_rejected c kw : call kw -> ~ proper c kw -> construct c kw = Err TypeError.
Proof.
  intros K N. unfold construct. destruct (existsb _ kw) eqn:E1; [reflexivity|]. cbn [raise_if bind]. destruct (existsb _ (parameters c)) eqn:E2; [reflexivity|].
  exfalso. apply N. split; [exact K|]. split.
  - intros n I. apply in_map_iff in I. destruct I as ([k v] & <- & I). cbn [fst]. rewrite <- has_name_iff. destruct (has_name (parameters c) k) eqn:E; [reflexivity|].
    assert (X : existsb (fun kv => negb (has_name (parameters c) (fst kv))) kw = true) by (apply existsb_exists; exists (k, v); cbn; now rewrite E). congruence.
  - intros n I. rewrite <- has_name_iff. destruct (has_name kw n) eqn:E; [reflexivity|].
    match type of E2 with existsb ?f _ = _ => assert (X : existsb f (parameters c) = true) by (apply existsb_exists; exists (n, None); cbn; now rewrite E) end. congruence.
Qed.
Lemma proper_bound c kw n v : NoDup (map fst (parameters c)) -> proper c kw -> takes c kw n v -> bound c kw n = v.
Proof.
  intros D (K & H1 & H2) [I T]. unfold bound. destruct T as [J|[J L]].
  - now rewrite (In_assoc _ _ _ _ K J).
  - apply assoc_None in J. rewrite J. now rewrite (In_assoc _ _ _ _ D L).
Qed.
Lemma number_is v q : is_number v q -> exists x, number v = Some (Fin x) /\ x == q.
Proof.
  destruct v as [z|x|b| | |]; cbn; intros H; try contradiction; subst; eexists; split; reflexivity.
Qed.
Lemma less_is v w x y : is_number v x -> is_number w y -> less v w = Ok (if Qlt_le_dec x y then true else false).
Proof.
  intros Hv Hw. apply number_is in Hv, Hw. destruct Hv as (x' & Nv & Ex). destruct Hw as (y' & Nw & Ey). unfold less. rewrite Nv, Nw. f_equal.
  cbn. destruct (Qlt_le_dec x y) as [L|L].
  - apply negb_true_iff. apply not_true_iff_false. intros X. apply Qle_bool_iff in X. rewrite Ex, Ey in X. exact (Qlt_not_le _ _ L X).
  - apply negb_false_iff. apply Qle_bool_iff. now rewrite Ex, Ey.
Qed.

Lemma falsy_iff v : falsy v <-> truth v = false.
Proof.
  destruct v as [z|x|b|s| |o]; cbn.
  - rewrite negb_false_iff, Z.eqb_eq. reflexivity.
  - destruct x as [q| | |]; cbn; try (split; [intros (q & E & _)|]; discriminate). rewrite negb_false_iff. split.
    + intros (q' & E & H). injection E as <-. now apply Qeq_bool_iff.
    + intros H. exists q. split; auto. now apply Qeq_bool_iff.
  - reflexivity.
  - rewrite negb_false_iff, String.eqb_eq. reflexivity.
  - tauto.
  - split; [easy|discriminate].
Qed.
Lemma truthy_iff v : ~ falsy v <-> truth v = true.
Proof. rewrite falsy_iff. destruct (truth v); split; congruence. Qed.

Section Checks.
  Variable ta : string -> value -> list (string * value) -> result value.
  Lemma fast_slow c kw vf vs x y : c = MovingAverageCrossOver \/ c = ExponentialWeightedMovingAverageDifference -> proper c kw ->
    takes c kw "fast" vf -> takes c kw "slow" vs -> is_number vf x -> is_number vs y ->
    ((x <= y)%Q -> accepted (construct c kw)) /\ ((y < x)%Q -> construct c kw = Err ValueError).
  Proof.
    intros Hc P Tf Ts Nf Ns. rewrite (proper_construct _ _ P). destruct Hc as [-> | ->].
    - apply proper_bound in Tf; [|distinct|exact P]. apply proper_bound in Ts; [|distinct|exact P]. cbn [init MovingAverageCrossOver].
      fold MovingAverageCrossOver. rewrite Tf, Ts, (less_is _ _ _ _ Ns Nf). cbn [bind]. destruct (Qlt_le_dec y x) as [L|L]; cbn [raise_if bind].
      + split; [intros L'; exfalso; exact (Qlt_not_le _ _ L L')|reflexivity].
      + split; [intros _; eexists; reflexivity|intros L'; exfalso; exact (Qlt_not_le _ _ L' L)].
    - apply proper_bound in Tf; [|distinct|exact P]. apply proper_bound in Ts; [|distinct|exact P]. cbn [init ExponentialWeightedMovingAverageDifference].
      fold ExponentialWeightedMovingAverageDifference. rewrite Tf, Ts, (less_is _ _ _ _ Ns Nf). cbn [bind]. destruct (Qlt_le_dec y x) as [L|L]; cbn [raise_if bind].
      + split; [intros L'; exfalso; exact (Qlt_not_le _ _ L L')|reflexivity].
      + split; [intros _; eexists; reflexivity|intros L'; exfalso; exact (Qlt_not_le _ _ L' L)].
  Qed.
  Lemma macd_fast_slow kw vf vs x y : let c := MACDHistogramCrossOver ta in proper c kw ->
    takes c kw "fast_period" vf -> takes c kw "slow_period" vs -> is_number vf x -> is_number vs y ->
    ((x <= y)%Q -> (forall n v s, exists t, ta n v s = Ok t) -> accepted (construct c kw)) /\ ((y < x)%Q -> construct c kw = Err ValueError).
  Proof.
    cbv zeta. intros P Tf Ts Nf Ns. rewrite (proper_construct _ _ P).
    apply proper_bound in Tf; [|distinct|exact P]. apply proper_bound in Ts; [|distinct|exact P]. set (b := bound _ kw) in *. cbn [init MACDHistogramCrossOver].
    rewrite Tf, Ts, (less_is _ _ _ _ Ns Nf). cbn [bind]. destruct (Qlt_le_dec y x) as [L|L]; cbn [raise_if bind].
    - split; [intros L'; exfalso; exact (Qlt_not_le _ _ L L')|reflexivity].
    - split; [intros _ Ht|intros L'; exfalso; exact (Qlt_not_le _ _ L' L)]. destruct (Ht "MACD" (b "column_name") [("fastperiod", vf); ("slowperiod", vs); ("signalperiod", b "signal_period")]) as (t & ->).
      eexists. reflexivity.
  Qed.
  Lemma trend_lengths kw vm vw x y : let c := TrendScannerLabeling in proper c kw ->
    takes c kw "min_sample_length" vm -> takes c kw "look_forward_window" vw -> is_number vm x -> is_number vw y ->
    ((x < y)%Q -> accepted (construct c kw)) /\ ((y <= x)%Q -> construct c kw = Err AssertionError).
  Proof.
    cbv zeta. intros P Tf Ts Nf Ns. rewrite (proper_construct _ _ P).
    apply proper_bound in Tf; [|distinct|exact P]. apply proper_bound in Ts; [|distinct|exact P]. set (b := bound _ kw) in *. cbn [init TrendScannerLabeling].
    rewrite Tf, Ts, (less_is _ _ _ _ Nf Ns). cbn [bind]. destruct (Qlt_le_dec x y) as [L|L]; cbn [negb raise_if bind].
    - split; [intros _; eexists; reflexivity|intros L'; exfalso; exact (Qlt_not_le _ _ L L')].
    - split; [intros L'; exfalso; exact (Qlt_not_le _ _ L' L)|reflexivity].
  Qed.
  Lemma volume_types kw v : let c := BuySellImbalance in proper c kw -> takes c kw "volume_type" v ->
    (v = VStr "quote" \/ v = VStr "base" -> accepted (construct c kw)) /\ (v <> VStr "quote" -> v <> VStr "base" -> construct c kw = Err ValueError).
  Proof.
    cbv zeta. intros P T. rewrite (proper_construct _ _ P). apply proper_bound in T; [|distinct|exact P]. set (b := bound _ kw) in *. cbn [init BuySellImbalance]. rewrite T.
    destruct v as [z|x|k|s| |o]; try (split; [intros [E|E]; discriminate|intros _ _; try destruct x; reflexivity]).
    cbn [existsb same_value]. destruct (String.eqb_spec s "quote"); [|destruct (String.eqb_spec s "base")]; cbn [orb negb raise_if bind].
    - split; [intros _; eexists; reflexivity|congruence].
    - split; [intros _; eexists; reflexivity|congruence].
    - split; [intros [E|E]; injection E; contradiction|reflexivity].
  Qed.
  Lemma side_name kw m s : let c := TripleBarrierMethodLabeling in proper c kw -> takes c kw "metalabeling" m -> takes c kw "side_column_name" s ->
    (falsy m \/ ~ falsy s -> accepted (construct c kw)) /\ (~ falsy m -> falsy s -> construct c kw = Err AssertionError).
  Proof.
    cbv zeta. intros P Tm Ts. rewrite (proper_construct _ _ P). apply proper_bound in Tm; [|distinct|exact P]. apply proper_bound in Ts; [|distinct|exact P].
    set (b := bound _ kw) in *. cbn [init TripleBarrierMethodLabeling]. rewrite Tm, Ts, !truthy_iff, !falsy_iff.
    destruct (truth m), (truth s); cbn [andb negb raise_if bind]; split; try (intros [E|E]); try discriminate; intros; try (eexists; reflexivity); try reflexivity; discriminate.
  Qed.
  Lemma step_sizes kw d : let c := BetSizingFromProbabilities in proper c kw -> takes c kw "discretise" d ->
    (falsy d -> accepted (construct c kw)) /\
    (~ falsy d -> (takes c kw "step_size" VNone -> construct c kw = Err AssertionError) /\
      forall v q, takes c kw "step_size" v -> is_number v q -> ((0 < q < 1)%Q -> accepted (construct c kw)) /\ (~ (0 < q < 1)%Q -> construct c kw = Err AssertionError)).
  Proof.
    cbv zeta. intros P Td. rewrite (proper_construct _ _ P). apply proper_bound in Td; [|distinct|exact P].
    assert (B : forall v, takes BetSizingFromProbabilities kw "step_size" v -> bound BetSizingFromProbabilities kw "step_size" = v) by (intros v T; apply proper_bound in T; [exact T|distinct|exact P]).
    set (b := bound _ kw) in *. cbn [init BetSizingFromProbabilities]. rewrite Td, truthy_iff, falsy_iff. split; [intros ->; eexists; reflexivity|]. intros ->. split.
    - intros T. apply B in T. rewrite T. reflexivity.
    - intros v q T N. apply B in T. rewrite T. assert (Z0 : is_number (VInt 0) 0%Q) by reflexivity. assert (Z1 : is_number (VInt 1) 1%Q) by reflexivity.
      rewrite (less_is _ _ _ _ Z0 N), (less_is _ _ _ _ N Z1).
      assert (Tr : truth v = negb (Qeq_bool q 0)).
      { destruct v as [z|x|c| | |]; cbn in N; try contradiction; subst; cbn [truth]; [|reflexivity|destruct c; reflexivity]. f_equal. unfold Qeq_bool. cbn.
        rewrite Z.mul_1_r. destruct z; reflexivity. }
      rewrite Tr, negb_involutive. destruct (Qeq_bool q 0) eqn:E0; cbn [raise_if bind].
      + apply Qeq_bool_eq in E0. split; [intros [L _]; exfalso; rewrite E0 in L; exact (Qlt_irrefl 0 L)|reflexivity].
      + destruct (Qlt_le_dec 0 q) as [L0|L0]; cbn [bind].
        * destruct (Qlt_le_dec q 1) as [L1|L1]; cbn [negb raise_if bind]; [split; [intros _; eexists; reflexivity|tauto]|].
          split; [intros [_ L]; exfalso; exact (Qlt_not_le _ _ L L1)|reflexivity].
        * cbn [negb raise_if bind]. split; [intros [L _]; exfalso; exact (Qlt_not_le _ _ L L0)|reflexivity].
  Qed.

  Lemma less_incomparable a b : incomparable a b -> less a b = Err TypeError /\ less b a = Err TypeError.
  Proof. intros [H1 H2]. unfold less. destruct a, b; cbn in *; split; try reflexivity; tauto. Qed.
  Lemma incomparable_rejected c p q kw v w : In (c, (p, q)) (comparing ta) -> proper c kw -> takes c kw p v -> takes c kw q w -> incomparable v w ->
    construct c kw = Err TypeError.
  Proof.
    intros I P Tv Tw N. apply less_incomparable in N. destruct N as [N1 N2]. rewrite (proper_construct _ _ P).
    assert (D : NoDup (map fst (parameters c))) by (destruct I as [E|[E|[E|[E|[]]]]]; injection E as <- _ _; distinct).
    apply proper_bound in Tv; [|exact D|exact P]. apply proper_bound in Tw; [|exact D|exact P]. set (b := bound _ kw) in *.
    destruct I as [E|[E|[E|[E|[]]]]]; injection E as <- <- <-; cbn [init MovingAverageCrossOver ExponentialWeightedMovingAverageDifference MACDHistogramCrossOver TrendScannerLabeling];
      rewrite Tv, Tw, ?N1, ?N2; reflexivity.
  Qed.
  Lemma step_incomparable kw d v : let c := BetSizingFromProbabilities in proper c kw -> takes c kw "discretise" d -> ~ falsy d -> takes c kw "step_size" v ->
    ~ falsy v -> sort_of v <> Number -> construct c kw = Err TypeError.
  Proof.
    cbv zeta. intros P Td Dd Ts Hs Hk. apply truthy_iff in Hs. apply truthy_iff in Dd. rewrite (proper_construct _ _ P). apply proper_bound in Td; [|distinct|exact P]. apply proper_bound in Ts; [|distinct|exact P].
    set (b := bound _ kw) in *. cbn [init BetSizingFromProbabilities]. rewrite Td, Ts, Dd.
    destruct v as [z|x|c|s| |a]; cbn in Hk; try congruence; rewrite Hs; reflexivity.
  Qed.
  Lemma nan_accepted c kw v w : In (c, ("fast", "slow")) (comparing ta) -> proper c kw -> takes c kw "fast" v -> takes c kw "slow" w ->
    sort_of v = Number -> sort_of w = Number -> v = VFloat NaN \/ w = VFloat NaN -> accepted (construct c kw).
  Proof.
    intros I P Tv Tw Sv Sw N. rewrite (proper_construct _ _ P).
    assert (L : less w v = Ok false) by (destruct N as [-> | ->]; [destruct w as [| [] | | | |]|destruct v as [| [] | | | |]]; cbn in *; try reflexivity; discriminate).
    assert (D : NoDup (map fst (parameters c))) by (destruct I as [E|[E|[E|[E|[]]]]]; try discriminate; injection E as <-; distinct).
    apply proper_bound in Tv; [|exact D|exact P]. apply proper_bound in Tw; [|exact D|exact P]. set (b := bound _ kw) in *.
    destruct I as [E|[E|[E|[E|[]]]]]; try discriminate; injection E as <-; cbn [init MovingAverageCrossOver ExponentialWeightedMovingAverageDifference];
      rewrite Tv, Tw, L; eexists; reflexivity.
  Qed.
End Checks.
