(** Proofs: crossings when prices move in one direction. *)
From Coq Require Import Reals Lra Lia ZArith String.
From Verif Require Import PreludeFacts Series Feat_Model Feat_Spec Feat_Proofs Feat_Proofs2 Feat_Proofs3 Feat_Proofs4 Feat_Proofs5 Feat_Proofs6 Feat_Proofs7 Feat_Proofs8 Direction_Spec Direction_Proofs3.
Local Open Scope nat_scope.

  Lemma ma_some c w i x : moving_average w (map Fin c) i = Some x -> 1 <= w -> i < List.length c /\ w <= i + 1 /\ x = avg w (row c) i.
  Proof.
    intros E Hw. destruct (Nat.lt_ge_cases i (List.length c)) as [L|L].
    - rewrite moving_average_fin in E by exact L. destruct (Nat.ltb_spec (i + 1) w); [discriminate|]. injection E as <-. auto.
    - exfalso. unfold moving_average, last_values in E. destruct (Nat.ltb_spec (i + 1) w) as [|Lw]; [discriminate|].
      assert (K : forall l, In NaN l -> all_numbers l = None).
      { induction l as [|x0 l IH]; [easy|]. intros [->|K]; [reflexivity|]. cbn [all_numbers]. destruct x0; try reflexivity. now rewrite IH. }
      rewrite K in E; [discriminate|]. apply in_map_iff. exists (w - 1). split; [|apply in_seq; lia]. apply nth_overflow. rewrite map_length. lia.
  Qed.

  Lemma rises_weak c n : always_rises (row c) n -> never_falls (row c) n.
  Proof. intros U p q Hpq. destruct (Nat.eq_dec p q) as [->|]; [lra|]. apply Rlt_le, U. lia. Qed.
  Lemma falls_weak c n : always_falls (row c) n -> never_rises (row c) n.
  Proof. intros U p q Hpq. destruct (Nat.eq_dec p q) as [->|]; [lra|]. apply Rlt_le, U. lia. Qed.

Section Cross.
  Variables (fast slow : nat) (c : list R).
  Hypothesis H : 1 <= fast <= slow.
  Lemma no_down i : never_falls (row c) (List.length c) -> ~ down_crossing fast slow (map Fin c) i.
  Proof.
    intros U (j & f0 & s0 & f1 & s1 & -> & A1 & A2 & A3 & A4 & A5 & A6). apply ma_some in A3; [|lia]. apply ma_some in A4; [|lia]. destruct A3 as (L & _ & ->), A4 as (_ & L' & ->).
    pose proof (avg_le fast slow (row c) (S j) H L' ltac:(intros p q Hpq; apply U; lia)). lra.
  Qed.
  Lemma no_up i : never_rises (row c) (List.length c) -> ~ up_crossing fast slow (map Fin c) i.
  Proof.
    intros U (j & f0 & s0 & f1 & s1 & -> & A1 & A2 & A3 & A4 & A5 & A6). apply ma_some in A3; [|lia]. apply ma_some in A4; [|lia]. destruct A3 as (L & _ & ->), A4 as (_ & L' & ->).
    pose proof (avg_le fast slow (fun k => - row c k)%R (S j) H L' ltac:(intros p q Hpq; specialize (U p q ltac:(lia)); lra)) as K.
    assert (O : forall w k, 1 <= w -> avg w (fun k => - row c k)%R k = (- avg w (row c) k)%R).
    { intros w k Hw. unfold avg, average. rewrite !trailing_length. unfold trailing. replace (rsum (map (fun k => - row c k)%R (rows_up_to w k))) with (- rsum (map (row c) (rows_up_to w k)))%R; [unfold Rdiv; lra|].
      generalize (rows_up_to w k). induction l as [|x l IH]; cbn [map]; [cbn; lra|]. rewrite !rsum_cons, <- IH. lra. }
    rewrite !O in K by lia. lra.
  Qed.
  Lemma no_up_rising i : always_rises (row c) (List.length c) -> ~ up_crossing fast slow (map Fin c) i.
  Proof.
    intros U (j & f0 & s0 & f1 & s1 & -> & A1 & A2 & A3 & A4 & A5 & A6). apply ma_some in A1; [|lia]. apply ma_some in A2; [|lia]. apply ma_some in A3; [|lia]. apply ma_some in A4; [|lia].
    destruct A1 as (_ & _ & ->), A2 as (L & L' & ->), A3 as (_ & _ & ->), A4 as (_ & _ & ->). destruct (Nat.eq_dec fast slow) as [->|]; [lra|].
    pose proof (avg_lt fast slow (row c) j ltac:(lia) L' ltac:(intros p q Hpq; apply U; lia)). lra.
  Qed.
End Cross.
Lemma avg_opp w g k : avg w (fun k => - g k)%R k = (- avg w g k)%R.
Proof.
  unfold avg, average. rewrite !trailing_length. unfold trailing. replace (rsum (map (fun k => - g k)%R (rows_up_to w k))) with (- rsum (map g (rows_up_to w k)))%R; [unfold Rdiv; lra|].
  generalize (rows_up_to w k). induction l as [|x l IH]; cbn [map]; [cbn; lra|]. rewrite !rsum_cons, <- IH. lra.
Qed.
Lemma no_down_falling fast slow c i : 1 <= fast <= slow -> always_falls (row c) (List.length c) -> ~ down_crossing fast slow (map Fin c) i.
Proof.
  intros H U (j & f0 & s0 & f1 & s1 & -> & A1 & A2 & A3 & A4 & A5 & A6). apply ma_some in A1; [|lia]. apply ma_some in A2; [|lia]. apply ma_some in A3; [|lia]. apply ma_some in A4; [|lia].
  destruct A1 as (_ & _ & ->), A2 as (L & L' & ->), A3 as (_ & _ & ->), A4 as (_ & _ & ->). destruct (Nat.eq_dec fast slow) as [->|]; [lra|].
  pose proof (avg_lt fast slow (fun k => - row c k)%R j ltac:(lia) L' ltac:(intros p q Hpq; specialize (U p q ltac:(lia)); lra)) as K. rewrite !avg_opp in K. lra.
Qed.

(** The sides, with or without filling: one of the crossings' directions. *)
Lemma sides_among fast slow fill name X c (P : R -> Prop) : 1 <= fast -> 1 <= slow -> NoDup (f_index X) -> well_formed X -> lookup name X = Some c ->
  P 0%R -> (forall i, up_crossing fast slow c i -> P 1%R) -> (forall i, down_crossing fast slow c i -> P (-1)%R) ->
  exists side, ma_crossover fast slow fill name X = Ok (map Fin side) /\ List.length side = List.length (f_index X) /\ Forall P side.
Proof.
  intros H1 H2 Hd Hw Hc P0 Pu Pd.
  assert (D : forall i d, direction fast slow c i d -> P d) by (intros i d [(K & ->)|[(K & ->)|(_ & _ & ->)]]; eauto).
  destruct fill.
  - destruct (c39_filled fast slow name X c H1 H2 Hd Hw Hc) as (side & E & L & S). exists side. split; [exact E|]. split; [exact L|]. apply Forall_forall. intros d Hin. apply In_nth_error in Hin. destruct Hin as (i & Hi).
    destruct (S i d Hi) as [(j & _ & _ & K & _)|(-> & _)]; eauto.
  - destruct (c39_plain fast slow name X c H1 H2 Hd Hw Hc) as (side & E & L & S). exists side. split; [exact E|]. split; [exact L|]. apply Forall_forall. intros d Hin. apply In_nth_error in Hin. destruct Hin as (i & Hi). eauto.
Qed.
Lemma crossover_direction fast slow fill name X c : 1 <= fast <= slow -> NoDup (f_index X) -> well_formed X -> has_column X name c ->
  exists side, ma_crossover fast slow fill name X = Ok (map Fin side) /\ List.length side = List.length (f_index X) /\
  (never_falls (row c) (List.length c) -> Forall (fun d => d = 0 \/ d = 1)%R side) /\
  (never_rises (row c) (List.length c) -> Forall (fun d => d = 0 \/ d = -1)%R side) /\
  (always_rises (row c) (List.length c) \/ always_falls (row c) (List.length c) -> Forall (fun d => d = 0)%R side).
Proof.
  intros H Hd Hw Hc.
  destruct (sides_among fast slow fill name X _ (fun _ => True) ltac:(lia) ltac:(lia) Hd Hw Hc I (fun _ _ => I) (fun _ _ => I)) as (side & E & L & _). exists side. split; [exact E|]. split; [exact L|].
  assert (G : forall P : R -> Prop, P 0%R -> (forall i, up_crossing fast slow (map Fin c) i -> P 1%R) -> (forall i, down_crossing fast slow (map Fin c) i -> P (-1)%R) -> Forall P side).
  { intros P P0 Pu Pd. destruct (sides_among fast slow fill name X _ P ltac:(lia) ltac:(lia) Hd Hw Hc P0 Pu Pd) as (side' & E' & _ & F). rewrite E in E'. injection E' as E'.
    assert (side = side'); [|now subst]. clear -E'. revert side' E'. induction side as [|x s IH]; intros [|x' s'] E; try discriminate; [reflexivity|]. injection E as -> E. f_equal. auto. }
  split; [|split].
  - intros U. apply G; auto. intros i K. now apply no_down in K.
  - intros U. apply G; auto. intros i K. now apply no_up in K.
  - intros [U|U]; apply G; auto; intros i K; exfalso; revert K.
    + now apply no_up_rising.
    + apply no_down; auto. now apply rises_weak.
    + apply no_up; auto. now apply falls_weak.
    + now apply no_down_falling.
Qed.

(** ** A market that starts to rise *)
Lemma avg_lt_some f s g i : 1 <= f < s -> s <= i + 1 -> never_falls g (S i) -> (g (i + 1 - s)%nat < g i)%R -> (avg s g i < avg f g i)%R.
Proof.
  intros (H1 & H2) H3 U K. revert H3 K. induction H2 as [|s H2 IH]; intros H3 K.
  - destruct (avg_S f g i H1 H3) as (_ & ->). assert (P : (0 < INR f)%R) by (apply lt_0_INR; lia).
    assert (G : (g (i - f)%nat < avg f g i)%R).
    { replace (i - f) with (i + 1 - S f) by lia. set (a := g (i + 1 - S f)) in *.
      assert (A : (forall x, In x (trailing f g i) -> a <= x)%R). { intros x Hx. destruct (trailing_in f g i x ltac:(lia) Hx) as (j & Hj & ->). apply U. lia. }
      assert (B : In (g i) (trailing f g i)). { unfold trailing, rows_up_to. rewrite map_map. apply in_map_iff. exists (f - 1). split; [f_equal; lia|apply in_seq; lia]. }
      unfold avg, average. assert (P' : (0 < INR (List.length (trailing f g i)))%R) by (rewrite trailing_length; exact P).
      apply (Rmult_lt_reg_r (INR (List.length (trailing f g i)))); [exact P'|]. unfold Rdiv. rewrite Rmult_assoc, Rinv_l, Rmult_1_r by lra. clear -A B K.
      induction (trailing f g i) as [|x v IH]; [destruct B|]. cbn [List.length]. rewrite S_INR, rsum_cons. pose proof (A x ltac:(now left)).
      assert (Av : (a * INR (List.length v) <= rsum v)%R).
      { clear -A. assert (A' : (forall x, In x v -> a <= x)%R) by (intros; apply A; now right). clear A. induction v as [|y v IH]; [cbn; lra|]. cbn [List.length]. rewrite S_INR, rsum_cons. pose proof (A' y ltac:(now left)). pose proof (IH ltac:(intros; apply A'; now right)). lra. }
      destruct B as [->|B]; [lra|]. pose proof (IH ltac:(intros; apply A; now right) B). lra. }
    apply (Rmult_lt_reg_r (INR f + 1)); [lra|]. unfold Rdiv. rewrite Rmult_assoc, Rinv_l by lra. lra.
  - destruct (Rlt_le_dec (g (i + 1 - s)) (g i)) as [L|L].
    + pose proof (IH ltac:(lia) L). pose proof (avg_step_le s g i ltac:(lia) H3 U). lra.
    + pose proof (avg_le f s g i ltac:(lia) ltac:(lia) U) as Q. assert (G : (avg (S s) g i < avg s g i)%R); [|lra].
      destruct (avg_S s g i ltac:(lia) H3) as (_ & ->). assert (P : (0 < INR s)%R) by (apply lt_0_INR; lia). replace (i - s) with (i + 1 - S s) by lia.
      assert (G : (g i <= avg s g i)%R). { apply average_ge; [apply trailing_ne; lia|]. intros x Hx. destruct (trailing_in s g i x ltac:(lia) Hx) as (j & Hj & ->). pose proof (U (i + 1 - s) j ltac:(lia)). lra. }
      apply (Rmult_lt_reg_r (INR s + 1)); [lra|]. unfold Rdiv. rewrite Rmult_assoc, Rinv_l by lra. lra.
Qed.
Lemma flat_avg w g j a : 1 <= w <= j + 1 -> (forall k, j + 1 - w <= k <= j -> g k = a) -> avg w g j = a.
Proof.
  intros H F. apply Rle_antisym.
  - assert (K : (- a <= avg w (fun k => - g k) j)%R); [|rewrite avg_opp in K; lra]. apply average_ge; [apply trailing_ne; lia|]. intros x Hx. destruct (trailing_in w _ j x ltac:(lia) Hx) as (k & Hk & ->). rewrite (F k Hk). lra.
  - apply average_ge; [apply trailing_ne; lia|]. intros x Hx. destruct (trailing_in w _ j x ltac:(lia) Hx) as (k & Hk & ->). rewrite (F k Hk). lra.
Qed.
Lemma first_change (P : nat -> Prop) (dec : forall k, {P k} + {~ P k}) j i : j < i -> ~ P j -> P i -> exists k, j < S k <= i /\ ~ P k /\ P (S k).
Proof.
  intros L Hj. induction L as [|i L IH]; intros Hi; [exists j; repeat split; auto; lia|]. destruct (dec i) as [D|D]; [destruct (IH D) as (k & K1 & K2 & K3); exists k; repeat split; auto; lia|exists i; repeat split; auto; lia].
Qed.
Lemma crossover_turn fast slow name X c i j : 1 <= fast < slow -> NoDup (f_index X) -> well_formed X -> has_column X name c ->
  never_falls (row c) (List.length c) -> slow <= j + 1 -> j < i < List.length c -> row c (j + 1 - slow) = row c j -> (row c (i + 1 - slow) < row c i)%R ->
  exists side, ma_crossover fast slow true name X = Ok (map Fin side) /\ nth_error side i = Some 1%R.
Proof.
  intros H Hd Hw Hc U Hj Hi Fl Ri. destruct (c39_filled fast slow name X (map Fin c) ltac:(lia) ltac:(lia) Hd Hw Hc) as (side & E & L & S). exists side. split; [exact E|].
  assert (Ls : List.length side = List.length c) by (rewrite L; rewrite <- (map_length (@Fin R) c); symmetry; eapply lookup_length; eauto).
  destruct (nth_error side i) as [d|] eqn:Ed; [|apply nth_error_None in Ed; lia]. f_equal.
  set (P := fun k => (avg slow (row c) k < avg fast (row c) k)%R).
  assert (Uk : forall k, k < List.length c -> never_falls (row c) (Datatypes.S k)) by (intros k Hk p q Hpq; apply U; lia).
  destruct (first_change P (fun k => Rlt_dec _ _) j i ltac:(lia)) as (k & Hk & K1 & K2).
  { unfold P. rewrite (flat_avg slow _ j (row c j)), (flat_avg fast _ j (row c j)); [lra|lia| |lia|]; intros k Hk; apply Rle_antisym; try (apply U; lia); rewrite <- Fl; apply U; lia. }
  { apply avg_lt_some; auto; [lia|apply Uk; lia]. }
  assert (Up : up_crossing fast slow (map Fin c) (Datatypes.S k)).
  { exists k, (avg fast (row c) k), (avg slow (row c) k), (avg fast (row c) (Datatypes.S k)), (avg slow (row c) (Datatypes.S k)). rewrite !moving_average_fin by lia.
    destruct (Nat.ltb_spec (k + 1) fast); [lia|]. destruct (Nat.ltb_spec (k + 1) slow); [lia|]. destruct (Nat.ltb_spec (Datatypes.S k + 1) fast); [lia|]. destruct (Nat.ltb_spec (Datatypes.S k + 1) slow); [lia|].
    unfold P in K1, K2. repeat split; lra. }
  assert (ND : forall q, ~ down_crossing fast slow (map Fin c) q) by (intros q; apply no_down; [lia|exact U]).
  destruct (S i d Ed) as [(q & Q1 & Qd & Q2 & _)|(_ & Q)].
  - destruct Qd as [->|Qd]; [reflexivity|]. subst d. destruct Q2 as [(_ & A)|[(A & _)|(_ & _ & A)]]; [lra|now apply ND in A|lra].
  - destruct (Q (Datatypes.S k) ltac:(lia)) as [(_ & A)|[(_ & A)|(A & _)]]; [lra|lra|contradiction].
Qed.
