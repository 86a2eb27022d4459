(** The loop of the sequential bootstrap in floating point. *)
From Coq Require Import Reals ZArith QArith Qreals Lia Lra List Permutation.
From Flocq Require Import Core.
From Verif Require Import Prelude PreludeFacts QSum QSumFacts Boot_Spec Boot_Model Boot_Proofs Boot_Proofs2 Double_Model Double_Spec Double_Proofs Double_Proofs2
  Double_Boot_Model Double_Boot_Proofs Double_Boot_Proofs2 Double_Boot_Proofs3.
Import ListNotations.
Local Open Scope R_scope.

Lemma all_some_R_map qs : all_some_R (map Some qs) = Some qs.
Proof. unfold all_some_R. induction qs as [|q qs IH]; [reflexivity|]. cbn in *. now rewrite IH. Qed.

Lemma nth_error_ext {A} (a b : list A) : (forall i, nth_error a i = nth_error b i) -> a = b.
Proof.
  revert b. induction a as [|x a IH]; intros [|y b] H; auto; try (specialize (H 0%nat); discriminate).
  f_equal; [specialize (H 0%nat); cbn in H; congruence|]. apply IH. intros i. apply (H (S i)).
Qed.

(** The rounded quotient has the ceiling of the exact one. *)
Lemma rounds_double_exact len u : (0 < u <= 2 ^ 62)%Z -> (0 <= len <= 2 ^ 52)%Z -> rounds_double len u = Z.to_nat (ceil_div len u).
Proof.
  intros [Hu Hu'] Hl. unfold rounds_double. f_equal. rewrite (ceil_div_eq len u Hu).
  set (n := ((len + u - 1) / u)%Z).
  assert (Hn : (u * (n - 1) < len <= u * n)%Z).
  { pose proof (Z.mod_pos_bound (len + u - 1) u Hu). pose proof (Z.div_mod (len + u - 1) u ltac:(lia)). fold n in H0. nia. }
  assert (Pu : 1 <= IZR u) by (apply IZR_le; lia).
  assert (n0 : (0 <= n <= 2 ^ 52)%Z) by nia.
  assert (Dn : is_double (IZR n)).
  { rewrite <- (Rmult_1_r (IZR n)), <- (Z2Nat.id n), <- INR_IZR_INZ by lia. change 1 with (bpow radix2 0). apply is_double_scaled; [|lia].
    rewrite Z2Nat.id by lia. lia. }
  set (x := IZR len / IZR u).
  assert (Hx : x * IZR u = IZR len) by (unfold x; field; lra).
  apply Zceil_imp. split.
  - destruct (Z.eq_dec len 0) as [->|Hne].
    { assert (n = 0%Z) as -> by nia. unfold x. replace (0 / IZR u) with (IZR 0) by (unfold Rdiv; lra).
      rewrite (to_double_id (IZR 0)) by exact Dn. apply IZR_lt. lia. }
    assert (A : IZR (n - 1) * IZR u + 1 <= IZR len) by (rewrite <- mult_IZR, <- plus_IZR; apply IZR_le; lia).
    assert (B : 1 <= IZR len <= 4503599627370496) by (split; apply IZR_le; lia).
    assert (Px : bpow radix2 (-1022) <= x).
    { apply Rle_trans with (bpow radix2 (-62)); [apply bpow_le; lia|]. change (bpow radix2 (-62)) with (/ 4611686018427387904).
      assert (IZR u <= 4611686018427387904) by (apply IZR_le; lia).
      apply Rmult_le_reg_r with (IZR u); [lra|]. rewrite Hx. apply Rle_trans with 1; [|lra].
      apply Rle_trans with (/ 4611686018427387904 * 4611686018427387904); [apply Rmult_le_compat_l; lra|lra]. }
    destruct (double_rel x Px) as (P & Lo & _). apply Rlt_le_trans with (x * (1 - eps64)); [|exact Lo].
    apply Rmult_lt_reg_r with (IZR u); [lra|]. replace (x * (1 - eps64) * IZR u) with (IZR len * (1 - eps64)) by (rewrite <- Hx; ring).
    unfold eps64. lra.
  - apply to_double_le_double; [exact Dn|]. apply Rmult_le_reg_r with (IZR u); [lra|]. rewrite Hx, <- mult_IZR. apply IZR_le. lia.
Qed.

Section Loop.
  Variable m : mat.
  Let T := nrows m.
  Let N := ncols m.
  Let cov := entry m.
  Hypothesis HT : (Z.of_nat (nrows m) <= 2 ^ 26)%Z.
  Hypothesis HN : (0 < ncols m)%nat.
  Hypothesis HN' : (Z.of_nat (ncols m) <= 2 ^ 22)%Z.
  Variable np_sum : list R -> R.
  Hypothesis Hsum : some_order np_sum.
  Variable uniform : nat -> nat -> list R.
  Hypothesis Hu : uniform_numbers uniform.
  Let U := computed m.

  Lemma U_untouched_d drawn extra j : (forall t, (t < T)%nat -> cov t j = true -> forall s, In s extra -> cov t s = false) ->
    U (drawn ++ extra) j = U drawn j.
  Proof.
    intros H. unfold U, computed. fold cov. fold T.
    assert (map (fun t => inverse_single (1 + count (cov t) (drawn ++ extra))) (rows_of T cov j) =
            map (fun t => inverse_single (1 + count (cov t) drawn)) (rows_of T cov j)) as ->; [|reflexivity].
    apply map_ext_in. intros t Ht. apply rows_of_In in Ht. destruct Ht as [Ht Hc].
    rewrite count_app. assert (count (cov t) extra = 0%nat) as ->; [|rewrite Nat.add_0_r; reflexivity].
    unfold count. destruct (filter (cov t) extra) as [|s l] eqn:Ef; [reflexivity|].
    assert (In s (filter (cov t) extra)) as Hs by (rewrite Ef; now left). apply filter_In in Hs. destruct Hs as [Hs Hcs].
    rewrite (H t Ht Hc s Hs) in Hcs. discriminate.
  Qed.
  Lemma inverse_single_1 : inverse_single 1 = 1.
  Proof. unfold inverse_single. cbn [INR]. rewrite to_single_1. replace (1 / 1) with 1 by lra. apply to_single_1. Qed.
  Lemma U_nil j : U [] j = 1.
  Proof.
    unfold U, computed. fold cov. fold T.
    assert (map (fun t => inverse_single (1 + count (cov t) [])) (rows_of T cov j) = repeat 1 (length (rows_of T cov j))) as ->.
    { induction (rows_of T cov j) as [|t l IH]; [reflexivity|]. cbn [map length repeat]. rewrite IH. f_equal. apply inverse_single_1. }
    pose proof (rows_le m HT j) as Hr. fold T cov in Hr.
    destruct (length (rows_of T cov j)) as [|k] eqn:E; [reflexivity|]. rewrite mean_ones; [reflexivity|lia|lia].
  Qed.

  Definition upd_d (boot : list nat) (j : nat) : option R :=
    mean_double (map (fun t => to_double (1 * conc_per_sample_single m boot t j)) (rows_of T cov j)).
  Lemma calc_update_map_d samples boot : calc_update_avg_unique_double m samples boot = map (upd_d boot) samples.
  Proof. reflexivity. Qed.
  Lemma upd_value_d boot j : rows_of T cov j <> [] -> upd_d boot j = Some (U boot j).
  Proof.
    intros Hne. unfold upd_d, U, computed. fold cov. fold T.
    assert (map (fun t => to_double (1 * conc_per_sample_single m boot t j)) (rows_of T cov j) =
            map (fun t => inverse_single (1 + count (cov t) boot)) (rows_of T cov j)) as ->.
    { apply map_ext_in. intros t Ht. apply rows_of_In in Ht. destruct Ht as [_ Hc].
      unfold conc_per_sample_single, partial_count. fold cov. rewrite Hc. fold (count (cov t) boot). rewrite Rmult_1_l.
      destruct (Nat.eqb_spec (count (cov t) boot) 0) as [E|E].
      - rewrite E. change (1 + 0)%nat with 1%nat. rewrite inverse_single_1. change (INR 1) with 1. rewrite to_single_1. apply to_double_id, is_double_1.
      - apply to_double_id. apply to_single_is_double. }
    destruct (mean_double _) eqn:E; [reflexivity|]. destruct (rows_of T cov j); [congruence|discriminate].
  Qed.

  Definition probabilities (drawn : list nat) : list R :=
    let us := map (U drawn) (seq 0 N) in map (fun q => to_double (q / np_sum us)) us.
  Definition enough (drawn : list nat) : Prop := (Z.of_nat (length drawn) <= 2 ^ 38)%Z.
  Lemma us_nonempty drawn : map (U drawn) (seq 0 N) <> [].
  Proof. intros E. apply map_eq_nil in E. unfold N in E. destruct (ncols m); [lia|discriminate]. Qed.
  Lemma probabilities_ok drawn : enough drawn ->
    let p := probabilities drawn in
    Forall is_double p /\ Forall (Rle (bpow radix2 (-62))) p /\ length p = N /\ rel (/ 2 ^ 28) (rsum p) 1 /\
    forall j q, nth_error p j = Some q -> rel (/ 2 ^ 20) q (Q2R (draw_probability T cov N drawn j)).
  Proof.
    intros Hd p. destruct (probability m HT np_sum drawn HN HN' Hd) as (A & B & C & D & E).
    - apply Hsum. apply us_nonempty.
    - do 4 (split; [assumption|]). intros j q Hj. unfold T, cov, N. rewrite <- (exact_probability m drawn j HN). now apply E.
  Qed.
  Lemma draw_ok drawn i size : enough drawn ->
    exists ch, choice_double uniform i (Some (probabilities drawn)) size = Ok (probabilities drawn, ch) /\
      ch = map (searchsorted (cdf (probabilities drawn))) (uniform i size) /\
      length ch = size /\ Forall (fun j => (j < N)%nat) ch.
  Proof.
    intros Hd. destruct (probabilities_ok drawn Hd) as (A & B0 & C & D & _). set (p := probabilities drawn) in *.
    assert (Forall (Rlt 0) p) as B by (eapply Forall_impl; [|exact B0]; cbn; intros a Ha; pose proof (bpow_gt_0 radix2 (-62)); lra).
    assert (p <> []) as Hne by (intros E; rewrite E in C; unfold N in C; cbn in C; lia).
    eexists. split; [apply choice_ok; auto|].
    - rewrite C. rewrite INR_IZR_INZ. apply IZR_le. unfold N. lia.
    - split; [reflexivity|]. destruct (Hu i size) as [L F]. split; [now rewrite map_length|].
      rewrite Forall_map. eapply Forall_impl; [|exact F]. cbn. intros x [_ Hx]. rewrite <- C. now apply searchsorted_range.
  Qed.

  Definition touches_d (rows : list nat) (j : nat) : Prop := exists t, In t rows /\ (t < T)%nat /\ cov t j = true.
  Record inv_d (st : dstate) : Prop := {
    inv_avg_d : exists qs, d_avg st = map Some qs /\ length qs = N /\
      forall j q, nth_error qs j = Some q -> ~ touches_d (d_impacted st) j -> q = U (d_boot st) j;
    inv_prob_d : d_impacted st = [] -> d_prob st = Some (probabilities (d_boot st))
  }.

  Lemma nth_map_seq (f : nat -> R) qs : length qs = N -> (forall j q, nth_error qs j = Some q -> q = f j) -> qs = map f (seq 0 N).
  Proof.
    intros HL H. apply nth_error_ext. intros j. rewrite nth_error_map. destruct (nth_error qs j) as [q|] eqn:E.
    - assert (j < N)%nat by (rewrite <- HL; apply nth_error_Some; congruence).
      rewrite (nth_error_nth' _ 0%nat), seq_nth by (rewrite ?seq_length; lia). cbn. f_equal. now apply H.
    - apply nth_error_None in E. assert (nth_error (seq 0 N) j = None) as -> by (apply nth_error_None; rewrite seq_length; lia). reflexivity.
  Qed.
  Lemma normalise_eq drawn qs : length qs = N -> (forall j q, nth_error qs j = Some q -> q = U drawn j) ->
    normalise_double np_sum (map Some qs) = Some (probabilities drawn).
  Proof.
    intros HL H. unfold normalise_double. rewrite all_some_R_map. cbn [option_map]. rewrite (nth_map_seq (U drawn) qs HL H). reflexivity.
  Qed.

  Lemma initial_inv_d : inv_d (initial_double np_sum m).
  Proof.
    unfold initial_double. assert (repeat (Some 1) (ncols m) = map Some (repeat 1 (ncols m))) as E.
    { generalize (ncols m). intros n. clear. induction n as [|k IH]; [reflexivity|]. simpl. now rewrite IH. }
    assert (forall j q, nth_error (repeat 1 (ncols m)) j = Some q -> q = U [] j) as H1.
    { intros j q Hj. apply nth_error_In, repeat_spec in Hj. now rewrite U_nil. }
    constructor; cbn.
    - exists (repeat 1 (ncols m)). rewrite E. split; [reflexivity|]. split; [apply repeat_length|]. intros j q Hj _. now apply H1.
    - intros _. rewrite E. apply normalise_eq; [apply repeat_length|exact H1].
  Qed.

  Variables (len u : Z).

  Lemma round_ok_d i st : inv_d st -> (forall t, In t (d_impacted st) -> (t < T)%nat) -> enough (d_boot st) ->
    let size := Z.to_nat (Z.min (len - Z.of_nat i * u) u) in
    let p := probabilities (d_boot st) in
    exists st' ch, round_double np_sum m uniform len u i st = Ok st' /\ inv_d st' /\ (forall t, In t (d_impacted st') -> (t < T)%nat) /\
      ch = map (searchsorted (cdf p)) (uniform i size) /\
      d_boot st' = d_boot st ++ ch /\ d_log st' = d_log st ++ [(p, ch)] /\
      length ch = size /\ Forall (fun j => (j < N)%nat) ch.
  Proof.
    intros [(qs & Havg & Hlen & Hqs) Hprob] Himp Hen size p. unfold round_double. fold size.
    assert (exists qs1, (if Nat.ltb 0 (length (d_impacted st)) then
        (assign_at (d_avg st) (np_unique (samples_on_rows m (np_unique (d_impacted st))))
           (calc_update_avg_unique_double m (np_unique (samples_on_rows m (np_unique (d_impacted st)))) (d_boot st)),
         normalise_double np_sum (assign_at (d_avg st) (np_unique (samples_on_rows m (np_unique (d_impacted st))))
           (calc_update_avg_unique_double m (np_unique (samples_on_rows m (np_unique (d_impacted st)))) (d_boot st))))
        else (d_avg st, d_prob st)) = (map Some qs1, Some p) /\
        length qs1 = N /\ (forall j q, nth_error qs1 j = Some q -> q = U (d_boot st) j)) as (qs1 & Heq & Hl1 & Hq1).
    { destruct (Nat.ltb_spec 0 (length (d_impacted st))) as [Hpos|Hz].
      - set (tu := np_unique (samples_on_rows m (np_unique (d_impacted st)))).
        assert (forall j, In j tu <-> (j < N)%nat /\ touches_d (d_impacted st) j) as Htu.
        { intros j. unfold tu. rewrite np_unique_In, samples_on_rows_In. unfold touches_d. split.
          - intros (Hj & t & Ht & Hc). rewrite np_unique_In in Ht. split; [exact Hj|]. exists t. auto.
          - intros (Hj & t & Ht & _ & Hc). split; [exact Hj|]. exists t. rewrite np_unique_In. auto. }
        rewrite calc_update_map_d, Havg.
        set (a := assign_at (map Some qs) tu (map (upd_d (d_boot st)) tu)).
        assert (forall j, nth_error a j = if mem j tu then Some (upd_d (d_boot st) j) else nth_error (map Some qs) j) as Hna.
        { intros j. unfold a. apply assign_at_nth.
          - apply increasing_NoDup. apply np_unique_inc.
          - intros k Hk. apply Htu in Hk. rewrite map_length. lia. }
        assert (length a = N) as Hla by (unfold a; rewrite assign_at_length, map_length; exact Hlen).
        assert (forall j, (j < N)%nat -> nth_error a j = Some (Some (U (d_boot st) j))) as Hall.
        { intros j Hj. rewrite Hna. destruct (mem j tu) eqn:E.
          - apply mem_In, Htu in E. destruct E as (_ & t & Ht & HtT & Hc). rewrite upd_value_d; [reflexivity|].
            intros E. assert (In t (rows_of T cov j)) as Hin by (apply rows_of_In; auto). rewrite E in Hin. destruct Hin.
          - rewrite nth_error_map. destruct (nth_error qs j) as [q|] eqn:Eq; [|apply nth_error_None in Eq; lia].
            cbn. do 2 f_equal. apply Hqs; [exact Eq|]. intros Ht.
            assert (In j tu) as Hin by (apply Htu; auto). apply mem_In in Hin. congruence. }
        assert (a = map Some (map (U (d_boot st)) (seq 0 N))) as Ha.
        { apply nth_error_ext. intros j. destruct (Nat.lt_ge_cases j N) as [Hj|Hj].
          - rewrite Hall by exact Hj. rewrite !nth_error_map, (nth_error_nth' _ 0%nat), seq_nth by (rewrite ?seq_length; lia). reflexivity.
          - rewrite (proj2 (nth_error_None a j)) by lia. symmetry. apply nth_error_None. rewrite !map_length, seq_length. exact Hj. }
        exists (map (U (d_boot st)) (seq 0 N)). rewrite Ha. split; [|split].
        + f_equal. apply normalise_eq; [now rewrite map_length, seq_length|]. intros j q Hj.
          assert (nth_error a j = Some (Some q)) as Hj' by (rewrite Ha, nth_error_map, Hj; reflexivity).
          assert (j < N)%nat as HjN by (rewrite <- Hla; apply nth_error_Some; congruence). rewrite Hall in Hj' by exact HjN. congruence.
        + now rewrite map_length, seq_length.
        + intros j q Hj.
          assert (nth_error a j = Some (Some q)) as Hj' by (rewrite Ha, nth_error_map, Hj; reflexivity).
          assert (j < N)%nat as HjN by (rewrite <- Hla; apply nth_error_Some; congruence). rewrite Hall in Hj' by exact HjN. congruence.
      - assert (d_impacted st = []) as Hnil by (destruct (d_impacted st); [reflexivity|simpl in Hz; lia]).
        exists qs. rewrite Havg, (Hprob Hnil). split; [reflexivity|].
        split; [exact Hlen|]. intros j q Hj. apply Hqs; [exact Hj|]. rewrite Hnil. intros (t & [] & _). }
    cbv zeta. rewrite Heq.
    destruct (draw_ok (d_boot st) i size Hen) as (ch & Hch & Ech & Lch & Fch). fold p in Hch, Ech. rewrite Hch. cbn [bind fst snd].
    eexists _, ch. split; [reflexivity|]. cbn [d_boot d_log d_impacted d_avg d_prob].
    split; [|split; [|split; [exact Ech|split; [reflexivity|split; [reflexivity|split; [exact Lch|exact Fch]]]]]].
    - constructor; cbn.
      + exists qs1. split; [reflexivity|split; [exact Hl1|]]. intros j q Hj Hnt. rewrite (Hq1 j q Hj). symmetry.
        apply U_untouched_d. intros t Ht Hc s Hs. destruct (cov t s) eqn:E; [|reflexivity]. exfalso. apply Hnt.
        exists t. split; [|auto]. apply rows_of_samples_In. split; [exact Ht|]. eauto.
      + intros Hnil. f_equal. unfold p, probabilities.
        assert (map (U (d_boot st ++ ch)) (seq 0 N) = map (U (d_boot st)) (seq 0 N)) as ->; [|reflexivity].
        apply map_ext. intros k. apply U_untouched_d. intros t Ht Hc s Hs. destruct (cov t s) eqn:E; [|reflexivity]. exfalso.
        assert (In t (rows_of_samples m ch)) as Hin by (apply rows_of_samples_In; eauto).
        rewrite Hnil in Hin. destruct Hin.
    - intros t Ht. apply rows_of_samples_In in Ht. apply Ht.
  Qed.

  Definition log_ok_d (lg : list (list R * list nat)) : Prop :=
    forall k p ch, nth_error lg k = Some (p, ch) ->
      p = probabilities (concat (map snd (firstn k lg))) /\ enough (concat (map snd (firstn k lg))) /\
      ch = map (searchsorted (cdf p)) (uniform k (length ch)) /\ length ch = Z.to_nat (Z.min (len - Z.of_nat k * u) u) /\
      Forall (fun j => (j < N)%nat) ch.

  Hypothesis Hpos' : (0 < u <= 2 ^ 62)%Z.
  Let Hpos : (0 < u)%Z := proj1 Hpos'.
  Hypothesis Hlen : (0 <= len <= 2 ^ 38)%Z.

  Lemma rounds_ok_d k : exists st, foldM (fun st i => round_double np_sum m uniform len u i st) (initial_double np_sum m) (seq 0 k) = Ok st /\
    d_boot st = concat (map snd (d_log st)) /\ length (d_log st) = k /\ log_ok_d (d_log st) /\
    length (d_boot st) = Z.to_nat (Z.min len (Z.of_nat k * u)).
  Proof.
    assert (exists st, foldM (fun st i => round_double np_sum m uniform len u i st) (initial_double np_sum m) (seq 0 k) = Ok st /\
      inv_d st /\ (forall t, In t (d_impacted st) -> (t < T)%nat) /\
      d_boot st = concat (map snd (d_log st)) /\ length (d_log st) = k /\ log_ok_d (d_log st) /\
      length (d_boot st) = Z.to_nat (Z.min len (Z.of_nat k * u))) as (st & H1 & _ & _ & H2).
    { induction k as [|k IH].
      - exists (initial_double np_sum m). split; [reflexivity|]. split; [apply initial_inv_d|]. split; [intros t []|].
        split; [reflexivity|split; [reflexivity|]]. split; [intros i p ch H; destruct i; discriminate|]. cbn. lia.
      - destruct IH as (st & Hst & Hinv & Himp & Hb & Hl & Hlog & Hlb).
        assert (enough (d_boot st)) as Hen by (unfold enough; rewrite Hlb; lia).
        destruct (round_ok_d k st Hinv Himp Hen) as (st' & ch & Hr & Hinv' & Himp' & Ech & Hb' & Hlg & Hcl & Hcf).
        exists st'. split.
        { rewrite seq_S. clear - Hst Hr. revert Hst. generalize (initial_double np_sum m) as s0. generalize (seq 0 k) as l. simpl Nat.add.
          induction l as [|x l IHl]; intros s0 H; simpl in *.
          - inversion H; subst. rewrite Hr. reflexivity.
          - destruct (round_double np_sum m uniform len u x s0) as [s1|]; cbn [bind] in *; [|discriminate]. now apply IHl. }
        split; [exact Hinv'|split; [exact Himp'|]].
        assert (length (d_boot st') = Z.to_nat (Z.min len (Z.of_nat (S k) * u))) as HL.
        { rewrite Hb', app_length, Hlb, Hcl. rewrite Nat2Z.inj_succ, Z.mul_succ_l. set (ku := (Z.of_nat k * u)%Z).
          assert (0 <= ku)%Z by (unfold ku; nia). lia. }
        rewrite Hlg, map_app, concat_app. cbn [map concat snd]. rewrite app_nil_r.
        split; [rewrite Hb', Hb; reflexivity|split; [rewrite app_length; simpl; lia|split; [|exact HL]]].
        intros i p' ch' Hk. destruct (Nat.lt_ge_cases i (length (d_log st))) as [Hlt|Hge].
        + rewrite nth_error_app1 in Hk by exact Hlt. rewrite firstn_app.
          replace (i - length (d_log st))%nat with 0%nat by lia. simpl. rewrite app_nil_r. apply Hlog. exact Hk.
        + rewrite nth_error_app2 in Hk by exact Hge.
          destruct (i - length (d_log st))%nat as [|d] eqn:Ed; [|destruct d; discriminate].
          assert (i = k) as -> by lia. simpl in Hk. injection Hk as <- <-.
          rewrite firstn_app, firstn_all2 by lia. replace (k - length (d_log st))%nat with 0%nat by lia. simpl. rewrite app_nil_r, <- Hb.
          split; [reflexivity|split; [exact Hen|split; [now rewrite Hcl|split; [exact Hcl|exact Hcf]]]]. }
    exists st. split; [exact H1|exact H2].
  Qed.

  Lemma seq_bootstrap_d sl : (match sl with Some l => l | None => Z.of_nat (ncols m) end) = len ->
    exists sample lg, seq_bootstrap_double np_sum m uniform sl u = Ok (sample, lg) /\
      length sample = Z.to_nat len /\ sample = concat (map snd lg) /\ length lg = Z.to_nat ((len + u - 1) / u) /\ log_ok_d lg /\
      Forall (fun j => (j < N)%nat) sample.
  Proof.
    intros El. unfold seq_bootstrap_double. rewrite El. destruct (Z.eqb_spec u 0); [lia|].
    rewrite (rounds_double_exact len u Hpos') by lia.
    destruct (rounds_ok_d (Z.to_nat (ceil_div len u))) as (st & Hst & Hb & Hl & Hlog & Hlb).
    rewrite Hst. cbn [bind]. exists (d_boot st), (d_log st). split; [reflexivity|]. rewrite (ceil_div_eq len u Hpos) in *.
    split.
    { rewrite Hlb. f_equal. apply Z.min_l.
      assert (0 <= (len + u - 1) / u)%Z by (apply Z.div_pos; lia). rewrite Z2Nat.id by auto.
      pose proof (Z.mod_pos_bound (len + u - 1) u Hpos). pose proof (Z.div_mod (len + u - 1) u ltac:(lia)). nia. }
    split; [exact Hb|split; [exact Hl|split; [exact Hlog|]]].
    rewrite Hb. apply Forall_forall. intros j Hj. apply in_concat in Hj. destruct Hj as (ch & Hch & Hj).
    apply in_map_iff in Hch. destruct Hch as ((p, ch') & Heq & Hin). simpl in Heq. subst ch'. apply In_nth_error in Hin. destruct Hin as (k & Hk).
    destruct (Hlog k p ch Hk) as (_ & _ & _ & _ & Hf). rewrite Forall_forall in Hf. auto.
  Qed.
End Loop.
