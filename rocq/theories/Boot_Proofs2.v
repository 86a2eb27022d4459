(** Proofs about the sequential bootstrap. *)
From Coq Require Import Lqa.
From Verif Require Import PreludeFacts QSumFacts Boot_Spec Boot_Model Boot_Proofs.
Open Scope nat_scope.

Lemma set_at_length {A} (l : list A) j v : length (set_at l j v) = length l.
Proof.
  unfold set_at. revert j. induction l as [|x l IH]; intros [|j]; simpl; auto.
Qed.
Lemma set_at_nth {A} (l : list A) j v i : j < length l -> nth_error (set_at l j v) i = if Nat.eqb i j then Some v else nth_error l i.
Proof.
  revert j i. induction l as [|x l IH]; intros j i Hj; simpl in Hj; [lia|].
  destruct j as [|j]; destruct i as [|i]; try reflexivity.
  change (nth_error (set_at l j v) i = if Nat.eqb i j then Some v else nth_error l i). apply IH. lia.
Qed.
Lemma assign_at_length {A} idx : forall (l : list A) vals, length (assign_at l idx vals) = length l.
Proof.
  unfold assign_at. induction idx as [|j idx IH]; intros l vals; [reflexivity|].
  destruct vals as [|v vals]; [reflexivity|]. cbn [combine fold_left]. rewrite IH. apply set_at_length.
Qed.
Lemma assign_at_nth {A} (f : nat -> A) idx : forall l i, NoDup idx -> (forall j, In j idx -> j < length l) ->
  nth_error (assign_at l idx (map f idx)) i = if mem i idx then Some (f i) else nth_error l i.
Proof.
  unfold assign_at. induction idx as [|j idx IH]; intros l i ND Hlt; [reflexivity|].
  cbn [map combine fold_left fst snd]. inversion ND; subst.
  rewrite IH; [|auto|intros; rewrite set_at_length; apply Hlt; now right].
  rewrite set_at_nth by (apply Hlt; now left).
  unfold mem. cbn [existsb]. fold (mem i idx).
  destruct (Nat.eqb_spec i j) as [->|Hne]; [|reflexivity]. simpl.
  destruct (mem j idx) eqn:E; [|reflexivity]. apply mem_In in E. contradiction.
Qed.

Lemma all_some_map qs : all_some (map Some qs) = Some qs.
Proof. unfold all_some. induction qs as [|q qs IH]; [reflexivity|]. simpl in *. now rewrite IH. Qed.

Section Seq.
  Variable m : mat.
  Let T := nrows m.
  Let N := ncols m.
  Let cov := entry m.
  Let U := uniqueness_after T cov.

  Lemma U_pos drawn j : (0 < U drawn j)%Q.
  Proof.
    unfold U, uniqueness_after. destruct (rows_of T cov j) as [|t r] eqn:E; [reflexivity|].
    unfold qmean. apply Qdiv_pos; [|apply Qn_pos; simpl; lia].
    apply qsum_pos; [|discriminate]. intros x Hx. apply in_map_iff in Hx. destruct Hx as (t' & <- & _).
    apply Qinv_pos. pose proof (Qn_nonneg (count (cov t') drawn)). lra.
  Qed.

  Lemma U_untouched drawn extra j : (forall t, t < T -> cov t j = true -> forall s, In s extra -> cov t s = false) ->
    (U (drawn ++ extra) j == U drawn j)%Q.
  Proof.
    intros H. unfold U, uniqueness_after. destruct (rows_of T cov j) as [|t0 r] eqn:E; [reflexivity|].
    apply qmean_map_ext. intros t Ht. rewrite <- E in Ht. apply rows_of_In in Ht. destruct Ht as [Ht Hc].
    rewrite count_app. assert (count (cov t) extra = 0) as ->; [|rewrite Nat.add_0_r; reflexivity].
    unfold count. destruct (filter (cov t) extra) as [|s l] eqn:Ef; [reflexivity|].
    assert (In s (filter (cov t) extra)) as Hs by (rewrite Ef; now left). apply filter_In in Hs. destruct Hs as [Hs Hcs].
    rewrite (H t Ht Hc s Hs) in Hcs. discriminate.
  Qed.

  Definition upd (boot : list nat) (j : nat) : option Q :=
    mean_or_nan (qsum (map (fun t => b2q (entry m t j) * conc_per_sample m boot t j)%Q (rows_of T cov j)))
                (length (rows_of T cov j)).
  Lemma calc_update_map samples boot : calc_update_avg_unique m samples boot = map (upd boot) samples.
  Proof. reflexivity. Qed.

  Lemma upd_value boot j : rows_of T cov j <> [] -> exists q, upd boot j = Some q /\ (q == U boot j)%Q.
  Proof.
    intros Hne. unfold upd, mean_or_nan, U, uniqueness_after.
    destruct (rows_of T cov j) as [|t0 r] eqn:E; [congruence|]. cbn [length Nat.eqb].
    eexists. split; [reflexivity|]. unfold qmean. rewrite map_length. cbn [length].
    rewrite (qsum_map_ext _ (fun t => / (1 + Qn (count (cov t) boot)))%Q); [reflexivity|].
    intros t Ht. rewrite <- E in Ht. apply rows_of_In in Ht. destruct Ht as [Ht Hc]. fold cov. rewrite Hc.
    unfold conc_per_sample, partial_conc. fold cov. rewrite Hc. cbn [b2q].
    pose proof (qsum_b2q (cov t) boot) as Hq. pose proof (Qn_nonneg (count (cov t) boot)) as Hnn.
    destruct (Qeq_bool _ 0) eqn:Eb.
    - apply Qeq_bool_iff in Eb. rewrite Hq in Eb. rewrite Eb. reflexivity.
    - rewrite Hq. field. lra.
  Qed.

  Lemma normalise_spec qs drawn : length qs = N -> (forall j q, nth_error qs j = Some q -> q == U drawn j)%Q ->
    exists p, normalise (map Some qs) = Some p /\ length p = N /\
      (forall j q, nth_error p j = Some q -> q == draw_probability T cov N drawn j)%Q.
  Proof.
    intros Hlen Hq. unfold normalise. rewrite all_some_map. cbn [option_map]. eexists. split; [reflexivity|].
    split; [now rewrite map_length|]. intros j q Hj. rewrite nth_error_map in Hj.
    destruct (nth_error qs j) as [q'|] eqn:E; [|discriminate]. simpl in Hj. inversion Hj; subst.
    unfold draw_probability. fold U. rewrite (Hq j q' E).
    assert (qsum qs == qsum (map (U drawn) (seq 0 N)))%Q as ->; [|reflexivity].
    rewrite <- Hlen. clear - Hq. 
    assert (forall k, (forall j q, nth_error qs j = Some q -> q == U drawn (k + j))%Q -> (qsum qs == qsum (map (U drawn) (seq k (length qs))))%Q) as H.
    { clear Hq. induction qs as [|x qs IH]; intros k H; [reflexivity|]. simpl.
      rewrite (H 0 x eq_refl), Nat.add_0_r. rewrite (IH (S k)); [reflexivity|].
      intros j q Hj. rewrite (H (S j) q Hj). rewrite Nat.add_succ_r. reflexivity. }
    apply (H 0). exact Hq.
  Qed.

  Lemma draw_probability_pos drawn j : (j < N) -> (0 < draw_probability T cov N drawn j)%Q.
  Proof.
    intros Hj. unfold draw_probability. fold U. apply Qdiv_pos; [apply U_pos|].
    apply qsum_pos; [|intros E; apply map_eq_nil in E; destruct N; [lia|discriminate]].
    intros x Hx. apply in_map_iff in Hx. destruct Hx as (t & <- & _). apply U_pos.
  Qed.
  Lemma draw_probability_sum drawn : 0 < N -> (qsum (map (draw_probability T cov N drawn) (seq 0 N)) == 1)%Q.
  Proof.
    intros HN. unfold draw_probability. fold U.
    rewrite <- (map_map (U drawn) (fun x => x / qsum (map (U drawn) (seq 0 N)))%Q), qsum_div.
    assert (0 < qsum (map (U drawn) (seq 0 N)))%Q.
    { apply qsum_pos; [|intros E; apply map_eq_nil in E; destruct N; [lia|discriminate]].
      intros x Hx. apply in_map_iff in Hx. destruct Hx as (t & <- & _). apply U_pos. }
    field. lra.
  Qed.

  Lemma qsum_nth (f : nat -> Q) p : (forall j q, nth_error p j = Some q -> q == f j)%Q -> (qsum p == qsum (map f (seq 0 (length p))))%Q.
  Proof.
    assert (forall k, (forall j q, nth_error p j = Some q -> q == f (k + j)%nat)%Q -> (qsum p == qsum (map f (seq k (length p))))%Q) as H.
    { induction p as [|x p IH]; intros k H; [reflexivity|]. simpl.
      rewrite (H 0 x eq_refl), Nat.add_0_r. rewrite (IH (S k)); [reflexivity|].
      intros j q Hj. rewrite (H (S j) q Hj). rewrite Nat.add_succ_r. reflexivity. }
    intros Hp. apply (H 0). exact Hp.
  Qed.

  Definition good_prob (drawn : list nat) (p : list Q) : Prop :=
    length p = N /\ (forall j q, nth_error p j = Some q -> q == draw_probability T cov N drawn j)%Q.

  Lemma np_choice_ok rng i p size drawn : 0 < N -> good_prob drawn p -> np_choice rng i (Some p) size = Ok (p, rng i p size).
  Proof.
    intros HN (Hl & Hp). unfold np_choice. rewrite Hl. destruct (Nat.eqb_spec N 0); [lia|].
    destruct (existsb _ p) eqn:E.
    { exfalso. apply existsb_exists in E. destruct E as (x & Hx & Hn). apply In_nth_error in Hx. destruct Hx as (j & Hj).
      assert (j < N) by (rewrite <- Hl; apply nth_error_Some; congruence).
      pose proof (draw_probability_pos drawn j H). rewrite <- (Hp j x Hj) in H0.
      apply negb_true_iff in Hn. assert (Qle_bool 0 x = true) by (apply Qle_bool_iff; lra). congruence. }
    assert (Qeq_bool (qsum p) 1 = true) as ->; [|reflexivity].
    apply Qeq_bool_iff. rewrite (qsum_nth _ p Hp), Hl. now apply draw_probability_sum.
  Qed.

  Definition touches (rows : list nat) (j : nat) : Prop := exists t, In t rows /\ t < T /\ cov t j = true.

  Record inv (st : state) : Prop := {
    inv_avg : exists qs, avg st = map Some qs /\ length qs = N /\
                (forall j q, nth_error qs j = Some q -> ~ touches (impacted st) j -> q == U (boot st) j)%Q;
    inv_prob : impacted st = [] -> exists p, prob st = Some p /\ good_prob (boot st) p
  }.

  Lemma initial_inv : inv (initial m).
  Proof.
    assert (repeat (Some 1%Q) (ncols m) = map Some (repeat 1%Q (ncols m))) as E.
    { induction (ncols m) as [|k IH]; [reflexivity|]. simpl. now rewrite IH. }
    assert (forall j q, nth_error (repeat 1%Q (ncols m)) j = Some q -> q == U [] j)%Q as H1.
    { intros j q Hj. apply nth_error_In, repeat_spec in Hj. subst q. unfold U, uniqueness_after.
      destruct (rows_of T cov j) as [|t r]; [reflexivity|]. symmetry.
      assert (forall l : list nat, l <> [] -> qmean (map (fun t => / (1 + Qn (count (cov t) [])))%Q l) == 1)%Q as H.
      { clear. intros l Hl. unfold qmean. rewrite map_length. rewrite (qsum_map_ext _ (fun _ => 1%Q)).
        - rewrite qsum_map_const. field. intros E. apply (Qn_neq0 (length l)); [destruct l; [congruence|simpl; lia]|exact E].
        - intros. reflexivity. }
      apply H. discriminate. }
    constructor; simpl.
    - exists (repeat 1%Q (ncols m)). rewrite E. split; [reflexivity|]. split; [apply repeat_length|]. intros j q Hj _. now apply H1.
    - intros _. rewrite E. destruct (normalise_spec (repeat 1%Q (ncols m)) []) as (p & Hp & Hl & Hq).
      + apply repeat_length.
      + exact H1.
      + exists p. split; [exact Hp|]. split; auto.
  Qed.

  Lemma rows_of_samples_In choices t : In t (rows_of_samples m choices) <-> t < T /\ exists s, In s choices /\ cov t s = true.
  Proof.
    unfold rows_of_samples. rewrite in_flat_map. split.
    - intros (t' & Ht' & H). apply in_flat_map in H. destruct H as (s & Hs & H). apply in_seq in Ht'.
      destruct (entry m t' s) eqn:E; [|destruct H]. destruct H as [<-|[]]. split; [unfold T; lia|]. exists s. auto.
    - intros (Ht & s & Hs & Hc). exists t. split; [apply in_seq; unfold T in Ht; lia|]. apply in_flat_map. exists s.
      split; [exact Hs|]. unfold cov in Hc. rewrite Hc. now left.
  Qed.
  Lemma samples_on_rows_In rows j : In j (samples_on_rows m rows) <-> j < N /\ exists t, In t rows /\ cov t j = true.
  Proof.
    unfold samples_on_rows. rewrite in_flat_map. split.
    - intros (t & Ht & H). apply filter_In in H. destruct H as [H1 H2]. apply in_seq in H1. split; [unfold N; lia|]. eauto.
    - intros (Hj & t & Ht & Hc). exists t. split; [exact Ht|]. apply filter_In. split; [apply in_seq; unfold N in Hj; lia|exact Hc].
  Qed.

  Variable rng : nat -> list Q -> nat -> list nat.
  Hypothesis Hrng : fair_choice rng.
  Variables (len u : Z).

  (* the avg/prob pair in force when drawing *)
  Lemma round_ok i st : 0 < N -> inv st -> (forall t, In t (impacted st) -> t < T) ->
    exists st' p, round m rng len u i st = Ok st' /\ inv st' /\ (forall t, In t (impacted st') -> t < T) /\
      good_prob (boot st) p /\
      let ch := rng i p (Z.to_nat (Z.min (len - Z.of_nat i * u) u)) in
      boot st' = boot st ++ ch /\ log st' = log st ++ [(p, ch)] /\
      length ch = Z.to_nat (Z.min (len - Z.of_nat i * u) u) /\ Forall (fun j => j < N) ch.
  Proof.
    intros HN [(qs & Havg & Hlen & Hqs) Hprob] Himp. unfold round.
    set (size := Z.to_nat (Z.min (len - Z.of_nat i * u) u)).
    assert (exists qs1 p, (if Nat.ltb 0 (length (impacted st)) then
        (assign_at (avg st) (np_unique (samples_on_rows m (np_unique (impacted st))))
           (calc_update_avg_unique m (np_unique (samples_on_rows m (np_unique (impacted st)))) (boot st)),
         normalise (assign_at (avg st) (np_unique (samples_on_rows m (np_unique (impacted st))))
           (calc_update_avg_unique m (np_unique (samples_on_rows m (np_unique (impacted st)))) (boot st))))
        else (avg st, prob st)) = (map Some qs1, Some p) /\
        length qs1 = N /\ (forall j q, nth_error qs1 j = Some q -> q == U (boot st) j)%Q /\ good_prob (boot st) p) as (qs1 & p & Heq & Hl1 & Hq1 & Hgp).
    { destruct (Nat.ltb_spec 0 (length (impacted st))) as [Hpos|Hz].
      - set (tu := np_unique (samples_on_rows m (np_unique (impacted st)))).
        assert (forall j, In j tu <-> j < N /\ touches (impacted st) j) as Htu.
        { intros j. unfold tu. rewrite np_unique_In, samples_on_rows_In. unfold touches. split.
          - intros (Hj & t & Ht & Hc). rewrite np_unique_In in Ht. split; [exact Hj|]. exists t. auto.
          - intros (Hj & t & Ht & _ & Hc). split; [exact Hj|]. exists t. rewrite np_unique_In. auto. }
        rewrite calc_update_map, Havg.
        set (a := assign_at (map Some qs) tu (map (upd (boot st)) tu)).
        assert (forall j, nth_error a j = if mem j tu then Some (upd (boot st) j) else nth_error (map Some qs) j) as Hna.
        { intros j. unfold a. apply assign_at_nth.
          - apply increasing_NoDup. apply np_unique_inc.
          - intros k Hk. apply Htu in Hk. rewrite map_length. lia. }
        assert (length a = N) as Hla by (unfold a; rewrite assign_at_length, map_length; exact Hlen).
        assert (forall j, j < N -> exists q, nth_error a j = Some (Some q) /\ (q == U (boot st) j)%Q) as Hall.
        { intros j Hj. rewrite Hna. destruct (mem j tu) eqn:E.
          - apply mem_In, Htu in E. destruct E as (_ & t & Ht & HtT & Hc).
            destruct (upd_value (boot st) j) as (q & Hq & HU).
            { intros E. assert (In t (rows_of T cov j)) as Hin by (apply rows_of_In; auto). rewrite E in Hin. destruct Hin. }
            exists q. rewrite Hq. split; [reflexivity|exact HU].
          - rewrite nth_error_map. destruct (nth_error qs j) as [q|] eqn:Eq; [|apply nth_error_None in Eq; lia].
            exists q. split; [reflexivity|]. apply Hqs; [exact Eq|]. intros Ht.
            assert (In j tu) as Hin by (apply Htu; auto). apply mem_In in Hin. congruence. }
        assert (exists qs1, a = map Some qs1 /\ length qs1 = N /\ (forall j q, nth_error qs1 j = Some q -> q == U (boot st) j)%Q) as (qs1 & Ha & Hl1 & Hq1).
        { clear - Hall Hla. exists (map (fun o => match o with Some q => q | None => 0%Q end) a).
          assert (a = map Some (map (fun o => match o with Some q => q | None => 0%Q end) a)) as Ha.
          { rewrite map_map. rewrite <- (map_id a) at 1. apply map_ext_in. intros o Ho. apply In_nth_error in Ho.
            destruct Ho as (j & Hj). assert (j < N) as HjN by (rewrite <- Hla; apply nth_error_Some; congruence).
            destruct (Hall j HjN) as (q & Hq & _). rewrite Hj in Hq. inversion Hq; subst. reflexivity. }
          split; [exact Ha|]. split; [now rewrite map_length|]. intros j q Hj.
          rewrite nth_error_map in Hj. destruct (nth_error a j) as [o|] eqn:E; [|discriminate].
          assert (j < N) as HjN by (rewrite <- Hla; apply nth_error_Some; congruence).
          destruct (Hall j HjN) as (q' & Hq & HU). rewrite E in Hq. inversion Hq; subst. simpl in Hj. inversion Hj; subst. exact HU. }
        destruct (normalise_spec qs1 (boot st) Hl1 Hq1) as (p & Hp & Hgl & Hgq).
        exists qs1, p. rewrite Ha, Hp. split; [reflexivity|]. split; [exact Hl1|split; [exact Hq1|]]. split; auto.
      - assert (impacted st = []) as Hnil by (destruct (impacted st); [reflexivity|simpl in Hz; lia]).
        destruct (Hprob Hnil) as (p & Hp & Hgp). exists qs, p. rewrite Havg, Hp. split; [reflexivity|].
        split; [exact Hlen|split; [|exact Hgp]]. intros j q Hj. apply Hqs; [exact Hj|]. rewrite Hnil. intros (t & [] & _). }
    unfold size in *. cbv zeta. rewrite Heq. rewrite (np_choice_ok rng i p _ (boot st) HN Hgp). cbn [bind fst snd].
    set (ch := rng i p (Z.to_nat (Z.min (len - Z.of_nat i * u) u))).
    assert (p <> []) as Hpne by (destruct Hgp as [Hgl _]; intros ->; simpl in Hgl; lia).
    destruct (Hrng i p (Z.to_nat (Z.min (len - Z.of_nat i * u) u)) Hpne) as [Hcl Hcf].
    eexists _, p. split; [reflexivity|]. split; [|split; [|split; [exact Hgp|split; [reflexivity|split; [reflexivity|split; [exact Hcl|]]]]]].
    - constructor; simpl.
      + exists qs1. split; [reflexivity|split; [exact Hl1|]]. intros j q Hj Hnt. rewrite (Hq1 j q Hj). symmetry.
        apply U_untouched. intros t Ht Hc s Hs. destruct (cov t s) eqn:E; [|reflexivity]. exfalso. apply Hnt.
        exists t. split; [|auto]. apply rows_of_samples_In. split; [exact Ht|]. eauto.
      + intros Hnil. exists p. split; [reflexivity|]. destruct Hgp as [Hgl Hgq]. split; [exact Hgl|].
        intros j q Hj. rewrite (Hgq j q Hj). unfold draw_probability. fold U.
        assert (forall j, U (boot st ++ ch) j == U (boot st) j)%Q as HU.
        { intros k. apply U_untouched. intros t Ht Hc s Hs. destruct (cov t s) eqn:E; [|reflexivity]. exfalso.
          assert (In t (rows_of_samples m ch)) as Hin by (apply rows_of_samples_In; eauto).
          fold ch in Hnil. rewrite Hnil in Hin. destruct Hin. }
        rewrite HU. rewrite (qsum_map_ext (U (boot st ++ ch)) (U (boot st))) by (intros; apply HU). reflexivity.
    - simpl. intros t Ht. apply rows_of_samples_In in Ht. tauto.
    - destruct Hgp as [Hgl _]. rewrite Hgl in Hcf. exact Hcf.
  Qed.

  Definition log_ok (lg : list (list Q * list nat)) : Prop :=
    forall k p ch, nth_error lg k = Some (p, ch) ->
      good_prob (concat (map snd (firstn k lg))) p /\ ch = rng k p (length ch) /\
      length ch = Z.to_nat (Z.min (len - Z.of_nat k * u) u) /\ Forall (fun j => j < N) ch.

  Lemma rounds_ok R : 0 < N -> exists st, foldM (fun st i => round m rng len u i st) (initial m) (seq 0 R) = Ok st /\
    boot st = concat (map snd (log st)) /\ length (log st) = R /\ log_ok (log st).
  Proof.
    intros HN.
    assert (exists st, foldM (fun st i => round m rng len u i st) (initial m) (seq 0 R) = Ok st /\
      inv st /\ (forall t, In t (impacted st) -> t < T) /\
      boot st = concat (map snd (log st)) /\ length (log st) = R /\ log_ok (log st)) as (st & H1 & _ & _ & H2).
    { induction R as [|R IH].
      - exists (initial m). split; [reflexivity|]. split; [apply initial_inv|]. split; [intros t []|].
        split; [reflexivity|split; [reflexivity|]]. intros k p ch H. destruct k; discriminate.
      - destruct IH as (st & Hst & Hinv & Himp & Hb & Hl & Hlog).
        destruct (round_ok R st HN Hinv Himp) as (st' & p & Hr & Hinv' & Himp' & Hgp & Hb' & Hlg & Hcl & Hcf).
        exists st'. split.
        { rewrite seq_S. clear - Hst Hr. revert Hst. generalize (initial m) as s0. generalize (seq 0 R) as l. simpl Nat.add.
          induction l as [|x l IHl]; intros s0 H; simpl in *.
          - inversion H; subst. rewrite Hr. reflexivity.
          - destruct (round m rng len u x s0) as [s1|]; cbn [bind] in *; [|discriminate]. now apply IHl. }
        split; [exact Hinv'|split; [exact Himp'|]].
        rewrite Hlg, Hb', Hb, map_app, concat_app. simpl. rewrite app_nil_r.
        split; [reflexivity|split; [rewrite app_length; simpl; lia|]].
        intros k p' ch' Hk. destruct (Nat.lt_ge_cases k (length (log st))) as [Hlt|Hge].
        + rewrite nth_error_app1 in Hk by exact Hlt. rewrite firstn_app.
          replace (k - length (log st)) with 0 by lia. simpl. rewrite app_nil_r. apply Hlog. exact Hk.
        + rewrite nth_error_app2 in Hk by exact Hge.
          destruct (k - length (log st)) as [|d] eqn:Ed; [|destruct d; discriminate].
          assert (k = R) as -> by lia. simpl in Hk. injection Hk as <- <-.
          rewrite firstn_app, firstn_all2 by lia. replace (R - length (log st)) with 0 by lia. simpl. rewrite app_nil_r, <- Hb.
          split; [exact Hgp|split; [now rewrite Hcl|split; [exact Hcl|exact Hcf]]]. }
    exists st. split; [exact H1|exact H2].
  Qed.
End Seq.

(** Length of the bootstrap sample. *)
Lemma boot_total len u R (lg : list (list Q * list nat)) : (0 < u)%Z -> (0 <= len)%Z -> R = Z.to_nat (ceil_div len u) ->
  length lg = R ->
  (forall k p ch, nth_error lg k = Some (p, ch) -> length ch = Z.to_nat (Z.min (len - Z.of_nat k * u) u)) ->
  length (concat (map snd lg)) = Z.to_nat len.
Proof.
  intros Hu Hl HR Hlen Hsz.
  assert (forall k, k <= R -> length (concat (map snd (firstn k lg))) = Z.to_nat (Z.min len (Z.of_nat k * u))) as H.
  { induction k as [|k IH]; intros Hk.
    - simpl. lia.
    - assert (k < length lg) as Hkl by lia.
      destruct (nth_error lg k) as [[p ch]|] eqn:E; [|apply nth_error_None in E; lia].
      assert (firstn (S k) lg = firstn k lg ++ [(p, ch)]) as Hf.
      { clear - E. revert k E. induction lg as [|x lg IHl]; intros k E; [destruct k; discriminate|].
        destruct k as [|k]; simpl in *; [inversion E; reflexivity|]. rewrite IHl by exact E. reflexivity. }
      rewrite Hf, map_app, concat_app, app_length, IH by lia. cbn [map concat snd]. rewrite app_nil_r.
      rewrite (Hsz k p ch E).
      assert (Z.of_nat k * u < len)%Z as Hk2.
      { unfold ceil_div in HR. assert (Z.of_nat k + 1 <= - (- len / u))%Z by lia.
        assert (- len / u <= - Z.of_nat k - 1)%Z as Hd by lia.
        pose proof (Z.mul_div_le (- len) u Hu). pose proof (Z.mod_pos_bound (- len) u Hu). pose proof (Z.div_mod (- len) u ltac:(lia)). nia. }
      replace (Z.of_nat (S k) * u)%Z with (Z.of_nat k * u + u)%Z by lia. set (ku := (Z.of_nat k * u)%Z) in *.
      assert (0 <= ku)%Z by (unfold ku; nia). lia. }
  specialize (H R (Nat.le_refl _)). rewrite firstn_all2 in H by lia. rewrite H.
  f_equal. apply Z.min_l. unfold ceil_div in HR.
  pose proof (Z.mod_pos_bound (- len) u Hu). pose proof (Z.div_mod (- len) u ltac:(lia)). nia.
Qed.

Lemma seq_bootstrap_run m rng sl u : fair_choice rng -> 0 < ncols m -> (0 < u)%Z ->
  let len := match sl with Some l => l | None => Z.of_nat (ncols m) end in
  exists sample lg, seq_bootstrap m rng sl u = Ok (sample, lg) /\
    sample = concat (map snd lg) /\ length lg = Z.to_nat (ceil_div len u) /\ log_ok m rng len u lg.
Proof.
  intros Hr HN Hu len. unfold seq_bootstrap. fold len. destruct (Z.eqb_spec u 0); [lia|].
  destruct (rounds_ok m rng Hr len u (Z.to_nat (ceil_div len u)) HN) as (st & Hst & Hb & Hl & Hlog).
  rewrite Hst. cbn [bind]. exists (boot st), (log st). auto.
Qed.

Lemma c16 m rng sl u sample lg : fair_choice rng -> 0 < ncols m -> (0 < u)%Z ->
  seq_bootstrap m rng sl u = Ok (sample, lg) ->
  forall k p choices, nth_error lg k = Some (p, choices) ->
    length p = ncols m /\
    forall j q, nth_error p j = Some q ->
      (q == draw_probability (nrows m) (entry m) (ncols m) (concat (map snd (firstn k lg))) j)%Q.
Proof.
  intros Hr HN Hu H k p ch Hk. destruct (seq_bootstrap_run m rng sl u Hr HN Hu) as (s' & l' & H' & _ & _ & Hlog).
  rewrite H in H'. injection H' as <- <-. destruct (Hlog k p ch Hk) as (Hg & _). exact Hg.
Qed.

Lemma c17 m rng sl u sample lg : fair_choice rng -> 0 < ncols m -> (0 < u)%Z ->
  seq_bootstrap m rng sl u = Ok (sample, lg) ->
  forall p choices, In (p, choices) lg ->
    length p = ncols m /\ (forall q, In q p -> 0 < q)%Q /\ (qsum p == 1)%Q.
Proof.
  intros Hr HN Hu H p ch Hin. apply In_nth_error in Hin. destruct Hin as (k & Hk).
  destruct (c16 m rng sl u sample lg Hr HN Hu H k p ch Hk) as [Hl Hq]. split; [exact Hl|split].
  - intros q Hq'. apply In_nth_error in Hq'. destruct Hq' as (j & Hj). rewrite (Hq j q Hj).
    apply draw_probability_pos. rewrite <- Hl. apply nth_error_Some. congruence.
  - rewrite (qsum_nth _ p Hq), Hl. now apply draw_probability_sum.
Qed.

Lemma c18 m rng sl u : fair_choice rng -> 0 < ncols m -> (0 < u)%Z ->
  let len := match sl with Some l => l | None => Z.of_nat (ncols m) end in (0 <= len)%Z ->
  exists sample lg, seq_bootstrap m rng sl u = Ok (sample, lg) /\
    length sample = Z.to_nat len /\ Forall (fun j => j < ncols m) sample /\
    sample = concat (map snd lg) /\ length lg = Z.to_nat (ceil_div len u) /\
    (forall p choices, In (p, choices) lg -> length choices <= Z.to_nat u).
Proof.
  intros Hr HN Hu len Hlen. destruct (seq_bootstrap_run m rng sl u Hr HN Hu) as (s & lg & H & Hs & Hl & Hlog). fold len in Hl, Hlog.
  exists s, lg. split; [exact H|split; [|split; [|split; [exact Hs|split; [exact Hl|]]]]].
  - rewrite Hs. eapply boot_total; eauto. intros k p ch Hk. apply (Hlog k p ch Hk).
  - rewrite Hs. apply Forall_forall. intros j Hj. apply in_concat in Hj. destruct Hj as (ch & Hch & Hj).
    apply in_map_iff in Hch. destruct Hch as ((p, ch') & Heq & Hin). simpl in Heq. subst ch'. apply In_nth_error in Hin. destruct Hin as (k & Hk).
    destruct (Hlog k p ch Hk) as (_ & _ & _ & Hf). rewrite Forall_forall in Hf. auto.
  - intros p ch Hin. apply In_nth_error in Hin. destruct Hin as (k & Hk). destruct (Hlog k p ch Hk) as (_ & _ & Hcl & _). lia.
Qed.

Lemma c19 m js drawn extra i j : nth_error js i = Some j -> rows_of (nrows m) (entry m) j <> [] ->
  exists v v', nth_error (calc_update_avg_unique m js drawn) i = Some (Some v) /\
    nth_error (calc_update_avg_unique m js (drawn ++ extra)) i = Some (Some v') /\
    (v' <= v)%Q /\
    ((exists s, In s extra /\ overlap (nrows m) (entry m) s j) -> (v' < v)%Q).
Proof.
  intros Hi Hne. rewrite !calc_update_map, !nth_error_map, Hi. simpl.
  destruct (upd_value m drawn j Hne) as (v & Hv & HU). destruct (upd_value m (drawn ++ extra) j Hne) as (v' & Hv' & HU').
  exists v, v'. rewrite Hv, Hv'. split; [reflexivity|split; [reflexivity|]].
  rewrite HU, HU'. unfold uniqueness_after. destruct (rows_of (nrows m) (entry m) j) as [|t0 r] eqn:E; [congruence|].
  unfold qmean. rewrite !map_length.
  assert (0 < Qn (length (t0 :: r)))%Q as Hp by (apply Qn_pos; simpl; lia).
  assert (forall t, In t (t0 :: r) -> / (1 + Qn (count (entry m t) (drawn ++ extra))) <= / (1 + Qn (count (entry m t) drawn)))%Q as Hle.
  { intros t _. pose proof (Qn_nonneg (count (entry m t) drawn)). pose proof (Qn_nonneg (count (entry m t) extra)). rewrite count_app, Qn_add. apply Qinv_anti; lra. }
  split.
  - unfold Qdiv. apply Qmult_le_compat_r; [now apply qsum_map_le|]. apply Qlt_le_weak, Qinv_pos, Hp.
  - intros (s & Hs & (t & Ht & Hts & Htj)). unfold Qdiv. apply Qmult_lt_compat_r; [apply Qinv_pos, Hp|].
    apply qsum_map_lt; [exact Hle|]. exists t. split; [rewrite <- E; apply rows_of_In; auto|].
    pose proof (Qn_nonneg (count (entry m t) drawn)). pose proof (count_pos (entry m t) extra s Hs Hts) as H1. apply Qn_ge1 in H1.
    rewrite count_app, Qn_add. apply Qinv_anti_lt; lra.
Qed.

Lemma ceil_div_eq a b : (0 < b)%Z -> ceil_div a b = ((a + b - 1) / b)%Z.
Proof.
  intros Hb. unfold ceil_div. apply (Z.div_unique _ _ _ (b - 1 - (- a) mod b)%Z).
  - left. pose proof (Z.mod_pos_bound (- a) b Hb). lia.
  - pose proof (Z.div_mod (- a) b ltac:(lia)). lia.
Qed.

Lemma c18' m rng sl u : fair_choice rng -> 0 < ncols m -> (0 < u)%Z ->
  let len := match sl with Some l => l | None => Z.of_nat (ncols m) end in (0 <= len)%Z ->
  exists sample lg, seq_bootstrap m rng sl u = Ok (sample, lg) /\
    length sample = Z.to_nat len /\ Forall (fun j => j < ncols m) sample /\
    sample = concat (map snd lg) /\ length lg = Z.to_nat ((len + u - 1) / u) /\
    (forall p choices, In (p, choices) lg -> length choices <= Z.to_nat u).
Proof.
  intros Hr HN Hu len Hlen. rewrite <- ceil_div_eq by exact Hu. now apply c18.
Qed.

Lemma c18_errors m rng len u : 
  (u = 0%Z -> seq_bootstrap m rng (Some len) u = Err ZeroDivisionError) /\
  (ncols m = 0 -> (0 < u)%Z -> (0 < len)%Z -> seq_bootstrap m rng (Some len) u = Err ValueError).
Proof.
  split; [intros ->; reflexivity|]. intros HN Hu Hl. unfold seq_bootstrap. destruct (Z.eqb_spec u 0); [lia|].
  assert (Z.to_nat (ceil_div len u) = S (Z.to_nat (ceil_div len u - 1))) as ->.
  { rewrite ceil_div_eq by exact Hu. assert (1 <= (len + u - 1) / u)%Z by (apply Z.div_le_lower_bound; lia). lia. }
  cbn [seq foldM]. unfold round at 1. unfold initial. rewrite HN. reflexivity.
Qed.

(** * AverageUniqueness *)

Lemma has_dup_NoDup l : has_dup l = false <-> NoDup l.
Proof.
  induction l as [|x l IH]; simpl; [split; [constructor|reflexivity]|].
  rewrite orb_false_iff, IH. split.
  - intros [H1 H2]. constructor; [|exact H2]. intros Hin. apply memZ_In in Hin. congruence.
  - intros H. inversion H; subst. split; [|auto]. destruct (memZ x l) eqn:E; [|reflexivity]. apply memZ_In in E. contradiction.
Qed.

Lemma filter_seq_nth {A} (d : A) (l : list A) (p : A -> bool) (q : nat -> bool) :
  (forall i x, nth_error l i = Some x -> q i = p x) ->
  map (fun i => nth i l d) (filter q (seq 0 (length l))) = filter p l.
Proof.
  assert (forall k, (forall i x, nth_error l i = Some x -> q (k + i) = p x) ->
    map (fun i => nth (i - k) l d) (filter q (seq k (length l))) = filter p l) as H.
  { induction l as [|x l IH]; intros k H; [reflexivity|]. cbn [length seq filter].
    pose proof (H 0 x eq_refl) as H0. rewrite Nat.add_0_r in H0. rewrite H0.
    assert (map (fun i => nth (i - k) (x :: l) d) (filter q (seq (S k) (length l))) = filter p l) as HI.
    { rewrite <- (IH (S k)).
      - apply map_ext_in. intros i Hi. apply filter_In in Hi. destruct Hi as [Hi _]. apply in_seq in Hi.
        replace (i - k) with (S (i - S k)) by lia. reflexivity.
      - intros i y Hy. rewrite <- (H (S i) y Hy). f_equal. lia. }
    destruct (p x); cbn [map]; [|exact HI]. f_equal; [rewrite Nat.sub_diag; reflexivity|exact HI]. }
  intros Hq. rewrite <- (H 0).
  - apply map_ext. intros i. now rewrite Nat.sub_0_r.
  - exact Hq.
Qed.

Lemma count_seq_nth {A} (l : list A) (p : A -> bool) (q : nat -> bool) :
  (forall i x, nth_error l i = Some x -> q i = p x) -> count q (seq 0 (length l)) = count p l.
Proof.
  intros H. unfold count. destruct l as [|d l']; [reflexivity|].
  rewrite <- (filter_seq_nth d (d :: l') p q H), map_length. reflexivity.
Qed.

Lemma c61 samples out :
  average_uniqueness_transform (map (fun s => (fst s, Some (snd s))) samples) = Ok out ->
  map fst out = map fst samples /\ NoDup (map fst samples) /\
  exists times, increasingZ times /\
    (forall t, In t times <-> exists s e, In (s, e) samples /\ (t = s \/ t = e)) /\
    forall j s e, nth_error samples j = Some (s, e) -> (s <= e)%Z ->
      exists u, nth_error out j = Some (s, Some u) /\ (0 < u <= 1)%Q /\
        (u == qmean (map (fun t => / Qn (count (alive t) samples)) (filter (fun t => alive t (s, e)) times)))%Q.
Proof.
  unfold average_uniqueness_transform. intros H.
  destruct (existsb _ _) in H; [discriminate|]. rewrite map_map in H. cbn [fst] in H.
  change (map (fun x => fst x) samples) with (map fst samples) in H.
  destruct (has_dup (map fst samples)) eqn:Ed; [discriminate|]. apply has_dup_NoDup in Ed.
  rewrite map_map in H. cbn [fst snd] in H. change (map (fun x => (Some (fst x), Some (snd x))) samples) with (complete samples) in H.
  destruct (get_ind_matrix (complete samples) (map fst samples)) as [[m idx]|] eqn:E; [|discriminate]. cbn [bind fst] in H. injection H as <-.
  destruct (c13 _ _ _ _ E) as (H1 & H2 & H3 & H4 & H5).
  assert (length (calc_average_uniqueness m) = length samples) as Hlen.
  { unfold calc_average_uniqueness, all_cols. rewrite map_length, seq_length. exact H1. }
  split; [|split; [exact Ed|]].
  { clear - Hlen. revert Hlen. generalize (calc_average_uniqueness m) as c. induction samples as [|x r IH]; intros [|a c] Hl; try discriminate; [reflexivity|].
    simpl in *. f_equal. apply IH. lia. }
  exists idx. split; [exact H3|split].
  - intros t. rewrite H4. unfold row_time. split; [|auto]. intros [H|(H & _)]; [exact H|].
    apply in_map_iff in H. destruct H as ((s, e) & <- & H). exists s, e. auto.
  - intros j s e Hj Hse.
    assert (j < ncols m) as Hjn by (rewrite H1; apply nth_error_Some; congruence).
    assert (rows_of (nrows m) (entry m) j <> []) as Hne.
    { assert (In s idx) as Hin by (apply H4; left; exists s, e; split; [eapply nth_error_In; eauto|auto]).
      apply In_nth_error in Hin. destruct Hin as (t & Ht). intros En.
      assert (In t (rows_of (nrows m) (entry m) j)) as Hr; [|rewrite En in Hr; destruct Hr].
      apply rows_of_In. split; [rewrite H2; apply nth_error_Some; congruence|]. apply (H5 t j s s e); auto. lia. }
    destruct (c15_value m j Hjn Hne) as (u & Hu & Hq). exists u.
    destruct (c15_bounds (nrows m) (entry m) (ncols m) j Hjn Hne) as [(B1 & B2 & _) _].
    split; [|split].
    + apply nth_error_combine; [|exact Hu]. rewrite nth_error_map, Hj. reflexivity.
    + rewrite Hq. split; [exact B1|exact B2].
    + rewrite Hq. unfold mean_inverse_concurrency.
      assert (forall t tau k x, nth_error idx t = Some tau -> nth_error samples k = Some x -> entry m t k = alive tau x) as Hal.
      { intros t tau k (s', e') Ht Hk. pose proof (H5 t k tau s' e' Ht Hk) as Hi. unfold alive. simpl.
        destruct (entry m t k); destruct ((s' <=? tau)%Z && (tau <=? e')%Z) eqn:Eb; auto.
        - apply andb_false_iff in Eb. rewrite !Z.leb_gt in Eb. destruct (proj1 Hi eq_refl). lia.
        - apply andb_true_iff in Eb. rewrite !Z.leb_le in Eb. assert (false = true) by (apply Hi; lia). discriminate. }
      unfold rows_of. rewrite H2.
      rewrite <- (filter_seq_nth 0%Z idx (fun t => alive t (s, e)) (fun t => entry m t j)).
      * rewrite map_map. apply qmean_map_ext. intros t Ht. apply filter_In in Ht. destruct Ht as [Ht _]. apply in_seq in Ht.
        destruct (nth_error idx t) as [tau|] eqn:Et; [|apply nth_error_None in Et; lia].
        rewrite (nth_error_nth _ _ _ Et). rewrite H1. rewrite (count_seq_nth samples (alive tau)); [reflexivity|].
        intros k x Hk. apply Hal; auto.
      * intros t tau Ht. now apply Hal.
Qed.

Lemma c61_ok samples : NoDup (map fst samples) -> (forall s e, In (s, e) samples -> (s <= e)%Z) ->
  (exists t s e s' e', In (s, e) samples /\ In (s', e') samples /\ (t = s \/ t = e) /\ ~ (s' <= t <= e')%Z) ->
  exists out, average_uniqueness_transform (map (fun s => (fst s, Some (snd s))) samples) = Ok out.
Proof.
  intros Hnd Hse (t & s & e & s' & e' & Hin & Hin' & Ht & Hno). unfold average_uniqueness_transform.
  destruct (existsb _ _) eqn:Ex.
  { exfalso. apply existsb_exists in Ex. destruct Ex as (x & Hx & Hn). apply in_map_iff in Hx. destruct Hx as (y & <- & _). discriminate. }
  rewrite map_map. cbn [fst]. change (map (fun x => fst x) samples) with (map fst samples).
  apply has_dup_NoDup in Hnd. rewrite Hnd. rewrite map_map. cbn [fst snd].
  change (map (fun x => (Some (fst x), Some (snd x))) samples) with (complete samples).
  assert (samples <> []) as Hne by (intros ->; destruct Hin).
  destruct (proj2 (proj1 (c14_accept samples (map fst samples) Hne))) as (m & idx & Hok).
  - split.
    + exists s, s, e. split; [left; exists s, e; auto|split; [exact Hin|]]. specialize (Hse s e Hin). lia.
    + exists t, s', e'. split; [left; exists s, e; auto|]. auto.
  - rewrite Hok. cbn [bind fst]. eauto.
Qed.
