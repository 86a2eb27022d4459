(** Proofs for the supremum augmented Dickey-Fuller test: windows, supremum. *)
From Coq Require Import Reals Lra String.
From Verif Require Import PreludeFacts Series Boot_Proofs Label_Proofs2 OLS_Model OLS_Spec OLS_Proofs OLS_Proofs2 Break_Model Break_Spec OLS_TStat
  Break_Proofs Break_Proofs2.
Local Open Scope nat_scope.

Lemma sm_prefix model lags : valid model lags -> String.eqb (substring 0 2 model) "sm" = is_martingale model.
Proof.
  unfold valid, is_standard, is_martingale. intros [[H _]|H].
  - apply orb_prop in H as [H|H]; [apply orb_prop in H as [H|H]|]; apply String.eqb_eq in H as ->; reflexivity.
  - apply orb_prop in H as [H|H]; [apply orb_prop in H as [H|H]; [apply orb_prop in H as [H|H]|]|]; apply String.eqb_eq in H as ->; reflexivity.
Qed.

Lemma n_cols_pos model lags const : 1 <= n_cols model lags const.
Proof.
  unfold n_cols, regressors.
  repeat match goal with |- context [if ?b then _ else _] => destruct b end; cbn; lia.
Qed.
Lemma rows_meq ys model lags const X y pos start stop : xy_ok ys model lags const X y pos ->
  stop <= n_rows model lags (List.length ys) ->
  meq (rows_of X start stop) (X_of model lags const (fun i => nth i ys 0%R) start stop) /\
  meq (y_of y start stop) (Y_of model lags (fun i => nth i ys 0%R) start stop).
Proof.
  intros (Hy & _ & Hc & Hr) Hstop. split.
  - split; [reflexivity|]. split; [exact Hc|]. cbn [rows_of X_of nr nc at_]. intros i j Hi Hj.
    destruct (Hr (start + i)) as [<- _]; [lia|].
    transitivity (nth j (map (fun c : col * list R => nth (start + i) (snd c) 0%R) X) (nth (start + i) (snd (Const, @nil R)) 0%R)).
    + now rewrite (map_nth (fun c : col * list R => nth (start + i) (snd c) 0%R)).
    + f_equal. cbn [snd]. now destruct (start + i).
  - split; [reflexivity|]. split; [reflexivity|]. cbn [y_of Y_of nr nc at_]. intros i j Hi Hj. apply Hr. lia.
Qed.

(** Maximum of finite values *)
Lemma max_loop_fin l : forall x, exists v, max_loop (Fin x) (map Fin l) = Fin v /\ (In v (x :: l)) /\ (forall z, In z (x :: l) -> (z <= v)%R).
Proof.
  induction l as [|y l IH]; intros x; cbn [map max_loop is_nan].
  - exists x. split; auto. split; [now left|]. intros z [<-|[]]. lra.
  - cbn [eltb altb Arith_R]. destruct (Rlt_dec x y).
    + destruct (IH y) as (v & -> & Hin & Hmax). exists v. split; auto. split; [now right|].
      intros z [<-|Hz]; [|now apply Hmax]. pose proof (Hmax y (or_introl eq_refl)). lra.
    + destruct (IH x) as (v & -> & Hin & Hmax). exists v. split; auto. split; [destruct Hin as [<-|Hin]; [now left|right; now right]|].
      intros z [<-|[<-|Hz]]; [apply Hmax; now left| |apply Hmax; now right]. pose proof (Hmax x (or_introl eq_refl)). lra.
Qed.
Lemma np_max_fin l : l <> [] -> exists v, np_max (map Fin l) = Ok (Fin v) /\ In v l /\ forall z, In z l -> (z <= v)%R.
Proof.
  destruct l as [|x l]; [easy|]. intros _. destruct (max_loop_fin l x) as (v & E & H). exists v. cbn [map np_max is_nan]. now rewrite E.
Qed.

Section Sadf.
  Variable inv : mat -> result mat.
  Hypothesis Hs : inv_sound inv.
  Variables (model : string) (lags m : nat) (const : bool) (phi : R) (ys : list R).
  Hypothesis Hv : valid model lags.
  Hypothesis Hk : n_cols model lags const < m.
  Variables (X : frame) (y : list R) (pos : list nat).
  Hypothesis Hxy : xy_ok ys model lags const X y pos.
  Notation x := (fun i => nth i ys 0%R).
  Notation XW := (X_of model lags const x).
  Notation YW := (Y_of model lags x).
  Notation N := (n_rows model lags (List.length ys)).

  Lemma adf_at_cases start stop : start + m <= stop -> stop <= N ->
    (~ degenerate (XW start stop) (YW start stop) /\ inv_complete (n_cols model lags const) inv -> exists e, adf_at inv X y stop model phi start = Ok e) /\
    (forall e, adf_at inv X y stop model phi start = Ok e ->
       ~ degenerate (XW start stop) (YW start stop) /\
       exists t, t_stat (XW start stop) (YW start stop) t /\ e = Fin (code_stat model phi start t)).
  Proof.
    intros H1 H2. pose proof (n_cols_pos model lags const) as Hc1.
    destruct (rows_meq ys model lags const X y pos start stop Hxy H2) as [MX MY].
    assert (Hdim : 0 < nc (rows_of X start stop) < nr (rows_of X start stop)).
    { destruct MX as (E1 & E2 & _). rewrite E1, E2. cbn [X_of nr nc]. lia. }
    assert (Hfin : forall b V, get_beta_and_beta_var inv (rows_of X start stop) (y_of y start stop) = Ok (b, V) ->
      (~ degenerate (XW start stop) (YW start stop) /\ exists t, t_stat (XW start stop) (YW start stop) t /\
         adf_at inv X y stop model phi start = Ok (Fin (code_stat model phi start t))) \/
      (degenerate (XW start stop) (YW start stop) /\ adf_at inv X y stop model phi start = Err ZeroDivisionError)).
    { intros b V E. unfold adf_at. rewrite E. cbn [bind].
      destruct (code_tstat inv Hs (rows_of X start stop) (y_of y start stop) b V eq_refl eq_refl Hdim E) as [(Hd & v & Hv1 & ->)|(Hd & ->)]; cbn [bind].
      - left. split.
        + intros Hd'. apply Hd. exact (degenerate_meq _ _ _ _ (meq_sym _ _ MX) (meq_sym _ _ MY) eq_refl eq_refl Hd').
        + exists v. split; [exact (t_stat_meq _ _ _ _ _ MX MY eq_refl eq_refl Hv1)|].
          rewrite (sm_prefix model lags Hv). unfold code_stat. destruct (is_martingale model); [|reflexivity].
          replace (stop - (stop - (start + 1))) with (start + 1) by lia.
          assert (0 < Rpower (INR (start + 1)) phi)%R by apply exp_pos.
          unfold py_div. cbn [aeqb Arith_R a0]. destruct (Req_EM_T (Rpower (INR (start + 1)) phi) 0); [lra|].
          assert (eabs (Fin v) = Fin (Rabs v)) as ->.
          { cbn [eabs altb Arith_R a0 aopp]. unfold Rabs. destruct (Rlt_dec v 0), (Rcase_abs v); f_equal; lra. }
          cbn [ediv aeqb Arith_R a0]. destruct (Req_EM_T (Rpower (INR (start + 1)) phi) 0); [lra|]. reflexivity.
      - right. split; auto. exact (degenerate_meq _ _ _ _ MX MY eq_refl eq_refl Hd). }
    split.
    - intros [Hd Hcpl].
      assert (HN : exists M, inverse_of (gram (rows_of X start stop)) M).
      { apply Classical_Prop.NNPP. intros Hno. apply Hd. left. intros M HM. apply Hno. exists M. now apply (gram_meq _ _ _ (meq_sym _ _ MX)). }
      destruct (proj2 (ols_defined inv (rows_of X start stop) (y_of y start stop) Hs ltac:(destruct MX as (_ & E2 & _); rewrite E2; exact Hcpl) eq_refl) HN) as (b & V & E).
      destruct (Hfin b V E) as [(_ & t & _ & ->)|(Hd' & _)]; [eauto|contradiction].
    - intros e He. destruct (get_beta_and_beta_var inv (rows_of X start stop) (y_of y start stop)) as [[b V]|] eqn:E.
      + destruct (Hfin b V eq_refl) as [(Hd & t & Ht & E')|(_ & E')]; rewrite E' in He; [|discriminate]. injection He as <-. eauto.
      + unfold adf_at in He. rewrite E in He. discriminate.
  Qed.

  Definition stat_at (stop start : nat) (u : R) : Prop :=
    exists t, t_stat (XW start stop) (YW start stop) t /\ u = code_stat model phi start t.

  Lemma sadf_at_ok stop e : m <= stop <= N -> get_sadf_at_t inv X y stop m model phi = Ok e ->
    exists v, e = Fin v /\ largest_over_starts (stat_at stop) m stop v /\
      forall start, start + m <= stop -> ~ degenerate (XW start stop) (YW start stop).
  Proof.
    intros Hst H. unfold get_sadf_at_t in H. destruct (mapM _ _) as [adf|] eqn:E; cbn [bind] in H; [|discriminate].
    assert (exists l, adf = map Fin l /\ Forall2 (fun start u => stat_at stop start u /\ ~ degenerate (XW start stop) (YW start stop)) (seq 0 (stop - m + 1)) l) as (l & -> & HF).
    { apply mapM_Ok in E. clear H.
      assert (Hall : forall start, In start (seq 0 (stop - m + 1)) -> start + m <= stop) by (intros s Hs'; apply in_seq in Hs'; lia).
      revert E Hall; generalize (seq 0 (stop - m + 1)) as st; intros st E Hall; induction E as [|start e' starts es He HE IH]; [exists []; auto|].
      destruct IH as (l & -> & HF); [intros s Hs'; apply Hall; now right|].
      destruct (adf_at_cases start stop (Hall start (or_introl eq_refl)) (proj2 Hst)) as [_ Hc].
      destruct (Hc e' He) as (Hd & t & Ht & ->). exists (code_stat model phi start t :: l). split; auto. constructor; auto. split; auto. exists t. auto. }
    destruct (np_max_fin l) as (v & Ev & Hin & Hmax).
    { intros ->. inversion HF as [E0|]. symmetry in E0. apply (f_equal (@List.length nat)) in E0. rewrite seq_length in E0. cbn in E0. lia. }
    rewrite Ev in H. injection H as <-. exists v. split; auto.
    assert (Hn : forall start, start + m <= stop -> exists u, In u l /\ stat_at stop start u /\ ~ degenerate (XW start stop) (YW start stop)).
    { intros start Hs'. assert (Hi : In start (seq 0 (stop - m + 1))) by (apply in_seq; lia). clear - HF Hi.
      induction HF as [|a u la lu Hu HF IH]; [easy|]. destruct Hi as [->|Hi]; [exists u; split; [now left|auto]|].
      destruct (IH Hi) as (u' & Hin & H). exists u'. split; [now right|auto]. }
    split; [split|].
    - clear - HF Hin Hst. assert (Hall : forall start, In start (seq 0 (stop - m + 1)) -> start + m <= stop) by (intros s Hs'; apply in_seq in Hs'; lia).
      induction HF as [|a u la lu [Hu _] HF IH]; [easy|]. destruct Hin as [->|Hi].
      + exists a. split; [apply Hall; now left|auto].
      + apply IH; auto. intros s Hs'. apply Hall. now right.
    - intros start Hs'. destruct (Hn start Hs') as (u & Hu & Hst' & _). exists u. split; auto.
    - intros start Hs'. now destruct (Hn start Hs') as (u & _ & _ & Hd).
  Qed.

  Lemma sadf_at_defined stop : inv_complete (n_cols model lags const) inv -> m <= stop <= N ->
    (forall start, start + m <= stop -> ~ degenerate (XW start stop) (YW start stop)) ->
    exists e, get_sadf_at_t inv X y stop m model phi = Ok e.
  Proof.
    intros Hcpl Hst Hd. unfold get_sadf_at_t.
    assert (exists adf, mapM (adf_at inv X y stop model phi) (seq 0 (stop - m + 1)) = Ok adf) as [adf E].
    { assert (Hall : forall start, In start (seq 0 (stop - m + 1)) -> start + m <= stop) by (intros s Hs'; apply in_seq in Hs'; lia).
      revert Hall. generalize (seq 0 (stop - m + 1)) as l. induction l as [|a l IH]; intros Hall; [now exists []|]. cbn [mapM].
      destruct (adf_at_cases a stop (Hall a (or_introl eq_refl)) (proj2 Hst)) as [Hok _].
      destruct (Hok (conj (Hd a (Hall a (or_introl eq_refl))) Hcpl)) as [e ->]. cbn [bind].
      destruct IH as [es ->]; [intros s Hs'; apply Hall; now right|]. cbn [bind]. eauto. }
    rewrite E. cbn [bind]. apply mapM_length in E. rewrite seq_length in E. destruct adf as [|x0 adf]; [cbn in E; lia|]. cbn [np_max]. eauto.
  Qed.
End Sadf.
