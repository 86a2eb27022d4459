(** C114: the SADF test under a change of unit and origin. *)
From Coq Require Import Reals Lra String.
From Verif Require Import Series OLS_Model OLS_Spec OLS_Proofs Break_Model Break_Spec OLS_TStat Break_Scale_Spec Break_Proofs4
  Break_Scale_Proofs Break_Scale_Proofs2.
Local Open Scope nat_scope.

Lemma vals_rescale a b s i : i < List.length s -> vals (rescale a b s) i = (a * vals s i + b)%R.
Proof. intros H. unfold vals. now apply rescale_nth. Qed.

(** The regressors of the standard models after the tested one and the lags. *)
Definition extra (model : string) (const : bool) (r : nat) : list R :=
  let k := INR (r + 1) in
  (if String.eqb model "no_trend" then [] else if String.eqb model "linear" then [k] else [k; (k * k)%R]) ++ (if const then [1%R] else []).
Definition auto (lags : nat) (x : nat -> R) (i : nat) : list R :=
  x (i - 1) :: map (fun l => Rminus (x (i - l)) (x (i - l - 1))) (seq 1 lags).
Lemma regressors_standard model lags const x r : is_standard model = true ->
  regressors model lags const x r = auto lags x (lags + 1 + r) ++ extra model const r.
Proof.
  intros H. unfold regressors, row_pos, extra. rewrite H. unfold is_standard in H. unfold auto.
  destruct (String.eqb model "no_trend"); [reflexivity|].
  destruct (String.eqb model "linear"); [cbn [app]; now rewrite <- !app_comm_cons|].
  destruct (String.eqb model "quadratic"); [cbn [app]; now rewrite <- !app_comm_cons|]. discriminate.
Qed.
Lemma auto_length lags x i : List.length (auto lags x i) = S lags.
Proof. unfold auto. cbn. now rewrite map_length, seq_length. Qed.
Lemma n_cols_standard model lags const : is_standard model = true -> forall r, n_cols model lags const = S lags + List.length (extra model const r).
Proof.
  intros H r. unfold n_cols. rewrite regressors_standard by auto. rewrite app_length, auto_length. f_equal.
  unfold extra. destruct (String.eqb model "no_trend"), (String.eqb model "linear"), const; reflexivity.
Qed.
Lemma auto_scale lags a b x x' i j : i <> 0 -> lags < i -> j <= lags -> (forall p, p < i -> x' p = (a * x p + b)%R) ->
  nth j (auto lags x' i) 0%R = (a * nth j (auto lags x i) 0 + (if Nat.eqb j 0 then b else 0))%R.
Proof.
  intros Hi Hl Hj H. unfold auto. destruct j as [|j]; cbn [nth Nat.eqb]; [rewrite H by lia; reflexivity|].
  set (f := fun l => Rminus (x (i - l)) (x (i - l - 1))). set (f' := fun l => Rminus (x' (i - l)) (x' (i - l - 1))).
  rewrite (nth_indep _ 0%R (f' 0)) by (rewrite map_length, seq_length; lia).
  rewrite (nth_indep (map f _) 0%R (f 0)) by (rewrite map_length, seq_length; lia).
  rewrite !map_nth, seq_nth by lia. unfold f, f'. rewrite !H by lia. ring.
Qed.
Lemma const_last model r : nth (List.length (extra model true r) - 1) (extra model true r) 0%R = 1%R.
Proof. unfold extra. destruct (String.eqb model "no_trend"); [reflexivity|]. destruct (String.eqb model "linear"); reflexivity. Qed.

Lemma n_cols_pos model lags const : 0 < n_cols model lags const.
Proof. unfold n_cols, regressors. repeat destruct (String.eqb model _); cbn; lia. Qed.

(** A window before ([X], [y]) and after ([X'], [y']) the change. *)
Definition moved (model : string) (phi : R) (start : nat) (X y X' y' : mat) : Prop :=
  (forall t, t_stat X y t -> exists t', t_stat X' y' t' /\ code_stat model phi start t' = code_stat model phi start t) /\
  (~ degenerate X y -> ~ degenerate X' y').

Section Standard.
  Variables (model : string) (lags : nat) (const : bool) (phi a b : R) (x x' : nat -> R) (n : nat).
  Hypothesis Hst : is_standard model = true.
  Hypothesis Hl : 1 <= lags.
  Hypothesis Ha : a <> 0%R.
  Hypothesis Hb : b = 0%R \/ const = true.
  Hypothesis Hx : forall i, i < n -> x' i = (a * x i + b)%R.

  Let k := n_cols model lags const.
  Let kc := k - 1.
  Let w (j : nat) : R := if Nat.leb j lags then a else 1%R.
  Let T (l j : nat) : R := (w j * delta l j + b * (delta l kc * delta j 0))%R.
  Let U (l j : nat) : R := (/ w j * delta l j - b / w kc / a * (delta l kc * delta j 0))%R.

  Lemma k_pos : 2 <= k.
  Proof. unfold k. rewrite (n_cols_standard model lags const Hst 0). lia. Qed.
  Lemma w_nz j : w j <> 0%R. Proof. unfold w. destruct (Nat.leb j lags); lra. Qed.
  Lemma w_0 : w 0 = a. Proof. reflexivity. Qed.
  Lemma kc_0 : delta 0 kc = 0%R /\ delta kc 0 = 0%R.
  Proof. pose proof k_pos. unfold delta, kc. destruct (Nat.eqb_spec 0 (k - 1)); [lia|]. destruct (Nat.eqb_spec (k - 1) 0); [lia|]. auto. Qed.

  (** Product of two matrices of this shape. *)
  Lemma shape_mm (p q : nat -> R) (f g : R) i j : i < k -> j < k ->
    mm k (fun l j => p j * delta l j + f * (delta l kc * delta j 0))%R (fun l j => q j * delta l j + g * (delta l kc * delta j 0))%R i j
    = (p j * q j * delta i j + (f * q 0%nat + p kc * g) * (delta i kc * delta j 0))%R.
  Proof.
    intros Hi Hj. unfold mm. pose proof k_pos as Hk. destruct kc_0 as [K1 K2]. assert (Hkc : kc < k) by (unfold kc; lia).
    rewrite (rsumn_ext k _ (fun l => delta i l * (p l * (q j * delta l j + g * (delta l kc * delta j 0))) +
      delta l 0 * (f * delta i kc * (q j * delta l j + g * (delta l kc * delta j 0))))%R) by (intros; ring).
    rewrite rsumn_plus, rsumn_delta', rsumn_delta by (auto; lia). rewrite K1.
    assert (p i * delta i j = p j * delta i j)%R by (unfold delta; destruct (Nat.eqb_spec i j); [now subst|ring]).
    assert (p i * delta i kc = p kc * delta i kc)%R by (unfold delta; destruct (Nat.eqb_spec i kc); [now subst|ring]).
    assert (q j * delta 0 j = q 0%nat * delta j 0)%R by (unfold delta; destruct (Nat.eqb_spec 0 j), (Nat.eqb_spec j 0); subst; try lia; ring).
    transitivity (q j * (p i * delta i j) + g * (p i * delta i kc) * delta j 0 + f * delta i kc * (q j * delta 0 j))%R; [ring|].
    rewrite H, H0, H1. ring.
  Qed.

  Lemma TU : same k (mm k T U) delta.
  Proof.
    intros i j Hi Hj. pose proof (shape_mm w (fun j => / w j)%R b (- (b / w kc / a))%R i j Hi Hj) as E. cbv beta in E.
    transitivity (w j * / w j * delta i j + (b * / w 0 + w kc * - (b / w kc / a)) * (delta i kc * delta j 0))%R.
    - rewrite <- E. unfold mm. apply rsumn_ext. intros l Hl'. unfold T, U. ring.
    - rewrite w_0. field. repeat split; auto; apply w_nz.
  Qed.
  Lemma UT : same k (mm k U T) delta.
  Proof.
    intros i j Hi Hj. pose proof (shape_mm (fun j => / w j)%R w (- (b / w kc / a))%R b i j Hi Hj) as E. cbv beta in E.
    transitivity (/ w j * w j * delta i j + (- (b / w kc / a) * w 0 + / w kc * b) * (delta i kc * delta j 0))%R.
    - rewrite <- E. unfold mm. apply rsumn_ext. intros l Hl'. unfold T, U. ring.
    - rewrite w_0. field. repeat split; auto; apply w_nz.
  Qed.

  Lemma standard_column start stop i j : stop <= n_rows model lags n -> i < stop - start -> j < k ->
    at_ (X_of model lags const x' start stop) i j = rsumn k (fun l => at_ (X_of model lags const x start stop) i l * T l j)%R.
  Proof.
    intros Hs Hi Hj. unfold n_rows in Hs. rewrite Hst in Hs.
    pose proof k_pos as Hk. assert (Hkc : kc < k) by (unfold kc; lia).
    rewrite (rsumn_ext k _ (fun l => delta l j * (at_ (X_of model lags const x start stop) i l * w j) +
      delta l kc * (at_ (X_of model lags const x start stop) i l * (b * delta j 0)))%R) by (intros; unfold T; ring).
    rewrite rsumn_plus, !rsumn_delta by auto. cbn [X_of at_]. set (r := start + i).
    rewrite !regressors_standard by auto.
    pose proof (n_cols_standard model lags const Hst r) as Ek. fold k in Ek.
    assert (b * nth kc (auto lags x (lags + 1 + r) ++ extra model const r) 0 = b)%R as Eb.
    { destruct Hb as [->|Hc]; [ring|]. rewrite Hc in *. rewrite app_nth2 by (rewrite auto_length; unfold kc; rewrite Ek; unfold extra; rewrite app_length; cbn; lia).
      rewrite auto_length. replace (kc - S lags) with (List.length (extra model true r) - 1) by (unfold kc; lia). rewrite const_last. ring. }
    destruct (Nat.leb_spec j lags) as [Hjl|Hjl].
    - rewrite !(app_nth1 _ _ 0%R (n := j)) by (rewrite auto_length; lia).
      rewrite (auto_scale lags a b x x') by (try lia; intros p Hp; apply Hx; unfold r in Hp; lia).
      replace (w j) with a by (unfold w; destruct (Nat.leb_spec j lags); [auto|lia]).
      unfold delta. destruct (Nat.eqb j 0); [|ring].
      transitivity (a * nth j (auto lags x (lags + 1 + r)) 0 + b * nth kc (auto lags x (lags + 1 + r) ++ extra model const r) 0)%R; [now rewrite Eb|ring].
    - rewrite !(app_nth2 _ _ 0%R (n := j)) by (rewrite auto_length; lia). rewrite !auto_length.
      replace (w j) with 1%R by (unfold w; destruct (Nat.leb_spec j lags); [lia|auto]).
      unfold delta. destruct (Nat.eqb_spec j 0); [lia|]. ring.
  Qed.

  Lemma standard_moved start stop : stop <= n_rows model lags n ->
    moved model phi start (X_of model lags const x start stop) (Y_of model lags x start stop)
      (X_of model lags const x' start stop) (Y_of model lags x' start stop).
  Proof.
    intros Hs. set (X := X_of model lags const x start stop). set (y := Y_of model lags x start stop).
    set (X' := X_of model lags const x' start stop). set (y' := Y_of model lags x' start stop).
    pose proof k_pos as Hk.
    assert (HX : forall i j, i < nr X -> j < nc X -> at_ X' i j = rsumn (nc X) (fun l => at_ X i l * T l j)%R).
    { intros i j Hi Hj. now apply standard_column. }
    assert (HY : forall i, i < nr X -> at_ y' i 0 = (a * at_ y i 0 + rsumn (nc X) (fun l => at_ X i l * (fun _ => 0) l))%R).
    { intros i Hi. rewrite (rsumn_zero (nc X)) by (intros; ring). cbn [X X_of nr] in Hi. cbn [y y' Y_of at_]. unfold response. rewrite Hst.
      unfold n_rows in Hs. unfold row_pos. rewrite Hst in *. rewrite !Hx by lia. ring. }
    assert (HU0 : forall j, j < nc X -> U 0 j = (/ a * delta 0 j)%R).
    { intros j Hj. unfold U. rewrite (proj1 kc_0). unfold delta at 1 3. destruct (Nat.eqb_spec 0 j) as [<-|]; [rewrite w_0|]; ring. }
    split.
    - intros t Ht. exists (a * / a / Rabs (a * / a) * t)%R. split.
      + apply (t_stat_change X y X' y' T U a (/ a) (fun _ => 0%R)); auto; try reflexivity; try (change (nc X) with k; lia); [exact TU|exact UT].
      + rewrite Rinv_r by auto. rewrite Rabs_R1. f_equal. field.
    - apply (degenerate_change X y X' y' T U a (fun _ => 0%R)); auto; try reflexivity; try (change (nc X) with k; lia); [exact TU|exact UT].
  Qed.
End Standard.

Section Martingale.
  Variables (model : string) (lags : nat) (const : bool) (phi a b : R) (x x' : nat -> R) (n : nat).
  Hypothesis Hm : is_martingale model = true.

  Lemma martingale_not_standard : is_standard model = false.
  Proof.
    unfold is_martingale, is_standard in *.
    destruct (String.eqb_spec model "no_trend"); [subst; discriminate|]. destruct (String.eqb_spec model "linear"); [subst; discriminate|].
    destruct (String.eqb_spec model "quadratic"); [subst; discriminate|]. reflexivity.
  Qed.
  Lemma martingale_columns : exists f h, forall x0 r, regressors model lags const x0 r = f r :: 1%R :: h r /\ List.length (h r) = List.length (h 0).
  Proof.
    unfold is_martingale in Hm. unfold regressors.
    destruct (String.eqb_spec model "no_trend"); [subst; discriminate|]. destruct (String.eqb_spec model "linear"); [subst; discriminate|].
    destruct (String.eqb_spec model "quadratic"); [subst; discriminate|].
    destruct (String.eqb model "sm_poly_1"); [exists (fun r => INR (r + 1) * INR (r + 1))%R, (fun r => [INR (r + 1)]); split; reflexivity|].
    destruct (String.eqb model "sm_poly_2"); [exists (fun r => INR (r + 1) * INR (r + 1))%R, (fun r => [INR (r + 1)]); split; reflexivity|].
    destruct (String.eqb model "sm_exp"); [exists (fun r => INR (r + 1)), (fun _ => []); split; reflexivity|].
    exists (fun r => ln (INR (r + 1))), (fun _ => []); split; reflexivity.
  Qed.

  (** The response is multiplied by [c] and moved by [d]. *)
  Lemma martingale_moved c d start stop : c <> 0%R ->
    (forall r, r < stop -> response model lags x' r = (c * response model lags x r + d)%R) ->
    moved model phi start (X_of model lags const x start stop) (Y_of model lags x start stop)
      (X_of model lags const x' start stop) (Y_of model lags x' start stop).
  Proof.
    intros Hc Hd. destruct martingale_columns as (f & h & Hreg).
    set (X := X_of model lags const x start stop). set (y := Y_of model lags x start stop).
    set (X' := X_of model lags const x' start stop). set (y' := Y_of model lags x' start stop).
    assert (Hk : nc X = S (S (List.length (h 0)))).
    { cbn [X X_of nc]. unfold n_cols. destruct (Hreg (fun _ => 0%R) 0) as [-> _]. reflexivity. }
    assert (HX : forall i j, i < nr X -> j < nc X -> at_ X' i j = rsumn (nc X) (fun l => at_ X i l * delta l j)%R).
    { intros i j Hi Hj. rewrite (rsumn_ext _ _ (fun l => delta l j * at_ X i l)%R) by (intros; ring). rewrite rsumn_delta by auto.
      cbn [X X' X_of at_]. now rewrite !(proj1 (Hreg _ _)). }
    assert (HY : forall i, i < nr X -> at_ y' i 0 = (c * at_ y i 0 + rsumn (nc X) (fun l => at_ X i l * (fun l => d * delta l 1) l))%R).
    { intros i Hi. rewrite (rsumn_ext _ _ (fun l => delta l 1 * (d * at_ X i l))%R) by (intros; ring). rewrite rsumn_delta by lia.
      cbn [X X_of nr] in Hi. cbn [y y' Y_of X X_of at_]. rewrite (proj1 (Hreg _ _)). cbn [nth]. rewrite Hd by lia. ring. }
    assert (HI : same (nc X) (mm (nc X) delta delta) delta) by apply mm_id_l.
    split.
    - intros t Ht. exists (c * 1 / Rabs (c * 1) * t)%R. split.
      + apply (t_stat_change X y X' y' delta delta c 1%R (fun l => d * delta l 1)%R); auto; try reflexivity; try lia.
        * intros j Hj. ring.
        * unfold delta. cbn. ring.
      + unfold code_stat. rewrite Hm. f_equal. rewrite !Rmult_1_r. unfold Rdiv. rewrite (Rabs_mult _ t), (Rabs_mult c), Rabs_inv, Rabs_Rabsolu.
        rewrite Rinv_r by (now apply Rabs_no_R0). ring.
    - apply (degenerate_change X y X' y' delta delta c (fun l => d * delta l 1)%R); auto; try reflexivity; lia.
  Qed.
End Martingale.

Section Run.
  Variable inv : mat -> result mat.
  Hypothesis Hs : inv_sound inv.
  Variables (model : string) (lags m : nat) (const : bool) (phi : R).
  Hypothesis Hv : valid model lags.
  Hypothesis Hk : n_cols model lags const < m.
  Hypothesis Hcpl : inv_complete (n_cols model lags const) inv.
  Variables (a b : R) (s : list (Z * R)).
  Hypothesis Hi : ignored model const a b.
  Let s' := rescale a b s.

  Lemma windows_moved start stop :
    (is_martingale model = true -> model <> "sm_poly_1"%string -> Forall (fun v => (0 < v)%R) (map snd s)) ->
    stop <= n_rows model lags (List.length s) ->
    moved model phi start (X_of model lags const (vals s) start stop) (Y_of model lags (vals s) start stop)
      (X_of model lags const (vals s') start stop) (Y_of model lags (vals s') start stop).
  Proof.
    intros Hp Hst. unfold ignored in Hi. destruct Hv as [[Hstd Hl]|Hm].
    - rewrite Hstd in Hi. destruct Hi as [Ha Hb].
      apply (standard_moved model lags const phi a b (vals s) (vals s') (List.length s)); auto.
      intros i Hi0. now apply vals_rescale.
    - pose proof (martingale_not_standard model Hm) as Hns. rewrite Hns in Hi. unfold n_rows in Hst. rewrite Hns in Hst.
      destruct (String.eqb_spec model "sm_poly_1") as [E|E].
      + apply (martingale_moved model lags const phi (vals s) (vals s') Hm a b); auto.
        intros r Hr. unfold response, row_pos. rewrite Hns. rewrite (proj2 (String.eqb_eq _ _) E). unfold s'. rewrite vals_rescale by lia. reflexivity.
      + destruct Hi as [Ha Hb]. apply (martingale_moved model lags const phi (vals s) (vals s') Hm 1 (ln a)); [lra|].
        intros r Hr. unfold response, row_pos. rewrite Hns. destruct (String.eqb_spec model "sm_poly_1"); [contradiction|].
        unfold s'. rewrite vals_rescale by lia. rewrite Hb.
        assert (0 < vals s r)%R.
        { specialize (Hp Hm E). rewrite Forall_forall in Hp. apply Hp. unfold vals. apply nth_In. rewrite map_length. lia. }
        rewrite Rplus_0_r, ln_mult by auto. ring.
  Qed.

  Lemma c114_sadf out : sadf_run inv model lags m const phi s = Ok out -> sadf_run inv model lags m const phi (rescale a b s) = Ok out.
  Proof.
    intros H. assert (L : List.length (rescale a b s) = List.length s) by apply rescale_length.
    assert (F : map fst (rescale a b s) = map fst s) by apply rescale_fst.
    destruct (proj1 (c46_defined inv Hs model lags m const phi Hv s Hk Hcpl) (ex_intro _ out H)) as (D1 & D2 & D3).
    destruct (proj2 (c46_defined inv Hs model lags m const phi Hv (rescale a b s) Hk Hcpl)) as [out' H'].
    { rewrite L. split; [auto|]. split.
      - intros Hm Hne. specialize (D2 Hm Hne). unfold ignored in Hi. rewrite (martingale_not_standard model Hm) in Hi.
        destruct (String.eqb_spec model "sm_poly_1"); [contradiction|]. destruct Hi as [Ha Hb]. unfold rescale. rewrite map_map.
        rewrite Forall_forall in *. intros v Hin. apply in_map_iff in Hin. destruct Hin as (p & <- & Hin). cbn [snd].
        specialize (D2 (snd p) (in_map snd s p Hin)). nra.
      - intros start stop H1 H2. apply (windows_moved start stop D2 ltac:(lia)). now apply D3. }
    rewrite H'. f_equal.
    destruct (c46 inv Hs model lags m const phi Hv s out Hk H) as (_ & E1 & R1).
    destruct (c46 inv Hs model lags m const phi Hv (rescale a b s) out' Hk H') as (_ & E2 & R2). cbv zeta in *. rewrite L in E2, R2.
    assert (N : forall q, nth_error out' q = nth_error out q).
    { intros q. set (rows := n_rows model lags (List.length s)) in *. destruct (Nat.lt_ge_cases (m + q) rows) as [Hq|Hq].
      - destruct (R1 q Hq) as (v & -> & (st & S1 & t & S2 & S3) & S4). destruct (R2 q Hq) as (v' & -> & (st' & S1' & t' & S2' & S3') & S4').
        rewrite F. do 3 f_equal. apply Rle_antisym.
        + destruct (S4 st' S1') as (u & (t1 & T1 & T2) & T3).
          destruct (proj1 (windows_moved st' (m + q + 1) D2 ltac:(lia)) t1 T1) as (t2 & W1 & W2).
          assert (t2 = t') as -> by (eapply t_stat_unique; [|exact W1|exact S2']; apply n_cols_pos).
          rewrite S3', W2, <- T2. exact T3.
        + destruct (S4' st S1) as (u & (t1 & T1 & T2) & T3).
          destruct (proj1 (windows_moved st (m + q + 1) D2 ltac:(lia)) t S2) as (t2 & W1 & W2).
          assert (t2 = t1) as -> by (eapply t_stat_unique; [|exact W1|exact T1]; apply n_cols_pos).
          rewrite S3, <- W2, <- T2. exact T3.
      - rewrite !(proj2 (nth_error_None _ _)); auto; lia. }
    clear - N. revert out N. induction out' as [|x l IH]; intros [|y r] N; auto.
    - specialize (N 0). discriminate.
    - specialize (N 0). discriminate.
    - pose proof (N 0) as N0. cbn in N0. injection N0 as ->. f_equal. apply IH. intros q. exact (N (S q)).
  Qed.
End Run.
