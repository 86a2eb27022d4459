(** A change of regressors and response that keeps the t-statistic. *)
From Coq Require Import Reals Lra.
From Verif Require Import Series OLS_Model OLS_Spec OLS_Proofs Break_Spec OLS_TStat.
Local Open Scope nat_scope.

Section Matrices.
  Variable k : nat.
  Definition sq := nat -> nat -> R.
  Definition mm (A B : sq) : sq := fun i j => rsumn k (fun l => A i l * B l j)%R.
  Definition tr (A : sq) : sq := fun i j => A j i.
  Definition same (A B : sq) : Prop := forall i j, i < k -> j < k -> A i j = B i j.

  Lemma mm_assoc A B C i j : mm (mm A B) C i j = mm A (mm B C) i j.
  Proof.
    unfold mm. rewrite (rsumn_ext k _ (fun l => rsumn k (fun p => A i p * B p l * C l j)%R)).
    2:{ intros l _. rewrite <- rsumn_scal_r. apply rsumn_ext. auto. }
    rewrite rsumn_swap. apply rsumn_ext. intros p _. rewrite <- rsumn_scal. apply rsumn_ext. intros; ring.
  Qed.
  Lemma mm_same A A' B B' : same A A' -> same B B' -> same (mm A B) (mm A' B').
  Proof. intros HA HB i j Hi Hj. apply rsumn_ext. intros l Hl. now rewrite HA, HB. Qed.
  Lemma same_trans A B C : same A B -> same B C -> same A C.
  Proof. intros H1 H2 i j Hi Hj. now rewrite H1, H2. Qed.
  Lemma same_refl A : same A A. Proof. now intros i j _ _. Qed.
  Lemma same_assoc A B C : same (mm (mm A B) C) (mm A (mm B C)).
  Proof. intros i j _ _. apply mm_assoc. Qed.
  Lemma same_sym A B : same A B -> same B A. Proof. intros H i j Hi Hj. symmetry. auto. Qed.
  Lemma mm_id_l A : same (mm delta A) A.
  Proof. intros i j Hi Hj. unfold mm. apply (rsumn_delta' k i (fun l => A l j)). auto. Qed.
  Lemma tr_mm A B : same (tr (mm A B)) (mm (tr B) (tr A)).
  Proof. intros i j _ _. unfold tr, mm. apply rsumn_ext. intros; ring. Qed.
  Lemma tr_id : same (tr delta) delta.
  Proof. intros i j _ _. apply delta_sym. Qed.

  (** Products of inverses. *)
  Lemma mm_inv4 A B C D : same (mm A B) delta -> same (mm C D) delta -> same (mm (mm A C) (mm D B)) delta.
  Proof.
    intros H1 H2. eapply same_trans; [apply same_assoc|].
    eapply same_trans; [apply mm_same; [apply same_refl|]|exact H1].
    eapply same_trans; [apply same_sym, same_assoc|].
    eapply same_trans; [apply mm_same; [exact H2|apply same_refl]|apply mm_id_l].
  Qed.
  Lemma tr_inv A B : same (mm A B) delta -> same (mm (tr B) (tr A)) delta.
  Proof.
    intros H. eapply same_trans; [apply same_sym, tr_mm|]. intros i j Hi Hj. unfold tr. rewrite H by auto. apply delta_sym.
  Qed.
End Matrices.

Section Change.
  Variables (X y X' y' : mat) (T U : nat -> nat -> R) (c u : R) (g : nat -> R).
  Hypothesis Hr : nr X' = nr X.
  Hypothesis Hn : nc X' = nc X.
  Hypothesis Hk : 0 < nc X.
  Hypothesis HX : forall i j, i < nr X -> j < nc X -> at_ X' i j = rsumn (nc X) (fun l => at_ X i l * T l j)%R.
  Hypothesis HY : forall i, i < nr X -> at_ y' i 0 = (c * at_ y i 0 + rsumn (nc X) (fun l => at_ X i l * g l))%R.
  Hypothesis Hc : c <> 0%R.
  Hypothesis HTU : same (nc X) (mm (nc X) T U) delta.
  Hypothesis HUT : same (nc X) (mm (nc X) U T) delta.
  Hypothesis HU0 : forall j, j < nc X -> U 0 j = (u * delta 0 j)%R.
  Hypothesis Hg : g 0%nat = 0%R.

  Let k := nc X.

  Lemma u_nz : u <> 0%R.
  Proof.
    intros E. pose proof (HUT 0 0 Hk Hk) as H. unfold mm in H. rewrite rsumn_zero in H; [unfold delta in H; cbn in H; lra|].
    intros i Hi. rewrite HU0, E by auto. ring.
  Qed.

  Definition app (A : nat -> nat -> R) (w : nat -> R) (l : nat) : R := rsumn k (fun j => A l j * w j)%R.

  Lemma fitted i w : i < nr X -> rsumn k (fun j => at_ X' i j * w j)%R = rsumn k (fun l => at_ X i l * app T w l)%R.
  Proof.
    intros Hi. rewrite (rsumn_ext k _ (fun j => rsumn k (fun l => at_ X i l * T l j * w j)%R)).
    2:{ intros j Hj. rewrite HX by auto. now rewrite <- rsumn_scal_r. }
    rewrite rsumn_swap. apply rsumn_ext. intros l _. unfold app. rewrite <- rsumn_scal. apply rsumn_ext. intros; ring.
  Qed.

  Lemma resid_change i w : i < nr X -> resid X' y' w i = (c * resid X y (fun l => (app T w l - g l) / c) i)%R.
  Proof.
    intros Hi. unfold resid. rewrite Hn, HY by auto. fold k. rewrite fitted by auto.
    rewrite Rmult_minus_distr_l. rewrite <- rsumn_scal.
    rewrite (rsumn_ext k (fun i0 => c * (at_ X i i0 * ((app T w i0 - g i0) / c)))%R (fun l => at_ X i l * app T w l - at_ X i l * g l)%R).
    - rewrite rsumn_minus. ring.
    - intros l _. field. auto.
  Qed.
  Lemma sse_change w : sse X' y' w = (c * c * sse X y (fun l => (app T w l - g l) / c))%R.
  Proof.
    unfold sse. rewrite Hr. rewrite <- rsumn_scal. apply rsumn_ext. intros i Hi. rewrite resid_change by auto. ring.
  Qed.

  Lemma resid_ext b b' i : (forall j, j < k -> b j = b' j) -> resid X y b i = resid X y b' i.
  Proof. intros H. unfold resid. fold k. f_equal. apply rsumn_ext. intros j Hj. now rewrite H. Qed.
  Lemma sse_ext b b' : (forall j, j < k -> b j = b' j) -> sse X y b = sse X y b'.
  Proof. intros H. unfold sse. apply rsumn_ext. intros i _. now rewrite (resid_ext b b'). Qed.

  Lemma app_app A B w l : app A (app B w) l = app (mm k A B) w l.
  Proof.
    unfold app, mm. rewrite (rsumn_ext k _ (fun j => rsumn k (fun p => A l j * B j p * w p)%R)).
    2:{ intros j _. rewrite <- rsumn_scal. apply rsumn_ext. intros; ring. }
    rewrite rsumn_swap. apply rsumn_ext. intros j _. rewrite <- rsumn_scal_r. apply rsumn_ext. auto.
  Qed.
  Lemma app_id A w l : same k A delta -> l < k -> app A w l = w l.
  Proof.
    intros H Hl. unfold app. rewrite (rsumn_ext k _ (fun j => delta l j * w j)%R); [now apply rsumn_delta'|].
    intros j Hj. now rewrite H.
  Qed.

  Definition G_ : sq := fun i j => at_ (gram X) i j.
  Lemma gram_change : same k (fun i j => at_ (gram X') i j) (mm k (mm k (tr T) G_) T).
  Proof.
    intros i j Hi Hj. cbn [gram at_]. rewrite Hr.
    rewrite (rsumn_ext (nr X) _ (fun p => rsumn k (fun l => (at_ X p l * T l i) * rsumn k (fun q => at_ X p q * T q j)))%R).
    2:{ intros p Hp. rewrite !HX by auto. now rewrite <- rsumn_scal_r. }
    rewrite mm_assoc. rewrite rsumn_swap. unfold mm at 1. apply rsumn_ext. intros l Hl. unfold tr.
    rewrite (rsumn_ext (nr X) _ (fun p => rsumn k (fun q => T l i * (at_ X p l * at_ X p q * T q j))%R)).
    2:{ intros p Hp. rewrite <- rsumn_scal. apply rsumn_ext. intros; ring. }
    rewrite rsumn_swap. unfold mm. rewrite <- rsumn_scal. apply rsumn_ext. intros q Hq.
    rewrite rsumn_scal. f_equal. rewrite rsumn_scal_r. reflexivity.
  Qed.

  Definition N_change (N : mat) : mat := {| nr := k; nc := k; at_ := mm k (mm k U (fun i j => at_ N i j)) (tr U) |}.
  Lemma inverse_change N : inverse_of (gram X) N -> inverse_of (gram X') (N_change N).
  Proof.
    intros (_ & E1 & E2 & HL & HR). cbn [gram nr nc] in E1, E2, HL, HR. fold k in E1, E2, HL, HR. unfold inverse_of. cbn [gram nr nc]. rewrite Hn. fold k.
    repeat split; auto.
    - set (NN := fun i j => at_ N i j).
      assert (S : same k (mm k (fun i j => at_ (gram X') i j) (mm k (mm k U NN) (tr U))) delta).
      { eapply same_trans; [apply mm_same; [apply gram_change|apply same_refl]|].
        eapply same_trans; [apply same_assoc|].
        eapply same_trans; [apply mm_same; [apply same_refl|apply same_sym, same_assoc]|].
        eapply same_trans; [apply mm_same; [apply same_refl|apply mm_same; [|apply same_refl]]|].
        { eapply same_trans; [apply same_sym, same_assoc|]. eapply same_trans; [apply mm_same; [exact HTU|apply same_refl]|apply mm_id_l]. }
        apply mm_inv4; [apply tr_inv; exact HUT|]. intros i j Hi Hj. apply (HL i j Hi Hj). }
      intros i j Hi Hj. exact (S i j Hi Hj).
    - set (NN := fun i j => at_ N i j).
      assert (S : same k (mm k (mm k (mm k U NN) (tr U)) (fun i j => at_ (gram X') i j)) delta).
      { eapply same_trans; [apply mm_same; [apply same_refl|apply gram_change]|].
        eapply same_trans; [apply mm_same; [apply same_refl|apply same_assoc]|].
        eapply same_trans; [apply same_assoc|].
        eapply same_trans; [apply mm_same; [apply same_refl|apply same_sym, same_assoc]|].
        eapply same_trans; [apply mm_same; [apply same_refl|apply mm_same; [|apply same_refl]]|].
        { apply tr_inv. exact HTU. }
        eapply same_trans; [apply mm_same; [apply same_refl|apply mm_id_l]|].
        apply mm_inv4; [exact HUT|]. intros i j Hi Hj. apply (HR i j Hi Hj). }
      intros i j Hi Hj. exact (S i j Hi Hj).
  Qed.
  Lemma N_change_00 N : at_ (N_change N) 0 0 = (u * u * at_ N 0 0)%R.
  Proof.
    cbn [N_change at_]. unfold mm, tr.
    rewrite (rsumn_ext k _ (fun l => delta 0 l * (u * rsumn k (fun q => U 0 q * at_ N q l)))%R).
    2:{ intros l Hl. rewrite (HU0 l) by auto. ring. }
    rewrite rsumn_delta' by auto.
    rewrite (rsumn_ext k _ (fun q => delta 0 q * (u * at_ N q 0))%R).
    2:{ intros q Hq. rewrite HU0 by auto. ring. }
    rewrite rsumn_delta' by auto. ring.
  Qed.

  Lemma t_stat_change v : t_stat X y v -> t_stat X' y' (c * u / Rabs (c * u) * v).
  Proof.
    intros (b & N & HN & Hb & ->).
    set (b' := app U (fun j => c * b j + g j)%R).
    assert (Eb : forall l, l < k -> app T b' l = (c * b l + g l)%R).
    { intros l Hl. unfold b'. rewrite app_app. now rewrite app_id. }
    assert (Es : sse X' y' b' = (c * c * sse X y b)%R).
    { rewrite sse_change. f_equal. apply sse_ext. intros j Hj. rewrite Eb by auto. field. auto. }
    exists b', (N_change N). split; [now apply inverse_change|]. split.
    - intros w. rewrite Es, sse_change. apply Rmult_le_compat_l; [apply Rle_0_sqr|apply Hb].
    - rewrite Es, Hr, Hn, N_change_00. fold k.
      assert (b' 0%nat = (c * u * b 0%nat)%R) as ->.
      { unfold b', app. rewrite (rsumn_ext k _ (fun j => delta 0 j * (u * (c * b j + g j)))%R).
        2:{ intros j Hj. rewrite HU0 by auto. ring. }
        rewrite rsumn_delta' by auto. rewrite Hg. ring. }
      set (q := (sse X y b / (INR (nr X) - INR k) * at_ N 0 0)%R).
      replace (c * c * sse X y b / (INR (nr X) - INR k) * (u * u * at_ N 0 0))%R with (Rsqr (c * u) * q)%R by (unfold q, Rsqr, Rdiv; ring).
      rewrite sqrt_mult_alt by apply Rle_0_sqr. rewrite sqrt_Rsqr_abs. unfold Rdiv. rewrite Rinv_mult. ring.
  Qed.

  Lemma degenerate_change : ~ degenerate X y -> ~ degenerate X' y'.
  Proof.
    intros H D. apply H. destruct D as [D|(w & D)].
    - left. intros N HN. apply (D _ (inverse_change N HN)).
    - right. exists (fun l => (app T w l - g l) / c)%R. rewrite sse_change in D. apply Rmult_integral in D. destruct D as [D|D]; auto.
      apply Rmult_integral in D. tauto.
  Qed.
End Change.
