(** Structural-break statistics of a series in another unit. *)
From Coq Require Import Reals Lra String.
From Verif Require Import PreludeFacts Series OLS_Model OLS_Spec OLS_Proofs OLS_TStat Break_Model Break_Spec Break_Proofs Break_Proofs2 Break_Proofs3 Break_Proofs4 Break_Proofs5 Scale_Spec3.
Local Open Scope nat_scope.

(** [X'] has the columns of [X] multiplied by [d]; [y'] is [y] multiplied by [c] plus a combination [e] of the columns of [X]. *)
Definition similar (c : R) (d e : nat -> R) (X y X' y' : mat) : Prop :=
  nr X' = nr X /\ nc X' = nc X /\
  (forall i j, i < nr X -> j < nc X -> at_ X' i j = (at_ X i j * d j)%R) /\
  (forall i, i < nr X -> at_ y' i 0 = (c * at_ y i 0 + rsumn (nc X) (fun l => at_ X i l * e l))%R).

Section Similar.
  Variables (c : R) (d e : nat -> R) (X y X' y' : mat).
  Hypothesis Hc : c <> 0%R.
  Hypothesis Hd : forall j, d j <> 0%R.
  Hypothesis HS : similar c d e X y X' y'.

  Definition coeff (b : nat -> R) (j : nat) : R := ((c * b j + e j) / d j)%R.
  Definition coeff_back (b : nat -> R) (j : nat) : R := ((d j * b j - e j) / c)%R.

  Lemma resid_similar b i : i < nr X -> resid X' y' (coeff b) i = (c * resid X y b i)%R.
  Proof.
    destruct HS as (_ & EC & EX & EY). intros Hi. unfold resid. rewrite EC, (EY i Hi).
    rewrite (rsumn_ext (nc X) (fun l => at_ X' i l * coeff b l)%R (fun l => c * (at_ X i l * b l) + at_ X i l * e l)%R).
    2:{ intros l Hl. rewrite EX by assumption. unfold coeff. field. apply Hd. }
    rewrite rsumn_plus, rsumn_scal. ring.
  Qed.
  Lemma sse_similar b : sse X' y' (coeff b) = (c * c * sse X y b)%R.
  Proof.
    unfold sse. destruct HS as (ER & _). rewrite ER, <- rsumn_scal. apply rsumn_ext. intros i Hi. rewrite resid_similar by exact Hi. ring.
  Qed.
  Lemma sse_ext (A B : mat) b b' : (forall j, j < nc A -> b j = b' j) -> sse A B b = sse A B b'.
  Proof.
    intros H. unfold sse, resid. apply rsumn_ext. intros i Hi. rewrite (rsumn_ext (nc A) (fun l => at_ A i l * b l)%R (fun l => at_ A i l * b' l)%R); [reflexivity|].
    intros l Hl. now rewrite H.
  Qed.
  Lemma sse_back b : sse X' y' b = (c * c * sse X y (coeff_back b))%R.
  Proof. rewrite <- sse_similar. apply sse_ext. intros j _. unfold coeff, coeff_back. field. split; auto. Qed.

  Lemma gram_similar i j : i < nc X -> j < nc X -> at_ (gram X') i j = (d i * d j * at_ (gram X) i j)%R.
  Proof.
    destruct HS as (ER & EC & EX & _). intros Hi Hj. cbn. rewrite ER, <- rsumn_scal. apply rsumn_ext. intros k Hk. rewrite !EX by assumption. ring.
  Qed.
  Lemma inverse_similar N : inverse_of (gram X) N -> inverse_of (gram X') {| nr := nr N; nc := nc N; at_ := fun i j => (at_ N i j / (d i * d j))%R |}.
  Proof.
    intros (H1 & H2 & H3 & H4 & H5). pose proof gram_similar as G. destruct HS as (ER & EC & _). unfold inverse_of. cbn [nr nc at_ gram] in *.
    split; [reflexivity|]. split; [congruence|]. split; [congruence|]. rewrite EC. split; intros i j Hi Hj.
    - rewrite (rsumn_ext (nc X) _ (fun k => (d i / d j) * (rsumn (nr X) (fun k0 => at_ X k0 i * at_ X k0 k) * at_ N k j))%R).
      + rewrite rsumn_scal, H4 by assumption. unfold delta. destruct (Nat.eqb_spec i j) as [->|]; [field; apply Hd|ring].
      + intros k Hk. rewrite G by assumption. field. split; auto.
    - rewrite (rsumn_ext (nc X) _ (fun k => (d j / d i) * (at_ N i k * rsumn (nr X) (fun k0 => at_ X k0 k * at_ X k0 j)))%R).
      + rewrite rsumn_scal, H5 by assumption. unfold delta. destruct (Nat.eqb_spec i j) as [->|]; [field; apply Hd|ring].
      + intros k Hk. rewrite G by assumption. field. split; auto.
  Qed.

  Lemma t_stat_similar v : e 0 = 0%R -> t_stat X y v -> t_stat X' y' (c / d 0 / Rabs (c / d 0) * v)%R.
  Proof.
    intros He (b & N & HN & Hmin & ->). exists (coeff b), {| nr := nr N; nc := nc N; at_ := fun i j => (at_ N i j / (d i * d j))%R |}.
    split; [now apply inverse_similar|]. split.
    - intros b'. rewrite sse_similar, sse_back. apply Rmult_le_compat_l; [exact (Rle_0_sqr c)|apply Hmin].
    - destruct HS as (ER & EC & _). rewrite ER, EC, sse_similar. cbn [at_]. unfold coeff. rewrite He.
      replace (c * c * sse X y b / (INR (nr X) - INR (nc X)) * (at_ N 0 0 / (d 0%nat * d 0%nat)))%R
        with ((c / d 0%nat) * (c / d 0%nat) * (sse X y b / (INR (nr X) - INR (nc X)) * at_ N 0 0))%R by (unfold Rdiv; rewrite Rinv_mult; ring).
      rewrite (sqrt_mult_alt ((c / d 0%nat) * (c / d 0%nat))%R) by exact (Rle_0_sqr _). fold (Rsqr (c / d 0%nat)). rewrite sqrt_Rsqr_abs.
      set (q := sqrt (_ * at_ N 0 0)). unfold Rdiv. rewrite Rinv_mult. ring.
  Qed.

  Lemma nondegenerate_similar : degenerate X' y' -> degenerate X y.
  Proof.
    intros [H|[b H]].
    - left. intros N HN. apply (H _ (inverse_similar N HN)).
    - right. exists (coeff_back b). rewrite sse_back in H. apply Rmult_integral in H. destruct H as [H|H]; [|exact H]. apply Rmult_integral in H. tauto.
  Qed.
End Similar.

Lemma similar_sym c d e X y X' y' : c <> 0%R -> (forall j, d j <> 0%R) -> similar c d e X y X' y' ->
  similar (/ c) (fun j => / d j)%R (fun j => - e j / (c * d j))%R X' y' X y.
Proof.
  intros Hc Hd (ER & EC & EX & EY). split; [now symmetry|]. split; [now symmetry|]. rewrite ER, EC. split.
  - intros i j Hi Hj. rewrite EX by assumption. field. apply Hd.
  - intros i Hi. rewrite EY by assumption.
    rewrite (rsumn_ext (nc X) (fun l => at_ X' i l * (- e l / (c * d l)))%R (fun l => - / c * (at_ X i l * e l))%R).
    2:{ intros l Hl. rewrite EX by assumption. field. split; auto. }
    rewrite rsumn_scal. field. exact Hc.
Qed.

Lemma degenerate_similar c d e X y X' y' : c <> 0%R -> (forall j, d j <> 0%R) -> similar c d e X y X' y' -> (degenerate X y <-> degenerate X' y').
Proof.
  intros Hc Hd HS. split.
  - apply (nondegenerate_similar (/ c) (fun j => / d j)%R (fun j => - e j / (c * d j))%R X' y' X y); [now apply Rinv_neq_0_compat|intros; now apply Rinv_neq_0_compat|now apply similar_sym].
  - now apply (nondegenerate_similar c d e X y X' y').
Qed.
