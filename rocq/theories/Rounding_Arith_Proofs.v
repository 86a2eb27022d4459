(** Running a model with [Arith_rounded] is running it with [Arith_double]. *)
From Coq Require Import Reals ZArith QArith Qreals Lia Lra List.
From Verif Require Import PreludeFacts Num Series Cusum_Model Cusum_Proofs Double_Model Rounding_Model Rounding_Proofs Rounding_Arith_Model.
Import ListNotations.
Local Open Scope R_scope.
Notation DA := Arith_double.
Notation RA := Arith_rounded.

Definition real (x : ext Q) : ext R := match x with Fin q => Fin (Q2R q) | PInf => PInf | NInf => NInf | NaN => NaN end.

Lemma real_altb x y : @altb R DA (Q2R x) (Q2R y) = @altb Q RA x y.
Proof.
  change (@altb Q RA x y) with (@altb Q Arith_Q x y). cbn [altb Arith_double].
  destruct (Rlt_dec _ _) as [L|L].
  - symmetry. apply altb_Q_true. now apply Rlt_Qlt.
  - symmetry. apply altb_Q_false. apply Rle_Qle. lra.
Qed.
Lemma real_aeqb x y : @aeqb R DA (Q2R x) (Q2R y) = @aeqb Q RA x y.
Proof.
  cbn [aeqb Arith_double Arith_rounded]. destruct (Req_EM_T _ _) as [E|E].
  - symmetry. apply Qeq_bool_iff. now apply eqR_Qeq.
  - symmetry. destruct (Qeq_bool x y) eqn:F; auto. apply Qeq_bool_iff, Qeq_eqR in F. contradiction.
Qed.
Lemma real_aadd x y : Q2R (@aadd Q RA x y) = @aadd R DA (Q2R x) (Q2R y).
Proof. cbn [aadd Arith_double Arith_rounded]. now rewrite rounded_double, Q2R_plus. Qed.
Lemma real_amul x y : Q2R (@amul Q RA x y) = @amul R DA (Q2R x) (Q2R y).
Proof. cbn [amul Arith_double Arith_rounded]. now rewrite rounded_double, Q2R_mult. Qed.
Lemma real_adiv x y : ~ (y == 0)%Q -> Q2R (@adiv Q RA x y) = @adiv R DA (Q2R x) (Q2R y).
Proof. intros H. unfold adiv. rewrite real_amul. cbn [ainv Arith_double Arith_rounded]. now rewrite Q2R_inv. Qed.
Lemma real_0 : Q2R 0 = 0. Proof. apply RMicromega.Q2R_0. Qed.

Lemma real_eadd x y : real (@eadd Q RA x y) = @eadd R DA (real x) (real y).
Proof. destruct x, y; cbn [eadd real]; try reflexivity. f_equal. apply real_aadd. Qed.
Lemma real_eopp x : real (@eopp Q RA x) = @eopp R DA (real x).
Proof. destruct x; cbn [eopp real]; try reflexivity. f_equal. apply Q2R_opp. Qed.
Lemma real_esub x y : real (@esub Q RA x y) = @esub R DA (real x) (real y).
Proof. unfold esub. now rewrite real_eadd, real_eopp. Qed.
Lemma real_asign x : @asign R DA (Q2R x) = @asign Q RA x.
Proof. unfold asign. change (@a0 R DA) with 0. rewrite <- real_0, !real_altb. reflexivity. Qed.
Lemma real_esign x : @esign R DA (real x) = @esign Q RA x.
Proof. destruct x; cbn [esign real]; try reflexivity. apply real_asign. Qed.
Lemma real_signed_inf c : real (signed_inf c) = signed_inf c.
Proof. destruct c; reflexivity. Qed.
Lemma real_emul x y : real (@emul Q RA x y) = @emul R DA (real x) (real y).
Proof.
  destruct x, y; cbn [emul real esign]; rewrite ?real_asign; try reflexivity; try apply real_signed_inf. f_equal. apply real_amul.
Qed.
Lemma real_ediv x y : real (@ediv Q RA x y) = @ediv R DA (real x) (real y).
Proof.
  destruct x as [x| | |], y as [y| | |]; cbn [ediv real esign]; rewrite ?real_asign; try reflexivity; try apply real_signed_inf; try (f_equal; apply real_0).
  change (@a0 R DA) with 0. rewrite <- real_0, real_aeqb. change (@a0 Q RA) with 0%Q. destruct (@aeqb Q RA y 0%Q) eqn:E.
  - apply real_signed_inf.
  - cbn [real]. f_equal. apply real_adiv. intros F. apply Qeq_bool_iff in F. cbn in E. congruence.
Qed.
Lemma real_eltb x y : @eltb R DA (real x) (real y) = @eltb Q RA x y.
Proof. destruct x, y; cbn [eltb real]; try reflexivity. apply real_altb. Qed.
Lemma real_eeqb x y : @eeqb R DA (real x) (real y) = @eeqb Q RA x y.
Proof. destruct x, y; cbn [eeqb real]; try reflexivity. apply real_aeqb. Qed.
Lemma real_py_max x y : real (@py_max Q RA x y) = @py_max R DA (real x) (real y).
Proof. unfold py_max. rewrite real_eltb. now destruct (eltb _ _). Qed.
Lemma real_py_min x y : real (@py_min Q RA x y) = @py_min R DA (real x) (real y).
Proof. unfold py_min. rewrite real_eltb. now destruct (eltb _ _). Qed.

(** ** The CUSUM filter *)

Definition real_state (s : cstate Q) : cstate R := {| pos := real (pos s); neg := real (neg s); picked := picked s |}.
Definition real_series (X : series Q) : series R := map (fun r => (fst r, real (snd r))) X.

Lemma real_step h s t d : real_state (@cusum_step Q RA h s t d) = @cusum_step R DA (Q2R h) (real_state s) t (real d).
Proof.
  unfold cusum_step. cbv zeta. change (@a0 R DA) with 0. rewrite <- real_0. change (Fin (Q2R 0)) with (real (Fin 0%Q)).
  change (@Fin R (Q2R h)) with (real (Fin h)). cbn [pos neg picked real_state].
  rewrite <- !real_eadd, <- real_eopp, <- real_py_max, <- real_py_min, !real_eltb. change (@a0 Q RA) with 0%Q.
  destruct (eltb _ _); [reflexivity|]. destruct (eltb _ _); reflexivity.
Qed.
Lemma real_loc s t : match @loc Q s t with Ok v => Ok (real v) | Err e => Err e end = @loc R (real_series s) t.
Proof.
  unfold loc. assert (filter (fun r => (fst r =? t)%Z) (real_series s) = real_series (filter (fun r => (fst r =? t)%Z) s)) as ->.
  { unfold real_series. induction s as [|a s IH]; auto. cbn. destruct (fst a =? t)%Z; cbn; now rewrite IH. }
  destruct (filter _ s) as [|a [|]]; reflexivity.
Qed.
Lemma real_diff l : map real (@diff Q RA l) = @diff R DA (map real l).
Proof.
  unfold diff, shift1, zipw. rewrite map_length. change (@NaN R) with (real NaN).
  generalize (@NaN Q). induction l as [|a l IH]; intros v; [reflexivity|].
  cbn [length map firstn combine fst snd]. rewrite real_esub. f_equal. apply IH.
Qed.
Lemma real_transform h X : @cusum_transform R DA (Q2R h) (real_series X) = @cusum_transform Q RA h X.
Proof.
  unfold cusum_transform, cusum_loop.
  assert (E1 : map fst (real_series X) = map fst X) by (unfold real_series; rewrite map_map; reflexivity).
  assert (E2 : map snd (real_series X) = map real (map snd X)) by (unfold real_series; rewrite !map_map; reflexivity).
  rewrite E1, E2, <- real_diff. clear E1 E2.
  assert (combine (map fst X) (map real (@diff Q RA (map snd X))) = real_series (combine (map fst X) (@diff Q RA (map snd X)))) as ->.
  { unfold real_series. generalize (map fst X) (@diff Q RA (map snd X)). induction l as [|a l IH]; intros [|b m]; cbn; auto. now rewrite IH. }
  set (d := combine _ _). clearbody d.
  assert (G : forall l s, @foldM _ _ (fun st t => do v <- loc (real_series d) t ;; Ok (@cusum_step R DA (Q2R h) st t v)) (real_state s) l =
    match foldM (fun st t => do v <- loc d t ;; Ok (@cusum_step Q RA h st t v)) s l with Ok s' => Ok (real_state s') | Err e => Err e end).
  { induction l as [|t l IH]; intros s; [reflexivity|]. cbn [foldM]. rewrite <- real_loc. destruct (loc d t) as [v|]; [|reflexivity].
    cbn [bind]. rewrite <- real_step. apply IH. }
  change (@a0 R DA) with 0. rewrite <- real_0.
  change ({| pos := Fin (Q2R 0); neg := Fin (Q2R 0); picked := [] |}) with (real_state {| pos := Fin 0%Q; neg := Fin 0%Q; picked := [] |}).
  rewrite G. change (@a0 Q RA) with 0%Q. destruct (foldM _ _ _); reflexivity.
Qed.
