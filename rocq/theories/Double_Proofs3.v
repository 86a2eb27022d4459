(** The CUSUM filter on a price grid: no rounding error at all. *)
From Coq Require Import Reals ZArith Lia Lra List QArith.
From Flocq Require Import Core.
From Verif Require Import PreludeFacts Num Series Cusum_Model Cusum_Proofs Double_Model Double_Spec Double_Proofs Double_Proofs2.
Import ListNotations.
Local Open Scope R_scope.

Section Grid.
  Variable e : Z.
  Hypothesis He : (-1074 <= e)%Z.
  Let g (z : Z) : R := IZR z * powerRZ 2 e.

  Lemma g_pos : 0 < powerRZ 2 e. Proof. apply powerRZ_lt. lra. Qed.
  Lemma g_double z : (Z.abs z < 2 ^ 53)%Z -> to_double (g z) = g z.
  Proof. intros. apply to_double_id. exists z, e. auto. Qed.
  Lemma g_add a b : g a + g b = g (a + b).
  Proof. unfold g. rewrite plus_IZR. lra. Qed.
  Lemma g_opp a : - g a = g (- a).
  Proof. unfold g. rewrite opp_IZR. lra. Qed.
  Lemma g_0 : g 0 = 0. Proof. unfold g. lra. Qed.
  Lemma g_lt a b : g a < g b <-> (a < b)%Z.
  Proof.
    unfold g. pose proof g_pos. split; intros H1.
    - apply lt_IZR. nra.
    - apply IZR_lt in H1. nra.
  Qed.

  (* the same grid value in both models *)
  Definition same (B : Z) (x : ext R) (y : ext Q) : Prop :=
    match x, y with
    | Fin a, Fin q => exists z, a = g z /\ (q == inject_Z z)%Q /\ (Z.abs z <= B)%Z
    | NaN, NaN => True
    | _, _ => False
    end.
  Notation DA := Arith_double.
  Lemma same_add B C x y x' y' : (B + C < 2 ^ 53)%Z -> same B x y -> same C x' y' ->
    same (B + C) (@eadd R DA x x') (@eadd Q _ y y').
  Proof.
    intros HB. destruct x, y, x', y'; cbn -[to_double]; try tauto.
    intros (z & -> & Hq & Bz) (z' & -> & Hq' & Bz'). exists (z + z')%Z. rewrite g_add, g_double by lia.
    split; auto. split; [|lia]. rewrite Hq, Hq', inject_Z_plus. reflexivity.
  Qed.
  Lemma same_opp B x y : same B x y -> same B (@eopp R DA x) (@eopp Q _ y).
  Proof.
    destruct x, y; cbn -[to_double]; try tauto. intros (z & -> & Hq & Bz). exists (- z)%Z. rewrite g_opp. split; auto.
    split; [|lia]. rewrite Hq, inject_Z_opp. reflexivity.
  Qed.
  Lemma same_lt B C x y x' y' : same B x y -> same C x' y' -> @eltb R DA x x' = @eltb Q _ y y'.
  Proof.
    destruct x as [a| | |], y as [q| | |], x' as [a'| | |], y' as [q'| | |]; cbn; try tauto.
    intros (z & -> & Hq & _) (z' & -> & Hq' & _).
    change (negb (Qle_bool q' q)) with (@altb Q _ q q').
    destruct (Rlt_dec (g z) (g z')) as [L|L].
    - symmetry. apply altb_Q_true. rewrite Hq, Hq', <- Zlt_Qlt. now apply g_lt.
    - symmetry. apply altb_Q_false. rewrite Hq, Hq', <- Zle_Qle. apply Z.nlt_ge. intros L'. apply L. now apply g_lt.
  Qed.
  Lemma same_0 B : (0 <= B)%Z -> same B (Fin 0) (Fin 0%Q).
  Proof. intros. exists 0%Z. rewrite g_0. repeat split; lia. Qed.
  Lemma same_max B x y : (0 <= B)%Z -> same B x y -> same B (@py_max R DA (Fin 0) x) (@py_max Q _ (Fin 0%Q) y).
  Proof.
    intros HB H. unfold py_max. rewrite (same_lt B B (Fin 0) (Fin 0%Q) x y) by (auto using same_0).
    destruct (@eltb Q _ _ _); auto using same_0.
  Qed.
  Lemma same_min B x y : (0 <= B)%Z -> same B x y -> same B (@py_min R DA (Fin 0) x) (@py_min Q _ (Fin 0%Q) y).
  Proof.
    intros HB H. unfold py_min. rewrite (same_lt B B x y (Fin 0) (Fin 0%Q)) by (auto using same_0).
    destruct (@eltb Q _ _ _); auto using same_0.
  Qed.

  Variable h : Z.
  Hypothesis Hh : (0 <= h <= 2 ^ 51)%Z.
  Definition same_state (s : cstate R) (s' : cstate Q) : Prop :=
    same h (pos s) (pos s') /\ same h (neg s) (neg s') /\ picked s = picked s'.

  Lemma same_step s s' t d d' : same_state s s' -> same (2 ^ 52) d d' ->
    within_d (g h) s -> same_state (@cusum_step R DA (g h) s t d) (@cusum_step Q _ (inject_Z h) s' t d').
  Proof.
    intros (Hp & Hn & Hk) Hd W. pose proof g_pos.
    assert (0 <= g h) as Hg by (unfold g; pose proof (IZR_le 0 h ltac:(lia)); nra).
    destruct (step_d (g h) s t d Hg W) as [(p1 & n1 & Ep & En & _ & _ & Bp & Bn) _].
    pose proof (same_max (h + 2 ^ 52) _ _ ltac:(lia) (same_add h (2 ^ 52) _ _ _ _ ltac:(lia) Hp Hd)) as HP.
    pose proof (same_min (h + 2 ^ 52) _ _ ltac:(lia) (same_add h (2 ^ 52) _ _ _ _ ltac:(lia) Hn Hd)) as HN.
    assert (Fh : same h (Fin (g h)) (Fin (inject_Z h))) by (exists h; repeat split; lia).
    revert Ep En. unfold cusum_step. cbv zeta.
    change (@a0 R DA) with 0. change (@a0 Q _) with 0%Q.
    set (P := @py_max R DA _ _) in *. set (N := @py_min R DA _ _) in *.
    set (P' := @py_max Q _ _ _) in *. set (N' := @py_min Q _ _ _) in *.
    rewrite (same_lt _ _ _ _ _ _ HN (same_opp _ _ _ Fh)), (same_lt _ _ _ _ _ _ Fh HP).
    assert (Hin : forall B x y a, same B x y -> x = Fin a -> - g h <= a <= g h -> same h x y).
    { intros B x y a HS -> Ha. destruct y as [q| | |]; try easy. destruct HS as (z & -> & Hq & _). exists z. repeat split; auto.
      destruct (Z_lt_le_dec h (Z.abs z)); [|lia]. exfalso. rewrite g_opp in Ha.
      destruct (Z_lt_le_dec h z) as [L|L]; [apply g_lt in L; lra|].
      assert (z < - h)%Z as L' by lia. apply g_lt in L'. lra. }
    destruct (@eltb Q _ N' _); [|destruct (@eltb Q _ _ P')]; cbn [pos neg picked]; intros Ep En.
    - split; [|split]; cbn.
      + eapply Hin; [exact HP|exact Ep|]. lra.
      + apply same_0. lia.
      + now rewrite Hk.
    - split; [|split]; cbn.
      + apply same_0. lia.
      + eapply Hin; [exact HN|exact En|]. lra.
      + now rewrite Hk.
    - split; [|split]; cbn; auto.
      + eapply Hin; [exact HP|exact Ep|]. lra.
      + eapply Hin; [exact HN|exact En|]. lra.
  Qed.

  Lemma same_run D D' : map fst D = map fst D' -> Forall2 (same (2 ^ 52)) (map snd D) (map snd D') ->
    forall s s', same_state s s' -> within_d (g h) s ->
    same_state (@run R DA (g h) D s) (@run Q _ (inject_Z h) D' s').
  Proof.
    pose proof g_pos. assert (0 <= g h) as Hg by (unfold g; pose proof (IZR_le 0 h ltac:(lia)); nra).
    revert D'. induction D as [|[t d] D IH]; intros [|[t' d'] D']; cbn [map fst snd]; intros HT HF; try discriminate; intros s s' HS W.
    - exact HS.
    - injection HT as -> HT. inversion HF; subst. cbn. apply IH; auto.
      + now apply same_step.
      + now apply step_d.
  Qed.

  Definition fine (p : option Z) : Prop := match p with Some z => (Z.abs z <= 2 ^ 51)%Z | None => True end.
  Lemma same_price p : fine p -> same (2 ^ 51) (in_double e p) (in_ticks p).
  Proof. destruct p; cbn; auto. intros. exists z. repeat split; auto. Qed.
  Lemma same_diff l : Forall fine l -> forall p, fine p ->
    Forall2 (same (2 ^ 52)) (@diff_from R DA (in_double e p) (map (in_double e) l)) (@diff_from Q _ (in_ticks p) (map in_ticks l)).
  Proof.
    induction 1 as [|x l Hx Hl IH]; intros p Hp; cbn [map diff_from]; constructor; auto.
    unfold esub. apply (same_add (2 ^ 51) (2 ^ 51)); [lia|now apply same_price|]. now apply same_opp, same_price.
  Qed.
End Grid.

Lemma c106_grid e h (X : list (Z * option Z)) : (-1074 <= e)%Z -> (0 <= h <= 2 ^ 51)%Z ->
  (forall t z, In (t, Some z) X -> (Z.abs z <= 2 ^ 51)%Z) ->
  @cusum_transform R Arith_double (IZR h * powerRZ 2 e) (map (fun r => (fst r, in_double e (snd r))) X) =
  cusum_transform (inject_Z h) (map (fun r => (fst r, in_ticks (snd r))) X).
Proof.
  intros He Hh HX.
  assert (F : Forall fine (map snd X)).
  { apply Forall_forall. intros p Hp. apply in_map_iff in Hp. destruct Hp as ((t & [z|]) & <- & Hin); cbn; eauto. }
  assert (M1 : map fst (map (fun r => (fst r, in_double e (snd r))) X) = map fst X) by now rewrite map_map.
  assert (M2 : map fst (map (fun r => (fst r, in_ticks (snd r))) X) = map fst X) by now rewrite map_map.
  destruct (ListDec.NoDup_dec Z.eq_dec (map fst X)) as [HN|HN].
  2: { rewrite (@transform_err R Arith_double) by now rewrite M1. rewrite (@transform_err Q _) by now rewrite M2. reflexivity. }
  unfold cusum_transform. rewrite (@loop_nodup R Arith_double) by now rewrite M1. rewrite (@loop_nodup Q _) by now rewrite M2.
  cbn [bind]. f_equal. destruct X as [|[t0 p0] X]; [reflexivity|]. cbn [map steps fst snd].
  inversion F as [|? ? F0 F1]; subst.
  rewrite !map_map. cbn [fst snd].
  rewrite <- (map_map snd (in_double e)), <- (map_map snd in_ticks).
  set (D := combine _ _). set (D' := combine _ (@diff_from Q _ _ _)).
  assert (L1 : forall f : option Z -> ext R, length (map fst X) = length (@diff_from R Arith_double (in_double e p0) (map f (map snd X))))
    by (intros; now rewrite diff_from_length, !map_length).
  assert (L2 : forall f : option Z -> ext Q, length (map fst X) = length (@diff_from Q _ (in_ticks p0) (map f (map snd X))))
    by (intros; now rewrite diff_from_length, !map_length).
  assert (S : same_state e h (@run R Arith_double (IZR h * powerRZ 2 e) D (@init R Arith_double)) (@run Q _ (inject_Z h) D' init)).
  { apply (same_run e He h Hh).
    - unfold D, D'. rewrite !map_fst_combine; auto.
    - unfold D, D'. rewrite !map_snd_combine by auto. apply same_diff; auto.
    - split; [|split]; cbn; auto; (exists 0%Z; repeat split; [lra|lia]).
    - exists 0, 0. cbn. pose proof is_double_0. pose proof (g_pos e). pose proof (IZR_le 0 h ltac:(lia)). repeat split; auto; nra. }
  exact (proj2 (proj2 S)).
Qed.
