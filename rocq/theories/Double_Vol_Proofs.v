(** The exponentially weighted deviation moves by at most the square root of two times the largest change of a return. *)
From Coq Require Import Reals ZArith Lra Lia List.
From Verif Require Import Prelude PreludeFacts Num Series DailyVol_Model.
Import ListNotations.
Local Open Scope R_scope.

(** Weighted sum, over pairs of different observations, of g. An observation has a weight and two readings. *)
Definition obs2 : Type := (R * (R * R))%type.
Fixpoint against (g : R * R -> R * R -> R) (o : R * R) (l : list obs2) : R := match l with [] => 0 | p :: r => fst p * g o (snd p) + against g o r end.
Fixpoint pairs (g : R * R -> R * R -> R) (l : list obs2) : R := match l with [] => 0 | p :: r => fst p * against g (snd p) r + pairs g r end.
Definition wsum (f : R * R -> R) (l : list obs2) : R := lsum (map (fun p => fst p * f (snd p)) l).
Definition weighed (l : list obs2) : Prop := forall p, In p l -> 0 <= fst p.

Lemma against_le g h o l : weighed l -> (forall p, In p l -> g o (snd p) <= h o (snd p)) -> against g o l <= against h o l.
Proof.
  induction l as [|p l IH]; intros W H; cbn [against]; [lra|]. apply Rplus_le_compat; [apply Rmult_le_compat_l; [apply W; now left|apply H; now left]|].
  apply IH; intros q Hq; [apply W|apply H]; now right.
Qed.
Lemma pairs_le g h l : weighed l -> (forall p q, In p l -> In q l -> g (snd p) (snd q) <= h (snd p) (snd q)) -> pairs g l <= pairs h l.
Proof.
  induction l as [|p l IH]; intros W H; cbn [pairs]; [lra|]. assert (W' : weighed l) by (intros q Hq; apply W; now right). apply Rplus_le_compat.
  - apply Rmult_le_compat_l; [apply W; now left|]. apply against_le; [exact W'|]. intros q Hq. apply H; [now left|now right].
  - apply IH; [exact W'|]. intros q r Hq Hr. apply H; now right.
Qed.
Lemma against_lin g h a b o l : against (fun x y => a * g x y + b * h x y) o l = a * against g o l + b * against h o l.
Proof. induction l as [|p l IH]; cbn [against]; [ring|]. rewrite IH. ring. Qed.
Lemma pairs_lin g h a b l : pairs (fun x y => a * g x y + b * h x y) l = a * pairs g l + b * pairs h l.
Proof. induction l as [|p l IH]; cbn [pairs]; [ring|]. rewrite IH, against_lin. ring. Qed.
Lemma against_ext g h o l : (forall x y, g x y = h x y) -> against g o l = against h o l.
Proof. intros H. induction l as [|p l IH]; cbn [against]; [reflexivity|]. now rewrite H, IH. Qed.
Lemma pairs_ext g h l : (forall x y, g x y = h x y) -> pairs g l = pairs h l.
Proof. intros H. induction l as [|p l IH]; cbn [pairs]; [reflexivity|]. now rewrite (against_ext g h _ _ H), IH. Qed.
Lemma against_0 o l : against (fun _ _ => 0) o l = 0. Proof. induction l as [|p l IH]; cbn [against]; [reflexivity|]. rewrite IH. ring. Qed.
Lemma pairs_0 l : pairs (fun _ _ => 0) l = 0. Proof. induction l as [|p l IH]; cbn [pairs]; [reflexivity|]. rewrite IH, against_0. ring. Qed.

Lemma wsum_cons f p l : wsum f (p :: l) = fst p * f (snd p) + wsum f l. Proof. reflexivity. Qed.
(** Spread about the mean as a sum over pairs. *)
Lemma against_spread (f : R * R -> R) o l : against (fun x y => (f x - f y) * (f x - f y)) o l = f o * f o * wsum (fun _ => 1) l - 2 * f o * wsum f l + wsum (fun x => f x * f x) l.
Proof. induction l as [|p l IH]; cbn [against]; [unfold wsum; cbn; ring|]. rewrite IH, !wsum_cons. ring. Qed.
Lemma pairs_spread (f : R * R -> R) l : pairs (fun x y => (f x - f y) * (f x - f y)) l = wsum (fun _ => 1) l * wsum (fun x => f x * f x) l - wsum f l * wsum f l.
Proof. induction l as [|p l IH]; cbn [pairs]; [unfold wsum; cbn; ring|]. rewrite IH, against_spread, !wsum_cons. ring. Qed.
Lemma against_one o l : against (fun _ _ => 1) o l = wsum (fun _ => 1) l.
Proof. induction l as [|p l IH]; cbn [against]; [reflexivity|]. now rewrite IH, wsum_cons. Qed.
Lemma pairs_one l : 2 * pairs (fun _ _ => 1) l = wsum (fun _ => 1) l * wsum (fun _ => 1) l - lsum (map (fun p => fst p * fst p) l).
Proof. induction l as [|p l IH]; cbn [pairs map lsum fold_right]; [unfold wsum; cbn; ring|]. rewrite against_one, Rmult_plus_distr_l, IH, !wsum_cons. unfold lsum. ring. Qed.
Lemma spread_mean (f : R * R -> R) m l : lsum (map (fun p => fst p * ((f (snd p) - m) * (f (snd p) - m))) l) = wsum (fun x => f x * f x) l - 2 * m * wsum f l + m * m * wsum (fun _ => 1) l.
Proof. induction l as [|p l IH]; [unfold wsum; cbn; ring|]. cbn [map lsum fold_right]. unfold lsum in IH. rewrite IH, !wsum_cons. ring. Qed.

(** Two readings at most e apart. *)
Section Close.
  Variable (l : list obs2) (e : R).
  Hypothesis (W : weighed l) (He : forall p, In p l -> Rabs (fst (snd p) - snd (snd p)) <= e).
  Let n1 := pairs (fun x y => (fst x - fst y) * (fst x - fst y)) l.
  Let n2 := pairs (fun x y => (snd x - snd y) * (snd x - snd y)) l.
  Let n12 := pairs (fun x y => (fst x - fst y) * (snd x - snd y)) l.
  Let n := pairs (fun _ _ => 1) l.
  Lemma n_pos g : (forall x y, 0 <= g x y) -> 0 <= pairs g l.
  Proof. intros H. rewrite <- (pairs_0 l). apply pairs_le; [exact W|]. intros. apply H. Qed.
  Lemma n12_le : n12 <= sqrt n1 * sqrt n2.
  Proof.
    assert (P1 : 0 <= n1) by (apply n_pos; intros; apply Rle_0_sqr). assert (P2 : 0 <= n2) by (apply n_pos; intros; apply Rle_0_sqr).
    assert (Q : forall a b, 0 <= a * a * n1 - 2 * a * b * n12 + b * b * n2).
    { intros a b. apply Rle_trans with (pairs (fun x y => (a * (fst x - fst y) - b * (snd x - snd y)) * (a * (fst x - fst y) - b * (snd x - snd y))) l); [apply n_pos; intros; apply Rle_0_sqr|]. apply Req_le.
      rewrite (pairs_ext _ (fun x y => 1 * (a * a * ((fst x - fst y) * (fst x - fst y)) + (- 2 * a * b) * ((fst x - fst y) * (snd x - snd y))) + b * b * ((snd x - snd y) * (snd x - snd y)))) by (intros; ring).
      rewrite pairs_lin, pairs_lin. fold n1 n2 n12. ring. }
    pose proof (sqrt_sqrt n1 P1) as S1. pose proof (sqrt_sqrt n2 P2) as S2. pose proof (sqrt_pos n1) as R1. pose proof (sqrt_pos n2) as R2.
    destruct (Rle_lt_dec n12 (sqrt n1 * sqrt n2)) as [H|H]; [exact H|exfalso]. set (s1 := sqrt n1) in *. set (s2 := sqrt n2) in *.
    destruct (Req_dec s1 0) as [Z1|Z1]; [|destruct (Req_dec s2 0) as [Z2|Z2]].
    - rewrite Z1 in *. rewrite Rmult_0_l in H, S1. pose proof (Q (1 + n2) n12) as K. rewrite <- S1 in K. assert (0 < n12 * n12) by (apply Rmult_lt_0_compat; exact H). nra.
    - rewrite Z2 in *. rewrite Rmult_0_r in H, S2. pose proof (Q n12 (1 + n1)) as K. rewrite <- S2 in K. assert (0 < n12 * n12) by (apply Rmult_lt_0_compat; exact H). nra.
    - pose proof (Q s2 s1) as K. rewrite <- S1, <- S2 in K. assert (0 < s1 * s2) by (apply Rmult_lt_0_compat; lra). nra.
  Qed.
  Lemma roots_close : (sqrt n1 - sqrt n2) * (sqrt n1 - sqrt n2) <= 4 * (e * e) * n.
  Proof.
    assert (P1 : 0 <= n1) by (apply n_pos; intros; apply Rle_0_sqr). assert (P2 : 0 <= n2) by (apply n_pos; intros; apply Rle_0_sqr).
    pose proof n12_le as C. pose proof (sqrt_sqrt n1 P1) as S1. pose proof (sqrt_sqrt n2 P2) as S2.
    apply Rle_trans with (n1 - 2 * n12 + n2); [nra|].
    apply Rle_trans with (pairs (fun x y => ((fst x - snd x) - (fst y - snd y)) * ((fst x - snd x) - (fst y - snd y))) l).
    - apply Req_le. rewrite (pairs_ext _ (fun x y => 1 * (1 * ((fst x - fst y) * (fst x - fst y)) + (-2) * ((fst x - fst y) * (snd x - snd y))) + 1 * ((snd x - snd y) * (snd x - snd y)))) by (intros; ring).
      rewrite pairs_lin, pairs_lin. fold n1 n2 n12. ring.
    - apply Rle_trans with (pairs (fun x y => 4 * (e * e) * 1 + 0 * 0) l); [|rewrite (pairs_lin (fun _ _ => 1) (fun _ _ => 0) (4 * (e * e)) 0); fold n; lra].
      apply pairs_le; [exact W|]. intros p q Hp Hq. pose proof (He p Hp) as A. pose proof (He q Hq) as B. destruct (snd p) as [x x'], (snd q) as [y y']. cbn [fst snd] in *.
      assert (A' : - e <= x - x' <= e) by (unfold Rabs in A; destruct (Rcase_abs _); lra). assert (B' : - e <= y - y' <= e) by (unfold Rabs in B; destruct (Rcase_abs _); lra).
      assert (K : 0 <= (2 * e - (x - x' - (y - y'))) * (2 * e + (x - x' - (y - y')))) by (apply Rmult_le_pos; lra). lra.
  Qed.
End Close.

Lemma deviation_pairs (f : R * R -> R) l : weighed l -> 0 < wsum (fun _ => 1) l * wsum (fun _ => 1) l - lsum (map (fun p => fst p * fst p) l) ->
  let sw := wsum (fun _ => 1) l in
  sw * sw / (sw * sw - lsum (map (fun p => fst p * fst p) l)) * (lsum (map (fun p => fst p * ((f (snd p) - wsum f l / sw) * (f (snd p) - wsum f l / sw))) l) / sw)
    = pairs (fun x y => (f x - f y) * (f x - f y)) l / (2 * pairs (fun _ _ => 1) l).
Proof.
  intros Wl D sw. rewrite spread_mean, pairs_spread, pairs_one. fold sw. set (d := sw * sw - _) in *. change (0 < d) in D.
  assert (S : sw <> 0). { intros Z. unfold d in D. rewrite Z in D. match type of D with 0 < _ - ?q => assert (0 <= q); [|lra] end. clear. induction l as [|p l IH]; cbn; [lra|]. pose proof (Rle_0_sqr (fst p)). unfold Rsqr in *. unfold lsum in IH. lra. }
  field. lra.
Qed.

(** The two series of the same length without gaps, entry by entry at most e apart. *)
Definition both (Q : R -> R -> Prop) (x y : ext R) : Prop := exists a b, x = Fin a /\ y = Fin b /\ Q a b.
Definition near (e : R) : ext R -> ext R -> Prop := both (fun a b => Rabs (a - b) <= e).
Lemma common_obs (Q : R -> R -> Prop) span k l l' js : 1 <= span -> Forall2 (both Q) l l' -> exists T : list obs2, weighed T /\ (forall p, In p T -> Q (fst (snd p)) (snd (snd p))) /\
  flat_map (fun j => match nth_error l j with Some (Fin x) => [((1 - 2 / (span + 1)) ^ (k - j), x)] | _ => [] end) js = map (fun p => (fst p, fst (snd p))) T /\
  flat_map (fun j => match nth_error l' j with Some (Fin x) => [((1 - 2 / (span + 1)) ^ (k - j), x)] | _ => [] end) js = map (fun p => (fst p, snd (snd p))) T.
Proof.
  intros Hs F. assert (Hw : 0 <= 1 - 2 / (span + 1)). { replace (1 - 2 / (span + 1)) with ((span - 1) * / (span + 1)) by (field; lra). apply Rmult_le_pos; [lra|]. apply Rlt_le, Rinv_0_lt_compat. lra. }
  induction js as [|j js (T & WT & ET & A & B)]; [exists []; repeat split; intros p []|].
  assert (J : (nth_error l j = None /\ nth_error l' j = None) \/ exists a b, nth_error l j = Some (Fin a) /\ nth_error l' j = Some (Fin b) /\ Q a b).
  { clear -F. revert j. induction F as [|x y l l' N F IH]; intros [|j]; cbn; auto. destruct N as (a & b & -> & -> & N). right. exists a, b. auto. }
  destruct J as [(J1 & J2)|(a & b & J1 & J2 & J)].
  - exists T. cbn [flat_map]. rewrite J1, J2. auto.
  - exists (((1 - 2 / (span + 1)) ^ (k - j), (a, b)) :: T). cbn [flat_map]. rewrite J1, J2, A, B. repeat split.
    + intros p [<-|Hp]; [cbn; now apply pow_le|now apply WT].
    + intros p [<-|Hp]; [exact J|now apply ET].
Qed.

Definition std_of (obs : list (R * R)) : ext R :=
  let sw := lsum (map fst obs) in
  let den := sw * sw - lsum (map (fun o => fst o * fst o) obs) in
  let mean := lsum (map (fun o => fst o * snd o) obs) / sw in
  match obs with [] => NaN | _ => if Rlt_dec 0 den then Fin (sqrt (sw * sw / den * (lsum (map (fun o => fst o * ((snd o - mean) * (snd o - mean))) obs) / sw))) else NaN end.
Lemma std_at_of span l k : ewm_std_at span l k = std_of (ewm_obs span l k). Proof. reflexivity. Qed.
Lemma std_of_some obs : obs <> [] ->
  let sw := lsum (map fst obs) in let den := sw * sw - lsum (map (fun o => fst o * fst o) obs) in let mean := lsum (map (fun o => fst o * snd o) obs) / sw in
  std_of obs = if Rlt_dec 0 den then Fin (sqrt (sw * sw / den * (lsum (map (fun o => fst o * ((snd o - mean) * (snd o - mean))) obs) / sw))) else NaN.
Proof. intros H. destruct obs as [|o r]; [contradiction|reflexivity]. Qed.
Lemma std_of_pairs (f : R * R -> R) T : weighed T -> T <> [] -> std_of (map (fun p => (fst p, f (snd p))) T) =
  if Rlt_dec 0 (2 * pairs (fun _ _ => 1) T) then Fin (sqrt (pairs (fun x y => (f x - f y) * (f x - f y)) T / (2 * pairs (fun _ _ => 1) T))) else NaN.
Proof.
  intros WT HT. rewrite std_of_some by (intros N; apply map_eq_nil in N; contradiction). cbv zeta. rewrite !map_map. cbn [fst snd].
  assert (E : lsum (map (fun p : R * (R * R) => fst p) T) = wsum (fun _ => 1) T) by (unfold wsum; f_equal; apply map_ext; intros; ring). rewrite !E.
  pose proof (deviation_pairs f T WT) as V. cbv zeta in V. pose proof (pairs_one T) as O. destruct (Rlt_dec 0 _) as [D|D] at 1; destruct (Rlt_dec 0 (2 * _)) as [D'|D'].
  - do 2 f_equal. exact (V D).
  - exfalso. apply D'. rewrite O. exact D.
  - exfalso. apply D. rewrite O in D'. exact D'.
  - reflexivity.
Qed.

Lemma std_near e span l l' i x y : 1 <= span -> Forall2 (near e) l l' -> nth_error (ewm_std span l) i = Some x -> nth_error (ewm_std span l') i = Some y ->
  (x = NaN /\ y = NaN) \/ exists a b, x = Fin a /\ y = Fin b /\ 0 <= a /\ 0 <= b /\ Rabs (a - b) ^ 2 <= 2 * e ^ 2.
Proof.
  intros Hs F. unfold ewm_std. rewrite !nth_error_map. intros Hx Hy. destruct (nth_error (seq 0 (length l)) i) as [k|] eqn:K; [|discriminate]. rewrite <- (Forall2_len _ _ _ F), K in Hy. cbn [option_map] in Hx, Hy.
  injection Hx as Hx. injection Hy as Hy. subst x y. rewrite !std_at_of. unfold ewm_obs. destruct (common_obs _ span k l l' (seq 0 (S k)) Hs F) as (T & WT & ET & A & B). rewrite A, B. clear A B.
  assert (HT : T = [] \/ T <> []) by (destruct T; [now left|right; discriminate]). destruct HT as [->|HT]; [left; split; reflexivity|].
  rewrite (std_of_pairs fst T WT HT), (std_of_pairs snd T WT HT). pose proof (roots_close T e WT ET) as C. set (n := pairs (fun _ _ => 1) T) in *.
  destruct (Rlt_dec 0 _) as [D|D]; [|left; split; reflexivity]. right. eexists _, _. split; [reflexivity|]. split; [reflexivity|]. split; [apply sqrt_pos|]. split; [apply sqrt_pos|].
  set (n1 := pairs (fun x y => (fst x - fst y) * (fst x - fst y)) T) in *. set (n2 := pairs (fun x y => (snd x - snd y) * (snd x - snd y)) T) in *.
  rewrite !sqrt_div_alt by exact D. replace (sqrt n1 / sqrt (2 * n) - sqrt n2 / sqrt (2 * n)) with ((sqrt n1 - sqrt n2) * / sqrt (2 * n)) by (unfold Rdiv; ring).
  rewrite RPow_abs, Rabs_pos_eq by apply pow2_ge_0. pose proof (sqrt_sqrt (2 * n) ltac:(lra)) as Q. assert (N : sqrt (2 * n) <> 0) by (intros Z; rewrite Z in Q; lra).
  apply (Rmult_le_reg_r (2 * n)); [exact D|]. rewrite <- Q at 2. replace (((sqrt n1 - sqrt n2) * / sqrt (2 * n)) ^ 2 * (sqrt (2 * n) * sqrt (2 * n))) with ((sqrt n1 - sqrt n2) * (sqrt n1 - sqrt n2)) by (field; exact N). cbn [pow]. lra.
Qed.

Lemma std_size B span l i x : 1 <= span -> (forall v, In v l -> exists c, v = Fin c /\ Rabs c <= B) -> nth_error (ewm_std span l) i = Some x ->
  x = NaN \/ exists a, x = Fin a /\ 0 <= a /\ a * a <= 2 * (B * B).
Proof.
  intros Hs H. unfold ewm_std. rewrite nth_error_map. intros Hx. destruct (nth_error (seq 0 (length l)) i) as [k|] eqn:K; [|discriminate]. cbn [option_map] in Hx.
  injection Hx as Hx. subst x. rewrite std_at_of. unfold ewm_obs. assert (F : Forall2 (both (fun a _ => Rabs a <= B)) l l).
  { clear -H. induction l as [|v l IH]; constructor; [destruct (H v (or_introl eq_refl)) as (c & -> & C); exists c, c; auto|]. apply IH. intros w Hw. apply H. now right. }
  destruct (common_obs _ span k l l (seq 0 (S k)) Hs F) as (T & WT & ET & A & _). rewrite A. clear A.
  assert (HT : T = [] \/ T <> []) by (destruct T; [now left|right; discriminate]). destruct HT as [->|HT]; [left; reflexivity|]. rewrite (std_of_pairs fst T WT HT). set (n := pairs (fun _ _ => 1) T).
  destruct (Rlt_dec 0 _) as [D|D]; [|left; reflexivity]. right. eexists. split; [reflexivity|]. split; [apply sqrt_pos|]. set (n1 := pairs (fun x y => (fst x - fst y) * (fst x - fst y)) T).
  assert (P : 0 <= n1) by (apply (n_pos T WT); intros; apply Rle_0_sqr). rewrite sqrt_sqrt by (apply Rmult_le_pos; [exact P|apply Rlt_le, Rinv_0_lt_compat; exact D]).
  apply (Rmult_le_reg_r (2 * n)); [exact D|]. unfold Rdiv. rewrite Rmult_assoc, Rinv_l by lra. rewrite Rmult_1_r.
  apply Rle_trans with (pairs (fun x y => 4 * (B * B) * 1 + 0 * 0) T); [|rewrite (pairs_lin (fun _ _ => 1) (fun _ _ => 0) (4 * (B * B)) 0); fold n; lra].
  apply pairs_le; [exact WT|]. intros p q Hp Hq. pose proof (ET p Hp) as A1. pose proof (ET q Hq) as B1. cbv beta in A1, B1. destruct (snd p) as [x x'], (snd q) as [y y']. cbn [fst snd] in *.
  assert (A' : - B <= x <= B) by (unfold Rabs in A1; destruct (Rcase_abs _); lra). assert (B' : - B <= y <= B) by (unfold Rabs in B1; destruct (Rcase_abs _); lra).
  assert (Z : 0 <= (2 * B - (x - y)) * (2 * B + (x - y))) by (apply Rmult_le_pos; lra). lra.
Qed.
