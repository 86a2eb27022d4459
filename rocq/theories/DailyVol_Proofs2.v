(** The weighted deviation in terms of pairs of observations. *)
From Coq Require Import Reals Lra.
From Verif Require Import PreludeFacts Series DailyVol_Model DailyVol_Spec DailyVol_Proofs.
Local Open Scope nat_scope.

Lemma total_cons x l : total (x :: l) = (x + total l)%R.
Proof. reflexivity. Qed.

Lemma total_app a b : total (a ++ b) = (total a + total b)%R.
Proof. induction a as [|x a IH]; [cbn; unfold total; cbn; lra|]. cbn [app]. rewrite !total_cons, IH. lra. Qed.

(** Sums over pairs with a first element. *)
Lemma pairs_first_w (w x : R) (obs : list (R * R)) : total (map (fun p : (R * R) * (R * R) => fst (fst p) * fst (snd p))%R (map (fun y => ((w, x), y)) obs)) = (w * total (map fst obs))%R.
Proof. induction obs as [|[v y] obs IH]; cbn [map fst snd]; rewrite ?total_cons; [cbn; lra|]. rewrite IH. lra. Qed.
Lemma pairs_first_s (w x : R) (obs : list (R * R)) :
  total (map (fun p : (R * R) * (R * R) => fst (fst p) * fst (snd p) * (snd (fst p) - snd (snd p)) ^ 2)%R (map (fun y => ((w, x), y)) obs)) =
  (w * (x * x * total (map fst obs) - 2 * x * total (map (fun o => fst o * snd o)%R obs) + total (map (fun o => fst o * (snd o * snd o))%R obs)))%R.
Proof. induction obs as [|[v y] obs IH]; cbn [map fst snd]; rewrite ?total_cons; [cbn; lra|]. rewrite IH. ring. Qed.

Lemma square_of_sum (obs : list (R * R)) :
  (total (map fst obs) * total (map fst obs) - total (map (fun o => fst o * fst o)%R obs) = 2 * total (map (fun p => fst (fst p) * fst (snd p))%R (pairs obs)))%R.
Proof.
  induction obs as [|[w x] obs IH]; [cbn; lra|]. cbn [pairs]. rewrite map_app, total_app, pairs_first_w. cbn [map fst snd]. rewrite !total_cons.
  rewrite (Rmult_plus_distr_l 2), <- IH. ring.
Qed.
Lemma spread_of_pairs (obs : list (R * R)) :
  (total (map fst obs) * total (map (fun o => fst o * (snd o * snd o)) obs) - total (map (fun o => fst o * snd o) obs) * total (map (fun o => fst o * snd o) obs) =
   total (map (fun p => fst (fst p) * fst (snd p) * (snd (fst p) - snd (snd p)) ^ 2) (pairs obs)))%R.
Proof.
  induction obs as [|[w x] obs IH]; [cbn; lra|]. cbn [pairs]. rewrite map_app, total_app, pairs_first_s. cbn [map fst snd]. rewrite !total_cons. rewrite <- IH. ring.
Qed.
Lemma centred (m : R) (obs : list (R * R)) :
  (total (map (fun o => fst o * ((snd o - m) * (snd o - m))) obs) =
   total (map (fun o => fst o * (snd o * snd o)) obs) - 2 * m * total (map (fun o => fst o * snd o) obs) + m * m * total (map fst obs))%R.
Proof. induction obs as [|[w x] obs IH]; [cbn; lra|]. cbn [map fst snd]. rewrite !total_cons, IH. ring. Qed.

(** The observations with their weights. *)
Definition weighed (span : R) (o : nat * R) : R * R := (decay span (fst o), snd o).

Lemma decay_weight span n : (0 < span)%R -> ((1 - 2 / (span + 1)) ^ n)%R = decay span n.
Proof. intros H. unfold decay. f_equal. field. lra. Qed.

Lemma ewm_obs_aged span l k : (0 < span)%R -> k < length l -> ewm_obs span l k = map (weighed span) (aged (firstn (S k) l)).
Proof.
  intros Hs Hk. unfold ewm_obs.
  assert (G : forall n l s, flat_map (fun j => match nth_error l (j - s) with Some (Fin x) => [((1 - 2 / (span + 1)) ^ (s + n - S j), x)%R] | _ => [] end) (seq s (Nat.min n (length l)))
              = map (weighed span) (map (fun o => (fst o + (n - length (firstn n l)), snd o)) (aged (firstn n l)))).
  { clear -Hs. induction n as [|n IH]; intros l s; [reflexivity|]. destruct l as [|x l]; [reflexivity|]. cbn [length Nat.min seq flat_map]. rewrite Nat.sub_diag. cbn [nth_error].
    assert (E : flat_map (fun j => match nth_error (x :: l) (j - s) with Some (Fin x) => [((1 - 2 / (span + 1)) ^ (s + S n - S j), x)%R] | _ => [] end) (seq (S s) (Nat.min n (length l)))
              = map (weighed span) (map (fun o => (fst o + (n - length (firstn n l)), snd o)) (aged (firstn n l)))).
    { rewrite <- (IH l (S s)). rewrite !flat_map_concat_map. f_equal. apply map_ext_in. intros j Hj. apply in_seq in Hj. replace (j - s) with (S (j - S s)) by lia. cbn [nth_error].
      destruct (nth_error l (j - S s)) as [[]|]; auto. do 2 f_equal. f_equal. lia. }
    rewrite E. cbn [firstn length]. rewrite firstn_length. cbn [aged]. destruct x as [x| | |]; cbn [app]; auto.
    cbn [map fst snd]. f_equal. unfold weighed. cbn [fst snd]. f_equal. rewrite <- decay_weight by exact Hs. f_equal. rewrite firstn_length. lia. }
  specialize (G (S k) l 0). rewrite Nat.min_l in G by lia. rewrite firstn_length, Nat.min_l in G by lia. rewrite Nat.sub_diag in G.
  rewrite (map_ext_in _ (fun o => o)) in G.
  - rewrite map_id in G. rewrite <- G. rewrite !flat_map_concat_map. f_equal. apply map_ext. intros j. rewrite Nat.sub_0_r. reflexivity.
  - intros [a x] _. cbn. now rewrite Nat.add_0_r.
Qed.

Lemma pairs_map {V W} (f : V -> W) l : pairs (map f l) = map (fun p => (f (fst p), f (snd p))) (pairs l).
Proof.
  induction l as [|x l IH]; [reflexivity|]. cbn [pairs map]. rewrite map_app, IH, !map_map. reflexivity.
Qed.

Lemma decay_pos span n : (1 < span)%R -> (0 < decay span n)%R.
Proof. intros H. unfold decay. apply pow_lt. apply Rdiv_lt_0_compat; lra. Qed.

Lemma total_pos l : l <> [] -> Forall (fun x => 0 < x)%R l -> (0 < total l)%R.
Proof.
  intros Hne H. destruct l as [|x l]; [easy|]. inversion H as [|? ? Hx Hl]; subst. rewrite total_cons.
  assert (0 <= total l)%R; [|lra]. clear -Hl. induction Hl as [|y l Hy _ IH]; [cbn; lra|rewrite total_cons; lra].
Qed.

Theorem ewm_std_pairs span l k v : (1 < span)%R -> nth_error (ewm_std span l) k = Some v ->
  let obs := aged (firstn (S k) l) in
  (length obs < 2 -> v = NaN) /\ (2 <= length obs -> exists s, v = Fin s /\ weighted_deviation span obs s).
Proof.
  intros Hs H obs. unfold ewm_std in H. rewrite nth_error_map in H.
  assert (Hk : k < length l). { destruct (nth_error (seq 0 (length l)) k) eqn:E; [|discriminate]. assert (nth_error (seq 0 (length l)) k <> None) by congruence. apply nth_error_Some in H0. now rewrite seq_length in H0. }
  rewrite (nth_error_nth' _ 0) in H by (now rewrite seq_length). rewrite seq_nth in H by exact Hk. cbn in H. injection H as <-.
  unfold ewm_std_at. cbv zeta. rewrite (ewm_obs_aged span l k) by (lra || exact Hk). fold obs. set (o := map (weighed span) obs).
  change lsum with total. set (sw := total (map fst o)). set (sw2 := total (map (fun o => fst o * fst o)%R o)).
  pose proof (square_of_sum o) as Hsq. fold sw sw2 in Hsq. pose proof (spread_of_pairs o) as Hsp. fold sw in Hsp.
  set (W := total (map (pair_weight span) (pairs obs))).
  assert (HW : total (map (fun p => fst (fst p) * fst (snd p))%R (pairs o)) = W).
  { unfold W, o. rewrite pairs_map, map_map. reflexivity. }
  set (D := total (map (fun p => pair_weight span p * half_square p)%R (pairs obs))).
  assert (HD : total (map (fun p => fst (fst p) * fst (snd p) * (snd (fst p) - snd (snd p)) ^ 2)%R (pairs o)) = (2 * D)%R).
  { unfold D, o. rewrite pairs_map, map_map. cbn [fst snd weighed]. clear. induction (pairs obs) as [|p ps IH]; [cbn; lra|]. cbn [map]. rewrite !total_cons, IH. unfold pair_weight, half_square. lra. }
  rewrite HW in Hsq. rewrite HD in Hsp.
  split.
  - intros Hl. assert (HW0 : W = 0%R) by (unfold W; destruct obs as [|a [|b r]]; [reflexivity|reflexivity|cbn in Hl; lia]).
    destruct (Rlt_dec 0 (sw * sw - sw2)) as [Hd|]; [exfalso; lra|]. destruct o; reflexivity.
  - intros Hl. assert (HWp : (0 < W)%R).
    { apply total_pos.
      - destruct obs as [|a [|b r]]; cbn in Hl |- *; try lia. discriminate.
      - apply Forall_map, Forall_forall. intros p _. unfold pair_weight. apply Rmult_lt_0_compat; now apply decay_pos. }
    assert (Hswp : (0 < sw)%R).
    { unfold sw. apply total_pos; [unfold o; destruct obs; [cbn in Hl; lia|discriminate]|]. unfold o. rewrite map_map. apply Forall_map, Forall_forall. intros x _. cbn. now apply decay_pos. }
    assert (Hcase : forall T : ext R, match o with [] => NaN | _ :: _ => T end = T) by (intros T; unfold o; destruct obs; [cbn in Hl; lia|reflexivity]).
    rewrite Hcase. clear Hcase.
    destruct (Rlt_dec 0 (sw * sw - sw2)) as [Hd|Hd]; [|exfalso; lra].
    eexists. split; [reflexivity|]. unfold weighted_deviation. fold W D. split; [apply sqrt_pos|].
    set (m := (total (map (fun o => fst o * snd o)%R o) / sw)%R). set (S1 := total (map (fun o => fst o * snd o)%R o)) in *. set (S2 := total (map (fun o => fst o * (snd o * snd o))%R o)) in *.
    assert (Hc : (total (map (fun o => fst o * ((snd o - m) * (snd o - m))) o) * sw = 2 * D)%R).
    { rewrite centred. fold S1 S2. change (total (map fst o)) with sw. unfold m. rewrite <- Hsp. field. lra. }
    set (V := total (map (fun o => fst o * ((snd o - m) * (snd o - m)))%R o)) in *.
    assert (HV : (0 <= V)%R).
    { unfold V. clear -Hs. assert (Hp : Forall (fun x => 0 <= fst x)%R o) by (subst o; apply Forall_map, Forall_forall; intros x _; cbn; apply Rlt_le, decay_pos, Hs).
      clearbody m. induction Hp as [|x r Hx _ IH]; [cbn; lra|]. cbn [map]. rewrite total_cons. pose proof (Rle_0_sqr (snd x - m)) as Hq. unfold Rsqr in Hq.
      assert (0 <= fst x * ((snd x - m) * (snd x - m)))%R by (now apply Rmult_le_pos). lra. }
    replace (sqrt _ ^ 2)%R with (sw * sw / (sw * sw - sw2) * (V / sw))%R.
    + rewrite Hsq. replace D with (V * sw / 2)%R by lra. field. split; lra.
    + rewrite <- (Rsqr_sqrt (sw * sw / (sw * sw - sw2) * (V / sw))) at 1; [unfold Rsqr; ring|].
      apply Rmult_le_pos; apply Rmult_le_pos; try lra; [apply Rmult_le_pos; lra|apply Rlt_le, Rinv_0_lt_compat; lra|apply Rlt_le, Rinv_0_lt_compat; lra].
Qed.
