(** Proofs for the time-decay sample weights. *)
From Coq Require Import QArith Reals Lqa Permutation Setoid.
From Verif Require Import PreludeFacts Series QSum QSumFacts Boot_Spec Boot_Model Boot_Proofs Boot_Proofs2 Weights_Spec Weights_Model Cusum_Proofs.
Local Open Scope nat_scope.

(** ** sort_index *)

Lemma insert_row_perm {V} (r : Z * V) l : Permutation (insert_row r l) (r :: l).
Proof.
  induction l as [|x l IH]; cbn; auto. destruct (_ <=? _)%Z; auto.
  etransitivity; [apply perm_skip, IH|]. apply perm_swap.
Qed.
Lemma sort_index_perm {V} (l : list (Z * V)) : Permutation (sort_index l) l.
Proof.
  induction l; cbn; auto. etransitivity; [apply insert_row_perm|]. now apply perm_skip.
Qed.
Lemma insert_row_sorted {V} (r : Z * V) l : increasingZ (map fst l) -> ~ In (fst r) (map fst l) ->
  increasingZ (map fst (insert_row r l)).
Proof.
  unfold increasingZ. induction l as [|x l IH]; cbn; intros HS Hn; [repeat constructor|].
  inversion HS as [|? ? HS' HF]. subst.
  destruct (Z.leb_spec (fst r) (fst x)).
  - cbn. constructor; auto. constructor; [lia|]. rewrite Forall_forall in *. intros y Hy. specialize (HF y Hy). lia.
  - cbn. constructor; [apply IH; auto|]. rewrite Forall_forall in *. intros y Hy.
    assert (In y (map fst (r :: l))) as Hy' by (eapply Permutation_in; [apply Permutation_map, insert_row_perm|exact Hy]).
    cbn in Hy'. destruct Hy' as [<-|Hy']; auto.
Qed.
Lemma sort_index_sorted {V} (l : list (Z * V)) : NoDup (map fst l) -> increasingZ (map fst (sort_index l)).
Proof.
  induction l as [|r l IH]; cbn; intros HN; [constructor|]. inversion HN; subst.
  apply insert_row_sorted; auto. intros Hin. apply H1. eapply Permutation_in; [|exact Hin].
  apply Permutation_map, sort_index_perm.
Qed.
Lemma sort_index_map {V W} (f : V -> W) (l : list (Z * V)) :
  sort_index (map (fun r => (fst r, f (snd r))) l) = map (fun r => (fst r, f (snd r))) (sort_index l).
Proof.
  induction l as [|r l IH]; auto. cbn [map sort_index fold_right] in *. unfold sort_index in IH. rewrite IH.
  generalize (fold_right insert_row [] l). clear. induction l as [|x l IH]; auto.
  cbn. destruct (_ <=? _)%Z; auto. cbn. now rewrite IH.
Qed.

(** ** cumsum *)

Fixpoint cums (a : Q) (l : list Q) : list Q :=
  match l with [] => [] | u :: r => (a + u)%Q :: cums (a + u)%Q r end.

Lemma cumsum_from_fin l : forall a, cumsum_from (Fin a) (map (@Fin Q) l) = map Fin (cums a l).
Proof. induction l; intros; auto. cbn. now rewrite IHl. Qed.
Lemma cums_length l : forall a, length (cums a l) = length l.
Proof. induction l; intros; cbn; auto. Qed.
Lemma cums_nth l : forall a k q, nth_error (cums a l) k = Some q -> (q == a + qsum (firstn (S k) l))%Q.
Proof.
  induction l as [|u l IH]; intros a [|k] q H; cbn in H; try discriminate.
  - injection H as <-. cbn. lra.
  - apply IH in H. rewrite H. change (firstn (S (S k)) (u :: l)) with (u :: firstn (S k) l). rewrite qsum_cons. lra.
Qed.
Lemma cums_rev l a : l <> [] -> exists t r, rev (cums a l) = t :: r /\ (t == a + qsum l)%Q.
Proof.
  intros Hl. destruct (rev (cums a l)) as [|t r] eqn:E.
  - exfalso. apply Hl. apply length_zero_iff_nil. rewrite <- (cums_length l a), <- rev_length, E. reflexivity.
  - exists t, r. split; auto.
    assert (cums a l = rev r ++ [t]) as E1 by (rewrite <- (rev_involutive (cums a l)), E; reflexivity).
    assert (nth_error (cums a l) (length r) = Some t) as E2.
    { rewrite E1, nth_error_app2; rewrite rev_length; auto. now rewrite Nat.sub_diag. }
    apply cums_nth in E2. rewrite E2.
    assert (length l = S (length r)) as E3.
    { rewrite <- (cums_length l a), E1, app_length, rev_length. cbn. lia. }
    rewrite <- E3, firstn_all. reflexivity.
Qed.

(** ** the weights *)

Definition linear (c x : Q) : Q := (if Qle_bool 0 c then c + (1 - c) * x else (c + x) / (c + 1))%Q.

#[global] Instance linear_proper c : Proper (Qeq ==> Qeq) (linear c).
Proof. intros x y H. unfold linear. destruct (Qle_bool 0 c); rewrite H; reflexivity. Qed.

(* the arithmetic of the rationals in place *)
Lemma decay_weights_Q c (uniq : list (ext Q)) : decay_weights c uniq =
  match rev (cumsum uniq) with
  | [] => Err IndexError
  | total :: _ =>
    let slope := if Qle_bool 0 c then ediv (Fin (1 - c)%Q) total else ediv (Fin 1%Q) (emul (Fin (c + 1)%Q) total) in
    let const := esub (Fin 1%Q) (emul slope total) in
    let w := map (fun x => eadd const (emul slope x)) (cumsum uniq) in
    Ok (map (fun x => if eltb x (Fin 0%Q) then Fin 0%Q else x) w)
  end.
Proof.
  unfold decay_weights. destruct (rev (cumsum uniq)); auto. change (altb c a0) with (negb (Qle_bool 0 c)). now destruct (Qle_bool 0 c).
Qed.

Lemma decay_weights_ok c us : us <> [] -> (forall u, In u us -> 0 < u)%Q -> ~ (c == -1)%Q ->
  exists f, decay_weights c (map (@Fin Q) us) = Ok (map (fun x => Fin (f x)) (cums 0%Q us)) /\
    forall x, (f x == Qmax 0 (linear c (x / qsum us)))%Q.
Proof.
  intros Hne Hpos Hc. rewrite decay_weights_Q. unfold cumsum. change (@a0 Q _) with 0%Q. rewrite cumsum_from_fin, <- map_rev.
  destruct (cums_rev us 0%Q Hne) as (T & r & -> & ET). cbn [map].
  assert (HT : (0 < T)%Q) by (rewrite ET; pose proof (qsum_pos us Hpos Hne); lra).
  assert (ET' : (T == qsum us)%Q) by (rewrite ET; lra).
  set (sl := if Qle_bool 0 c then ((1 - c) * / T)%Q else (1 * / ((c + 1) * T))%Q).
  assert (Hsl : (if Qle_bool 0 c then ediv (Fin (1 - c)%Q) (Fin T) else ediv (Fin 1%Q) (emul (Fin (c + 1)%Q) (Fin T))) = Fin sl).
  { unfold sl. destruct (Qle_bool 0 c); cbn [ediv emul].
    - change (aeqb T a0) with (Qeq_bool T 0). destruct (Qeq_bool T 0) eqn:E; auto. apply Qeq_bool_iff in E. lra.
    - change (aeqb (amul (c + 1)%Q T) a0) with (Qeq_bool ((c + 1) * T) 0). destruct (Qeq_bool _ 0) eqn:E; auto.
      apply Qeq_bool_iff in E. apply Qmult_integral in E. lra. }
  rewrite Hsl.
  set (g := fun x => (1 + - (sl * T) + sl * x)%Q).
  exists (fun x => if altb (g x) 0%Q then 0%Q else g x). split.
  - f_equal. rewrite !map_map. apply map_ext. intros x. cbn [emul esub eopp eadd eltb amul Arith_Q aadd aopp].
    fold (g x). unfold g at 1. destruct (altb _ _); reflexivity.
  - intros x.
    assert (Hg : (g x == linear c (x / qsum us))%Q).
    { unfold g, linear, sl. destruct (Qle_bool 0 c); rewrite <- ET'.
      - field. lra.
      - field. split; lra. }
    destruct (altb (g x) 0%Q) eqn:E.
    + apply altb_Q_true in E. rewrite Q.max_l; [reflexivity|]. rewrite <- Hg. lra.
    + apply altb_Q_false in E. rewrite Q.max_r; [exact Hg|]. rewrite <- Hg. lra.
Qed.

Lemma linear_decayed c x : (-1 < c)%Q -> (c <= 1)%Q -> (0 <= x <= 1)%Q -> (Qmax 0 (linear c x) == decayed c x)%Q.
Proof.
  intros H1 H2 Hx. unfold linear, decayed. destruct (Qle_bool 0 c) eqn:E.
  - apply Qle_bool_iff in E. apply Q.max_r. nra.
  - assert (~ (0 <= c)%Q) as E' by (rewrite <- Qle_bool_iff, E; discriminate).
    assert (Hk : ((c + x) / (c + 1) == (x - - c) / (1 - - c))%Q) by (field; lra).
    destruct (Qle_bool x (- c)) eqn:E2.
    + apply Qle_bool_iff in E2. apply Q.max_l. 
      assert (0 < / (c + 1))%Q by (apply Qinv_pos; lra). unfold Qdiv. nra.
    + assert (~ (x <= - c)%Q) as E2' by (rewrite <- Qle_bool_iff, E2; discriminate).
      rewrite Hk. apply Q.max_r.
      assert (0 < / (1 - - c))%Q by (apply Qinv_pos; lra). unfold Qdiv. nra.
Qed.

Lemma firstn_sorted_filter {V} (l : list (Z * V)) : increasingZ (map fst l) -> forall k t v,
  nth_error l k = Some (t, v) -> filter (fun r => fst r <=? t)%Z l = firstn (S k) l.
Proof.
  unfold increasingZ. induction l as [|[t0 v0] l IH]; intros HS [|k] t v H; cbn in H; try discriminate.
  - injection H as <- <-. inversion HS as [|? ? HS' HF]. subst. cbn. rewrite Z.leb_refl. f_equal.
    clear - HF. induction l as [|[t v] l IH]; auto. cbn in *. inversion HF; subst.
    destruct (Z.leb_spec t t0); [lia|auto].
  - inversion HS as [|? ? HS' HF]. subst. cbn [filter fst].
    assert (In t (map fst l)) as Hin by (apply nth_error_In in H; now apply (in_map fst) in H).
    rewrite Forall_forall in HF. specialize (HF t Hin).
    destruct (Z.leb_spec t0 t); [|lia]. erewrite (IH HS') by exact H. reflexivity.
Qed.

Definition in_order (samples : list (Z * Z)) : Prop := forall s e, In (s, e) samples -> (s <= e)%Z.

Lemma all_finite samples av : in_order samples ->
  average_uniqueness_transform (map (fun s => (fst s, Some (snd s))) samples) = Ok av ->
  exists us, av = map (fun r => (fst r, Some (snd r))) us /\ (forall u, In u (map snd us) -> 0 < u)%Q /\
    map fst us = map fst samples /\ NoDup (map fst samples) /\ us <> [].
Proof.
  intros Ho H. destruct (c61 samples av H) as (Hf & HN & times & _ & _ & Hv).
  assert (Hall : forall x, In x av -> exists s u, x = (s, Some u) /\ (0 < u)%Q).
  { intros x Hx. apply In_nth_error in Hx as [j Hj].
    assert (j < length samples) as Hlt.
    { rewrite <- (map_length fst samples), <- Hf, map_length. apply nth_error_Some. congruence. }
    destruct (nth_error samples j) as [[s e]|] eqn:E; [|apply nth_error_Some in Hlt; congruence].
    destruct (Hv j s e E (Ho _ _ (nth_error_In _ _ E))) as (u & Hu & Hb & _).
    exists s, u. split; [congruence|lra]. }
  assert (exists us, av = map (fun r => (fst r, Some (snd r))) us /\ (forall u, In u (map snd us) -> 0 < u)%Q) as (us & E & Hp).
  { clear - Hall. induction av as [|x av IH].
    - exists []. split; auto. easy.
    - destruct IH as (us & E & Hp); [intros; apply Hall; now right|].
      destruct (Hall x (or_introl eq_refl)) as (s & u & -> & Hu). exists ((s, u) :: us). split; [cbn; now rewrite E|].
      cbn. intros v [<-|Hv]; auto. }
  exists us. assert (map fst us = map fst samples) as Hm by (rewrite <- Hf, E, map_map; reflexivity).
  repeat split; auto.
  intros ->. destruct samples; [|discriminate]. cbn in H. discriminate.
Qed.

Lemma share_bounds us t : us <> [] -> (forall u, In u (map snd us) -> 0 < u)%Q ->
  (0 <= share us t <= 1)%Q /\
  (forall t', (t <= t')%Z -> share us t <= share us t')%Q /\
  ((exists u, In (t, u) us) -> (0 < share us t)%Q) /\
  ((forall t' u, In (t', u) us -> (t' <= t)%Z) -> (share us t == 1)%Q) /\
  ((exists t' u, In (t', u) us /\ (t < t')%Z) -> (share us t < 1)%Q).
Proof.
  intros Hne Hp. set (T := qsum (map snd us)).
  assert (HT : (0 < T)%Q) by (apply qsum_pos; auto; destruct us; [congruence|discriminate]).
  assert (HI : (0 < / T)%Q) by now apply Qinv_pos.
  assert (Hmono : forall p q : Z * Q -> bool, (forall r, In r us -> p r = true -> q r = true) ->
     (qsum (map snd (filter p us)) <= qsum (map snd (filter q us)))%Q).
  { intros p q Hpq. clear Hne HT HI T. induction us as [|r l IH]; cbn [filter map]; [lra|].
    assert (0 < snd r)%Q by (apply Hp; now left).
    specialize (IH ltac:(intros; apply Hp; now right) ltac:(intros; apply Hpq; auto; now right)).
    destruct (p r) eqn:E1; [rewrite (Hpq r (or_introl eq_refl) E1); cbn [map]; rewrite !qsum_cons; lra|].
    destruct (q r); cbn [map]; rewrite ?qsum_cons; lra. }
  assert (Hfull : filter (fun _ => true) us = us) by (clear; induction us; cbn; congruence).
  assert (Hnone : filter (fun _ => false) us = []) by (clear; induction us; cbn; congruence).
  assert (Hone : (T * / T == 1)%Q) by (apply Qmult_inv_r; lra).
  unfold share. fold T. unfold Qdiv.
  repeat split.
  - pose proof (Hmono (fun _ => false) (fun r => fst r <=? t)%Z ltac:(discriminate)) as H. rewrite Hnone in H. cbn in H. nra.
  - pose proof (Hmono (fun r => fst r <=? t)%Z (fun _ => true) ltac:(auto)) as H. rewrite Hfull in H. fold T in H. nra.
  - intros t' Htt. pose proof (Hmono (fun r => fst r <=? t)%Z (fun r => fst r <=? t')%Z) as H.
    apply Qmult_le_compat_r; [|lra]. apply H. intros r _ Hr. lia.
  - intros (u & Hu). apply Qmult_lt_0_compat; auto. apply qsum_pos.
    + intros x Hx. apply Hp. apply in_map_iff in Hx as (r & <- & Hr). apply filter_In in Hr. now apply in_map.
    + intros HE. apply map_eq_nil in HE. assert (In (t, u) (filter (fun r => fst r <=? t)%Z us)) as Hin.
      { apply filter_In. split; auto. cbn. lia. } rewrite HE in Hin. easy.
  - intros Hall. assert (filter (fun r => fst r <=? t)%Z us = us) as ->.
    { rewrite <- Hfull at 2. apply filter_ext_in. intros [t' u] Hin. cbn. specialize (Hall _ _ Hin). lia. }
    exact Hone.
  - intros (t' & u & Hin & Hlt).
    assert (qsum (map snd (filter (fun r => fst r <=? t)%Z us)) < T)%Q as HH; [|nra].
    unfold T. clear - Hin Hlt Hp. induction us as [|r l IH]; [easy|]. cbn [filter map].
    assert (0 < snd r)%Q by (apply Hp; now left).
    assert (Hle : (qsum (map snd (filter (fun r => (fst r <=? t)%Z) l)) <= qsum (map snd l))%Q).
    { clear - Hp. induction l as [|a l IH]; cbn [filter map]; [lra|]. assert (0 < snd a)%Q by (apply Hp; cbn; auto).
      specialize (IH ltac:(intros x [Hx|Hx]; apply Hp; cbn; auto)). destruct (fst a <=? t)%Z; cbn [map]; rewrite ?qsum_cons; lra. }
    destruct Hin as [->|Hin].
    + cbn [fst snd] in *. destruct (Z.leb_spec t' t); [lia|]. rewrite qsum_cons. lra.
    + specialize (IH ltac:(intros; apply Hp; now right) Hin). destruct (fst r <=? t)%Z; cbn [map]; rewrite ?qsum_cons; lra.
Qed.

Lemma in_combine_nth {A B} (l : list A) (m : list B) a b : In (a, b) (combine l m) ->
  exists k, nth_error l k = Some a /\ nth_error m k = Some b.
Proof.
  revert m. induction l as [|x l IH]; intros [|y m]; cbn; try easy. intros [[= -> ->]|H].
  - now exists 0.
  - destruct (IH _ H) as (k & ?). now exists (S k).
Qed.

(** General form: for c <> -1 the weights are the positive part of a line in the share. *)
Lemma decay_general c samples out : ~ (c == -1)%Q -> in_order samples ->
  decay_transform c (map (fun s => (fst s, Some (snd s))) samples) = Ok out ->
  exists us,
    average_uniqueness_transform (map (fun s => (fst s, Some (snd s))) samples) =
      Ok (map (fun r => (fst r, Some (snd r))) us) /\
    us <> [] /\ (forall u, In u (map snd us) -> 0 < u)%Q /\
    increasingZ (map fst out) /\ Permutation (map fst out) (map fst samples) /\
    (forall t w, In (t, w) out -> exists q, w = Fin q /\ (exists u, In (t, u) us) /\
       (q == Qmax 0 (linear c (share us t)))%Q).
Proof.
  intros Hc Ho H. unfold decay_transform in H. destruct (negb (Qle_bool c 1)); [discriminate|].
  destruct (average_uniqueness_transform _) as [av|] eqn:EA; [|discriminate]. cbn [bind] in H.
  destruct (all_finite samples av Ho EA) as (us & -> & Hp & Hm & HN & Hne).
  exists us. rewrite sort_index_map in H.
  pose proof (sort_index_perm us) as HP. set (s := sort_index us) in *.
  assert (HNu : NoDup (map fst us)) by (rewrite Hm; auto).
  pose proof (sort_index_sorted us HNu) as HS. fold s in HS.
  assert (map (fun r => of_opt (snd r)) (map (fun r : Z * Q => (fst r, Some (snd r))) s) = map Fin (map snd s)) as E1.
  { rewrite !map_map. reflexivity. }
  rewrite E1 in H.
  assert (Hps : forall u, In u (map snd s) -> (0 < u)%Q).
  { intros u Hu. apply Hp. eapply Permutation_in; [|exact Hu]. now apply Permutation_map. }
  assert (Hsne : map snd s <> []).
  { intros HE. apply map_eq_nil in HE. rewrite HE in HP. apply Permutation_nil in HP. auto. }
  destruct (decay_weights_ok c (map snd s) Hsne Hps Hc) as (f & Ef & Hf).
  rewrite Ef in H. cbn [bind] in H. injection H as <-. rewrite map_map. cbn [fst].
  assert (HL : length (map fst s) = length (map (fun x => Fin (f x)) (cums 0%Q (map snd s))))
    by (rewrite !map_length, cums_length, map_length; auto).
  split; [reflexivity|]. split; [auto|]. split; [auto|].
  change (map (fun x : Z * Q => fst x) s) with (map fst s).
  rewrite map_fst_combine by auto. split; [exact HS|]. split.
  { rewrite <- Hm. now apply Permutation_map. }
  intros t w Hin. apply in_combine_nth in Hin as (k & Ht & Hw).
  rewrite nth_error_map in Ht. destruct (nth_error s k) as [[t' u]|] eqn:Es; [|discriminate]. injection Ht as ->. 
  rewrite nth_error_map in Hw. destruct (nth_error (cums 0%Q (map snd s)) k) as [x|] eqn:Ex; [|discriminate].
  injection Hw as <-. exists (f x). split; auto. split.
  { exists u. eapply Permutation_in; [exact HP|]. eapply nth_error_In; eauto. }
  rewrite Hf. apply cums_nth in Ex.
  assert ((x / qsum (map snd s) == share us t)%Q) as ->; [|reflexivity].
  rewrite Ex, Qplus_0_l. unfold share. rewrite firstn_map.
  erewrite <- (firstn_sorted_filter s HS k t u Es).
  assert (forall p, (qsum (map snd (filter p s)) == qsum (map snd (filter p us)))%Q) as HPF.
  { intros p. apply qsum_perm, Permutation_map. clear - HP. induction HP; cbn; auto.
    - destruct (p x); auto.
    - destruct (p x), (p y); auto; try apply perm_swap.
    - etransitivity; eauto. }
  rewrite HPF. 
  assert ((qsum (map snd s) == qsum (map snd us))%Q) as -> by (apply qsum_perm, Permutation_map; auto). reflexivity.
Qed.

Lemma c21_weights c samples out : (-1 < c)%Q -> in_order samples ->
  decay_transform c (map (fun s => (fst s, Some (snd s))) samples) = Ok out ->
  exists us,
    average_uniqueness_transform (map (fun s => (fst s, Some (snd s))) samples) =
      Ok (map (fun r => (fst r, Some (snd r))) us) /\
    increasingZ (map fst out) /\ Permutation (map fst out) (map fst samples) /\
    (forall t w, In (t, w) out -> exists q, w = Fin q /\ (q == decayed c (share us t))%Q).
Proof.
  intros Hc Ho H. assert (c <= 1)%Q as Hc1.
  { unfold decay_transform in H. destruct (Qle_bool c 1) eqn:E; [now apply Qle_bool_iff in E|discriminate]. }
  destruct (decay_general c samples out) as (us & H1 & Hne & Hp & H2 & H3 & H4); auto; [lra|].
  exists us. repeat split; auto. intros t w Hin. destruct (H4 t w Hin) as (q & -> & _ & Hq).
  exists q. split; auto. rewrite Hq. apply linear_decayed; auto. now apply share_bounds.
Qed.


(** Shape of the weights, 0 <= c <= 1. *)
Lemma c21_nonneg c samples out : (0 <= c)%Q -> in_order samples ->
  decay_transform c (map (fun s => (fst s, Some (snd s))) samples) = Ok out ->
  (forall t w, In (t, w) out -> exists q, w = Fin q /\ (c <= q <= 1)%Q /\ ((0 < c)%Q -> (0 < q)%Q) /\
      ((forall t' w', In (t', w') out -> (t' <= t)%Z) -> (q == 1)%Q)) /\
  (forall t q t' q', In (t, Fin q) out -> In (t', Fin q') out -> (t <= t')%Z -> (q <= q')%Q) .
Proof.
  intros Hc Ho H. assert (c <= 1)%Q as Hc1.
  { unfold decay_transform in H. destruct (Qle_bool c 1) eqn:E; [now apply Qle_bool_iff in E|discriminate]. }
  destruct (decay_general c samples out) as (us & H1 & Hne & Hp & H2 & H3 & H4); auto; [lra|].
  assert (HL : forall t q, In (t, Fin q) out -> (q == c + (1 - c) * share us t)%Q).
  { intros t q Hin. destruct (H4 t _ Hin) as (q' & [= <-] & _ & Hq). rewrite Hq.
    rewrite linear_decayed by (try lra; now apply share_bounds). unfold decayed.
    assert (Qle_bool 0 c = true) as -> by now apply Qle_bool_iff. reflexivity. }
  split.
  - intros t w Hin. destruct (H4 t w Hin) as (q & -> & Hu & _). exists q. split; auto.
    pose proof (HL t q Hin) as Hq. destruct (share_bounds us t Hne Hp) as (Hb & _ & _ & H1' & _).
    assert (c <= q <= 1)%Q by (rewrite Hq; nra). repeat split; try lra.
    intros Hall. rewrite Hq, H1'; [lra|]. intros t' u Hin'.
    assert (In t' (map fst out)) as Hin2.
    { eapply Permutation_in; [symmetry; exact H3|].
      pose proof (all_finite samples _ Ho H1) as (us' & E & _ & Em & _).
      assert (us' = us) as -> .
      { clear - E. revert us' E. induction us as [|[a b] us IH]; intros [|[a' b'] us']; cbn; intros E; try discriminate; auto.
        injection E as -> -> E. f_equal. now apply IH. }
      rewrite <- Em. now apply (in_map fst) in Hin'. }
    apply in_map_iff in Hin2 as ([t'' w'] & Ht & Hin2). cbn in Ht. subst t''. eauto.
  - intros t q t' q' Hin Hin' Hle. rewrite (HL _ _ Hin), (HL _ _ Hin').
    destruct (share_bounds us t Hne Hp) as (Hb & Hm & _). specialize (Hm t' Hle). nra.
Qed.

(** Shape of the weights, -1 < c < 0. *)
Lemma c21_negative c samples out : (-1 < c < 0)%Q -> in_order samples ->
  decay_transform c (map (fun s => (fst s, Some (snd s))) samples) = Ok out ->
  exists us, average_uniqueness_transform (map (fun s => (fst s, Some (snd s))) samples) =
      Ok (map (fun r => (fst r, Some (snd r))) us) /\
  (forall t w, In (t, w) out -> exists q, w = Fin q /\ (0 <= q <= 1)%Q /\
      ((q == 0)%Q <-> (share us t <= - c)%Q) /\
      ((forall t' w', In (t', w') out -> (t' <= t)%Z) -> (q == 1)%Q)) /\
  (forall t q t' q', In (t, Fin q) out -> In (t', Fin q') out -> (t <= t')%Z -> (q <= q')%Q) .
Proof.
  intros Hc Ho H. 
  destruct (decay_general c samples out) as (us & H1 & Hne & Hp & H2 & H3 & H4); auto; [lra|].
  exists us. split; auto.
  assert (Hc0 : Qle_bool 0 c = false) by (destruct (Qle_bool 0 c) eqn:E; auto; apply Qle_bool_iff in E; lra).
  assert (HI : (0 < / (c + 1))%Q) by (apply Qinv_pos; lra).
  assert (HI1 : ((c + 1) * / (c + 1) == 1)%Q) by (apply Qmult_inv_r; lra).
  assert (HL : forall t q, In (t, Fin q) out -> (q == Qmax 0 ((c + share us t) * / (c + 1)))%Q).
  { intros t q Hin. destruct (H4 t _ Hin) as (q' & [= <-] & _ & Hq). rewrite Hq. unfold linear. rewrite Hc0. reflexivity. }
  split.
  - intros t w Hin. destruct (H4 t w Hin) as (q & -> & Hu & _). exists q. split; auto.
    pose proof (HL t q Hin) as Hq. destruct (share_bounds us t Hne Hp) as (Hb & _ & _ & H1' & _).
    set (x := share us t) in *.
    assert (0 <= q <= 1)%Q.
    { rewrite Hq. split; [apply Q.le_max_l|]. apply Q.max_lub; [lra|]. nra. }
    repeat split; try lra.
    + intros E. rewrite E in Hq. pose proof (Q.le_max_r 0 ((c + x) * / (c + 1)))%Q as Hm. rewrite <- Hq in Hm. nra.
    + intros E. rewrite Hq. apply Q.max_l. nra.
    + intros Hall. rewrite Hq. rewrite H1'.
      * rewrite HI1. reflexivity.
      * intros t' u Hin'.
        assert (In t' (map fst out)) as Hin2.
        { eapply Permutation_in; [symmetry; exact H3|].
          pose proof (all_finite samples _ Ho H1) as (us' & E & _ & Em & _).
          assert (us' = us) as -> .
          { clear - E. revert us' E. induction us as [|[a b] us IH]; intros [|[a' b'] us']; cbn; intros E; try discriminate; auto.
            injection E as -> -> E. f_equal. now apply IH. }
          rewrite <- Em. now apply (in_map fst) in Hin'. }
        apply in_map_iff in Hin2 as ([t'' w'] & Ht & Hin2). cbn in Ht. subst t''. eauto.
  - intros t q t' q' Hin Hin' Hle. rewrite (HL _ _ Hin), (HL _ _ Hin').
    destruct (share_bounds us t Hne Hp) as (Hb & Hm & _). specialize (Hm t' Hle).
    apply Q.max_le_compat_l. nra.
Qed.

Lemma c21_too_large c X : (1 < c)%Q -> decay_transform c X = Err AssertionError.
Proof.
  intros H. unfold decay_transform. destruct (Qle_bool c 1) eqn:E; [|reflexivity]. apply Qle_bool_iff in E. lra.
Qed.

Lemma c21_error c X : (c <= 1)%Q -> 
  (exists out, decay_transform c X = Ok out) <-> exists av, average_uniqueness_transform X = Ok av.
Proof.
  intros H. unfold decay_transform. assert (Qle_bool c 1 = true) as -> by now apply Qle_bool_iff. cbn [negb].
  destruct (average_uniqueness_transform X) as [av|] eqn:E; cbn [bind].
  - split; [eauto|]. intros _. unfold decay_weights. 
    assert (forall (l : list (ext Q)) a, length (cumsum_from a l) = length l) as HL.
    { induction l as [|x l IH]; intros; auto. cbn. destruct (is_nan x); cbn; now rewrite IH. }
    destruct (rev (cumsum _)) as [|x r] eqn:E2; [|cbn; eauto].
    exfalso. apply (f_equal (@length _)) in E2. rewrite rev_length in E2. unfold cumsum in E2. rewrite HL, map_length in E2. cbn in E2.
    pose proof (Permutation_length (sort_index_perm av)) as HP. rewrite E2 in HP.
    unfold average_uniqueness_transform in E. destruct (existsb _ _); [discriminate|]. destruct (has_dup _); [discriminate|].
    destruct (get_ind_matrix _ _) as [[m i]|] eqn:E3; [|discriminate]. cbn [bind fst] in E. injection E as <-.
    destruct X as [|x X]; [discriminate|].
    unfold get_ind_matrix in E3. cbn [map existsb] in E3. destruct x as [s [e|]]; [|discriminate].
    destruct (_ || _); [discriminate|]. cbn [flat_map fst snd app] in E3.
    destruct (mapM _ _) as [ps|] eqn:E4 in E3; [|discriminate]. cbn [bind] in E3.
    destruct (mapM _ _) as [pe|] eqn:E5 in E3; [|discriminate]. cbn [bind] in E3.
    apply mapM_length in E4. apply mapM_length in E5. cbn in E4, E5.
    destruct ps, pe; try discriminate. 
    destruct (negb _) in E3; [discriminate|]. destruct (negb _) in E3; [discriminate|]. injection E3 as <- <-.
    cbn in HP. discriminate.
  - split; intros [? ?]; discriminate.
Qed.

(** c = -1: every weight is NaN. *)
Lemma c21_minus_one c samples out : (c == -1)%Q -> in_order samples ->
  decay_transform c (map (fun s => (fst s, Some (snd s))) samples) = Ok out ->
  forall t w, In (t, w) out -> w = NaN.
Proof.
  intros Hc Ho H. unfold decay_transform in H. destruct (negb (Qle_bool c 1)); [discriminate|].
  destruct (average_uniqueness_transform _) as [av|] eqn:EA; [|discriminate]. cbn [bind] in H.
  destruct (all_finite samples av Ho EA) as (us & -> & Hp & Hm & HN & Hne).
  rewrite sort_index_map in H.
  pose proof (sort_index_perm us) as HP. set (s := sort_index us) in *.
  assert (map (fun r => of_opt (snd r)) (map (fun r : Z * Q => (fst r, Some (snd r))) s) = map Fin (map snd s)) as E1.
  { rewrite !map_map. reflexivity. }
  rewrite E1 in H.
  assert (Hps : forall u, In u (map snd s) -> (0 < u)%Q).
  { intros u Hu. apply Hp. eapply Permutation_in; [|exact Hu]. now apply Permutation_map. }
  assert (Hsne : map snd s <> []).
  { intros HE. apply map_eq_nil in HE. rewrite HE in HP. apply Permutation_nil in HP. auto. }
  rewrite decay_weights_Q in H. unfold cumsum in H. change (@a0 Q _) with 0%Q in H. rewrite cumsum_from_fin, <- map_rev in H.
  destruct (cums_rev (map snd s) 0%Q Hsne) as (T & r & E & ET). rewrite E in H. cbn [map] in H.
  assert (Qle_bool 0 c = false) as Hc0 by (destruct (Qle_bool 0 c) eqn:E0; auto; apply Qle_bool_iff in E0; lra).
  rewrite Hc0 in H.
  assert (aeqb (amul (c + 1)%Q T) a0 = true) as HZ.
  { apply Qeq_bool_iff. cbn. rewrite Hc. ring. }
  assert (ediv (Fin 1%Q) (emul (Fin (c + 1)%Q) (Fin T)) = PInf) as HS by (cbn [ediv emul]; now rewrite HZ).
  rewrite HS in H.
  assert (HT : (0 < T)%Q) by (rewrite ET; pose proof (qsum_pos (map snd s) Hps Hsne); lra).
  assert (forall x : Q, (0 < x)%Q -> emul PInf (Fin x) = PInf) as Hmul.
  { intros x Hx. cbn. unfold asign. destruct (altb x a0) eqn:E2; [apply altb_Q_true in E2; cbn in E2; lra|].
    destruct (altb a0 x) eqn:E3; [reflexivity|]. apply altb_Q_false in E3. cbn in E3. lra. }
  assert (Hcp : forall x, In x (cums 0%Q (map snd s)) -> (0 < x)%Q).
  { intros x Hx. apply In_nth_error in Hx as [k Hk]. apply cums_nth in Hk. rewrite Hk.
    assert (0 < qsum (firstn (S k) (map snd s)))%Q; [|lra]. apply qsum_pos.
    - intros y Hy. apply Hps. rewrite <- (firstn_skipn (S k)). apply in_or_app. auto.
    - destruct (map snd s); [congruence|discriminate]. }
  intros t w Hin. cbn [bind] in H. match type of H with Ok ?y = Ok _ => assert (out = y) as -> by congruence end. apply in_combine_r in Hin. apply in_map_iff in Hin as (y & <- & Hy).
  apply in_map_iff in Hy as (z & <- & Hz). apply in_map_iff in Hz as (x & <- & Hx).
  rewrite (Hmul T HT), (Hmul x (Hcp x Hx)). reflexivity.
Qed.

(** c < -1: all but the newest weights exceed 1 and weights decrease with time. *)
Lemma c21_below c samples out : (c < -1)%Q -> in_order samples ->
  decay_transform c (map (fun s => (fst s, Some (snd s))) samples) = Ok out ->
  (forall t w, In (t, w) out -> exists q, w = Fin q /\ (1 <= q)%Q /\
     ((exists t' w', In (t', w') out /\ (t < t')%Z) -> (1 < q)%Q)) /\
  (forall t q t' q', In (t, Fin q) out -> In (t', Fin q') out -> (t <= t')%Z -> (q' <= q)%Q).
Proof.
  intros Hc Ho H. 
  destruct (decay_general c samples out) as (us & H1 & Hne & Hp & H2 & H3 & H4); auto; [lra|].
  assert (Hc0 : Qle_bool 0 c = false) by (destruct (Qle_bool 0 c) eqn:E; auto; apply Qle_bool_iff in E; lra).
  assert (HI : (0 < / (- (c + 1)))%Q) by (apply Qinv_pos; lra).
  assert (HI1 : (- (c + 1) * / (- (c + 1)) == 1)%Q) by (apply Qmult_inv_r; lra).
  assert (HL : forall t q, In (t, Fin q) out -> (q == (- c - share us t) * / (- (c + 1)))%Q).
  { intros t q Hin. destruct (H4 t _ Hin) as (q' & [= <-] & _ & Hq). rewrite Hq. unfold linear. rewrite Hc0.
    destruct (share_bounds us t Hne Hp) as (Hb & _).
    assert ((c + share us t) / (c + 1) == (- c - share us t) * / (- (c + 1)))%Q as -> by (field; lra).
    apply Q.max_r. nra. }
  split.
  - intros t w Hin. destruct (H4 t w Hin) as (q & -> & Hu & _). exists q. split; auto.
    pose proof (HL t q Hin) as Hq. destruct (share_bounds us t Hne Hp) as (Hb & _ & _ & _ & H1').
    split; [rewrite Hq; nra|]. intros (t' & w' & Hin' & Hlt).
    destruct (H4 t' w' Hin') as (q' & _ & (u & Hu') & _).
    assert (share us t < 1)%Q as Hs by (apply H1'; eauto). rewrite Hq. nra.
  - intros t q t' q' Hin Hin' Hle. rewrite (HL _ _ Hin), (HL _ _ Hin').
    destruct (share_bounds us t Hne Hp) as (Hb & Hm & _). specialize (Hm t' Hle). nra.
Qed.
