(** Results that depend on times only through their order. *)
From Coq Require Import QArith Lia.
From Verif Require Import PreludeFacts Series QSum CV_Model Boot_Model Weights_Model Cusum_Model Order_Spec.
Local Open Scope nat_scope.

Lemma mapM_map {A B C} (g : A -> B) (h : B -> result C) l : mapM h (map g l) = mapM (fun x => h (g x)) l.
Proof. induction l as [|x l IH]; [reflexivity|]. cbn. now rewrite IH. Qed.
Lemma mapM_on_ok {A B C} (g : B -> C) (h : A -> result B) (h' : A -> result C) l : (forall x, In x l -> h' x = on_ok g (h x)) -> mapM h' l = on_ok (map g) (mapM h l).
Proof.
  induction l as [|x l IH]; intros H; [reflexivity|]. cbn. rewrite (H x (or_introl eq_refl)). destruct (h x); [|reflexivity]. cbn [on_ok bind].
  rewrite IH by (intros; apply H; now right). destruct (mapM h l); reflexivity.
Qed.
Lemma mapM_same {A B} (h h' : A -> result B) l : (forall x, In x l -> h' x = h x) -> mapM h' l = mapM h l.
Proof. induction l as [|x l IH]; intros H; [reflexivity|]. cbn. rewrite (H x (or_introl eq_refl)), IH by (intros; apply H; now right). reflexivity. Qed.

Section Order.
  Variable f : Z -> Z.
  Hypothesis Hf : keeps_order f.

  Lemma f_le a b : (f a <= f b)%Z <-> (a <= b)%Z.
  Proof.
    split; intros H.
    - destruct (Z_lt_le_dec b a) as [L|L]; [apply Hf in L; lia|exact L].
    - destruct (Z.eq_dec a b) as [->|N]; [lia|]. assert (a < b)%Z as L by lia. apply Hf in L. lia.
  Qed.
  Lemma f_lt a b : (f a < f b)%Z <-> (a < b)%Z.
  Proof. split; [|apply Hf]. intros H. destruct (Z_lt_le_dec a b) as [L|L]; [exact L|]. apply f_le in L. lia. Qed.
  Lemma f_inj a b : f a = f b -> a = b.
  Proof. intros E. apply Z.le_antisymm; apply f_le; lia. Qed.
  Lemma f_compare a b : (f a ?= f b)%Z = (a ?= b)%Z.
  Proof.
    destruct (Z.compare_spec a b) as [->|H|H]; [apply Z.compare_refl|apply Z.compare_lt_iff; now apply f_lt|apply Z.compare_gt_iff; now apply f_lt].
  Qed.
  Lemma f_eqb a b : (f a =? f b)%Z = (a =? b)%Z.
  Proof. destruct (Z.eqb_spec a b) as [->|N]; [apply Z.eqb_refl|]. apply Z.eqb_neq. intros E. apply N, f_inj, E. Qed.
  Lemma f_leb a b : (f a <=? f b)%Z = (a <=? b)%Z.
  Proof. unfold Z.leb. now rewrite f_compare. Qed.
  Lemma f_ltb a b : (f a <? f b)%Z = (a <? b)%Z.
  Proof. unfold Z.ltb. now rewrite f_compare. Qed.
  Lemma f_min a b : Z.min (f a) (f b) = f (Z.min a b).
  Proof. unfold Z.min. rewrite f_compare. now destruct (a ?= b)%Z. Qed.
  Lemma f_max a b : Z.max (f a) (f b) = f (Z.max a b).
  Proof. unfold Z.max. rewrite f_compare. now destruct (a ?= b)%Z. Qed.

  Lemma uniqueZ_map l : np_uniqueZ (map f l) = map f (np_uniqueZ l).
  Proof.
    unfold np_uniqueZ, sort_unique. induction l as [|x l IH]; [reflexivity|]. cbn [map fold_right]. rewrite IH.
    generalize (fold_right (insert_u Z.compare) [] l). induction l0 as [|y r IHr]; [reflexivity|]. cbn [map insert_u]. rewrite f_compare.
    destruct (x ?= y)%Z; cbn [map]; [reflexivity|reflexivity|]. now rewrite IHr.
  Qed.
  Lemma position_map x l : position (f x) (map f l) = position x l.
  Proof. induction l as [|y r IH]; [reflexivity|]. cbn. rewrite f_eqb, IH. reflexivity. Qed.
  Lemma list_min_map d l : list_minZ (f d) (map f l) = f (list_minZ d l).
  Proof. unfold list_minZ. revert d. induction l as [|x l IH]; intros d; [reflexivity|]. cbn. now rewrite f_min. Qed.
  Lemma list_max_map d l : list_maxZ (f d) (map f l) = f (list_maxZ d l).
  Proof. unfold list_maxZ. revert d. induction l as [|x l IH]; intros d; [reflexivity|]. cbn. now rewrite f_max. Qed.
  Lemma memZ_map x l : memZ (f x) (map f l) = memZ x l.
  Proof. unfold memZ. induction l as [|y r IH]; [reflexivity|]. cbn. now rewrite f_eqb, IH. Qed.
  Lemma has_dup_map l : has_dup (map f l) = has_dup l.
  Proof. induction l as [|x l IH]; [reflexivity|]. cbn. now rewrite memZ_map, IH. Qed.
  Lemma filter_map_f {A B} (g : A -> B) p q l : (forall x, p (g x) = q x) -> filter p (map g l) = map g (filter q l).
  Proof. intros H. induction l as [|x l IH]; [reflexivity|]. cbn. rewrite H. destruct (q x); cbn; now rewrite IH. Qed.
  Lemma existsb_map {A B} (g : A -> B) p l : existsb p (map g l) = existsb (fun x => p (g x)) l.
  Proof. induction l as [|x l IH]; [reflexivity|]. cbn. now rewrite IH. Qed.
  Lemma existsb_ext' {A} (p q : A -> bool) l : (forall x, p x = q x) -> existsb p l = existsb q l.
  Proof. intros H. induction l as [|x l IH]; [reflexivity|]. cbn. now rewrite H, IH. Qed.

  Lemma times_map (sel : option Z * option Z -> option Z) samples : (forall s, sel (retime_sample f s) = option_map f (sel s)) ->
    flat_map (fun s => match sel s with Some x => [x] | None => [] end) (map (retime_sample f) samples) =
    map f (flat_map (fun s => match sel s with Some x => [x] | None => [] end) samples).
  Proof. intros H. induction samples as [|s l IH]; [reflexivity|]. cbn [map flat_map]. rewrite IH, map_app, H. now destruct (sel s). Qed.

  Theorem ind_matrix_retimed samples bars :
    get_ind_matrix (map (retime_sample f) samples) (map f bars) = on_ok (fun mi => (fst mi, map f (snd mi))) (get_ind_matrix samples bars).
  Proof.
    unfold get_ind_matrix. rewrite !existsb_map.
    rewrite (existsb_ext' (fun x => match snd (retime_sample f x) with Some _ => false | None => true end) (fun s => match snd s with Some _ => false | None => true end)) by (now intros [? []]).
    rewrite (existsb_ext' (fun x => match fst (retime_sample f x) with Some _ => false | None => true end) (fun s => match fst s with Some _ => false | None => true end)) by (now intros [[] ?]).
    destruct (_ || _); [reflexivity|]. cbv zeta. rewrite (times_map fst), (times_map snd) by reflexivity.
    destruct (flat_map (fun s => match fst s with Some x => [x] | None => [] end) samples) as [|s0 sr]; [reflexivity|].
    destruct (flat_map (fun s => match snd s with Some x => [x] | None => [] end) samples) as [|e0 er]; [reflexivity|]. cbn [map].
    rewrite list_min_map, list_max_map.
    rewrite (filter_map_f f _ (fun b => (list_minZ s0 sr <=? b) && (b <=? list_maxZ e0 er))%Z) by (intros x; now rewrite !f_leb).
    change (f s0 :: map f sr) with (map f (s0 :: sr)). change (f e0 :: map f er) with (map f (e0 :: er)). rewrite <- !map_app, uniqueZ_map.
    set (idx := np_uniqueZ _).
    assert (E : forall l, mapM (lookup_pos (map f idx)) (map f l) = mapM (lookup_pos idx) l).
    { intros l. rewrite mapM_map. apply mapM_same. intros x _. unfold lookup_pos. now rewrite position_map. }
    rewrite !E. destruct (mapM _ (s0 :: sr)) as [ps|]; [|reflexivity]. destruct (mapM _ (e0 :: er)) as [pe|]; [|reflexivity]. cbn [bind]. rewrite map_length.
    destruct (negb _); [reflexivity|]. destruct (negb _); reflexivity.
  Qed.

  Theorem uniqueness_retimed X : average_uniqueness_transform (map (retime_span f) X) = on_ok (map (retime_row f)) (average_uniqueness_transform X).
  Proof.
    unfold average_uniqueness_transform. rewrite existsb_map, !map_map.
    rewrite (existsb_ext' (fun x => match snd (retime_span f x) with Some _ => false | None => true end) (fun s => match snd s with Some _ => false | None => true end)) by (now intros [? []]).
    destruct (existsb _ X); [reflexivity|]. cbn [retime_span fst snd].
    rewrite <- (map_map fst f), has_dup_map. destruct (has_dup _); [reflexivity|].
    assert (E : map (fun x : Z * option Z => (Some (f (fst x)), option_map f (snd x))) X = map (retime_sample f) (map (fun r => (Some (fst r), snd r)) X)) by (now rewrite map_map).
    rewrite E, ind_matrix_retimed. destruct (get_ind_matrix _ _) as [[m idx]|]; [|reflexivity]. cbn [on_ok bind fst snd]. f_equal.
    generalize (calc_average_uniqueness m). generalize (map fst X). induction l as [|x l IH]; intros [|u us]; cbn; auto. now rewrite IH.
  Qed.

  Lemma insert_row_map {V} (r : Z * V) l : insert_row (retime_row f r) (map (retime_row f) l) = map (retime_row f) (insert_row r l).
  Proof. induction l as [|x l IH]; [reflexivity|]. cbn. rewrite f_leb. destruct (fst r <=? fst x)%Z; cbn; [reflexivity|]. now rewrite IH. Qed.
  Lemma sort_index_map {V} (l : list (Z * V)) : sort_index (map (retime_row f) l) = map (retime_row f) (sort_index l).
  Proof. unfold sort_index. induction l as [|x l IH]; [reflexivity|]. cbn. now rewrite IH, insert_row_map. Qed.
  Lemma combine_map_l {V} (l : list Z) (v : list V) : combine (map f l) v = map (retime_row f) (combine l v).
  Proof. revert v. induction l as [|x l IH]; intros [|u us]; cbn; auto. now rewrite IH. Qed.
  Theorem decay_retimed c X : decay_transform c (map (retime_span f) X) = on_ok (map (retime_row f)) (decay_transform c X).
  Proof.
    unfold decay_transform. destruct (negb _); [reflexivity|]. rewrite uniqueness_retimed. destruct (average_uniqueness_transform X) as [av|]; [|reflexivity].
    cbn [on_ok bind]. cbv zeta. rewrite sort_index_map, !map_map. cbn [retime_row fst snd]. destruct (decay_weights c _) as [w|]; [|reflexivity]. cbn [bind on_ok].
    rewrite <- (map_map fst f), combine_map_l. reflexivity.
  Qed.

  (** Cross-validation. *)
  Variables e e' : Z.
  Hypothesis He : forall t, f (t + e)%Z = (f t + e')%Z.
  Variable c : cv.
  Hypothesis Hc : embargo_td c = e.

  Lemma ot_max_map l : ot_max (map (option_map f) l) = option_map f (ot_max l).
  Proof.
    unfold ot_max.
    assert (G : forall acc, fold_left (fun acc x => match acc, x with Some a, Some b => Some (Z.max a b) | Some a, None => Some a | None, x => x end) (map (option_map f) l) (option_map f acc) =
                option_map f (fold_left (fun acc x => match acc, x with Some a, Some b => Some (Z.max a b) | Some a, None => Some a | None, x => x end) l acc)).
    { induction l as [|x l IH]; intros acc; [reflexivity|]. cbn [map fold_left]. rewrite <- IH. f_equal. destruct acc, x; cbn; auto. now rewrite f_max. }
    apply (G None).
  Qed.
  Lemma get_map_f {A B} (g : A -> B) l i : get (map g l) i = on_ok g (get l i).
  Proof. unfold get. rewrite nth_error_map. now destruct (nth_error l i). Qed.
  Lemma purge_retimed n train fs fe : purge (retime_cv f e' c) n train fs fe = purge c n train fs fe.
  Proof.
    unfold purge. cbn [retime_cv pred_times eval_times]. rewrite get_map_f. destruct (get (pred_times c) fs) as [t0|]; [|reflexivity]. cbn [on_ok bind]. rewrite map_map.
    rewrite (map_ext (fun x => ot_ltb (option_map f x) (f t0)) (fun x => ot_ltb x t0)); [reflexivity|]. intros [x|]; [apply f_ltb|reflexivity].
  Qed.
  Lemma embargo_retimed n train test fe : embargo (retime_cv f e' c) n train test fe = embargo c n train test fe.
  Proof.
    unfold embargo. cbn [retime_cv pred_times eval_times embargo_td]. rewrite (mapM_on_ok (option_map f) (get (eval_times c))) by (intros; apply get_map_f).
    destruct (mapM _ (firstn fe test)) as [evs|]; [|reflexivity]. cbn [on_ok bind]. cbv zeta. rewrite ot_max_map.
    rewrite (filter_map_f f _ (fun p => ot_leb_r p (option_map (fun t => t + embargo_td c)%Z (ot_max evs)))).
    - now rewrite map_length.
    - intros x. destruct (ot_max evs) as [t|]; [|reflexivity]. cbn. rewrite <- He, <- Hc. apply f_leb.
  Qed.
  Theorem split_retimed n : split (retime_cv f e' c) n = split c n.
  Proof.
    unfold split. change (test_fold_bounds (retime_cv f e' c) n) with (test_fold_bounds c n). destruct (test_fold_bounds c n) as [sel|]; [|reflexivity]. cbn [bind].
    apply mapM_same. intros fbl _. destruct (compute_test_set n fbl) as [bounds test].
    assert (E : compute_train_set (retime_cv f e' c) n bounds test = compute_train_set c n bounds test); [|now rewrite E].
    unfold compute_train_set. generalize (setdiff1d (indices n) test). induction bounds as [|b r IH]; intros train; [reflexivity|]. cbn [foldM].
    rewrite purge_retimed. destruct (purge c n train (fst b) (snd b)) as [p|]; [|reflexivity]. cbn [bind]. rewrite embargo_retimed.
    destruct (embargo c n p test (snd b)); [|reflexivity]. cbn [bind]. apply IH.
  Qed.
  Theorem paths_retimed n shuf : cv_paths (retime_cv f e' c) n shuf = cv_paths c n shuf.
  Proof. unfold cv_paths. rewrite split_retimed. reflexivity. Qed.
End Order.

Section Injective.
  Variable f : Z -> Z.
  Hypothesis Hf : keeps_order f.
  Lemma loc_retimed (s : series Q) t : loc (map (retime_row f) s) (f t) = loc s t.
  Proof.
    unfold loc. rewrite (filter_map_f (retime_row f) _ (fun r => Z.eqb (fst r) t)) by (intros x; apply f_eqb, Hf).
    destruct (filter _ s) as [|r [|r' q]]; reflexivity.
  Qed.
  Theorem cusum_retimed h (X : series Q) : cusum_transform h (map (retime_row f) X) = on_ok (map f) (cusum_transform h X).
  Proof.
    unfold cusum_transform, cusum_loop. cbv zeta.
    assert (Ed : combine (map fst (map (retime_row f) X)) (diff (map snd (map (retime_row f) X))) = map (retime_row f) (combine (map fst X) (diff (map snd X)))).
    { rewrite !map_map. cbn [retime_row fst snd]. rewrite <- (map_map fst f). apply combine_map_l. }
    rewrite Ed. set (d := combine (map fst X) (diff (map snd X))).
    assert (Et : tl (map fst (map (retime_row f) X)) = map f (tl (map fst X))) by (destruct X; [reflexivity|]; cbn; now rewrite !map_map).
    rewrite Et. set (st0 := {| pos := Fin a0; neg := Fin a0; picked := [] |}).
    assert (G : forall l p n pk, foldM (fun st t => do v <- loc (map (retime_row f) d) t ;; Ok (cusum_step h st t v)) {| pos := p; neg := n; picked := map f pk |} (map f l) =
      on_ok (fun st => {| pos := pos st; neg := neg st; picked := map f (picked st) |}) (foldM (fun st t => do v <- loc d t ;; Ok (cusum_step h st t v)) {| pos := p; neg := n; picked := pk |} l)).
    { induction l as [|t l IH]; intros p n pk; [reflexivity|]. cbn [map foldM]. rewrite loc_retimed. destruct (loc d t) as [v|]; [|reflexivity]. cbn [bind].
      unfold cusum_step at 2 4. cbn [pos neg picked]. cbv zeta. destruct (eltb _ (eopp (Fin h))); [|destruct (eltb (Fin h) _)].
      - change [f t] with (map f [t]). rewrite <- map_app. apply IH.
      - change [f t] with (map f [t]). rewrite <- map_app. apply IH.
      - apply IH. }
    pose proof (G (tl (map fst X)) (Fin a0) (Fin a0) []) as G0. cbn [map] in G0. fold st0 in G0. rewrite G0. destruct (foldM _ _ (tl (map fst X))); reflexivity.
  Qed.
End Injective.
