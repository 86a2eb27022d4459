(** Proofs for the triple-barrier labelling: the barrier scan. *)
From Coq Require Import Permutation String.
From Verif Require Import PreludeFacts Series Boot_Model Boot_Proofs Boot_Proofs2 DailyVol_Model Weights_Model Label_Spec Label_Model
  Cusum_Proofs Weights_Proofs2 DailyVol_Proofs.
Local Open Scope nat_scope.

Lemma least_unique P t u : least P t -> least P u -> t = u.
Proof. intros [H1 H2] [H3 H4]. specialize (H2 u H3). specialize (H4 t H1). lia. Qed.
Lemma least_ext P Q t : (forall u, P u <-> Q u) -> least P t -> least Q t.
Proof. intros H [H1 H2]. split; [now apply H|]. intros u Hu. apply H2. now apply H. Qed.

Lemma list_minZ_in l : forall d, In (list_minZ d l) (d :: l).
Proof.
  unfold list_minZ. induction l as [|a l IH]; intros d; cbn; auto.
  destruct (IH (Z.min d a)) as [E|Hin]; [|auto]. rewrite <- E. destruct (Z.min_spec d a) as [[_ ->]|[_ ->]]; auto.
Qed.

Definition upd_of (l : list Z) : option Z := match l with [] => None | t :: ts => Some (list_minZ t ts) end.
Lemma upd_of_spec l : match upd_of l with Some v => least (fun t => In t l) v | None => forall t, ~ In t l end.
Proof.
  destruct l as [|t ts]; cbn [upd_of]; [auto|]. split; [apply list_minZ_in|].
  intros u Hu. apply list_minZ_spec. exists u. split; [auto|lia].
Qed.

Definition apply_upd (l : list Z) (i : nat) (u : option Z) : list Z :=
  match u with None => l | Some v => set_at l i v end.
Lemma apply_upd_length l i u : length (apply_upd l i u) = length l.
Proof. destruct u; cbn; auto. apply set_at_length. Qed.

Lemma fold_upd_length (upd : nat -> option Z) order : forall l, length (fold_left (fun l i => apply_upd l i (upd i)) order l) = length l.
Proof. induction order; intros l; cbn; auto. rewrite IHorder. apply apply_upd_length. Qed.

Lemma fold_upd_nth (upd : nat -> option Z) order : forall l i, i < length l ->
  (forall j, In j order -> upd j <> None -> j < length l) ->
  nth_error (fold_left (fun l i => apply_upd l i (upd i)) order l) i =
  match upd i with
  | Some v => if existsb (Nat.eqb i) order then Some v else nth_error l i
  | None => nth_error l i
  end.
Proof.
  induction order as [|j order IH]; intros l i Hi Hj; cbn [fold_left existsb].
  - now destruct (upd i).
  - rewrite IH.
    2:{ rewrite apply_upd_length; auto. }
    2:{ rewrite apply_upd_length. intros k Hk. apply Hj. now right. }
    destruct (Nat.eqb_spec i j) as [->|Hne]; cbn [orb].
    + destruct (upd j) as [v|] eqn:E; cbn; auto. destruct (existsb _ order); auto.
      rewrite set_at_nth by auto. now rewrite Nat.eqb_refl.
    + assert (nth_error (apply_upd l j (upd j)) i = nth_error l i) as ->; [|reflexivity].
      destruct (upd j) as [v|] eqn:E; cbn; auto. rewrite set_at_nth.
      * now destruct (Nat.eqb_spec i j).
      * apply Hj; [now left|congruence].
Qed.

Section Hits.
  Context {A : Type} `{Arith A}.
  Variables (expiry index : list Z) (close side sl pt : list (ext A)).
  Let n := length index.
  Hypothesis Lc : length close = n.
  Hypothesis Le : length expiry = n.
  Hypothesis Ls : length side = n.
  Hypothesis Lsl : length sl = n.
  Hypothesis Lpt : length pt = n.

  Definition touched_times (i : nat) (test : ext A -> ext A -> bool) (bar : list (ext A)) : list Z :=
    match nth_error index i, nth_error expiry i, nth_error close i, nth_error side i, nth_error bar i with
    | Some t_i, Some e_i, Some c_i, Some s_i, Some b_i =>
      let mask := map (fun t => (t_i <=? t) && (t <? e_i))%Z index in
      mask_sel (mask_sel index mask) (map (test b_i) (map (fun c => emul (esub (ediv c c_i) (Fin a1)) s_i) (mask_sel close mask)))
    | _, _, _, _, _ => []
    end.
  Definition sl_test (b r : ext A) := eltb r b.
  Definition pt_test (b r : ext A) := eltb b r.

  Lemma barrier_iter_eq h i : barrier_iter expiry index close side sl pt h i =
    {| h_pt := apply_upd (h_pt h) i (upd_of (touched_times i pt_test pt));
       h_sl := apply_upd (h_sl h) i (upd_of (touched_times i sl_test sl)) |}.
  Proof.
    unfold barrier_iter, touched_times.
    destruct (Nat.lt_ge_cases i n) as [Hi|Hi].
    - destruct (nth_some index i Hi) as [t Ht]. rewrite Ht.
      destruct (nth_some expiry i ltac:(lia)) as [e He]. rewrite He.
      destruct (nth_some close i ltac:(lia)) as [c Hc]. rewrite Hc.
      destruct (nth_some side i ltac:(lia)) as [s Hs]. rewrite Hs.
      destruct (nth_some sl i ltac:(lia)) as [b1 H1]. rewrite H1.
      destruct (nth_some pt i ltac:(lia)) as [b2 H2]. rewrite H2.
      unfold sl_test, pt_test. 
      match goal with |- {| h_pt := match ?x with _ => _ end; h_sl := match ?y with _ => _ end |} = _ => destruct x, y end; reflexivity.
    - destruct (nth_error index i) eqn:E; [assert (i < length index) by (apply nth_error_Some; congruence); unfold n in Hi; lia|].
      destruct h; reflexivity.
  Qed.

  Lemma in_double_mask (p : Z -> bool) (q : ext A -> bool) : forall (idx : list Z) (cl : list (ext A)) t, length cl = length idx ->
    (In t (mask_sel (mask_sel idx (map p idx)) (map q (mask_sel cl (map p idx)))) <->
     exists k c, nth_error idx k = Some t /\ nth_error cl k = Some c /\ p t = true /\ q c = true).
  Proof.
    induction idx as [|x idx IH]; intros [|c cl] t HL; cbn in HL; try lia.
    - cbn. split; [easy|]. intros (k & c & H1 & _). now destruct k.
    - cbn [map mask_sel]. specialize (IH cl t ltac:(lia)).
      assert (Hshift : forall P : nat -> ext A -> Prop, (exists k d, P k d) <-> ((exists d, P 0 d) \/ exists k d, P (S k) d)).
      { intros P. split.
        - intros (k & d & HP). destruct k; eauto.
        - intros [(d & HP)|(k & d & HP)]; eauto. }
      rewrite (Hshift (fun k d => nth_error (x :: idx) k = Some t /\ nth_error (c :: cl) k = Some d /\ p t = true /\ q d = true)).
      cbn [nth_error]. rewrite <- IH. clear IH.
      destruct (p x) eqn:Ep; cbn [mask_sel map].
      + destruct (q c) eqn:Eq; cbn [In].
        * split.
          -- intros [->|Hin]; [left; exists c; auto|auto].
          -- intros [(d & [= ->] & _)|Hin]; auto.
        * split; auto. intros [(d & [= ->] & [= ->] & _ & H1)|Hin]; auto. congruence.
      + split; auto. intros [(d & [= ->] & [= ->] & H1 & _)|Hin]; auto. congruence.
  Qed.

  Lemma touched_times_in i test bar e s b t : length bar = n -> nth_error expiry i = Some e -> nth_error side i = Some s ->
    nth_error bar i = Some b -> (In t (touched_times i test bar) <-> touch index close i e s (test b) t).
  Proof.
    intros Lb He Hs Hb.
    assert (Hi : i < n) by (rewrite <- Le; apply nth_error_Some; congruence).
    destruct (nth_some index i Hi) as [ti Ht]. destruct (nth_some close i ltac:(lia)) as [c Hc].
    unfold touched_times. rewrite Ht, He, Hc, Hs, Hb. rewrite map_map.
    rewrite (in_double_mask (fun t => (ti <=? t) && (t <? e))%Z (fun x => test b (emul (esub (ediv x c) (Fin a1)) s))) by lia.
    unfold touch. split.
    - intros (k & c' & H1 & H2 & H3 & H4). exists ti, c, k, c'. repeat split; auto; lia.
    - intros (t0 & c0 & k & c' & E1 & E2 & H1 & H2 & H3 & H4). rewrite Ht in E1. injection E1 as <-. rewrite Hc in E2. injection E2 as <-.
      exists k, c'. repeat split; auto. lia.
  Qed.

  Lemma hits_sl_eq order h : h_sl (fold_left (barrier_iter expiry index close side sl pt) order h) =
    fold_left (fun l i => apply_upd l i (upd_of (touched_times i sl_test sl))) order (h_sl h).
  Proof. revert h. induction order as [|i order IH]; intros h; cbn; auto. rewrite IH, barrier_iter_eq. reflexivity. Qed.
  Lemma hits_pt_eq order h : h_pt (fold_left (barrier_iter expiry index close side sl pt) order h) =
    fold_left (fun l i => apply_upd l i (upd_of (touched_times i pt_test pt))) order (h_pt h).
  Proof. revert h. induction order as [|i order IH]; intros h; cbn; auto. rewrite IH, barrier_iter_eq. reflexivity. Qed.

  Lemma touched_none i test bar : n <= i -> touched_times i test bar = [].
  Proof.
    intros Hi. unfold touched_times. destruct (nth_error index i) eqn:E; auto.
    assert (i < length index) by (apply nth_error_Some; congruence). unfold n in Hi. lia.
  Qed.

  Lemma hits_nth_gen test bar order i : i < n -> In i order ->
    nth_error (fold_left (fun l j => apply_upd l j (upd_of (touched_times j test bar))) order (repeat 0%Z n)) i =
    Some (match upd_of (touched_times i test bar) with Some v => v | None => 0%Z end).
  Proof.
    intros Hi Hin. rewrite fold_upd_nth.
    - assert (existsb (Nat.eqb i) order = true) as -> by (apply existsb_exists; exists i; split; auto; apply Nat.eqb_refl).
      destruct (upd_of _); auto. apply nth_error_repeat. auto.
    - now rewrite repeat_length.
    - intros j Hj Hne. rewrite repeat_length. destruct (Nat.lt_ge_cases j n); auto. rewrite touched_none in Hne by auto. now cbn in Hne.
  Qed.

  Lemma touched_least i test bar e s b : length bar = n -> nth_error expiry i = Some e -> nth_error side i = Some s ->
    nth_error bar i = Some b ->
    match upd_of (touched_times i test bar) with
    | Some v => least (touch index close i e s (test b)) v
    | None => forall t, ~ touch index close i e s (test b) t
    end.
  Proof.
    intros Lb He Hs Hb. pose proof (upd_of_spec (touched_times i test bar)) as Hu.
    destruct (upd_of _) as [v|].
    - eapply least_ext; [|exact Hu]. intros u. now apply touched_times_in.
    - intros t Ht. eapply Hu. eapply touched_times_in; eauto.
  Qed.

  Lemma c25 order i e s b1 b2 : Permutation order (seq 0 n) ->
    nth_error expiry i = Some e -> nth_error side i = Some s -> nth_error sl i = Some b1 -> nth_error pt i = Some b2 ->
    let h := get_horizontal_barriers_hit order expiry index close side sl pt in
    (exists v, nth_error (h_sl h) i = Some v /\
       (least (touch index close i e s (fun r => eltb r b1)) v \/
        ((forall t, ~ touch index close i e s (fun r => eltb r b1) t) /\ v = 0%Z))) /\
    (exists v, nth_error (h_pt h) i = Some v /\
       (least (touch index close i e s (fun r => eltb b2 r)) v \/
        ((forall t, ~ touch index close i e s (fun r => eltb b2 r) t) /\ v = 0%Z))).
  Proof.
    intros HP He Hs H1 H2 h.
    assert (Hi : i < n) by (rewrite <- Le; apply nth_error_Some; congruence).
    assert (Hin : In i order) by (eapply Permutation_in; [symmetry; exact HP|]; apply in_seq; lia).
    unfold h, get_horizontal_barriers_hit. rewrite hits_sl_eq, hits_pt_eq. cbn [h_sl h_pt]. rewrite Le.
    rewrite !hits_nth_gen by auto. split.
    - pose proof (touched_least i sl_test sl e s b1 Lsl He Hs H1) as HL. destruct (upd_of _) as [v|]; eexists; (split; [reflexivity|]); auto.
    - pose proof (touched_least i pt_test pt e s b2 Lpt He Hs H2) as HL. destruct (upd_of _) as [v|]; eexists; (split; [reflexivity|]); auto.
  Qed.

  Lemma hits_order_nth test bar order order' : Permutation order order' ->
    fold_left (fun l j => apply_upd l j (upd_of (touched_times j test bar))) order (repeat 0%Z n) =
    fold_left (fun l j => apply_upd l j (upd_of (touched_times j test bar))) order' (repeat 0%Z n).
  Proof.
    intros HP. apply list_eq_nth; [now rewrite !fold_upd_length|]. intros k x y Hx Hy.
    assert (Hk : k < n).
    { pose proof (proj1 (nth_error_Some _ k) ltac:(rewrite Hx; discriminate)) as Hk. rewrite fold_upd_length, repeat_length in Hk. exact Hk. }
    assert (Hb : forall o j, In j o -> upd_of (touched_times j test bar) <> None -> j < length (repeat 0%Z n)).
    { intros o j Hj Hne. rewrite repeat_length. destruct (Nat.lt_ge_cases j n); auto. rewrite touched_none in Hne by auto. now cbn in Hne. }
    assert (Hk' : k < length (repeat 0%Z n)) by now rewrite repeat_length.
    rewrite (fold_upd_nth _ order _ k Hk' (Hb order)) in Hx. rewrite (fold_upd_nth _ order' _ k Hk' (Hb order')) in Hy.
    assert (existsb (Nat.eqb k) order = existsb (Nat.eqb k) order') as E.
    { apply eq_true_iff_eq. rewrite !existsb_exists. split; intros (z & Hz & Ez); exists z; split; auto.
      - eapply Permutation_in; eauto.
      - eapply Permutation_in; [symmetry|]; eauto. }
    rewrite E in Hx. congruence.
  Qed.

  Lemma c26 order order' : Permutation order order' ->
    get_horizontal_barriers_hit order expiry index close side sl pt =
    get_horizontal_barriers_hit order' expiry index close side sl pt.
  Proof.
    intros HP. unfold get_horizontal_barriers_hit. rewrite Le.
    set (h0 := {| h_pt := repeat 0%Z n; h_sl := repeat 0%Z n |}).
    assert (forall a b : hits, h_pt a = h_pt b -> h_sl a = h_sl b -> a = b) as Heq by (intros [] []; cbn; intros; subst; auto).
    apply Heq.
    - rewrite !hits_pt_eq. now apply hits_order_nth.
    - rewrite !hits_sl_eq. now apply hits_order_nth.
  Qed.
End Hits.
