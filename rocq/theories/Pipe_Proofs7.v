(** The trader. *)
From Coq Require Import String QArith.
From Verif Require Import Prelude PreludeFacts Num Pipe_Model Pipe_Spec Pipe_Proofs1 Pipe_Proofs2 Pipe_Proofs3 Pipe_Proofs4 Pipe_Proofs5.
Open Scope nat_scope.

Section Trader.
  Context {A : Type} {HA : Arith A}.
  Notation cell := (ext A).

  Theorem closing_never_asked (p : pipeline A) X : determine_positions_to_close p X = Ok None.
  Proof. unfold determine_positions_to_close. destruct (closing_positions_model p); reflexivity. Qed.

  (** * Columns *)
  Lemma column_position_lt n : forall l k, column_position n l = Ok k -> nth_error l k = Some n /\ k < length l.
  Proof.
    induction l as [|x l IH]; cbn; [discriminate|]. destruct (String.eqb_spec x n) as [->|Hne]; intros k H; [injection H as <-; cbn; split; [reflexivity|lia]|].
    destruct (column_position n l) as [j|]; [|discriminate]. injection H as <-. destruct (IH j eq_refl) as (H1 & H2). cbn. split; [exact H1|lia].
  Qed.
  Lemma column_position_app n m : forall l, n <> m -> column_position n (l ++ [m]) = column_position n l.
  Proof.
    induction l as [|x l IH]; intros Hne; cbn; [destruct (String.eqb_spec m n); [congruence|reflexivity]|]. destruct (String.eqb x n); [reflexivity|]. now rewrite IH.
  Qed.
  Lemma column_position_new n : forall l e, column_position n l = Err e -> column_position n (l ++ [n]) = Ok (length l).
  Proof.
    induction l as [|x l IH]; intros e; cbn; [now rewrite String.eqb_refl|]. destruct (String.eqb x n); [discriminate|]. destruct (column_position n l) as [|e']; [discriminate|]. now rewrite (IH e' eq_refl).
  Qed.

  Lemma nth_error_put {X} (r : list X) k v j : k < length r -> nth_error (firstn k r ++ v :: skipn (S k) r) j = if Nat.eqb j k then Some v else nth_error r j.
  Proof.
    revert k j. induction r as [|x r IH]; intros k j Hk; cbn in Hk; [lia|]. destruct k as [|k]; [destruct j; reflexivity|]. destruct j as [|j]; [reflexivity|]. cbn. apply IH. lia.
  Qed.
  Lemma put_length {X} (r : list X) k v : k < length r -> length (firstn k r ++ v :: skipn (S k) r) = length r.
  Proof. intros H. rewrite app_length. cbn [length]. rewrite firstn_length, skipn_length. lia. Qed.
  Lemma put_same {X} (r : list X) k v : nth_error r k = Some v -> firstn k r ++ v :: skipn (S k) r = r.
  Proof. revert k. induction r as [|x r IH]; intros [|k] H; cbn in *; try discriminate; [congruence|]. f_equal. now apply IH. Qed.

  Lemma set_column_index (f : frame A) n v : index (set_column f n v) = index f.
  Proof. unfold set_column, index. destruct (column_position n (columns f)); cbn [rows]; rewrite map_map; reflexivity. Qed.
  Lemma set_column_proper (f : frame A) n v : proper f -> proper (set_column f n v).
  Proof.
    unfold proper, set_column. intros H. destruct (column_position n (columns f)) as [k|] eqn:E; cbn [rows columns]; apply Forall_forall; intros r Hr; apply in_map_iff in Hr; destruct Hr as (r0 & <- & Hr0);
      rewrite Forall_forall in H; specialize (H r0 Hr0); cbn [snd].
    - apply column_position_lt in E. rewrite put_length; [exact H|]. rewrite H. tauto.
    - rewrite !app_length, H. reflexivity.
  Qed.

  Lemma mapM_map {X Y W} (g : X -> Y) (f : Y -> result W) l : mapM f (map g l) = mapM (fun x => f (g x)) l.
  Proof. induction l as [|x l IH]; cbn; [reflexivity|]. now rewrite IH. Qed.
  Lemma mapM_ext_In {X Y} (f g : X -> result Y) l : (forall x, In x l -> f x = g x) -> mapM f l = mapM g l.
  Proof. induction l as [|x l IH]; intros H; cbn; [reflexivity|]. rewrite (H x) by (now left). rewrite IH by (intros; apply H; now right). reflexivity. Qed.

  Lemma set_column_other (f : frame A) n v m : proper f -> m <> n -> column (set_column f n v) m = column f m.
  Proof.
    intros Hp Hne. unfold proper in Hp. rewrite Forall_forall in Hp. unfold column, set_column. destruct (column_position n (columns f)) as [k|] eqn:E; cbn [rows columns].
    - destruct (column_position m (columns f)) as [j|] eqn:Ej; [|reflexivity]. cbn [bind]. rewrite mapM_map. apply mapM_ext_In. intros r Hr. cbn [fst snd].
      apply column_position_lt in E, Ej. assert (j <> k) by (intros ->; destruct E, Ej; congruence). unfold get. rewrite nth_error_put by (rewrite (Hp r Hr); tauto).
      destruct (Nat.eqb_spec j k); [contradiction|reflexivity].
    - rewrite column_position_app by exact Hne. destruct (column_position m (columns f)) as [j|] eqn:Ej; [|reflexivity]. cbn [bind]. rewrite mapM_map. apply mapM_ext_In. intros r Hr. cbn [fst snd].
      apply column_position_lt in Ej. unfold get. rewrite nth_error_app1 by (rewrite (Hp r Hr); tauto). reflexivity.
  Qed.
  Lemma set_column_same (f : frame A) n v : proper f -> column (set_column f n v) n = Ok (map (fun t => (t, v t)) (index f)).
  Proof.
    intros Hp. unfold proper in Hp. rewrite Forall_forall in Hp. unfold column, set_column. destruct (column_position n (columns f)) as [k|e] eqn:E; cbn [rows columns].
    - rewrite E. cbn [bind]. rewrite mapM_map. unfold index. rewrite map_map. apply mapM_ok_map. intros r Hr. cbn [fst snd]. apply column_position_lt in E. unfold get.
      rewrite nth_error_put by (rewrite (Hp r Hr); tauto). now rewrite Nat.eqb_refl.
    - rewrite (column_position_new n _ e E). cbn [bind]. rewrite mapM_map. unfold index. rewrite map_map. apply mapM_ok_map. intros r Hr. cbn [fst snd]. unfold get.
      rewrite <- (Hp r Hr), nth_error_app2, Nat.sub_diag by lia. reflexivity.
  Qed.
  Lemma column_get (f : frame A) n v : column f n = Ok (map (fun t => (t, v t)) (index f)) -> exists k, column_position n (columns f) = Ok k /\ forall r, In r (rows f) -> nth_error (snd r) k = Some (v (fst r)).
  Proof.
    unfold column. destruct (column_position n (columns f)) as [k|]; [|discriminate]. cbn [bind]. intros H. exists k. split; [reflexivity|]. intros r Hr.
    unfold index in H. rewrite map_map in H. revert H Hr. induction (rows f) as [|r0 l IH]; intros H Hr; [destruct Hr|]. cbn in H.
    destruct (get (snd r0) k) as [x|] eqn:Eg; [|discriminate]. cbn [bind] in H. destruct (mapM _ l) as [ys|] eqn:El; [|discriminate]. cbn [bind] in H. injection H as Hx Hys.
    destruct Hr as [<-|Hr]; [apply get_Ok in Eg; congruence|]. apply IH; [congruence|exact Hr].
  Qed.
  Lemma set_column_again (f : frame A) n v : column f n = Ok (map (fun t => (t, v t)) (index f)) -> set_column f n v = f.
  Proof.
    intros H. apply column_get in H. destruct H as (k & E & Hr). unfold set_column. rewrite E. destruct f as [cs rs]. cbn [columns rows] in *. f_equal.
    transitivity (map (fun r => r) rs); [|apply map_id]. apply map_ext_in. intros [t r] Hin. cbn [fst snd]. f_equal. apply put_same. exact (Hr _ Hin).
  Qed.
  Lemma select3 (f : frame A) n1 n2 n3 v1 v2 v3 : column f n1 = Ok (map (fun t => (t, v1 t)) (index f)) -> column f n2 = Ok (map (fun t => (t, v2 t)) (index f)) ->
    column f n3 = Ok (map (fun t => (t, v3 t)) (index f)) -> select f [n1; n2; n3] = Ok {| columns := [n1; n2; n3]; rows := map (fun t => (t, [v1 t; v2 t; v3 t])) (index f) |}.
  Proof.
    intros H1 H2 H3. apply column_get in H1, H2, H3. destruct H1 as (k1 & E1 & R1), H2 as (k2 & E2 & R2), H3 as (k3 & E3 & R3). unfold select. cbn [mapM]. rewrite E1, E2, E3. cbn [bind].
    rewrite (mapM_ok_map _ (fun r => (fst r, [v1 (fst r); v2 (fst r); v3 (fst r)]))).
    - cbn [bind]. unfold index. now rewrite map_map.
    - intros r Hr. cbn [mapM]. unfold get. rewrite (R1 r Hr), (R2 r Hr), (R3 r Hr). reflexivity.
  Qed.

  (** * Strategy bars *)
  Definition put_bars (f : frame A) (sl pt num : cell) (vol : Z -> cell) : frame A :=
    set_column (set_column (set_column f "stop_loss" (fun t => emul (vol t) sl)) "profit_taking" (fun t => emul (vol t) pt)) "num_expiration_bars" (fun _ => num).
  Lemma put_bars_spec f sl pt num vol : proper f -> let f' := put_bars f sl pt num vol in
    proper f' /\ same_except_bars f f' /\ column f' "stop_loss" = Ok (map (fun t => (t, emul (vol t) sl)) (index f)) /\
    column f' "profit_taking" = Ok (map (fun t => (t, emul (vol t) pt)) (index f)) /\ column f' "num_expiration_bars" = Ok (map (fun t => (t, num)) (index f)).
  Proof.
    intros Hp. cbn zeta. unfold put_bars. set (f1 := set_column f "stop_loss" _). set (f2 := set_column f1 "profit_taking" _).
    assert (P1 : proper f1) by (now apply set_column_proper). assert (P2 : proper f2) by (now apply set_column_proper).
    assert (I1 : index f1 = index f) by apply set_column_index. assert (I2 : index f2 = index f) by (unfold f2; now rewrite set_column_index).
    split; [now apply set_column_proper|]. split; [split|split; [|split]].
    - now rewrite set_column_index.
    - intros name Hn. cbn in Hn. rewrite set_column_other by (try assumption; intros ->; tauto). unfold f2. rewrite set_column_other by (try assumption; intros ->; tauto).
      unfold f1. rewrite set_column_other by (try assumption; intros ->; tauto). reflexivity.
    - rewrite set_column_other by (try assumption; discriminate). unfold f2. rewrite set_column_other by (try assumption; discriminate). now apply set_column_same.
    - rewrite set_column_other by (try assumption; discriminate). unfold f2. rewrite set_column_same by assumption. now rewrite I1.
    - rewrite set_column_same by assumption. now rewrite I2.
  Qed.
  Lemma put_bars_again f sl pt num vol : proper f -> put_bars (put_bars f sl pt num vol) sl pt num vol = put_bars f sl pt num vol.
  Proof.
    intros Hp. destruct (put_bars_spec f sl pt num vol Hp) as (_ & (I & _) & C1 & C2 & C3). set (g := put_bars f sl pt num vol) in *. rewrite I in C1, C2, C3. unfold put_bars.
    rewrite (set_column_again g "stop_loss" _ C1), (set_column_again g "profit_taking" _ C2). exact (set_column_again g "num_expiration_bars" (fun _ => num) C3).
  Qed.

  Lemma check_X_dict_Ok (X : dict (frame A)) u : check_X_dict X = Ok u <-> Forall (fun kf => NoDup (index (snd kf))) X.
  Proof.
    unfold check_X_dict. destruct u. split.
    - intros H. destruct (mapM _ X) as [l|] eqn:E; [|discriminate]. apply mapM_Ok in E. clear H. induction E as [|kf y X l H E IH]; constructor; [|exact IH].
      apply raise_if_Ok in H. rewrite negb_false_iff in H. now apply unique_index_spec.
    - intros H. rewrite (mapM_ok_map _ (fun _ => tt)); [reflexivity|]. intros kf Hk. rewrite Forall_forall in H. rewrite (proj2 (unique_index_spec _) (H kf Hk)). reflexivity.
  Qed.

  Theorem bars_ok (tr : trader A) h X h' bars : Forall proper h -> create_strategy_bars tr h X = Ok (h', bars) ->
    exists a f f' vol sl pt, lookup X (align_on (strategy tr)) = Ok a /\ nth_error h a = Some f /\ stop_loss_factor tr = Some sl /\ profit_taking_factor tr = Some pt /\
      volatility tr f vol /\ columns bars = ["stop_loss"; "profit_taking"; "num_expiration_bars"]%string /\
      rows bars = map (fun t => (t, [emul (vol t) sl; emul (vol t) pt; num_expiration_bars tr])) (index f) /\
      nth_error h' a = Some f' /\ same_except_bars f f' /\ f' = put_bars f sl pt (num_expiration_bars tr) vol /\
      (forall n, In n (columns bars) -> is_ok (column f' n) = true) /\ length h' = length h /\ (forall b, b <> a -> nth_error h' b = nth_error h b).
  Proof.
    intros Hh H. unfold create_strategy_bars in H. destruct (deref h X) as [Xf|] eqn:Ed; [|discriminate]. cbn [bind] in H. destruct (check_X_dict Xf) as [u|] eqn:Ex; [|discriminate]. cbn [bind] in H.
    destruct (lookup X (align_on (strategy tr))) as [a|] eqn:Ea; [|discriminate]. cbn [bind] in H. destruct (get h a) as [f|] eqn:Ef; [|discriminate]. cbn [bind] in H.
    match type of H with bind ?c _ = _ => destruct c as [vol|] eqn:Ev; [|discriminate] end. cbn [bind] in H.
    destruct (stop_loss_factor tr) as [sl|]; [|discriminate]. cbn [bind] in H. destruct (profit_taking_factor tr) as [pt|]; [|discriminate]. cbn [bind] in H.
    fold (put_bars f sl pt (num_expiration_bars tr) vol) in H. apply get_Ok in Ef.
    assert (Hp : proper f) by (rewrite Forall_forall in Hh; apply Hh; exact (nth_error_In _ _ Ef)).
    destruct (put_bars_spec f sl pt (num_expiration_bars tr) vol Hp) as (P' & S' & C1 & C2 & C3). set (f' := put_bars f sl pt (num_expiration_bars tr) vol) in *.
    pose proof S' as (I' & _). rewrite I' in C1, C2, C3.
    unfold bar_columns in H. rewrite (select3 f' _ _ _ _ _ (fun _ => num_expiration_bars tr) C1 C2 C3) in H. cbn [bind] in H. assert (Hh' : h' = firstn a h ++ f' :: skipn (S a) h) by (injection H as H1 H2; symmetry; exact H1).
    assert (Hb' : bars = {| columns := ["stop_loss"; "profit_taking"; "num_expiration_bars"]%string; rows := map (fun t => (t, [emul (vol t) sl; emul (vol t) pt; num_expiration_bars tr])) (index f') |}) by (injection H as H1 H2; symmetry; exact H2).
    clear H. rewrite Hh', Hb'. clear Hh' Hb'. assert (La : a < length h) by (apply nth_error_Some; congruence).
    exists a, f, f', vol, sl, pt. split; [reflexivity|]. split; [exact Ef|]. split; [reflexivity|]. split; [reflexivity|]. split.
    { unfold volatility. destruct (volatility_adjusted tr).
      - destruct (column f "close") as [close|] eqn:Ec; [|discriminate]. cbn [bind] in Ev. destruct (daily_vol tr (map fst close) (map snd close)) as [v|] eqn:Edv; [|discriminate]. injection Ev as <-. exists close, v. auto.
      - injection Ev as <-. reflexivity. }
    split; [reflexivity|]. split; [cbn [rows]; now rewrite I'|]. split; [rewrite nth_error_put, Nat.eqb_refl by exact La; reflexivity|]. split; [exact S'|]. split; [reflexivity|]. split.
    { cbn [columns]. intros n [<-|[<-|[<-|[]]]]; [now rewrite C1|now rewrite C2|now rewrite C3]. }
    split; [now apply put_length|]. intros b Hb. rewrite nth_error_put by exact La. destruct (Nat.eqb_spec b a); [contradiction|reflexivity].
  Qed.

  Theorem bars_need_factors (tr : trader A) h X : stop_loss_factor tr = None \/ profit_taking_factor tr = None -> is_ok (create_strategy_bars tr h X) = false /\ is_ok (create_position tr h X) = false.
  Proof.
    intros Hn. assert (Hb : is_ok (create_strategy_bars tr h X) = false).
    { unfold create_strategy_bars. destruct (deref h X) as [Xf|]; [|reflexivity]. cbn [bind]. destruct (check_X_dict Xf) as [u|]; [|reflexivity]. cbn [bind]. destruct (lookup X _) as [a|]; [|reflexivity]. cbn [bind].
      destruct (get h a) as [f|]; [|reflexivity]. cbn [bind]. match goal with |- is_ok (bind ?c _) = _ => destruct c end; [|reflexivity]. cbn [bind].
      destruct (stop_loss_factor tr); [|reflexivity]. cbn [bind]. destruct (profit_taking_factor tr); [|reflexivity]. destruct Hn; discriminate. }
    split; [exact Hb|]. unfold create_position. destruct (deref h X); [|reflexivity]. cbn [bind]. destruct (create_signal tr _); [|reflexivity]. cbn [bind]. destruct (create_strategy_bars tr h X); [discriminate|reflexivity].
  Qed.
  Theorem bars_type_error (tr : trader A) h X Xf a f : stop_loss_factor tr = None \/ profit_taking_factor tr = None -> deref h X = Ok Xf -> Forall (fun kf => NoDup (index (snd kf))) Xf ->
    lookup X (align_on (strategy tr)) = Ok a -> nth_error h a = Some f -> (exists vol, volatility tr f vol) -> create_strategy_bars tr h X = Err TypeError.
  Proof.
    intros Hn Ed Hu Ea Ef (vol & Hv). unfold create_strategy_bars. rewrite Ed. cbn [bind]. rewrite (proj2 (check_X_dict_Ok Xf tt) Hu). cbn [bind]. rewrite Ea. cbn [bind]. rewrite (proj2 (get_Ok h a f) Ef). cbn [bind].
    unfold volatility in Hv. assert (Hok : forall (k : (Z -> cell) -> result (list (frame A) * frame A)), (forall v, k v = Err TypeError) ->
      (do vol <- (if volatility_adjusted tr then do close <- column f "close" ;; do v <- daily_vol tr (map fst close) (map snd close) ;; Ok (series_at v) else Ok (fun _ => Fin a1)) ;; k vol) = Err TypeError).
    { intros k Hk. destruct (volatility_adjusted tr); [|apply Hk]. destruct Hv as (close & v & -> & Hd & _). cbn [bind]. rewrite Hd. apply Hk. }
    apply Hok. intros v. destruct (stop_loss_factor tr); [|reflexivity]. cbn [bind]. destruct (profit_taking_factor tr); [|reflexivity]. destruct Hn; discriminate.
  Qed.

  (** * The signal flag *)
  Lemma join_series_shape (a b : list (Z * cell)) df : join_series a b = Ok df -> columns df = ["side"; "size"]%string /\ forall t row, In (t, row) (rows df) -> exists x y, row = [x; y].
  Proof.
    unfold join_series. set (fa := {| columns := ["side"%string]; rows := map (fun e => (fst e, [snd e])) a |}). set (fb := {| columns := ["size"%string]; rows := map (fun e => (fst e, [snd e])) b |}). intros H.
    assert (Sa : forall t, exists x, row_at fa t = [x]).
    { intros t. unfold row_at. destruct (filter _ (rows fa)) as [|r l] eqn:E; [now exists NaN|]. assert (Hr : In r (rows fa)) by (assert (Hi : In r (r :: l)) by (now left); rewrite <- E in Hi; apply filter_In in Hi; tauto).
      cbn [fa rows] in Hr. apply in_map_iff in Hr. destruct Hr as (e & <- & _). cbn. now exists (snd e). }
    assert (Sb : forall t, exists x, row_at fb t = [x]).
    { intros t. unfold row_at. destruct (filter _ (rows fb)) as [|r l] eqn:E; [now exists NaN|]. assert (Hr : In r (rows fb)) by (assert (Hi : In r (r :: l)) by (now left); rewrite <- E in Hi; apply filter_In in Hi; tauto).
      cbn [fb rows] in Hr. apply in_map_iff in Hr. destruct Hr as (e & <- & _). cbn. now exists (snd e). }
    unfold concat2 in H. destruct (same_index (index fa) (index fb)).
    - injection H as <-. split; [reflexivity|]. cbn [rows]. intros t row Hr. unfold beside in Hr. apply in_map_iff in Hr. destruct Hr as ([r1 r2] & Hx & Hin). cbn in Hx. injection Hx as _ <-.
      pose proof (in_combine_l _ _ _ _ Hin) as H1. pose proof (in_combine_r _ _ _ _ Hin) as H2. cbn [fa fb rows] in H1, H2. apply in_map_iff in H1, H2. destruct H1 as (e1 & <- & _), H2 as (e2 & <- & _). cbn. now exists (snd e1), (snd e2).
    - destruct (_ && _); [|discriminate]. injection H as <-. split; [reflexivity|]. cbn [rows]. intros t row Hr. apply in_map_iff in Hr. destruct Hr as (u & Hx & _). injection Hx as _ <-.
      destruct (Sa u) as (x & ->), (Sb u) as (y & ->). now exists x, y.
  Qed.
  Lemma side_and_size_shape (p : pipeline A) X df : get_side_and_size p X = Ok df -> columns df = ["side"; "size"]%string /\ forall t row, In (t, row) (rows df) -> exists x y, row = [x; y].
  Proof.
    unfold get_side_and_size. intros H. destruct (predict_all p X) as [preds|]; [|discriminate]. cbn [bind] in H. destruct (predict_proba_all p X) as [probs|]; [|discriminate]. cbn [bind] in H.
    destruct (need (primary_model p)) as [m|]; [|discriminate]. cbn [bind] in H.
    match type of H with (let (_, _) := ?c in _) = _ => destruct c as [prob cls] end.
    match type of H with bind ?c _ = _ => destruct c as [sizes|]; [|discriminate] end. cbn [bind] in H. destruct (join_series (fst preds) sizes) as [j|] eqn:Ej; [|discriminate]. injection H as <-.
    apply join_series_shape in Ej. destruct Ej as (H1 & H2). split; [exact H1|]. intros t row Hr. apply filter_In in Hr. exact (H2 t row (proj1 Hr)).
  Qed.

  Theorem signal_flag (tr : trader A) X signal valid : create_signal tr X = Ok (signal, valid) ->
    get_side_and_size (strategy tr) X = Ok signal /\ columns signal = ["side"; "size"]%string /\ (forall t row, In (t, row) (rows signal) -> exists side size, row = [side; size]) /\
    (valid = true <-> forall t side size, In (t, [side; size]) (rows signal) ->
       eleb (Fin (aopp a1)) side = true /\ eleb side (Fin a1) = true /\ eleb (Fin a0) size = true /\ eleb size (Fin a1) = true).
  Proof.
    unfold create_signal. intros H. destruct (check_X_dict X); [|discriminate]. cbn [bind] in H. destruct (get_side_and_size (strategy tr) X) as [s|] eqn:Es; [|discriminate]. cbn [bind] in H.
    destruct (signal_valid s) as [v|] eqn:Ev; [|discriminate]. injection H as <- <-. destruct (side_and_size_shape _ _ _ Es) as (C & R). split; [reflexivity|]. split; [exact C|]. split; [exact R|].
    unfold signal_valid, column in Ev. rewrite C in Ev. cbn in Ev.
    assert (E1 : mapM (fun r => do x <- get (snd r) 1 ;; Ok (fst r, x)) (rows s) = Ok (map (fun r => (fst r, nth 1 (snd r) NaN)) (rows s))).
    { apply mapM_ok_map. intros [t row] Hr. destruct (R t row Hr) as (x & y & ->). reflexivity. }
    assert (E0 : mapM (fun r => do x <- get (snd r) 0 ;; Ok (fst r, x)) (rows s) = Ok (map (fun r => (fst r, nth 0 (snd r) NaN)) (rows s))).
    { apply mapM_ok_map. intros [t row] Hr. destruct (R t row Hr) as (x & y & ->). reflexivity. }
    rewrite E1, E0 in Ev. cbn [bind] in Ev. injection Ev as <-. rewrite andb_true_iff, !forallb_forall. split.
    - intros (H1 & H0) t side size Hr. specialize (H1 _ (in_map (fun r => (fst r, nth 1 (snd r) NaN)) _ _ Hr)). specialize (H0 _ (in_map (fun r => (fst r, nth 0 (snd r) NaN)) _ _ Hr)). cbn [snd nth] in H1, H0.
      apply andb_true_iff in H1, H0. tauto.
    - intros H. split; intros e He; apply in_map_iff in He; destruct He as ([t row] & <- & Hr); destruct (R t row Hr) as (x & y & ->); cbn [snd nth]; apply andb_true_iff; specialize (H t x y Hr); tauto.
  Qed.
  Theorem signal_rejects_duplicates (tr : trader A) X kf : In kf X -> ~ NoDup (index (snd kf)) -> create_signal tr X = Err ValueError.
  Proof.
    intros Hin Hn. unfold create_signal. assert (E : check_X_dict X = Err ValueError); [|now rewrite E].
    unfold check_X_dict. induction X as [|k0 X IH]; [destruct Hin|]. cbn [mapM]. destruct (unique_index (index (snd k0))) eqn:Eu.
    - cbn [negb raise_if bind]. destruct Hin as [->|Hin]; [apply unique_index_spec in Eu; contradiction|]. specialize (IH Hin). destruct (mapM _ X); [discriminate|]. cbn in IH |- *. congruence.
    - reflexivity.
  Qed.

  (** * Positions *)
  Theorem position_ok (tr : trader A) h X h' pos valid : Forall proper h -> create_position tr h X = Ok (h', pos, valid) ->
    exists Xf signal bars, deref h X = Ok Xf /\ create_signal tr Xf = Ok (signal, valid) /\ create_strategy_bars tr h X = Ok (h', bars) /\
      columns pos = ["side"; "size"; "stop_loss"; "profit_taking"; "num_expiration_bars"]%string /\ NoDup (index pos) /\
      (forall t, In t (index pos) <-> In t (index signal) \/ In t (index bars)) /\
      forall t row, In (t, row) (rows pos) -> exists s b, row = s ++ b /\ (In (t, s) (rows signal) \/ (~ In t (index signal) /\ s = [NaN; NaN])) /\ (In (t, b) (rows bars) \/ (~ In t (index bars) /\ b = [NaN; NaN; NaN])).
  Proof.
    intros Hh H. unfold create_position in H. destruct (deref h X) as [Xf|] eqn:Ed; [|discriminate]. cbn [bind] in H. destruct (create_signal tr Xf) as [[signal v]|] eqn:Es; [|discriminate]. cbn [bind] in H.
    destruct (create_strategy_bars tr h X) as [[h1 bars]|] eqn:Eb; [|discriminate]. cbn [bind fst snd] in H. destruct (concat2 signal bars) as [g|] eqn:Ec; [|discriminate]. cbn [bind] in H.
    destruct (check_missing_columns _ _) as [u1|]; [|discriminate]. cbn [bind] in H. destruct (raise_if _ _) as [u2|]; [|discriminate]. cbn [bind] in H. injection H as <- <- <-.
    exists Xf, signal, bars. split; [reflexivity|]. split; [exact Es|]. split; [reflexivity|].
    destruct (signal_flag tr Xf signal v Es) as (_ & Cs & _). destruct (bars_ok tr h X h1 bars Hh Eb) as (a & f & f' & vol & sl & pt & Ea & Ef & _ & _ & _ & Cb & Rb & _).
    assert (Nb : NoDup (index bars)).
    { unfold index. rewrite Rb, map_map. cbn [fst]. rewrite map_id. unfold create_signal in Es. destruct (check_X_dict Xf) as [u|] eqn:Ex; [|discriminate]. apply check_X_dict_Ok in Ex.
      rewrite Forall_forall in Ex. assert (Hin : exists k, In (k, f) Xf); [|destruct Hin as (k & Hk); exact (Ex _ Hk)].
      clear -Ed Ea Ef. unfold deref in Ed. revert Xf Ed. induction X as [|[k b] X IH]; intros Xf Ed; [discriminate|]. cbn in Ed, Ea.
      destruct (get h b) as [fb|] eqn:Eg; [|discriminate]. cbn [bind] in Ed. destruct (mapM _ X) as [r|]; [|discriminate]. injection Ed as <-.
      destruct (String.eqb k _); [injection Ea as ->; apply get_Ok in Eg; exists k; left; congruence|]. destruct (IH Ea r eq_refl) as (k' & Hk'). exists k'. now right. }
    assert (Ns : NoDup (index signal)).
    { unfold concat2 in Ec. destruct (same_index (index signal) (index bars)) eqn:E; [apply same_index_spec in E; now rewrite E|]. destruct (unique_index (index signal)) eqn:Eu; [now apply unique_index_spec|discriminate]. }
    destruct (concat2_frame signal bars Ns Nb) as (g' & Eg & Cg & _ & (N & T & R)). rewrite Ec in Eg. injection Eg as <-.
    split; [rewrite Cg, Cs, Cb; reflexivity|]. split; [exact N|]. split; [exact T|]. intros t row Hr. exists (row_at signal t), (row_at bars t). split; [now apply R|]. split.
    - destruct (in_dec Z.eq_dec t (index signal)) as [Hi|Hi]; [left; now apply In_row_at|right]. split; [exact Hi|]. rewrite (row_at_none _ _ Hi), Cs. reflexivity.
    - destruct (in_dec Z.eq_dec t (index bars)) as [Hi|Hi]; [left; now apply In_row_at|right]. split; [exact Hi|]. rewrite (row_at_none _ _ Hi), Cb. reflexivity.
  Qed.
End Trader.
