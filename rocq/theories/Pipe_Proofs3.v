(** Frames with unique times, and the data sets. *)
From Coq Require Import String Permutation.
From Verif Require Import Prelude PreludeFacts Num Pipe_Model Pipe_Spec Pipe_Proofs1 Pipe_Proofs2.
Open Scope nat_scope.

Lemma np_uniqueZ_NoDup l : NoDup (np_uniqueZ l). Proof. apply increasingZ_NoDup, np_uniqueZ_inc. Qed.
Lemma unique_index_spec l : unique_index l = true <-> NoDup l.
Proof.
  unfold unique_index. rewrite Nat.eqb_eq. split; intros H.
  - eapply (@NoDup_incl_NoDup Z (np_uniqueZ l) l); [apply np_uniqueZ_NoDup|lia|]. intros x Hx. now apply np_uniqueZ_In.
  - apply Permutation_length, NoDup_Permutation; [apply np_uniqueZ_NoDup|exact H|]. intros x. apply np_uniqueZ_In.
Qed.
Lemma same_index_spec a b : same_index a b = true <-> a = b.
Proof.
  unfold same_index. rewrite andb_true_iff, Nat.eqb_eq. split.
  - intros (Hl & Hf). revert b Hl Hf. induction a as [|x a IH]; intros [|y b] Hl Hf; cbn in *; try discriminate; [reflexivity|].
    apply andb_true_iff in Hf. destruct Hf as (E & Hf). apply Z.eqb_eq in E. subst. f_equal. apply IH; [lia|exact Hf].
  - intros ->. split; [reflexivity|]. induction b as [|y b IH]; cbn; [reflexivity|]. now rewrite Z.eqb_refl.
Qed.

Lemma filter_key_NoDup {V} (l : list (Z * V)) t v : NoDup (map fst l) -> In (t, v) l -> filter (fun r => Z.eqb (fst r) t) l = [(t, v)].
Proof.
  induction l as [|[u w] l IH]; intros Hn []; cbn in *; inversion Hn as [|? ? Hni Hn']; subst.
  - injection H as -> ->. rewrite Z.eqb_refl. f_equal. apply filter_nil. intros [a b] Hab. cbn. apply Z.eqb_neq. intros ->. apply Hni. now apply (in_map fst) in Hab.
  - destruct (Z.eqb_spec u t) as [->|Hne]; [apply (in_map fst) in H; contradiction|]. now apply IH.
Qed.
Lemma filter_key_none {V} (l : list (Z * V)) t : ~ In t (map fst l) -> filter (fun r => Z.eqb (fst r) t) l = [].
Proof. intros H. apply filter_nil. intros [a b] Hab. cbn. apply Z.eqb_neq. intros ->. apply H. now apply (in_map fst) in Hab. Qed.
Lemma filter_key_In {V} (l : list (Z * V)) t : filter (fun r => Z.eqb (fst r) t) l <> [] <-> In t (map fst l).
Proof.
  split.
  - intros H. destruct (in_dec Z.eq_dec t (map fst l)) as [Hi|Hi]; [exact Hi|]. now apply filter_key_none in Hi.
  - intros H E. apply in_map_iff in H. destruct H as ([a b] & <- & Hab). pose proof (proj1 (filter_nil _ _) E _ Hab) as Hf. cbn in Hf. now rewrite Z.eqb_refl in Hf.
Qed.
Lemma In_key {V} (l : list (Z * V)) t : In t (map fst l) <-> exists v, In (t, v) l.
Proof. rewrite in_map_iff. split; [intros ([a v] & <- & H); now exists v|intros (v & H); now exists (t, v)]. Qed.
Lemma NoDup_key_eq {V} (l : list (Z * V)) t v w : NoDup (map fst l) -> In (t, v) l -> In (t, w) l -> v = w.
Proof. intros Hn H1 H2. apply (filter_key_NoDup l t v Hn) in H1. apply (filter_key_NoDup l t w Hn) in H2. congruence. Qed.

(** * loc *)
Lemma loc_ge {V} (l : list (Z * V)) ts r : loc l ts = Ok r -> length ts <= length r /\ (length r = length ts -> map fst r = ts) /\ (forall e, In e r -> In e l).
Proof.
  unfold loc. intros H. destruct (mapM _ ts) as [parts|] eqn:E; [|discriminate]. injection H as <-. revert parts E.
  induction ts as [|t ts IH]; intros parts E; cbn in E; [injection E as <-; cbn; split; [lia|]; split; [auto|intros ? []]|].
  destruct (filter (fun r => Z.eqb (fst r) t) l) as [|e0 es] eqn:Ef; [discriminate|]. cbn [bind] in E.
  destruct (mapM _ ts) as [ps|] eqn:E2; [|discriminate]. injection E as <-. destruct (IH ps eq_refl) as (H1 & H2 & H3).
  assert (Hin : forall e, In e (e0 :: es) -> In e l /\ fst e = t) by (intros e He; rewrite <- Ef in He; apply filter_In in He; rewrite Z.eqb_eq in He; tauto).
  cbn [concat]. rewrite app_length. cbn [length]. split; [lia|]. split.
  - intros Hl. destruct es as [|e1 es]; [|cbn [length] in Hl; lia]. cbn [app map]. rewrite H2 by (cbn [length] in Hl; lia). f_equal. apply Hin. now left.
  - intros e He. apply in_app_or in He. destruct He as [He|He]; [now apply Hin|now apply H3].
Qed.
Lemma loc_NoDup {V} (l : list (Z * V)) ts r : NoDup (map fst l) -> loc l ts = Ok r -> map fst r = ts.
Proof.
  unfold loc. intros Hn H. destruct (mapM _ ts) as [parts|] eqn:E; [|discriminate]. injection H as <-. revert parts E.
  induction ts as [|t ts IH]; intros parts E; cbn in E; [injection E as <-; reflexivity|].
  destruct (in_dec Z.eq_dec t (map fst l)) as [Hi|Hi]; [|rewrite (filter_key_none _ _ Hi) in E; discriminate].
  apply In_key in Hi. destruct Hi as (v & Hv). rewrite (filter_key_NoDup _ _ _ Hn Hv) in E. cbn [bind] in E.
  destruct (mapM _ ts) as [ps|] eqn:E2; [|discriminate]. injection E as <-. cbn. f_equal. now apply IH.
Qed.
Lemma loc_ok {V} (l : list (Z * V)) ts : is_ok (loc l ts) = true <-> forall t, In t ts -> In t (map fst l).
Proof.
  assert (E : is_ok (loc l ts) = is_ok (mapM (fun t => match filter (fun r => Z.eqb (fst r) t) l with [] => Err KeyError | p => Ok p end) ts)).
  { unfold loc. now destruct (mapM _ ts). }
  rewrite E, mapM_ok_iff. split; intros H t Ht; specialize (H t Ht).
  - apply filter_key_In. now destruct (filter _ l).
  - apply filter_key_In in H. now destruct (filter _ l).
Qed.

Section Frames.
  Context {A : Type} {HA : Arith A}.
  Notation cell := (ext A).

  Lemma row_at_In (f : frame A) t r : NoDup (index f) -> In (t, r) (rows f) -> row_at f t = r.
  Proof. intros Hn H. unfold row_at. now rewrite (filter_key_NoDup _ _ _ Hn H). Qed.
  Lemma row_at_none (f : frame A) t : ~ In t (index f) -> row_at f t = repeat NaN (length (columns f)).
  Proof. intros H. unfold row_at. now rewrite (filter_key_none _ _ H). Qed.
  Lemma In_row_at (f : frame A) t : NoDup (index f) -> In t (index f) -> In (t, row_at f t) (rows f).
  Proof. intros Hn H. apply In_key in H. destruct H as (r & H). now rewrite (row_at_In f t r Hn H). Qed.

  (** A frame whose row at each time is a function of the time. *)
  Definition is_frame (g : frame A) (times : Z -> Prop) (row : Z -> list cell) : Prop :=
    NoDup (index g) /\ (forall t, In t (index g) <-> times t) /\ forall t r, In (t, r) (rows g) -> r = row t.


  Lemma map_fst_beside (a b : list (Z * list cell)) : length a = length b -> map fst (beside a b) = map fst a.
  Proof. intros H. unfold beside. rewrite map_map. cbn. rewrite <- (map_map fst fst). now rewrite map_fst_combine. Qed.

  Lemma beside_frame cols (a b : frame A) : NoDup (index a) -> index a = index b ->
    is_frame {| columns := cols; rows := beside (rows a) (rows b) |} (fun t => In t (index a)) (fun t => row_at a t ++ row_at b t).
  Proof.
    intros Hn E. assert (Hl : length (rows a) = length (rows b)) by (apply (f_equal (@length Z)) in E; unfold index in E; now rewrite !map_length in E).
    unfold is_frame, index. cbn [rows]. rewrite map_fst_beside by exact Hl. split; [exact Hn|]. split; [reflexivity|].
    intros t r H. unfold beside in H. apply in_map_iff in H. destruct H as ([[ta ra] [tb rb]] & Hx & Hin). cbn in Hx. injection Hx as -> <-.
    assert (tb = t).
    { apply In_nth_error in Hin. destruct Hin as [i Hi].
      assert (Ea : nth_error (index a) i = Some t /\ nth_error (index b) i = Some tb).
      { unfold index. clear -Hi. revert i Hi. generalize (rows a), (rows b). intros la. induction la as [|x la IH]; intros [|y lb] [|i] Hi; cbn in *; try discriminate.
        - injection Hi as -> ->. auto.
        - now apply IH. }
      rewrite E in Ea. destruct Ea. congruence. }
    subst. rewrite (row_at_In a t ra Hn (in_combine_l _ _ _ _ Hin)), (row_at_In b t rb); [reflexivity| |exact (in_combine_r _ _ _ _ Hin)]. now rewrite <- E.
  Qed.

  Lemma concat2_frame (a b : frame A) : NoDup (index a) -> NoDup (index b) ->
    exists g, concat2 a b = Ok g /\ columns g = columns a ++ columns b /\ (index a = index b -> index g = index a) /\
      is_frame g (fun t => In t (index a) \/ In t (index b)) (fun t => row_at a t ++ row_at b t).
  Proof.
    intros Ha Hb. unfold concat2. destruct (same_index (index a) (index b)) eqn:E.
    - apply same_index_spec in E. eexists. split; [reflexivity|]. split; [reflexivity|].
      destruct (beside_frame (columns a ++ columns b) a b Ha E) as (H1 & H2 & H3). split.
      + intros _. unfold index. cbn [rows]. apply map_fst_beside. apply (f_equal (@length Z)) in E. unfold index in E. now rewrite !map_length in E.
      + split; [exact H1|]. split; [|exact H3]. intros t. rewrite H2, <- E. tauto.
    - rewrite (proj2 (unique_index_spec _) Ha), (proj2 (unique_index_spec _) Hb). cbn [andb]. eexists. split; [reflexivity|]. split; [reflexivity|]. split.
      + intros E'. apply same_index_spec in E'. congruence.
      + unfold is_frame, index at 1 3. cbn [rows]. rewrite !map_map. cbn [fst]. rewrite map_id. split; [apply np_uniqueZ_NoDup|]. split.
        * intros t. unfold index at 1. cbn [rows]. rewrite map_map. cbn [fst]. rewrite map_id, np_uniqueZ_In, in_app_iff. reflexivity.
        * intros t r H. apply in_map_iff in H. destruct H as (u & Hx & _). injection Hx as -> <-. reflexivity.
  Qed.

  Lemma concat_inner_frame (a b : frame A) : NoDup (index a) -> NoDup (index b) ->
    exists g, concat_inner a b = Ok g /\ columns g = columns a ++ columns b /\
      is_frame g (fun t => In t (index a) /\ In t (index b)) (fun t => row_at a t ++ row_at b t).
  Proof.
    intros Ha Hb. unfold concat_inner. destruct (same_index (index a) (index b)) eqn:E.
    - apply same_index_spec in E. eexists. split; [reflexivity|]. split; [reflexivity|].
      destruct (beside_frame (columns a ++ columns b) a b Ha E) as (H1 & H2 & H3).
      split; [exact H1|]. split; [|exact H3]. intros t. rewrite H2, <- E. tauto.
    - rewrite (proj2 (unique_index_spec _) Ha), (proj2 (unique_index_spec _) Hb). cbn [andb]. eexists. split; [reflexivity|]. split; [reflexivity|].
      set (l := filter (fun r => existsb (Z.eqb (fst r)) (index b)) (rows a)).
      assert (Hidx : index {| columns := columns a ++ columns b; rows := map (fun r => (fst r, snd r ++ row_at b (fst r))) l |} = filter (fun t => existsb (Z.eqb t) (index b)) (index a)).
      { unfold index at 1 3. cbn [rows]. rewrite map_map. cbn [fst]. unfold l. clear. induction (rows a) as [|r rs IH]; [reflexivity|]. cbn [filter map fst].
        destruct (existsb (Z.eqb (fst r)) (index b)); cbn [map]; now rewrite IH. }
      unfold is_frame. rewrite Hidx. split; [now apply NoDup_filter|]. split.
      + intros t. rewrite filter_In, existsb_exists. split; [intros (H & u & Hu & Eu); apply Z.eqb_eq in Eu; subst; tauto|intros (H & H'); split; [exact H|]; exists t; split; [exact H'|apply Z.eqb_refl]].
      + cbn [rows]. intros t r H. apply in_map_iff in H. destruct H as ([u ra] & Hx & Hin). cbn in Hx. injection Hx as -> <-. apply filter_In in Hin.
        now rewrite (row_at_In a t ra Ha (proj1 Hin)).
  Qed.

  Lemma series_at_In (s : list (Z * cell)) t x : NoDup (map fst s) -> In (t, x) s -> series_at s t = x.
  Proof. intros Hn H. unfold series_at. now rewrite (filter_key_NoDup _ _ _ Hn H). Qed.

  Lemma aligned_values_NoDup times (s : list (Z * cell)) : NoDup (map fst s) -> NoDup times -> aligned_values times s = Ok (map (series_at s) times).
  Proof.
    intros Hs Ht. unfold aligned_values. destruct (same_index times (map fst s)) eqn:E.
    - apply same_index_spec in E. subst. f_equal. rewrite map_map. apply map_ext_in. intros [t x] Hin. cbn. symmetry. now apply series_at_In.
    - now rewrite (proj2 (unique_index_spec _) Hs).
  Qed.

  Lemma add_column_frame (f : frame A) name s : NoDup (index f) -> NoDup (map fst s) ->
    exists g, add_column f name s = Ok g /\ columns g = columns f ++ [name] /\ index g = index f /\
      is_frame g (fun t => In t (index f)) (fun t => row_at f t ++ [series_at s t]).
  Proof.
    intros Hf Hs. unfold add_column. rewrite aligned_values_NoDup by assumption. cbn [bind]. eexists. split; [reflexivity|]. split; [reflexivity|].
    set (b := {| columns := [name]; rows := combine (index f) (map (fun x => [x]) (map (series_at s) (index f))) |}).
    assert (Hb : index f = index b).
    { unfold index at 2. cbn [b rows]. symmetry. apply map_fst_combine. now rewrite !map_length. }
    split.
    { unfold index at 1. cbn [rows]. apply map_fst_beside. rewrite combine_length, !map_length. unfold index. rewrite map_length. lia. }
    destruct (beside_frame (columns f ++ [name]) f b Hf Hb) as (H1 & H2 & H3). split; [exact H1|]. split; [exact H2|].
    intros t r H. rewrite (H3 t r H). f_equal.
    assert (Ht : In t (index f)) by (apply H2; apply (in_map fst) in H; exact H).
    apply row_at_In; [now rewrite <- Hb|]. cbn [b rows]. rewrite map_map. revert Ht. generalize (index f). clear.
    induction l as [|u l IH]; intros []; cbn; [subst; now left|right; now apply IH].
  Qed.

  (** A list of frames with unique times. *)
  Lemma concat_outer_frame (l : list (frame A)) : l <> [] -> Forall (fun f => NoDup (index f)) l ->
    exists g, concat_outer l = Ok g /\ columns g = concat (map columns l) /\ (forall ts, Forall (fun f => index f = ts) l -> index g = ts) /\
      is_frame g (fun t => exists f, In f l /\ In t (index f)) (fun t => concat (map (fun f => row_at f t) l)).
  Proof.
    destruct l as [|f0 l]; [congruence|]. intros _ H. inversion H as [|? ? H0 Hl]; subst. cbn [concat_outer].
    assert (G : forall l pre a, Forall (fun f => NoDup (index f)) l -> columns a = concat (map columns pre) ->
      is_frame a (fun t => exists f, In f pre /\ In t (index f)) (fun t => concat (map (fun f => row_at f t) pre)) ->
      exists g, foldM concat2 a l = Ok g /\ columns g = concat (map columns (pre ++ l)) /\ (forall ts, index a = ts -> Forall (fun f => index f = ts) l -> index g = ts) /\
        is_frame g (fun t => exists f, In f (pre ++ l) /\ In t (index f)) (fun t => concat (map (fun f => row_at f t) (pre ++ l)))).
    { clear. induction l as [|f l IH]; intros pre a Hl Hc Ha.
      - exists a. cbn. rewrite app_nil_r. split; [reflexivity|]. split; [exact Hc|]. split; [auto|exact Ha].
      - inversion Hl as [|? ? Hf Hl']; subst. destruct (concat2_frame a f (proj1 Ha) Hf) as (g & Eg & Cg & Ig & Fg). cbn [foldM]. rewrite Eg. cbn [bind].
        destruct (IH (pre ++ [f]) g Hl') as (g' & E' & C' & I' & F').
        + rewrite Cg, Hc, map_app, concat_app. cbn. now rewrite app_nil_r.
        + destruct Ha as (Na & Ta & Ra), Fg as (Ng & Tg & Rg). split; [exact Ng|]. split.
          * intros t. rewrite Tg, Ta. split.
            -- intros [(h & Hh & Hi)|Hi]; [exists h; rewrite in_app_iff; tauto|exists f; rewrite in_app_iff; cbn; tauto].
            -- intros (h & Hh & Hi). apply in_app_or in Hh. destruct Hh as [Hh|[<-|[]]]; [left; now exists h|now right].
          * intros t r Hr. rewrite (Rg t r Hr), map_app, concat_app. cbn. rewrite app_nil_r. f_equal.
            destruct (in_dec Z.eq_dec t (index a)) as [Hi|Hi]; [apply Ra; now apply In_row_at|].
            rewrite (row_at_none a t Hi), Hc. clear -Hi Ta.
            assert (Hp : forall h, In h pre -> row_at h t = repeat NaN (length (columns h))) by (intros h Hh; apply row_at_none; intros Hx; apply Hi, Ta; now exists h).
            clear -Hp. induction pre as [|h pre IH]; [reflexivity|]. cbn. rewrite app_length, repeat_app, Hp by (now left). f_equal. apply IH. intros; apply Hp. now right.
        + exists g'. rewrite <- app_assoc in C', F'. cbn [app] in C', F'. split; [exact E'|]. split; [exact C'|]. split; [|exact F'].
          intros ts E1 E2. inversion E2 as [|? ? E3 E4]; subst. apply I'; [|exact E4]. apply Ig. congruence. }
    destruct (G l [f0] f0 Hl) as (g & E & C & I & F).
    - cbn. now rewrite app_nil_r.
    - split; [exact H0|]. split.
      + intros t. split; [intros Ht; exists f0; cbn; tauto|intros (f & [<-|[]] & Ht); exact Ht].
      + intros t r Hr. cbn. rewrite app_nil_r. symmetry. now apply row_at_In.
    - exists g. cbn [app] in *. split; [exact E|]. split; [exact C|]. split; [|exact F]. intros ts Hts. inversion Hts; subst. now apply I.
  Qed.

  (** * dropna *)
  Lemma complete_row_spec (r : Z * list cell) : complete_row r = true <-> ~ In NaN (snd r).
  Proof.
    unfold complete_row. rewrite forallb_forall. split.
    - intros H Hn. specialize (H NaN Hn). discriminate.
    - intros H x Hx. destruct x; try reflexivity. contradiction.
  Qed.
  Lemma NoDup_filter_key {V} (p : Z * V -> bool) l : NoDup (map fst l) -> NoDup (map fst (filter p l)).
  Proof.
    induction l as [|e l IH]; intros H; [constructor|]. inversion H as [|? ? H1 H2]; subst. cbn. destruct (p e); [|now apply IH]. cbn. constructor; [|now apply IH].
    intros Hin. apply H1. apply in_map_iff in Hin. destruct Hin as (x & <- & Hx). apply filter_In in Hx. now apply in_map.
  Qed.
  Lemma dropna_frame (g : frame A) times row : is_frame g times row ->
    is_frame (dropna g) (fun t => times t /\ ~ In NaN (row t)) row.
  Proof.
    intros (Hn & Ht & Hr). split; [now apply NoDup_filter_key|]. split.
    - intros t. unfold index, dropna. cbn [rows]. rewrite In_key. split.
      + intros (r & H). apply filter_In in H. destruct H as (H & Hc). apply complete_row_spec in Hc. cbn in Hc. rewrite (Hr t r H) in Hc. split; [|exact Hc].
        apply Ht. now apply (in_map fst) in H.
      + intros (H & Hc). apply Ht in H. pose proof (In_row_at g t Hn H) as Hx. exists (row_at g t). apply filter_In. split; [exact Hx|]. apply complete_row_spec. cbn.
        now rewrite (Hr _ _ Hx).
    - intros t r H. apply filter_In in H. apply Hr. tauto.
  Qed.
End Frames.
