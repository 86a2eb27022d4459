(** Proofs about the pipeline with sample weights. *)
From Coq Require Import String Ascii.
From Verif Require Import Prelude PreludeFacts Num Series Pipe_Model Wrap_Model Wrap_Spec.
Local Open Scope nat_scope.

(** * Splitting at a double underscore *)

Lemma split_cons2 c c' r : split_dunder (String c (String c' r)) =
  if (Ascii.eqb c "_" && Ascii.eqb c' "_")%bool then (EmptyString, Some r)
  else let (a, b) := split_dunder (String c' r) in (String c a, b).
Proof. reflexivity. Qed.
Lemma split_sound s : forall a b, split_dunder s = (a, Some b) -> s = (a ++ "__" ++ b)%string.
Proof.
  induction s as [|c [|c' r] IH]; intros a b H; [discriminate|discriminate|].
  rewrite split_cons2 in H. destruct (Ascii.eqb_spec c "_") as [->|N]; destruct (Ascii.eqb_spec c' "_") as [->|N']; cbn [andb] in H.
  - injection H as <- <-. reflexivity.
  - destruct (split_dunder (String c' r)) as [a' b'] eqn:E. injection H as <- ->. rewrite (IH _ _ eq_refl). reflexivity.
  - destruct (split_dunder (String "_" r)) as [a' b'] eqn:E. injection H as <- ->. rewrite (IH _ _ eq_refl). reflexivity.
  - destruct (split_dunder (String c' r)) as [a' b'] eqn:E. injection H as <- ->. rewrite (IH _ _ eq_refl). reflexivity.
Qed.
Lemma split_none_cons c s : snd (split_dunder (String c s)) = None -> snd (split_dunder s) = None.
Proof.
  destruct s as [|c' r]; [reflexivity|]. rewrite split_cons2. destruct (_ && _)%bool; [discriminate|].
  destruct (split_dunder (String c' r)). auto.
Qed.
Lemma split_none s : snd (split_dunder s) = None <-> ~ contains "__" s.
Proof.
  split.
  - intros H (p & q & E). subst s. induction p as [|c p IH]; [discriminate|]. cbn [append] in H. apply split_none_cons in H. auto.
  - intros H. destruct (split_dunder s) as [a [b|]] eqn:E; [|reflexivity]. destruct H. exists a, b. now apply split_sound.
Qed.
Lemma split_join n r : snd (split_dunder n) = None -> ~ ends_with "_" n -> split_dunder (n ++ "__" ++ r) = (n, Some r).
Proof.
  induction n as [|c n IH]; intros H E; [reflexivity|].
  destruct n as [|c' n].
  - cbn [append]. rewrite split_cons2. destruct (Ascii.eqb_spec c "_") as [->|N]; [destruct E; now exists EmptyString|]. cbn [andb]. reflexivity.
  - change ((String c (String c' n) ++ "__" ++ r)%string) with (String c (String c' (n ++ "__" ++ r))). rewrite split_cons2.
    rewrite split_cons2 in H. destruct (Ascii.eqb c "_" && Ascii.eqb c' "_")%bool; [discriminate|].
    change (String c' (n ++ "__" ++ r)) with (String c' n ++ "__" ++ r)%string. rewrite IH; [reflexivity| |].
    + destruct (split_dunder (String c' n)). auto.
    + intros (b & Eb). apply E. exists (String c b). now rewrite Eb.
Qed.
Lemma split_trailing m r : snd (split_dunder (m ++ "_")) = None -> split_dunder ((m ++ "_") ++ "__" ++ r) = (m, Some ("_" ++ r)%string).
Proof.
  induction m as [|c m IH]; intros H; [reflexivity|].
  destruct m as [|c' m].
  - cbn [append]. rewrite split_cons2. cbn [append] in H. rewrite split_cons2 in H.
    destruct (Ascii.eqb_spec c "_") as [->|N]; [discriminate|]. cbn [andb]. reflexivity.
  - change (((String c (String c' m) ++ "_") ++ "__" ++ r)%string) with (String c (String c' ((m ++ "_") ++ "__" ++ r))). rewrite split_cons2.
    change ((String c (String c' m) ++ "_")%string) with (String c (String c' (m ++ "_"))) in H. rewrite split_cons2 in H.
    destruct (Ascii.eqb c "_" && Ascii.eqb c' "_")%bool; [discriminate|].
    change (String c' ((m ++ "_") ++ "__" ++ r)) with ((String c' m ++ "_") ++ "__" ++ r)%string. rewrite IH; [reflexivity|].
    change ((String c' m ++ "_")%string) with (String c' (m ++ "_")). destruct (split_dunder (String c' (m ++ "_"))). auto.
Qed.

(** * Dictionaries *)
Section Dicts.
  Context {V : Type}.
  Implicit Types d : dict V.
  Lemma lookup_set d k v : forall k', lookup (set_key d k v) k' = if String.eqb k k' then Ok v else lookup d k'.
  Proof.
    induction d as [|[a x] d IH]; intros k'; cbn [set_key lookup]; [reflexivity|].
    destruct (String.eqb_spec a k) as [->|N]; cbn [lookup]; [destruct (String.eqb k k'); reflexivity|].
    rewrite IH. destruct (String.eqb_spec a k') as [->|N']; [|reflexivity]. destruct (String.eqb_spec k k') as [->|]; [contradiction|reflexivity].
  Qed.
  Lemma set_set d k v w : set_key (set_key d k v) k w = set_key d k w.
  Proof.
    induction d as [|[a x] d IH]; cbn [set_key]; [now rewrite String.eqb_refl|].
    destruct (String.eqb_spec a k) as [->|N]; cbn [set_key]; [now rewrite String.eqb_refl|]. apply String.eqb_neq in N. now rewrite N, IH.
  Qed.
  (** Setting a key that is present commutes with setting another one. *)
  Lemma set_comm d k v k' w x : k <> k' -> lookup d k' = Ok x -> set_key (set_key d k v) k' w = set_key (set_key d k' w) k v.
  Proof.
    intros N. induction d as [|[a y] d IH]; cbn [set_key lookup]; [discriminate|]. intros H.
    destruct (String.eqb_spec a k') as [->|Na].
    - destruct (String.eqb_spec k' k) as [->|]; [contradiction|]. cbn [set_key]. rewrite String.eqb_refl. apply not_eq_sym in N. apply String.eqb_neq in N. now rewrite N.
    - destruct (String.eqb_spec a k) as [->|Nk]; cbn [set_key].
      + rewrite String.eqb_refl. apply String.eqb_neq in N. now rewrite N.
      + apply String.eqb_neq in Na, Nk. rewrite Na, Nk, IH; auto.
  Qed.
  Lemma set_absent d k v : ~ In k (keys d) -> set_key d k v = d ++ [(k, v)].
  Proof.
    induction d as [|[a x] d IH]; cbn [set_key keys map]; intros H; [reflexivity|].
    destruct (String.eqb_spec a k) as [->|N]; [destruct H; now left|]. cbn [app]. rewrite IH; [reflexivity|]. intros H'. apply H. now right.
  Qed.
  Lemma set_present d k v x : NoDup (keys d) -> lookup d k = Ok x ->
    exists before after, d = before ++ (k, x) :: after /\ set_key d k v = before ++ (k, v) :: after /\ ~ In k (keys after).
  Proof.
    induction d as [|[a y] d IH]; cbn [set_key lookup keys map fst]; intros Hn H; [discriminate|]. inversion Hn as [|? ? N1 N2]; subst.
    destruct (String.eqb_spec a k) as [->|N].
    - injection H as ->. exists [], d. auto.
    - destruct (IH N2 H) as (b & c & E & E' & F). exists ((a, y) :: b), c. cbn [app]. now rewrite <- E, E'.
  Qed.
  Lemma lookup_in d k : (exists v, lookup d k = Ok v) <-> In k (keys d).
  Proof.
    induction d as [|[a x] d IH]; cbn [lookup keys map fst]; [split; [intros [? H]; discriminate|easy]|].
    destruct (String.eqb_spec a k) as [->|N]; [split; [now left|eauto]|]. unfold keys in IH. rewrite IH. cbn. intuition.
  Qed.
  Lemma lookup_err d k e : lookup d k = Err e -> e = KeyError /\ ~ In k (keys d).
  Proof.
    intros H. split; [|intros Hi; apply lookup_in in Hi; destruct Hi; congruence].
    induction d as [|[a x] d IH]; cbn [lookup] in H; [now injection H|]. destruct (String.eqb a k); [discriminate|auto].
  Qed.
End Dicts.

(** * Sorting the arguments *)
Section Sort.
  Context {D Y V : Type}.
  Notation step := (step D Y V).
  Implicit Types d : dict (dict V).

  (** Setting one parameter of one step. *)
  Definition give d (name parameter : string) (v : V) : dict (dict V) :=
    match lookup d name with Ok own => set_key d name (set_key own parameter v) | Err _ => d end.
  Definition has d (name parameter : string) : Prop := exists own x, lookup d name = Ok own /\ lookup own parameter = Ok x.

  Lemma sort_eq d k (v : V) : sort_argument d (k, v) =
    match split_dunder k with (_, None) => Err ValueError | (name, Some parameter) => do own <- lookup d name ;; Ok (set_key d name (set_key own parameter v)) end.
  Proof. reflexivity. Qed.
  Lemma sort_split d k (v : V) name parameter : split_dunder k = (name, Some parameter) -> In name (keys d) -> sort_argument d (k, v) = Ok (give d name parameter v).
  Proof.
    intros E H. unfold sort_argument, give. cbn [fst snd]. rewrite E. apply lookup_in in H. destruct H as [own ->]. reflexivity.
  Qed.
  Lemma keys_set {W} (e : dict W) k v x : lookup e k = Ok x -> keys (set_key e k v) = keys e.
  Proof.
    induction e as [|[a y] e IH]; cbn [lookup set_key keys map fst]; [discriminate|]. destruct (String.eqb_spec a k) as [->|N]; [reflexivity|].
    intros H. cbn [map fst]. f_equal. now apply IH.
  Qed.
  Lemma keys_give d name parameter v : keys (give d name parameter v) = keys d.
  Proof. unfold give. destruct (lookup d name) eqn:E; [|reflexivity]. eapply keys_set, E. Qed.
  Lemma give_give d name parameter v w : give (give d name parameter v) name parameter w = give d name parameter w.
  Proof.
    unfold give at 2 3. destruct (lookup d name) as [own|] eqn:E; [|unfold give; now rewrite E].
    unfold give. rewrite lookup_set, String.eqb_refl, set_set, set_set. reflexivity.
  Qed.
  Lemma give_has d name parameter v : In name (keys d) -> has (give d name parameter v) name parameter.
  Proof.
    intros H. apply lookup_in in H. destruct H as [own E]. unfold give, has. rewrite E. do 2 eexists.
    rewrite lookup_set, String.eqb_refl. split; [reflexivity|]. rewrite lookup_set, String.eqb_refl. reflexivity.
  Qed.
  Lemma has_give d name parameter n p v : has d name parameter -> has (give d n p v) name parameter.
  Proof.
    intros (own & x & E & Ex). unfold give. destruct (lookup d n) as [own'|] eqn:E'; [|now exists own, x].
    unfold has. rewrite lookup_set. destruct (String.eqb_spec n name) as [->|N].
    - rewrite E in E'. injection E' as <-. eexists. destruct (String.eqb_spec p parameter) as [->|Np].
      + eexists. split; [reflexivity|]. rewrite lookup_set, String.eqb_refl. reflexivity.
      + exists x. split; [reflexivity|]. rewrite lookup_set. apply String.eqb_neq in Np. now rewrite Np.
    - now exists own, x.
  Qed.
  Lemma give_comm d name parameter w n p v : (n, p) <> (name, parameter) -> has d name parameter ->
    give (give d n p v) name parameter w = give (give d name parameter w) n p v.
  Proof.
    intros N (own & x & E & Ex). unfold give at 2 4. rewrite E. destruct (String.eqb_spec n name) as [->|Nn].
    - rewrite E. unfold give. rewrite !lookup_set, !String.eqb_refl, !set_set.
      assert (Np : p <> parameter) by congruence. now rewrite (set_comm own p v parameter w x Np Ex).
    - destruct (lookup d n) as [own'|] eqn:E'.
      + unfold give. rewrite !lookup_set. assert (Nn' : name <> n) by congruence. apply String.eqb_neq in Nn, Nn'. rewrite Nn, Nn', E, E'.
        apply String.eqb_neq in Nn. exact (set_comm d n _ name _ own Nn E).
      + unfold give. rewrite E, lookup_set. assert (Nn' : name <> n) by congruence. apply String.eqb_neq in Nn'. now rewrite Nn', E'.
  Qed.

  Lemma foldM_app {S T} (f : S -> T -> result S) l1 l2 a : foldM f a (l1 ++ l2) = do b <- foldM f a l1 ;; foldM f b l2.
  Proof. revert a. induction l1 as [|x l1 IH]; intros a; cbn [foldM app bind]; [reflexivity|]. destruct (f a x); cbn [bind]; auto. Qed.

  Lemma sort_keys (l : dict V) : forall d d', foldM sort_argument d l = Ok d' -> keys d' = keys d.
  Proof.
    induction l as [|[k v] l IH]; intros d d' H; cbn [foldM] in H; [now injection H as <-|].
    rewrite sort_eq in H. destruct (split_dunder k) as [n [p|]] eqn:E; [|discriminate].
    destruct (lookup d n) as [own|] eqn:El; [|discriminate]. cbn [bind] in H. rewrite (IH _ _ H). eapply keys_set, El.
  Qed.
  (** Arguments that are not the given one may be sorted before or after it. *)
  Lemma sort_after (l : dict V) k name parameter w : split_dunder k = (name, Some parameter) -> ~ In k (keys l) -> forall d, has d name parameter ->
    foldM sort_argument (give d name parameter w) l = match foldM sort_argument d l with Ok d' => Ok (give d' name parameter w) | Err e => Err e end.
  Proof.
    intros Ek. induction l as [|[k' v] l IH]; intros Hk d Hd; cbn [foldM]; [reflexivity|].
    rewrite !sort_eq. destruct (split_dunder k') as [n [p|]] eqn:E; [|reflexivity].
    assert (Np : (n, p) <> (name, parameter)).
    { intros H. injection H as -> ->. apply Hk. left. cbn [fst]. rewrite (split_sound _ _ _ Ek). apply split_sound, E. }
    destruct (lookup d n) as [own'|e] eqn:El.
    - cbn [bind]. replace (set_key d n (set_key own' p v)) with (give d n p v) by (unfold give; now rewrite El).
      assert (Hi : In n (keys (give d name parameter w))) by (rewrite keys_give; apply lookup_in; eauto).
      apply lookup_in in Hi. destruct Hi as [own'' El'']. rewrite El''. cbn [bind].
      replace (set_key (give d name parameter w) n (set_key own'' p v)) with (give (give d name parameter w) n p v) by (unfold give at 1; now rewrite El'').
      rewrite <- (give_comm d name parameter w n p v Np Hd). apply IH.
      + intros H. apply Hk. now right.
      + now apply has_give.
    - cbn [bind]. destruct (lookup (give d name parameter w) n) eqn:El''.
      + assert (Hi : In n (keys d)) by (rewrite <- (keys_give d name parameter w); apply lookup_in; eauto). apply lookup_err in El. tauto.
      + apply lookup_err in El, El''. destruct El as [-> _], El'' as [-> _]. reflexivity.
  Qed.
  (** Setting the argument before sorting is setting the parameter afterwards. *)
  Lemma sort_set (l : dict V) k name parameter w d : NoDup (keys l) -> split_dunder k = (name, Some parameter) -> In name (keys d) ->
    foldM sort_argument d (set_key l k w) = match foldM sort_argument d l with Ok d' => Ok (give d' name parameter w) | Err e => Err e end.
  Proof.
    intros Hn Ek Hi. destruct (in_dec string_dec k (keys l)) as [Hk|Hk].
    - apply lookup_in in Hk. destruct Hk as [x Hx]. destruct (set_present l k w x Hn Hx) as (b & c & -> & -> & Hc).
      rewrite !foldM_app. destruct (foldM sort_argument d b) as [d1|e] eqn:E; [|reflexivity]. cbn [bind foldM].
      assert (H1 : In name (keys d1)) by (rewrite (sort_keys _ _ _ E); exact Hi).
      rewrite !(sort_split d1 k _ name parameter Ek H1). cbn [bind]. rewrite <- (give_give d1 name parameter x w).
      apply sort_after with (k := k); auto. now apply give_has.
    - rewrite (set_absent l k w Hk), foldM_app. destruct (foldM sort_argument d l) as [d1|e] eqn:E; [|reflexivity]. cbn [bind foldM].
      assert (H1 : In name (keys d1)) by (rewrite (sort_keys _ _ _ E); exact Hi). rewrite (sort_split d1 k w name parameter Ek H1). reflexivity.
  Qed.

  (** * The run *)

  (** Two dictionaries that differ at most in one parameter of one step. *)
  Lemma lookup_give d name parameter w n : lookup (give d name parameter w) n =
    if String.eqb n name then match lookup d name with Ok own => Ok (set_key own parameter w) | Err e => Err e end else lookup d n.
  Proof.
    unfold give. destruct (lookup d name) as [own|e] eqn:E.
    - rewrite lookup_set, String.eqb_sym. reflexivity.
    - destruct (String.eqb_spec n name) as [->|]; auto.
  Qed.


  (** The calls of a run go to its steps. *)

  (** Giving a parameter to the last step changes nothing but the arguments of the last call. *)
  Lemma run_give (steps : list step) name e d parameter w : ~ In name (map fst steps) -> forall X y,
    fst (run_steps (steps ++ [(name, e)]) (give d name parameter w) X y) = map (with_argument name parameter w) (fst (run_steps (steps ++ [(name, e)]) d X y)).
  Proof.
    intros H. induction steps as [|[n e'] steps IH]; intros X y.
    - cbn [app run_steps]. destruct e as [e|]; [|reflexivity]. rewrite lookup_give, String.eqb_refl. destruct (lookup d name) as [own|]; [|reflexivity].
      cbn [fst map]. unfold with_argument. cbn [to_step]. rewrite String.eqb_refl. reflexivity.
    - assert (L : lookup (give d name parameter w) n = lookup d n).
      { rewrite lookup_give. destruct (String.eqb_spec n name) as [->|]; [destruct H; now left|reflexivity]. }
      assert (Hn : n <> name) by (intros ->; apply H; now left).
      assert (H' : ~ In name (map fst steps)) by (intros H'; apply H; now right). specialize (IH H').
      change (((n, e') :: steps) ++ [(name, e)]) with ((n, e') :: (steps ++ [(name, e)])).
      cbn [run_steps]. destruct (steps ++ [(name, e)]) as [|s r] eqn:Es; [destruct steps; discriminate|].
      destruct e' as [e'|]; [|apply IH]. rewrite L. destruct (lookup d n) as [own|]; [|reflexivity].
      assert (W : with_argument name parameter w {| to_step := n; with_data := X; with_labels := y; with_arguments := own |} =
                  {| to_step := n; with_data := X; with_labels := y; with_arguments := own |}).
      { unfold with_argument. cbn [to_step]. apply String.eqb_neq in Hn. now rewrite Hn. }
      destruct (fit_transform e' X y own) as [X'|].
      + specialize (IH X' y). destruct (run_steps (s :: r) d X' y) as [cs o], (run_steps (s :: r) (give d name parameter w) X' y) as [cs' o'].
        cbn [fst] in *. cbn [map]. rewrite W. now f_equal.
      + cbn [fst map]. now rewrite W.
  Qed.
End Sort.

Lemma valid_names_spec names : valid_names names = true <-> proper_names names.
Proof.
  unfold valid_names, proper_names, distinct. rewrite !andb_true_iff, Nat.eqb_eq, negb_true_iff, forallb_forall. split.
  - intros [[H1 H2] H3]. split.
    + assert (E : nodup string_dec names = names).
      { clear -H1. induction names as [|x l IH]; [reflexivity|]. cbn [nodup] in *. destruct (in_dec string_dec x l) as [Hi|Hi].
        - exfalso. assert (L : List.length (nodup string_dec l) <= List.length l) by (apply NoDup_incl_length; [apply NoDup_nodup|intros z; apply nodup_In]). cbn in H1. lia.
        - f_equal. apply IH. cbn in H1. lia. }
      rewrite <- E. apply NoDup_nodup.
    + intros n Hn. specialize (H3 n Hn). split; [apply split_none; destruct (snd (split_dunder n)); congruence|].
      assert (E : existsb (String.eqb n) ["steps"; "memory"; "verbose"]%string = false).
      { destruct (existsb (String.eqb n) _) eqn:E; [|reflexivity]. rewrite <- H2. symmetry. apply existsb_exists. now exists n. }
      cbn [existsb] in E. rewrite !orb_false_iff in E. destruct E as (E1 & E2 & E3 & _). apply String.eqb_neq in E1, E2, E3. auto.
  - intros [H1 H2]. repeat split.
    + now rewrite (nodup_fixed_point string_dec H1).
    + destruct (existsb _ names) eqn:E; [|reflexivity]. apply existsb_exists in E. destruct E as (n & Hn & E). destruct (H2 n Hn) as (_ & N1 & N2 & N3).
      cbn [existsb] in E. apply String.eqb_neq in N1, N2, N3. rewrite N1, N2, N3 in E. discriminate.
    + intros n Hn. destruct (H2 n Hn) as (Hc & _). apply split_none in Hc. now rewrite Hc.
Qed.

Section Fit.
  Context {D Y V : Type}.
  Notation step := (step D Y V).
  Implicit Types steps : list step.

  Lemma weights_key steps name e (w : V) arguments X y :
    mizar_fit (steps ++ [(name, e)]) X y (Some w) arguments = pipeline_fit (steps ++ [(name, e)]) X y (set_key arguments (name ++ "__sample_weight") w).
  Proof. unfold mizar_fit. rewrite rev_app_distr. reflexivity. Qed.

  Lemma keys_start steps : keys (map (fun s : step => (fst s, @nil (string * V))) steps) = map fst steps.
  Proof. unfold keys. rewrite map_map. reflexivity. Qed.

  (** The calls made with sample weights are those made without, but for the argument of the last step. *)
  Lemma weights_calls steps name e (w : V) arguments X y : proper_names (map fst steps ++ [name]) -> ~ ends_with "_" name -> NoDup (keys arguments) ->
    fst (mizar_fit (steps ++ [(name, e)]) X y (Some w) arguments) =
      map (with_argument name "sample_weight" w) (fst (mizar_fit (steps ++ [(name, e)]) X y None arguments)).
  Proof.
    intros Hp Hu Ha. rewrite weights_key. cbn [mizar_fit]. unfold pipeline_fit, sort_arguments.
    assert (Hs : split_dunder (name ++ "__sample_weight") = (name, Some "sample_weight"%string)).
    { apply (split_join name "sample_weight"); [|exact Hu]. apply split_none. apply Hp. apply in_app_iff. right. now left. }
    assert (Hv : valid_names (map fst (steps ++ [(name, e)])) = true) by (rewrite map_app; now apply valid_names_spec).
    rewrite Hv. erewrite sort_set; [|exact Ha|exact Hs|rewrite keys_start, map_app; apply in_app_iff; right; now left].
    destruct (foldM sort_argument _ arguments) as [d|]; [|reflexivity].
    apply run_give. destruct Hp as [Hn _]. apply NoDup_app_iff in Hn. destruct Hn as (_ & _ & Hn). intros Hi. exact (Hn name Hi (or_introl eq_refl)).
  Qed.

  (** If every step before the last one succeeds, the last step is called, with the weights. *)
  Lemma run_last steps name e d : forall X y, (forall n, In n (map fst steps ++ [name]) -> In n (keys d)) ->
    snd (run_steps (steps ++ [(name, Some e)]) d X y) = Ok tt ->
    exists before c, fst (run_steps (steps ++ [(name, Some e)]) d X y) = before ++ [c] /\ to_step c = name.
  Proof.
    induction steps as [|[n e'] steps IH]; intros X y Hk H.
    - cbn [app run_steps] in *. assert (Hi : In name (keys d)) by (apply Hk; now left). apply lookup_in in Hi. destruct Hi as [own E]. rewrite E in *. cbn [fst].
      exists []. eexists. split; reflexivity.
    - change (((n, e') :: steps) ++ [(name, Some e)]) with ((n, e') :: (steps ++ [(name, Some e)])) in *.
      assert (Hk' : forall m, In m (map fst steps ++ [name]) -> In m (keys d)) by (intros m Hm; apply Hk; now right).
      cbn [run_steps] in *. destruct (steps ++ [(name, Some e)]) as [|s r] eqn:Es; [destruct steps; discriminate|].
      destruct e' as [e'|]; [|apply IH; auto]. destruct (lookup d n) as [own|]; [|discriminate].
      destruct (fit_transform e' X y own) as [X'|]; [|discriminate].
      specialize (IH X' y Hk'). destruct (run_steps (s :: r) d X' y) as [cs o]. cbn [fst snd] in *. destruct (IH H) as (b & c & -> & Ec).
      eexists (_ :: b), c. split; [reflexivity|exact Ec].
  Qed.
  Lemma with_argument_given name parameter (w : V) (c : call D Y V) : to_step c = name -> argument (with_argument name parameter w c) parameter w.
  Proof.
    intros E. unfold argument, with_argument. rewrite E, String.eqb_refl. cbn [with_arguments]. now rewrite lookup_set, String.eqb_refl.
  Qed.
  Lemma with_argument_step name parameter (w : V) (c : call D Y V) : to_step (with_argument name parameter w c) = to_step c.
  Proof. unfold with_argument. destruct (String.eqb (to_step c) name); reflexivity. Qed.

  Lemma run_to_last steps name e d : ~ In name (map fst steps) -> forall X y b c, fst (run_steps (steps ++ [(name, Some e)]) d X y) = b ++ [c] -> to_step c = name ->
    forall c', In c' b -> to_step c' <> name.
  Proof.
    intros H. induction steps as [|[n e'] steps IH]; intros X y b c E Ec c' Hc.
    - cbn [app run_steps] in E. destruct (lookup d name); cbn [fst] in E; [|destruct b; discriminate]. destruct b as [|? [|]]; try discriminate. destruct Hc.
    - assert (Hn : n <> name) by (intros ->; apply H; now left).
      assert (H' : ~ In name (map fst steps)) by (intros H'; apply H; now right). specialize (IH H').
      change (((n, e') :: steps) ++ [(name, Some e)]) with ((n, e') :: (steps ++ [(name, Some e)])) in E.
      cbn [run_steps] in E. destruct (steps ++ [(name, Some e)]) as [|s r] eqn:Es; [destruct steps; discriminate|].
      destruct e' as [e'|]; [|eapply IH; eauto]. destruct (lookup d n) as [own|]; [|destruct b; discriminate].
      destruct (fit_transform e' X y own) as [X'|].
      + specialize (IH X' y). destruct (run_steps (s :: r) d X' y) as [cs o]. cbn [fst] in *.
        destruct b as [|c0 b]; [destruct Hc|]. cbn [app] in E. injection E as <- E. destruct Hc as [<-|Hc]; [exact Hn|]. eapply IH; eauto.
      + cbn [fst] in E. destruct b as [|? [|]]; try discriminate. destruct Hc.
  Qed.

  (** A successful fit with weights: the last call is the one to the last step, it has the weights, and no other call goes there. *)
  Lemma weights_delivered steps name e (w : V) arguments X y : proper_names (map fst steps ++ [name]) -> ~ ends_with "_" name -> NoDup (keys arguments) ->
    snd (mizar_fit (steps ++ [(name, Some e)]) X y (Some w) arguments) = Ok tt ->
    exists before c, fst (mizar_fit (steps ++ [(name, Some e)]) X y (Some w) arguments) = before ++ [c] /\ to_step c = name /\
      argument c "sample_weight" w /\ (forall c', In c' before -> to_step c' <> name).
  Proof.
    intros Hp Hu Ha H. rewrite weights_key in *. unfold pipeline_fit in *.
    assert (Hs : split_dunder (name ++ "__sample_weight") = (name, Some "sample_weight"%string)).
    { apply (split_join name "sample_weight"); [|exact Hu]. apply split_none. apply Hp. apply in_app_iff. right. now left. }
    assert (Hv : valid_names (map fst (steps ++ [(name, Some e)])) = true) by (rewrite map_app; now apply valid_names_spec).
    rewrite Hv in *. unfold sort_arguments in *.
    assert (Hi : In name (keys (map (fun s : step => (fst s, @nil (string * V))) (steps ++ [(name, Some e)])))).
    { rewrite keys_start, map_app. apply in_app_iff. right. now left. }
    pose proof (sort_set arguments _ name "sample_weight" w _ Ha Hs Hi) as Hz. unfold Wrap_Model.step in Hz, H |- *.
    rewrite Hz in H |- *. clear Hz. destruct (foldM sort_argument _ arguments) as [d|] eqn:Ed; [|discriminate].
    assert (Hn : ~ In name (map fst steps)).
    { destruct Hp as [Hn _]. apply NoDup_app_iff in Hn. destruct Hn as (_ & _ & Hn). intros Hx. exact (Hn name Hx (or_introl eq_refl)). }
    assert (Hk : forall n, In n (map fst steps ++ [name]) -> In n (keys (give d name "sample_weight" w))).
    { intros n Hx. rewrite keys_give, (sort_keys _ _ _ Ed), keys_start, map_app. exact Hx. }
    destruct (run_last steps name e _ X y Hk H) as (b & c & Eb & Ec). exists b, c. split; [exact Eb|]. split; [exact Ec|].
    split; [|intros; eapply run_to_last; eauto].
    rewrite (run_give steps name (Some e) d "sample_weight" w Hn X y) in Eb.
    assert (Hc : In c (map (with_argument name "sample_weight" w) (fst (run_steps (steps ++ [(name, Some e)]) d X y)))) by (rewrite Eb; apply in_app_iff; right; now left).
    apply in_map_iff in Hc. destruct Hc as (c0 & <- & _). apply with_argument_given. now rewrite with_argument_step in Ec.
  Qed.

  (** A last step whose name ends in an underscore never receives the weights: they are taken for another step's. *)
  Lemma weights_misdirected steps m e (w : V) arguments X y : proper_names (map fst steps ++ [(m ++ "_")%string]) -> ~ In m (map fst steps) ->
    fst (mizar_fit (steps ++ [((m ++ "_")%string, e)]) X y (Some w) arguments) = [] /\
    exists ex, snd (mizar_fit (steps ++ [((m ++ "_")%string, e)]) X y (Some w) arguments) = Err ex.
  Proof.
    intros Hp Hm. rewrite weights_key. unfold pipeline_fit, sort_arguments.
    assert (Hs : split_dunder ((m ++ "_") ++ "__sample_weight") = (m, Some "_sample_weight"%string)).
    { apply (split_trailing m "sample_weight"). apply split_none. apply Hp. apply in_app_iff. right. now left. }
    set (k := ((m ++ "_") ++ "__sample_weight")%string) in *.
    assert (Hi : ~ In m (keys (map (fun s : step => (fst s, @nil (string * V))) (steps ++ [((m ++ "_")%string, e)])))).
    { rewrite keys_start, map_app, in_app_iff. intros [Hx|[Hx|[]]]; [contradiction|]. cbn in Hx. apply (f_equal String.length) in Hx.
      clear -Hx. induction m as [|c m IH]; cbn in Hx; [discriminate|]. injection Hx as Hx. auto. }
    assert (Hin : In (k, w) (set_key arguments k w)).
    { clear. induction arguments as [|[a x] l IH]; cbn [set_key]; [now left|]. destruct (String.eqb_spec a k); [subst; now left|now right]. }
    assert (HE : forall l (d : dict (dict V)), In (k, w) l -> ~ In m (keys d) -> exists ex, foldM sort_argument d l = Err ex).
    { clear -Hs. induction l as [|[a x] l IH]; intros d Hin Hd; [destruct Hin|]. cbn [foldM]. destruct Hin as [Hx|Hin].
      - injection Hx as -> ->. rewrite sort_eq, Hs. destruct (lookup d m) as [own|ex] eqn:E.
        + exfalso. apply Hd, lookup_in. eauto.
        + cbn [bind]. eauto.
      - destruct (sort_argument d (a, x)) as [d'|ex] eqn:E; cbn [bind]; [|eauto]. apply IH; [exact Hin|].
        assert (Ek : keys d' = keys d) by (apply (sort_keys [(a, x)] d d'); cbn [foldM]; rewrite E; reflexivity). now rewrite Ek. }
    destruct (HE _ _ Hin Hi) as [ex Hz]. unfold Wrap_Model.step in Hz |- *. rewrite Hz. split; [reflexivity|]. now exists ex.
  Qed.
End Fit.
