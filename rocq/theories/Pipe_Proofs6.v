(** The signals do not look ahead. *)
From Coq Require Import String.
From Verif Require Import Prelude PreludeFacts Num Pipe_Model Pipe_Spec Pipe_Proofs1 Pipe_Proofs2 Pipe_Proofs3 Pipe_Proofs4 Pipe_Proofs5.
Open Scope nat_scope.

Section Lookahead.
  Context {A : Type} {HA : Arith A}.
  Notation cell := (ext A).

  (** * The features agree *)
  Lemma agree_lookup T (d d' : dict (frame A)) k f : agree_dict T d d' -> lookup d k = Ok f -> exists f', lookup d' k = Ok f' /\ agree T f f'.
  Proof.
    intros H. induction H as [|[k1 f1] [k2 f2] d d' (E & Ha) Hd IH]; cbn; [discriminate|]. cbn in E, Ha. subst k2.
    destruct (String.eqb k1 k); [intros [= <-]; now exists f2|exact IH].
  Qed.

  Lemma run_transformers_agree T (X X' : dict (frame A)) ts d d' : causal_transformers ts -> agree_dict T X X' ->
    run_transformers ts X = Ok d -> run_transformers ts X' = Ok d' -> agree_dict T d d'.
  Proof.
    unfold run_transformers. intros Hc Ha. revert d d'. induction ts as [|[k tr] ts IH]; intros d d' H H'; cbn [mapM fst snd] in H, H'.
    - injection H as <-. injection H' as <-. constructor.
    - destruct (lookup X k) as [f|] eqn:Ef; [|discriminate]. destruct (agree_lookup T X X' k f Ha Ef) as (f' & Ef' & Hf). rewrite Ef' in H'. cbn [bind] in H, H'.
      destruct (match tr with Some tr => tr f | None => Ok f end) as [g|] eqn:Eg; [|discriminate]. destruct (match tr with Some tr => tr f' | None => Ok f' end) as [g'|] eqn:Eg'; [|discriminate]. cbn [bind] in H, H'.
      destruct (mapM _ ts) as [r|] eqn:Er in H; [|discriminate]. destruct (mapM _ ts) as [r'|] eqn:Er' in H'; [|discriminate]. injection H as <-. injection H' as <-.
      constructor; [|apply IH; [intros key t' Ht; apply (Hc key); now right|exact Er|exact Er']]. cbn [fst snd]. split; [reflexivity|].
      destruct tr as [tr|]; [|congruence]. exact (Hc k tr (or_introl eq_refl) T f f' g g' Hf Eg Eg').
  Qed.

  Lemma upto_index T (f f' : frame A) : agree T f f' -> filter (fun t => (t <=? T)%Z) (index f) = filter (fun t => (t <=? T)%Z) (index f').
  Proof.
    intros (_ & H). assert (E : forall g : frame A, filter (fun t => (t <=? T)%Z) (index g) = map fst (upto T (rows g))); [|now rewrite !E, H].
    intros g. unfold index, upto. induction (rows g) as [|r l IH]; [reflexivity|]. cbn. destruct (fst r <=? T)%Z; cbn; now rewrite IH.
  Qed.

  Lemma align_dict_agree T (p : pipeline A) al al' d d' e e' : increasingZ al -> increasingZ al' -> after_1700 al -> after_1700 al' ->
    filter (fun t => (t <=? T)%Z) al = filter (fun t => (t <=? T)%Z) al' -> agree_dict T d d' ->
    align_dict p al d = Ok e -> align_dict p al' d' = Ok e' -> agree_dict T e e'.
  Proof.
    intros I I' F F' Hal Hd. unfold align_dict. revert e e'. induction Hd as [|[k f] [k' f'] d d' (Ek & Hc & Hr) Hd IH]; intros e e' H H'; cbn [mapM] in H, H'.
    - injection H as <-. injection H' as <-. constructor.
    - cbn [fst snd] in *. subst k'.
      match type of H with bind ?c _ = _ => destruct c as [x|] eqn:Ex; [|discriminate] end. match type of H' with bind ?c _ = _ => destruct c as [x'|] eqn:Ex'; [|discriminate] end. cbn [bind] in H, H'.
      destruct (mapM _ d) as [r|] eqn:Er in H; [|discriminate]. destruct (mapM _ d') as [r'|] eqn:Er' in H'; [|discriminate]. injection H as <-. injection H' as <-.
      constructor; [|now apply IH]. destruct (String.eqb k (align_on p)).
      + injection Ex as <-. injection Ex' as <-. cbn. split; [reflexivity|now split].
      + destruct (align_frame _ k al f) as [g|] eqn:Eg; [|discriminate]. destruct (align_frame _ k al' f') as [g'|] eqn:Eg'; [|discriminate]. injection Ex as <-. injection Ex' as <-. cbn.
        split; [reflexivity|]. split.
        * destruct (align_frame_upto _ _ _ T _ _ I F Eg) as (-> & _). destruct (align_frame_upto _ _ _ T _ _ I' F' Eg') as (-> & _). exact Hc.
        * now apply (align_no_lookahead (align_how p) k al al' T f f' g g').
  Qed.

  Lemma features_agree T (p : pipeline A) X X' P M P' M' : causal_transformers (primary_transformers p) -> causal_transformers (meta_transformers p) ->
    sorted_lead p X -> sorted_lead p X' -> agree_dict T X X' -> features_of p X = Ok (P, M) -> features_of p X' = Ok (P', M') -> agree_dict T P P' /\ agree_dict T M M'.
  Proof.
    intros C1 C2 S S' Ha H H'. unfold features_of in H, H'. destruct (transform p X) as [[P0 M0]|] eqn:Et; [|discriminate]. destruct (transform p X') as [[P0' M0']|] eqn:Et'; [|discriminate].
    cbn [bind] in H, H'.
    assert (H0 : agree_dict T P0 P0' /\ agree_dict T M0 M0').
    { pose proof Et as Ft. pose proof Et' as Ft'. unfold transform in Ft, Ft'. destruct (raise_if _ _) as [u1|] in Ft; [|discriminate]. destruct (raise_if _ _) as [u2|] in Ft'; [|discriminate]. cbn [bind] in Ft, Ft'.
      destruct (run_transformers (primary_transformers p) X) as [a|] eqn:E1; [|discriminate]. destruct (run_transformers (meta_transformers p) X) as [b|] eqn:E2; [|discriminate].
      destruct (run_transformers (primary_transformers p) X') as [a'|] eqn:E1'; [|discriminate]. destruct (run_transformers (meta_transformers p) X') as [b'|] eqn:E2'; [|discriminate].
      injection Ft as <- <-. injection Ft' as <- <-. split; [exact (run_transformers_agree T X X' _ _ _ C1 Ha E1 E1')|exact (run_transformers_agree T X X' _ _ _ C2 Ha E2 E2')]. }
    unfold align in H, H'. destruct (String.eqb (align_on p) ""); [injection H as <- <-; injection H' as <- <-; exact H0|]. cbn [fst snd] in H, H'.
    destruct (lookup P0 (align_on p)) as [lead|] eqn:El; [|discriminate]. destruct (agree_lookup T P0 P0' _ lead (proj1 H0) El) as (lead' & El' & Hl). rewrite El' in H'. cbn [bind] in H, H'.
    destruct (S P0 M0 lead Et El) as (I & F). destruct (S' P0' M0' lead' Et' El') as (I' & F').
    destruct (align_dict p (index lead) P0) as [a|] eqn:E1; [|discriminate]. cbn [bind] in H. destruct (align_dict p (index lead) M0) as [b|] eqn:E2; [|discriminate].
    destruct (align_dict p (index lead') P0') as [a'|] eqn:E1'; [|discriminate]. cbn [bind] in H'. destruct (align_dict p (index lead') M0') as [b'|] eqn:E2'; [|discriminate].
    injection H as <- <-. injection H' as <- <-. pose proof (upto_index T lead lead' Hl) as Hi. split.
    - exact (align_dict_agree T p _ _ _ _ _ _ I I' F F' Hi (proj1 H0) E1 E1').
    - exact (align_dict_agree T p _ _ _ _ _ _ I I' F F' Hi (proj2 H0) E2 E2').
  Qed.

  (** * At one time *)
  Lemma agree_In T (f f' : frame A) t r : agree T f f' -> (t <= T)%Z -> In (t, r) (rows f) <-> In (t, r) (rows f').
  Proof.
    intros (_ & H) Ht. assert (E : forall g : frame A, In (t, r) (rows g) <-> In (t, r) (upto T (rows g))); [|now rewrite E, H, <- E].
    intros g. unfold upto. rewrite filter_In. cbn. rewrite Z.leb_le. tauto.
  Qed.
  Lemma complete_agree T (f f' : frame A) t : agree T f f' -> (t <= T)%Z -> complete_at t f <-> complete_at t f'.
  Proof. intros H Ht. unfold complete_at. split; intros (r & H1 & H2); exists r; (split; [|exact H2]); now apply (agree_In T f f' t r H Ht). Qed.
  Lemma agree_map_snd T (d d' : dict (frame A)) : agree_dict T d d' -> Forall2 (agree T) (map snd d) (map snd d').
  Proof. intros H. induction H as [|? ? ? ? (_ & H)]; constructor; assumption. Qed.
  Lemma complete_all_agree T l l' t : Forall2 (agree T) l l' -> (t <= T)%Z -> Forall (complete_at t) l <-> Forall (complete_at (A := A) t) l'.
  Proof.
    intros H Ht. induction H as [|f f' l l' Hf Hl IH]; [split; constructor|]. rewrite !Forall_cons_iff, IH, (complete_agree T f f' t Hf Ht). reflexivity.
  Qed.
  Lemma made_of_unique (l : list (frame A)) t r r' : Forall (fun f => NoDup (index f)) l -> made_of l t r -> made_of l t r' -> r = r'.
  Proof.
    intros Hn (a & -> & Ha) (b & -> & Hb). f_equal. revert b Hb Hn. induction Ha as [|f x l a Hx Ha IH]; intros b Hb Hn; inversion Hb as [|? y ? b' Hy Hb']; subst; [reflexivity|].
    inversion Hn as [|? ? N1 N2]; subst. f_equal; [exact (NoDup_key_eq _ _ _ _ N1 Hx Hy)|now apply IH].
  Qed.
  Lemma made_of_agree T l l' t r : Forall2 (agree T) l l' -> (t <= T)%Z -> made_of l t r -> made_of (A := A) l' t r.
  Proof.
    intros H Ht (a & -> & Ha). exists a. split; [reflexivity|]. revert a Ha. induction H as [|f f' l l' Hf Hl IH]; intros a Ha; inversion Ha as [|? x ? a' Hx Ha']; subst; constructor; [|now apply IH].
    now apply (agree_In T f f' t x Hf Ht).
  Qed.
  Lemma good_NoDup (d : dict (frame A)) : good_frames d -> Forall (fun f => NoDup (index f)) (map snd d).
  Proof. intros H. eapply Forall_impl; [|exact H]. cbn. tauto. Qed.

  Lemma complete_rows_agree T l l' Xp Xp' t r : Forall2 (agree T) l l' -> (t <= T)%Z -> Forall (fun f : frame A => NoDup (index f)) l' -> complete_rows l Xp -> complete_rows l' Xp' ->
    In (t, r) (rows Xp) -> In (t, r) (rows Xp').
  Proof.
    intros H Ht Hn (N & I & R) (N' & I' & R') Hr. assert (Hi : In t (index Xp')).
    { apply I'. apply (complete_all_agree T l l' t H Ht). apply I. now apply (in_map fst) in Hr. }
    apply In_key in Hi. destruct Hi as (r' & Hr'). assert (r = r') as ->; [|exact Hr'].
    apply (made_of_unique l' t); [exact Hn|apply (made_of_agree T l l' t r H Ht), R, Hr|apply R', Hr'].
  Qed.

  Lemma agree_sym T (f f' : frame A) : agree T f f' -> agree T f' f. Proof. intros (H1 & H2). split; congruence. Qed.

  (** What a row-wise method says at a time is a function of the row. *)
  Lemma said_rowwise {V} (method : model A -> list (list cell) -> result (list V)) (h : list cell -> V) m pm (X : frame A) t x :
    m = Some pm -> (forall rs v, method pm rs = Ok v -> v = map h rs) -> said method m X t x -> exists row, In (t, row) (rows X) /\ x = h row.
  Proof.
    intros Hm Hh (pm' & vs & i & E & Ev & Ht & Hx). rewrite Hm in E. injection E as <-. rewrite (Hh _ _ Ev), map_map, nth_error_map in Hx.
    unfold index in Ht. rewrite nth_error_map in Ht. destruct (nth_error (rows X) i) as [[u row]|] eqn:En; [|discriminate]. cbn in Ht, Hx. injection Ht as ->. injection Hx as <-.
    exists row. split; [exact (nth_error_In _ _ En)|reflexivity].
  Qed.
  Lemma said_transfer {V} (method : model A -> list (list cell) -> result (list V)) (h : list cell -> V) m pm (X X' : frame A) t x :
    m = Some pm -> (forall rs v, method pm rs = Ok v -> v = map h rs) -> NoDup (index X') -> (forall r, In (t, r) (rows X) -> In (t, r) (rows X')) ->
    (forall u, In u (index X') -> exists y, said method m X' u y) -> said method m X t x -> said method m X' t x.
  Proof.
    intros Hm Hh Hn Hsub Hall Hx. destruct (said_rowwise method h m pm X t x Hm Hh Hx) as (row & Hr & ->). apply Hsub in Hr.
    assert (Ht : In t (index X')) by (now apply (in_map fst) in Hr). destruct (Hall t Ht) as (y & Hy).
    destruct (said_rowwise method h m pm X' t y Hm Hh Hy) as (row' & Hr' & ->). now rewrite (NoDup_key_eq _ _ _ _ Hn Hr Hr').
  Qed.
  Lemma said_unique {V} (method : model A -> list (list cell) -> result (list V)) m (X : frame A) t x y : NoDup (index X) -> said method m X t x -> said method m X t y -> x = y.
  Proof.
    intros Hn (m1 & v1 & i1 & E1 & F1 & G1 & H1) (m2 & v2 & i2 & E2 & F2 & G2 & H2). rewrite E1 in E2. injection E2 as <-. rewrite F1 in F2. injection F2 as <-.
    assert (i1 = i2) as ->; [|congruence]. apply (proj1 (NoDup_nth_error (index X)) Hn); [apply nth_error_Some; congruence|congruence].
  Qed.

  (** * The signal *)
  Lemma side_size_transfer T (p : pipeline A) X X' df df' t row :
    causal_transformers (primary_transformers p) -> causal_transformers (meta_transformers p) ->
    (forall m, primary_model p = Some m -> rowwise m) -> (forall m, metalabeling_model p = Some m -> rowwise m) -> (forall s, bet_sizer p = Some s -> rowwise_sizer s) ->
    sorted_lead p X -> sorted_lead p X' ->
    (forall P M, features_of p X = Ok (P, M) -> good_frames P /\ good_frames M) -> (forall P M, features_of p X' = Ok (P, M) -> good_frames P /\ good_frames M) ->
    agree_dict T X X' -> get_side_and_size p X = Ok df -> get_side_and_size p X' = Ok df' -> (t <= T)%Z -> In (t, row) (rows df) -> In (t, row) (rows df').
  Proof.
    intros C1 C2 Rp Rm Rs S S' G G' Ha H H' Ht Hrow.
    assert (Hfo : forall Y d, get_side_and_size p Y = Ok d -> exists P M, features_of p Y = Ok (P, M)).
    { intros Y d Hd. unfold get_side_and_size in Hd. destruct (predict_all p Y); [|discriminate]. cbn [bind] in Hd. unfold predict_proba_all in Hd. destruct (features_of p Y) as [[P M]|]; [|discriminate]. now exists P, M. }
    destruct (Hfo X df H) as (P & M & EF). destruct (Hfo X' df' H') as (P' & M' & EF'). clear Hfo.
    destruct (G P M EF) as (GP & GM). destruct (G' P' M' EF') as (GP' & GM').
    destruct (features_agree T p X X' P M P' M' C1 C2 S S' Ha EF EF') as (AP & AM). apply agree_map_snd in AP, AM.
    destruct (side_and_size_ok p X P M df EF GP (fun _ => GM) H) as (_ & _ & Xp & Xs & sizes & FXp & FXs & Fsz & Tp & Ts & Fdf).
    destruct (side_and_size_ok p X' P' M' df' EF' GP' (fun _ => GM') H') as (_ & _ & Xp' & Xs' & sizes' & FXp' & FXs' & Fsz' & Tp' & Ts' & Fdf').
    apply Fdf in Hrow. destruct Hrow as (side & size & -> & Hn1 & Hn2 & Hside & Hsize). apply Fdf'. exists side, size. split; [reflexivity|]. split; [exact Hn1|]. split; [exact Hn2|].
    assert (HXp : forall r, In (t, r) (rows Xp) -> In (t, r) (rows Xp')).
    { intros r. apply (complete_rows_agree T (map snd P) (map snd P')); auto. now apply good_NoDup. }
    assert (Hpm : exists pm, primary_model p = Some pm) by (destruct Hside as (pm & _ & _ & E & _); now exists pm). destruct Hpm as (pm & Epm).
    destruct (Rp pm Epm) as ((hp & Hhp) & (hq & Hhq)).
    assert (HtXp : In t (index Xp)) by (destruct Hside as (_ & _ & i & _ & _ & Hi & _); exact (nth_error_In _ _ Hi)).
    assert (HtXp' : In t (index Xp')) by (apply In_key in HtXp; destruct HtXp as (r & Hr); apply HXp in Hr; now apply (in_map fst) in Hr).
    assert (Hside' : said predict (primary_model p) Xp' t side) by (apply (said_transfer predict hp _ pm Xp Xp'); auto; apply FXp').
    split; [exact Hside'|].
    (* the deciding model sees the same row *)
    assert (HNXs' : NoDup (index Xs')) by (unfold decider_features in FXs'; destruct (metalabeling_model p); [apply FXs'|subst Xs'; apply FXp']).
    assert (HXs : forall r, In (t, r) (rows Xs) -> In (t, r) (rows Xs')).
    { unfold decider_features in FXs, FXs'. destruct (metalabeling_model p) as [mm|]; [|subst; exact HXp]. cbn [snd] in *.
      destruct FXs as (N & I1 & I2 & R), FXs' as (N' & I1' & I2' & R'). intros r Hr. assert (Hti : In t (index Xs)) by (now apply (in_map fst) in Hr).
      assert (Hti' : In t (index Xs')) by (apply I2'; [exact HtXp'|]; apply (complete_all_agree T _ _ t AM Ht), I1, Hti).
      apply In_key in Hti'. destruct Hti' as (r' & Hr'). assert (r = r') as ->; [|exact Hr'].
      destruct (R t r Hr HtXp) as (b & pr & pb & Mb & -> & Hpr & Hpb). destruct (R' t r' Hr' HtXp') as (b' & pr' & pb' & Mb' & -> & Hpr' & Hpb').
      assert (b = b') as -> by (apply (made_of_unique (map snd M') t); [now apply good_NoDup|now apply (made_of_agree T _ _ t b AM Ht)|exact Mb']).
      assert (pr = pr') as ->.
      { destruct (use_predictions p); [|congruence]. destruct Hpr as (q & -> & Hq), Hpr' as (q' & -> & Hq'). f_equal. apply (said_unique predict (primary_model p) Xp' t); [apply FXp'| |exact Hq'].
        apply (said_transfer predict hp _ pm Xp Xp'); auto; apply FXp'. }
      assert (pb = pb') as ->; [|reflexivity]. destruct (use_proba p); [|congruence].
      destruct (said_rowwise predict_proba hq _ pm Xp t pb Epm Hhq Hpb) as (x & Hx & ->). destruct (said_rowwise predict_proba hq _ pm Xp' t pb' Epm Hhq Hpb') as (x' & Hx' & ->).
      f_equal. apply (NoDup_key_eq (rows Xp') t); [apply FXp'|now apply HXp|exact Hx']. }
    assert (Hdm : exists dm, decider p = Some dm /\ rowwise dm) by (unfold decider; destruct (metalabeling_model p) as [mm|] eqn:E; [exists mm; auto|exists pm; auto]).
    destruct Hdm as (dm & Edm & (_ & (hd & Hhd))).
    assert (Hprob : forall probs, said predict_proba (decider p) Xs t probs -> said predict_proba (decider p) Xs' t probs).
    { intros probs. apply (said_transfer predict_proba hd _ dm Xs Xs'); auto. }
    unfold right_sizes in Fsz, Fsz'. destruct (bet_sizer p) as [sizer|].
    - destruct (Rs sizer eq_refl) as (hs & Hhs). destruct Fsz as (inp & Ei & Ii & Fi), Fsz' as (inp' & Ei' & Ii' & Fi'). apply Hhs in Ei, Ei'. subst sizes sizes'.
      apply in_map_iff in Hsize. destruct Hsize as ([u x] & Hx & Hin). cbn in Hx. injection Hx as -> <-. apply in_map_iff. exists (t, x). split; [reflexivity|].
      assert (Hti' : In t (map fst inp')).
      { rewrite Ii'. assert (Hti : In t (index Xs)) by (rewrite <- Ii; now apply (in_map fst) in Hin). apply In_key in Hti. destruct Hti as (r & Hr). apply HXs in Hr. now apply (in_map fst) in Hr. }
      apply In_key in Hti'. destruct Hti' as (x' & Hx'). assert (x = x') as ->; [|exact Hx'].
      destruct (Fi t x Hin) as (m1 & pr & k & c & D & Sd & Ek & Ec & Ef & El). destruct (Fi' t x' Hx') as (m1' & pr' & k' & c' & D' & Sd' & Ek' & Ec' & Ef' & El').
      rewrite D in D'. injection D' as <-. apply Hprob in Sd. rewrite D in *. assert (pr = pr') as <- by (exact (said_unique predict_proba _ Xs' t _ _ HNXs' Sd Sd')).
      rewrite Ek in Ek'. injection Ek' as <-. rewrite Ec in Ec'. injection Ec' as <-.
      destruct x as [x1 x2], x' as [x1' x2']. cbn in *. f_equal; [congruence|]. destruct (metalabeling_model p); [|congruence].
      destruct El as (sd & -> & Hsd), El' as (sd' & -> & Hsd'). f_equal. apply (said_unique predict (primary_model p) Xp' t); [apply FXp'| |now apply Hsd'].
      apply (said_transfer predict hp _ pm Xp Xp'); auto. apply FXp'.
    - unfold sizes_without_sizer in Fsz, Fsz'. apply Fsz'. apply Fsz in Hsize. destruct Hsize as (m1 & pr & D & Sd & Hz). exists m1, pr. split; [exact D|]. split; [now apply Hprob|exact Hz].
  Qed.

  Lemma agree_dict_sym T (d d' : dict (frame A)) : agree_dict T d d' -> agree_dict T d' d.
  Proof. intros H. induction H as [|? ? ? ? (E & H)]; constructor; [split; [congruence|now apply agree_sym]|assumption]. Qed.

  Theorem signal_no_lookahead T (p : pipeline A) X X' df df' :
    causal_transformers (primary_transformers p) -> causal_transformers (meta_transformers p) ->
    (forall m, primary_model p = Some m -> rowwise m) -> (forall m, metalabeling_model p = Some m -> rowwise m) -> (forall s, bet_sizer p = Some s -> rowwise_sizer s) ->
    sorted_lead p X -> sorted_lead p X' ->
    (forall P M, features_of p X = Ok (P, M) -> good_frames P /\ good_frames M) -> (forall P M, features_of p X' = Ok (P, M) -> good_frames P /\ good_frames M) ->
    agree_dict T X X' -> get_side_and_size p X = Ok df -> get_side_and_size p X' = Ok df' ->
    forall t row, (t <= T)%Z -> (In (t, row) (rows df) <-> In (t, row) (rows df')).
  Proof.
    intros C1 C2 Rp Rm Rs S S' G G' Ha H H' t row Ht. split.
    - exact (side_size_transfer T p X X' df df' t row C1 C2 Rp Rm Rs S S' G G' Ha H H' Ht).
    - exact (side_size_transfer T p X' X df' df t row C1 C2 Rp Rm Rs S' S G' G (agree_dict_sym T X X' Ha) H' H Ht).
  Qed.
End Lookahead.
