(** Proofs about the frames of the combinatorial backtest: the theorems. *)
From Coq Require Import String Sorting.Permutation QArith.
From Verif Require Import Prelude PreludeFacts Num Series Pipe_Model Pipe_Spec Pipe_Proofs2 CV_Spec CV_Model CV_Proofs3 Paths_Model Paths_Spec Paths_Proofs.
Local Open Scope nat_scope.

Lemma row_max_is_max (probs : list (ext Q)) m : row_max probs = Ok m -> is_max probs m.
Proof.
  destruct probs as [|x r]; [discriminate|]. intros E. inversion E; subst m. destruct r as [|z r]; [|exact (max_ok (x :: z :: r) ltac:(cbn; lia))].
  cbn. split; [intros [->|[]]; reflexivity|]. intros Hn. split; [now left|]. intros u [<-|[]]. apply eleb_Q_refl. intros ->. apply Hn. now left.
Qed.

Lemma column_found cols name : forall k, NoDup cols -> nth_error cols k = Some name -> column_position cols name = Ok k.
Proof.
  induction cols as [|a cols IH]; intros [|k] Hd Hk; try discriminate; cbn in Hk |- *.
  - inversion Hk; subst. now rewrite String.eqb_refl.
  - inversion Hd; subst. destruct (String.eqb_spec a name) as [->|]; [exfalso; apply nth_error_In in Hk; contradiction|]. now rewrite (IH k).
Qed.

Section C86.
  Context {S : Type}.
  Variables (groups tests : Z) (pred : list Z) (ev : list (option Z)) (emb : Z) (c : cv).
  Variables (p : signal_pipeline Q S) (st0 : S) (X y : frame Q) (name : string) (label : nat) (order : nat -> nat -> nat -> list nat).
  Notation n := (List.length (rows X)).
  Hypothesis Hmk : make_cv groups tests (Some pred) (Some ev) emb = Ok c.
  Hypothesis Hn : (groups <= Z.of_nat n)%Z.
  Hypothesis Hp : List.length pred = n.
  Hypothesis He : List.length ev = n.
  Hypothesis Hs : non_decreasing pred.
  Hypothesis Huse : usable p.
  Hypothesis Hy : List.length (rows y) = n.
  Hypothesis Hcols : NoDup (columns y).
  Hypothesis Hname : nth_error (columns y) label = Some name.
  Hypothesis Hord : shuffles order.

  Lemma Hlab : column_position (columns y) name = Ok label.
  Proof. now apply column_found. Qed.
  Lemma by_position_perm i k l : Permutation (by_position order i k l) l.
  Proof. apply permute_perm. apply Hord. Qed.

  Lemma frames_rel : exists ss, split c n = Ok ss /\ (forall train test, In (train, test) ss -> (forall i, In i train -> i < n /\ ~ In i test) /\ (forall i, In i test -> i < n)) /\
    ((exists e, cv_paths c n (by_position order) = Err e /\ path_frames c p st0 X y name order = Err e) \/
     (exists paths frames, cv_paths c n (by_position order) = Ok paths /\ path_frames c p st0 X y name order = Ok frames /\ Forall2 (path_of p X y label ss st0) paths frames)).
  Proof.
    assert (H4 : exists ss, split c n = Ok ss /\ forall train test, In (train, test) ss -> increasing test /\ (forall i, In i train -> i < n /\ ~ In i test) /\ (forall i, In i test -> i < n) /\ (ends_after_start pred ev -> increasing train)) by (eapply c04; eauto). destruct H4 as (ss & Ess & H4). exists ss. split; [exact Ess|]. split.
    { intros train test Hin. destruct (H4 train test Hin) as (_ & H1 & H2 & _). auto. }
    apply path_frames_rel; auto using Hlab. intros train test Hin. destruct (H4 train test Hin) as (_ & H1 & H2 & _). split; [|exact H2]. intros i Hi. now apply H1.
  Qed.

  Lemma frames_fail : (Z.of_nat (choose (Z.to_nat groups) (Z.to_nat tests)) < 2 ^ 53)%Z -> (2 <= tests <= groups - 2)%Z ->
    path_frames c p st0 X y name order = Err IndexError \/ path_frames c p st0 X y name order = Err OverflowError.
  Proof.
    intros H1 H2. destruct frames_rel as (ss & _ & _ & HF).
    pose proof (c11_fail groups tests pred ev emb c n Hmk Hn Hp He Hs (by_position order) by_position_perm H1 H2) as HC.
    destruct HF as [(e & E1 & E2)|(paths & frames & E1 & _)]; [rewrite E2; rewrite E1 in HC; destruct HC as [H|H]; inversion H; auto|].
    rewrite E1 in HC. destruct HC as [H|H]; inversion H.
  Qed.

  Hypothesis Hsmall : (groups < 2 ^ 53)%Z.
  Hypothesis Hk : tests = 1%Z \/ tests = (groups - 1)%Z.

  Lemma frames_ok : exists ss paths frames, split c n = Ok ss /\
    (forall train test, In (train, test) ss -> (forall i, In i train -> i < n /\ ~ In i test) /\ (forall i, In i test -> i < n)) /\
    path_frames c p st0 X y name order = Ok frames /\ List.length frames = choose (Z.to_nat groups - 1) (Z.to_nat tests - 1) /\
    Forall2 (path_of p X y label ss st0) paths frames /\ (forall path, In path paths -> Permutation (map snd (path_predictions path)) (seq 0 n)).
  Proof.
    destruct (c11_ok groups tests pred ev emb c n Hmk Hn Hp He Hs (by_position order) by_position_perm Hsmall Hk) as (ss & paths & E1 & E2 & L & HP & _).
    destruct frames_rel as (ss' & E1' & Hr & HF). rewrite E1 in E1'. inversion E1'; subst ss'.
    destruct HF as [(e & E3 & _)|(paths' & frames & E3 & E4 & HF)]; rewrite E2 in E3; [discriminate|]. inversion E3; subst paths'.
    exists ss, paths, frames. split; [exact E1|]. split; [exact Hr|]. split; [exact E4|]. split; [now rewrite <- (Forall2_len _ _ _ HF)|]. auto.
  Qed.

  Lemma In_frames {U V} (R : U -> V -> Prop) l1 l2 b : Forall2 R l1 l2 -> In b l2 -> exists a, In a l1 /\ R a b.
  Proof.
    induction 1 as [|a b' l1 l2 Hab H IH]; [intros []|]. intros [<-|Hb]; [exists a; split; [now left|exact Hab]|].
    destruct (IH Hb) as (a' & H1 & H2). exists a'. split; [now right|exact H2].
  Qed.

  Lemma c86_rows : exists ss frames, split c n = Ok ss /\ path_frames c p st0 X y name order = Ok frames /\
    List.length frames = choose (Z.to_nat groups - 1) (Z.to_nat tests - 1) /\
    forall f t prediction largest cells, In f frames -> In (t, (prediction, largest, cells)) f ->
      exists i j s train test block probabilities, nth_error (index X) i = Some t /\
        nth_error ss j = Some (train, test) /\ In i test /\ ~ In i train /\ incl block test /\
        fitted p X y label ss st0 j s /\ says p s X block i prediction probabilities /\ is_max probabilities largest /\ labels_at y t cells.
  Proof.
    destruct frames_ok as (ss & paths & frames & E1 & Hr & E4 & L & HF & HP). exists ss, frames. split; [exact E1|]. split; [exact E4|]. split; [exact L|].
    intros f t pr mp cells Hf Hin. destruct (In_frames _ _ _ _ HF Hf) as (path & Hpath & Hof).
    destruct (path_row_origin _ _ _ _ _ _ _ _ _ _ _ _ Hof Hin) as (i & j & s & train & test & block & probs & _ & H1 & H2 & H3 & H4 & H5 & H6 & H7 & H8).
    exists i, j, s, train, test, block, probs. split; [exact H1|]. split; [exact H2|]. split; [exact H3|]. split.
    { intros Hi. destruct (Hr train test (nth_error_In _ _ H2)) as (Hr' & _). now apply Hr' in Hi. }
    split; [exact H4|]. split; [exact H5|]. split; [exact H6|]. split; [now apply row_max_is_max|exact H8].
  Qed.

  Lemma c86_squares : index y = index X -> exists frames, path_frames c p st0 X y name order = Ok frames /\
    List.length frames = choose (Z.to_nat groups - 1) (Z.to_nat tests - 1) /\
    forall f t, In f frames -> occurrences t (map fst f) = occurrences t (index X) * occurrences t (index X).
  Proof.
    intros Hix. destruct frames_ok as (ss & paths & frames & E1 & Hr & E4 & L & HF & HP). exists frames. split; [exact E4|]. split; [exact L|].
    intros f t Hf. destruct (In_frames _ _ _ _ HF Hf) as (path & Hpath & Hof). eapply path_squares; eauto.
  Qed.

  Lemma c86_once : index y = index X -> NoDup (index X) -> exists frames, path_frames c p st0 X y name order = Ok frames /\
    List.length frames = choose (Z.to_nat groups - 1) (Z.to_nat tests - 1) /\
    forall f, In f frames -> Permutation (map fst f) (index X) /\
      forall t values, In (t, values) f -> exists i, nth_error (rows y) i = Some (t, snd values) /\ nth_error (index X) i = Some t.
  Proof.
    intros Hix Hnd. destruct (c86_squares Hix) as (frames & E & L & HS). exists frames. split; [exact E|]. split; [exact L|]. intros f Hf. split.
    - apply (Permutation_count_occ Z.eq_dec). intros t. specialize (HS f t Hf). unfold occurrences in HS. rewrite HS.
      pose proof (proj1 (NoDup_count_occ Z.eq_dec (index X)) Hnd t) as H1. 
      generalize dependent (count_occ Z.eq_dec (index X) t). intros x _ Hx. destruct x as [|[|x]]; [reflexivity|reflexivity|lia].
    - intros t [[pr mp] cells] Hin. destruct c86_rows as (ss & frames' & _ & E' & _ & HR). rewrite E in E'. inversion E'; subst frames'.
      destruct (HR f t pr mp cells Hf Hin) as (i & _ & _ & _ & _ & _ & _ & Hi & _ & _ & _ & _ & _ & _ & _ & Hl).
      destruct Hl as [Hl|(Hl & _)]; [|exfalso; apply Hl; rewrite Hix; now apply nth_error_In in Hi].
      apply In_nth_error in Hl. destruct Hl as (i' & Hi'). exists i'. split; [exact Hi'|]. rewrite <- Hix. unfold index. now rewrite nth_error_map, Hi'.
  Qed.
  Lemma c86_repeated : index y = index X -> ~ NoDup (index X) -> exists frames, path_frames c p st0 X y name order = Ok frames /\
    List.length frames = choose (Z.to_nat groups - 1) (Z.to_nat tests - 1) /\
    forall f, In f frames -> ~ Permutation (map fst f) (index X).
  Proof.
    intros Hix Hnd. destruct (c86_squares Hix) as (frames & E & L & HS). exists frames. split; [exact E|]. split; [exact L|]. intros f Hf HP. apply Hnd.
    apply (NoDup_count_occ Z.eq_dec). intros t. specialize (HS f t Hf). unfold occurrences in HS.
    rewrite (proj1 (Permutation_count_occ Z.eq_dec _ _) HP t) in HS. generalize dependent (count_occ Z.eq_dec (index X) t). intros x Hx.
    destruct x as [|[|x]]; [lia|lia|]. cbn in Hx. exfalso. lia.
  Qed.
End C86.

Lemma frames_no_label {S} c (p : signal_pipeline Q S) st0 X y name order : ~ In name (columns y) -> path_frames c p st0 X y name order = Err KeyError.
Proof.
  intros H. unfold path_frames. assert (E : column_position (columns y) name = Err KeyError); [|now rewrite E].
  induction (columns y) as [|a l IH]; [reflexivity|]. cbn. destruct (String.eqb_spec a name) as [->|]; [exfalso; apply H; now left|].
  rewrite IH; [reflexivity|]. intros Hi. apply H. now right.
Qed.
