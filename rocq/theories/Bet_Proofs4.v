(** Bet sizing: what is rejected, and how. *)
From Coq Require Import Reals String.
From Verif Require Import Series Weights_Model Bet_Model Bet_Spec.
Local Open Scope nat_scope.

Lemma known_side_spec r : known_side r = true <-> exists v, b_side r = Fin v /\ sign_value v.
Proof.
  unfold known_side, sign_value. destruct (b_side r) as [v| | |]; cbn; (split; [|intros (w & E & H); try discriminate E]).
  - intros H. exists v. split; [reflexivity|]. rewrite !Bool.orb_true_iff in H.
    destruct H as [[H|H]|H]; (destruct (Req_EM_T v _) as [E|]; [|discriminate H]); auto.
  - injection E as <-. rewrite !Bool.orb_true_iff. destruct H as [H|[H|H]]; subst; [left; left|left; right|right]; (destruct (Req_EM_T _ _); [reflexivity|congruence]).
  - discriminate.
  - discriminate.
  - discriminate.
Qed.
Lemma bet_no_probability cdf c X : has_prob X = false \/ has_pred X = false -> bet_transform cdf c X = Err AssertionError.
Proof.
  intros H. unfold bet_transform, bet_transform_. replace (has_prob X && has_pred X)%bool with false by (destruct H as [-> | ->]; [reflexivity|now destruct (has_prob X)]). reflexivity.
Qed.
Ltac start H1 H2 N := unfold bet_transform, bet_transform_; rewrite H1, H2; cbn [andb negb raise_if bind]; rewrite (proj2 (PeanoNat.Nat.eqb_neq _ _) N); cbn [raise_if bind].
Lemma bet_no_side cdf c X : has_prob X = true -> has_pred X = true -> num_classes c <> 0 -> meta_labeling c = true -> has_side X = false ->
  bet_transform cdf c X = Err KeyError.
Proof. intros H1 H2 N M S. start H1 H2 N. rewrite M, S. reflexivity. Qed.
Lemma bet_wrong_side cdf c X r : has_prob X = true -> has_pred X = true -> num_classes c <> 0 -> meta_labeling c = true -> has_side X = true ->
  In r (b_rows X) -> ~ (exists v, b_side r = Fin v /\ sign_value v) -> bet_transform cdf c X = Err AssertionError.
Proof.
  intros H1 H2 N M S I B. start H1 H2 N. rewrite M, S. cbn [negb raise_if bind]. replace (forallb known_side (b_rows X)) with false; [reflexivity|].
  symmetry. apply Bool.not_true_is_false. intros F. rewrite forallb_forall in F. specialize (F r I). apply known_side_spec in F. contradiction.
Qed.
Definition sides_fine (c : bet_cfg) (X : bframe) : Prop :=
  meta_labeling c = true -> has_side X = true /\ forall r, In r (b_rows X) -> exists v, b_side r = Fin v /\ sign_value v.
Lemma bet_averaging cdf c X : has_prob X = true -> has_pred X = true -> num_classes c <> 0 -> sides_fine c X -> average_active c = true ->
  has_end X = false \/ bet_size_column_name c <> "bet_size"%string -> bet_transform cdf c X = Err KeyError.
Proof.
  intros H1 H2 N S A E. start H1 H2 N.
  assert (K : forall bets : list (brow * ext R), exists k, (if meta_labeling c then
       do _ <- raise_if (negb (has_side X)) KeyError ;;
       do _ <- raise_if (negb (forallb known_side (b_rows X))) AssertionError ;;
       Ok (map (fun p => (fst p, emul (snd p) (b_side (fst p)))) bets)
     else Ok bets) = Ok k).
  { intros bets. destruct (meta_labeling c) eqn:M; [|eexists; reflexivity]. destruct (S M) as [S1 S2]. rewrite S1. cbn [negb raise_if bind].
    replace (forallb known_side (b_rows X)) with true; [eexists; reflexivity|]. symmetry. apply forallb_forall. intros r I. now apply known_side_spec, S2. }
  match goal with |- context [map ?f (b_rows X)] => destruct (K (map f (b_rows X))) as [k ->] end. cbn [bind]. rewrite A.
  destruct (has_end X) eqn:He; [|reflexivity]. cbn [negb raise_if bind]. destruct E as [E|E]; [discriminate|].
  destruct (String.eqb_spec (bet_size_column_name c) "bet_size"); [contradiction|]. reflexivity.
Qed.
Lemma bet_zero_classes cdf c X : has_prob X = true -> has_pred X = true -> num_classes c = 0 -> bet_transform cdf c X = Err ZeroDivisionError.
Proof. intros H1 H2 N. unfold bet_transform, bet_transform_. now rewrite H1, H2, N. Qed.
