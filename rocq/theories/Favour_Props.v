(** C102: the sequential bootstrap favours the samples that overlap little with the draws so far. C18: its number of rounds. *)
From Verif Require Import QSum Boot_Spec Boot_Model Boot_Proofs2 Favour_Spec Favour_Proofs Favour_Proofs2.

(** In each round, with [u] the uniqueness of the samples given the earlier draws: the probabilities are ordered as the
    uniquenesses, and the expected uniqueness of a draw is at least the one of a draw at random, and more unless all
    samples are equally unique. *)
Theorem C102_expected_uniqueness : forall m rng sample_length every sample lg,
  fair_choice rng -> 0 < ncols m -> (0 < every)%Z ->
  seq_bootstrap m rng sample_length every = Ok (sample, lg) ->
  forall k p choices, nth_error lg k = Some (p, choices) ->
    let u := uniqueness_after (nrows m) (entry m) (concat (map snd (firstn k lg))) in
    let us := map u (seq 0 (ncols m)) in
    (forall i j a b, nth_error p i = Some a -> nth_error p j = Some b -> ((a <= b)%Q <-> (u i <= u j)%Q)) /\
    (qmean us <= qdot p us)%Q /\
    ((exists i j, i < ncols m /\ j < ncols m /\ ~ (u i == u j)%Q) -> (qmean us < qdot p us)%Q).
Proof. exact c102_favours. Qed.
Print Assumptions C102_expected_uniqueness.

(** A sample that overlaps with none of the earlier draws is a most likely one: no sample is more likely, the ones that overlap
    with a draw are less likely, and the ones already drawn at most half as likely. *)
Theorem C102_untouched_first : forall m rng sample_length every sample lg,
  fair_choice rng -> 0 < ncols m -> (0 < every)%Z ->
  seq_bootstrap m rng sample_length every = Ok (sample, lg) ->
  forall k p choices, nth_error lg k = Some (p, choices) ->
    let drawn := concat (map snd (firstn k lg)) in
    forall j b, nth_error p j = Some b -> (forall s, In s drawn -> ~ overlap (nrows m) (entry m) s j) ->
    forall i a, nth_error p i = Some a ->
      (a <= b)%Q /\
      ((exists s, In s drawn /\ overlap (nrows m) (entry m) s i) -> (a < b)%Q) /\
      (In i drawn -> rows_of (nrows m) (entry m) i <> [] -> (2 * a <= b)%Q).
Proof. exact c102_untouched. Qed.
Print Assumptions C102_untouched_first.

(** Samples that cover the same rows are equally likely in every round. *)
Theorem C102_same_rows : forall m rng sample_length every sample lg,
  fair_choice rng -> 0 < ncols m -> (0 < every)%Z ->
  seq_bootstrap m rng sample_length every = Ok (sample, lg) ->
  forall k p choices, nth_error lg k = Some (p, choices) ->
    forall i j a b, nth_error p i = Some a -> nth_error p j = Some b ->
      (forall t, t < nrows m -> entry m t i = entry m t j) -> (a == b)%Q.
Proof. exact c102_same_rows. Qed.
Print Assumptions C102_same_rows.

(** Three samples: 0 and 1 share a row, 2 is alone. After sample 0 has been drawn: uniqueness 1/2, 3/4 and 1, probabilities in
    proportion, expected uniqueness 29/36 against 27/36. *)
Definition ex_mat102 : mat :=
  {| nrows := 4; ncols := 3;
     entry := fun t j => match t, j with 0, 0 | 1, 0 | 1, 1 | 2, 1 | 3, 2 => true | _, _ => false end |}.
Definition ex_rng102 (i : nat) (p : list Q) (size : nat) : list nat := repeat (i mod length p) size.
Example C102_case : fair_choice ex_rng102 /\ overlap 4 (entry ex_mat102) 0 1 /\ ~ overlap 4 (entry ex_mat102) 0 2 /\
  match seq_bootstrap ex_mat102 ex_rng102 (Some 2%Z) 1 with
  | Ok (s, lg) => s = [0; 1] /\ map (fun pc => map Qred (fst pc)) lg = [[1 # 3; 1 # 3; 1 # 3]; [2 # 9; 1 # 3; 4 # 9]]%Q
  | Err _ => False
  end /\
  (let us := map (uniqueness_after 4 (entry ex_mat102) [0]) [0; 1; 2] in
   map Qred us = [1 # 2; 3 # 4; 1]%Q /\ Qred (qmean us) = (3 # 4)%Q /\ Qred (qdot [2 # 9; 1 # 3; 4 # 9] us) = (29 # 36)%Q).
Proof.
  split; [|split; [|split]].
  - intros i p size Hp. split; [apply repeat_length|]. apply Forall_forall. intros x Hx. apply repeat_spec in Hx. subst.
    apply Nat.mod_upper_bound. destruct p; [congruence|discriminate].
  - exists 1. cbn. auto.
  - intros [[|[|[|[|t]]]] [H [A B]]]; cbn in A, B; try discriminate; lia.
  - vm_compute. repeat split.
Qed.

(** ** C18: the number of rounds, which the code computes through a double, is the exact one *)

Theorem C18_rounds_through_a_double : forall len every d c, (0 <= len < 2 ^ 53)%Z -> (0 < every)%Z ->
  double_near (inject_Z len / inject_Z every) d -> is_ceiling d c -> c = ((len + every - 1) / every)%Z.
Proof.
  exact (fun len every d c Hl He HD HC => eq_trans (ceiling_unique d c _ HC (ceil_through_double len every d Hl He HD))
    (ceil_div_eq len every He)).
Qed.
Print Assumptions C18_rounds_through_a_double.

(** 10 / 3 as a double is 3.33333333333333348136306995002087205648422241210938 = 7505999378950827 / 2^51. *)
Example C18_double : double_near (inject_Z 10 / inject_Z 3) (7505999378950827 # (2 ^ 51)) /\
  is_ceiling (7505999378950827 # (2 ^ 51)) 4.
Proof.
  split.
  - right. exists 51, 7505999378950827%Z. repeat split; try (vm_compute; discriminate); vm_compute; reflexivity.
  - split; [vm_compute; discriminate|vm_compute; reflexivity].
Qed.
