(** C13-C19, C61: indicator matrix, average uniqueness, sequential bootstrap. *)
From Verif Require Import QSum Boot_Spec Boot_Model Boot_Proofs Boot_Proofs2.

(** ** C13: the indicator matrix marks exactly the bars inside each label *)

Theorem C13_indicator_matrix : forall samples bars m idx,
  get_ind_matrix (complete samples) bars = Ok (m, idx) ->
  ncols m = length samples /\ nrows m = length idx /\ increasingZ idx /\
  (forall t, In t idx <-> row_time samples bars t) /\
  (forall t j tau s e, nth_error idx t = Some tau -> nth_error samples j = Some (s, e) ->
     (entry m t j = true <-> (s <= tau <= e)%Z)).
Proof. exact c13. Qed.
Print Assumptions C13_indicator_matrix.

Definition ex_samples : list (Z * Z) := [(10, 30); (20, 40); (50, 50)]%Z.
Example C13_case : exists m, get_ind_matrix (complete ex_samples) [5; 10; 20; 25; 30; 60]%Z = Ok (m, [10; 20; 25; 30; 40; 50]%Z).
Proof. eexists. vm_compute. reflexivity. Qed.

(** ** C14: error cases *)

Theorem C14_missing_times : forall samples bars,
  get_ind_matrix samples bars = Err ValueError <->
  samples = [] \/ exists s e, In (s, e) samples /\ (s = None \/ e = None).
Proof. exact get_ind_matrix_missing. Qed.
Print Assumptions C14_missing_times.

Theorem C14_accepts_exactly : forall samples bars, samples <> [] ->
  let inside := exists t s e, row_time samples bars t /\ In (s, e) samples /\ (s <= t <= e)%Z in
  let outside := exists t s e, row_time samples bars t /\ In (s, e) samples /\ ~ (s <= t <= e)%Z in
  ((exists m idx, get_ind_matrix (complete samples) bars = Ok (m, idx)) <-> inside /\ outside) /\
  (~ (inside /\ outside) -> get_ind_matrix (complete samples) bars = Err AssertionError).
Proof. exact c14_accept. Qed.
Print Assumptions C14_accepts_exactly.

Theorem C14_single_sample_rejected : forall s e bars, get_ind_matrix (complete [(s, e)]) bars = Err AssertionError.
Proof. exact c14_single. Qed.
Print Assumptions C14_single_sample_rejected.

(** ** C15: average uniqueness *)

Theorem C15_average_uniqueness : forall m j, j < ncols m -> rows_of (nrows m) (entry m) j <> [] ->
  exists u, nth_error (calc_average_uniqueness m) j = Some (Some u) /\
    (u == mean_inverse_concurrency (nrows m) (entry m) (ncols m) j)%Q.
Proof. exact c15_value. Qed.
Print Assumptions C15_average_uniqueness.

Theorem C15_bounds : forall T cov N j, j < N -> rows_of T cov j <> [] ->
  let u := mean_inverse_concurrency T cov N j in
  (0 < u /\ u <= 1 /\ / Qn N <= u)%Q /\
  ((u == 1)%Q <-> forall i, i < N -> i <> j -> ~ overlap T cov i j).
Proof. exact c15_bounds. Qed.
Print Assumptions C15_bounds.

Definition ex_mat : mat :=
  {| nrows := 4; ncols := 3; entry := fun t j => match t, j with
       | 0, 0 | 1, 0 | 1, 1 | 2, 1 | 3, 2 => true | _, _ => false end |}.
Example C15_case : map (option_map Qred) (calc_average_uniqueness ex_mat) = [Some (3 # 4); Some (3 # 4); Some 1]%Q /\
  rows_of (nrows ex_mat) (entry ex_mat) 0 = [0; 1].
Proof. vm_compute. auto. Qed.

(** ** C16: incremental update = recomputation *)

(** The k-th call of the generator receives the probabilities computed from scratch from all earlier draws. *)
Theorem C16_incremental_equals_full : forall m rng sample_length u sample lg,
  fair_choice rng -> 0 < ncols m -> (0 < u)%Z ->
  seq_bootstrap m rng sample_length u = Ok (sample, lg) ->
  forall k p choices, nth_error lg k = Some (p, choices) ->
    length p = ncols m /\
    forall j q, nth_error p j = Some q ->
      (q == draw_probability (nrows m) (entry m) (ncols m) (concat (map snd (firstn k lg))) j)%Q.
Proof. exact c16. Qed.
Print Assumptions C16_incremental_equals_full.

Definition ex_rng (i : nat) (p : list Q) (size : nat) : list nat := repeat (i mod length p) size.
Example ex_rng_fair : fair_choice ex_rng.
Proof.
  intros i p size Hp. split; [apply repeat_length|]. apply Forall_forall. intros x Hx. apply repeat_spec in Hx. subst.
  apply Nat.mod_upper_bound. destruct p; [congruence|discriminate].
Qed.
Example C16_case :
  match seq_bootstrap ex_mat ex_rng (Some 4%Z) 1 with
  | Ok (s, lg) => s = [0; 1; 2; 0] /\ map (fun pc => map Qred (fst pc)) lg =
      [[1 # 3; 1 # 3; 1 # 3]; [2 # 9; 1 # 3; 4 # 9]; [5 # 22; 5 # 22; 6 # 11]; [5 # 16; 5 # 16; 3 # 8]]%Q
  | Err _ => False
  end.
Proof. vm_compute. auto. Qed.

(** ** C17: draw probabilities form a distribution *)

Theorem C17_probabilities : forall m rng sample_length u sample lg,
  fair_choice rng -> 0 < ncols m -> (0 < u)%Z ->
  seq_bootstrap m rng sample_length u = Ok (sample, lg) ->
  forall p choices, In (p, choices) lg ->
    length p = ncols m /\ (forall q, In q p -> 0 < q)%Q /\ (qsum p == 1)%Q.
Proof. exact c17. Qed.
Print Assumptions C17_probabilities.

(** ** C18: size and range *)

Theorem C18_size_and_range : forall m rng sample_length u, fair_choice rng -> 0 < ncols m -> (0 < u)%Z ->
  let len := match sample_length with Some l => l | None => Z.of_nat (ncols m) end in (0 <= len)%Z ->
  exists sample lg, seq_bootstrap m rng sample_length u = Ok (sample, lg) /\
    length sample = Z.to_nat len /\ Forall (fun j => j < ncols m) sample /\
    sample = concat (map snd lg) /\ length lg = Z.to_nat ((len + u - 1) / u) /\
    (forall p choices, In (p, choices) lg -> length choices <= Z.to_nat u).
Proof. exact c18'. Qed.
Print Assumptions C18_size_and_range.

Theorem C18_errors : forall m rng len u,
  (u = 0%Z -> seq_bootstrap m rng (Some len) u = Err ZeroDivisionError) /\
  (ncols m = 0 -> (0 < u)%Z -> (0 < len)%Z -> seq_bootstrap m rng (Some len) u = Err ValueError).
Proof. exact c18_errors. Qed.
Print Assumptions C18_errors.

(** ** C19: overlap lowers uniqueness *)

Theorem C19_overlap_lowers_uniqueness : forall m js drawn extra i j,
  nth_error js i = Some j -> rows_of (nrows m) (entry m) j <> [] ->
  exists v v', nth_error (calc_update_avg_unique m js drawn) i = Some (Some v) /\
    nth_error (calc_update_avg_unique m js (drawn ++ extra)) i = Some (Some v') /\
    (v' <= v)%Q /\
    ((exists s, In s extra /\ overlap (nrows m) (entry m) s j) -> (v' < v)%Q).
Proof. exact c19. Qed.
Print Assumptions C19_overlap_lowers_uniqueness.

Example C19_case : map (option_map Qred) (calc_update_avg_unique ex_mat [0; 1; 2] [0]) = [Some (1 # 2); Some (3 # 4); Some 1]%Q /\
  map (option_map Qred) (calc_update_avg_unique ex_mat [0; 1; 2] [0; 1]) = [Some (5 # 12); Some (5 # 12); Some 1]%Q.
Proof. vm_compute. auto. Qed.

(** ** C61: AverageUniqueness transformer *)

(** One weight per row of X, in order; the weight of a label is the mean, over the distinct label boundary times at
    which it is alive, of 1/(number of labels alive). *)
Theorem C61_average_uniqueness_transformer : forall samples out,
  average_uniqueness_transform (map (fun s => (fst s, Some (snd s))) samples) = Ok out ->
  map fst out = map fst samples /\ NoDup (map fst samples) /\
  exists times, increasingZ times /\
    (forall t, In t times <-> exists s e, In (s, e) samples /\ (t = s \/ t = e)) /\
    forall j s e, nth_error samples j = Some (s, e) -> (s <= e)%Z ->
      exists u, nth_error out j = Some (s, Some u) /\ (0 < u <= 1)%Q /\
        (u == qmean (map (fun t => / Qn (count (alive t) samples)) (filter (fun t => alive t (s, e)) times)))%Q.
Proof. exact c61. Qed.
Print Assumptions C61_average_uniqueness_transformer.

(** It succeeds whenever the index is unique, labels end after they start, and some label is not alive at some
    label boundary. *)
Theorem C61_succeeds : forall samples, NoDup (map fst samples) -> (forall s e, In (s, e) samples -> (s <= e)%Z) ->
  (exists t s e s' e', In (s, e) samples /\ In (s', e') samples /\ (t = s \/ t = e) /\ ~ (s' <= t <= e')%Z) ->
  exists out, average_uniqueness_transform (map (fun s => (fst s, Some (snd s))) samples) = Ok out.
Proof. exact c61_ok. Qed.
Print Assumptions C61_succeeds.

Example C61_case : option_map (map (fun r => (fst r, option_map Qred (snd r))))
   (match average_uniqueness_transform (map (fun s => (fst s, Some (snd s))) ex_samples) with Ok o => Some o | Err _ => None end)
  = Some [(10%Z, Some (2 # 3)); (20%Z, Some (2 # 3)); (50%Z, Some 1)]%Q.
Proof. vm_compute. reflexivity. Qed.
