(** The project's own unit tests with literal data, replayed on the model (mizarlabs/tests). These are tests of the model,
    not proofs: they check that it computes what the project's authors expect of the code. *)
From Coq Require Import QArith Reals Lra ZArith String.
From Verif Require Import Series CV_Model Boot_Model Cusum_Model Feat_Model TAFactory_Model.
Local Open Scope nat_scope.

(** ** tests/model/test_model_selection.py *)

(** Times in minutes. The 21 samples of time_inhomogeneous_data (conftest.py:395-441). *)
Definition t_pred : list Z := [0; 0; 59; 118; 120; 177; 236; 240; 295; 354; 360; 413; 472; 480; 531; 600; 720; 840; 960; 1080; 1200]%Z.
Definition splits_of (c : result cv) (n : nat) : result (list (list nat * list nat)) := do c <- c ;; CV_Model.split c n.
(** test_split_purged_kfold_cv: the third and fourth splits. *)
Example split_purged_kfold_cv :
  match splits_of (make_cv 4 2 (Some t_pred) (Some (map (fun t => Some (t + 60)%Z) t_pred)) 0) 21 with
  | Ok l => nth_error l 2 = Some ([0; 1; 2; 3; 4; 16; 17; 18; 19; 20], [6; 7; 8; 9; 10; 11; 12; 13; 14; 15]) /\
            nth_error l 3 = Some ([7; 8; 9; 10; 11; 12; 13; 14; 15], [0; 1; 2; 3; 4; 5; 16; 17; 18; 19; 20])
  | Err _ => False
  end.
Proof. vm_compute. split; reflexivity. Qed.

(** test_compute_test_set. *)
Example compute_test_set_case : compute_test_set 10 [(2, 4); (4, 6); (8, 10)] = ([(2, 6); (8, 10)], [2; 3; 4; 5; 8; 9]).
Proof. vm_compute. reflexivity. Qed.

(** test_zero_embargo and test_nonzero_embargo: hourly samples, labels of 119 and 120 minutes, embargo of 0 and 120 minutes. *)
Definition hourly (shift emb : Z) : result cv :=
  let p := map (fun k => (60 * Z.of_nat k)%Z) (seq 0 12) in make_cv 2 1 (Some p) (Some (map (fun t => Some (t + shift)%Z) p)) emb.
Definition embargoed (shift emb : Z) : result (list nat) := do c <- hourly shift emb ;; embargo c 12 (seq 6 6) (seq 0 6) 6.
Example zero_embargo : embargoed 119 0 = Ok (seq 7 5) /\ embargoed 120 0 = Ok (seq 8 4).
Proof. vm_compute. split; reflexivity. Qed.
Example nonzero_embargo : embargoed 119 120 = Ok (seq 9 3) /\ embargoed 120 120 = Ok (seq 10 2).
Proof. vm_compute. split; reflexivity. Qed.

(** ** tests/model/test_bootstrapping.py, matrix of conftest.py:319-334 *)
Definition t_matrix : Boot_Model.mat :=
  let rows := [[0]; [0]; [1]; [1]; [1]; [1; 2]; [2]; [2; 3]; [3]] in
  {| Boot_Model.nrows := 9; Boot_Model.ncols := 4; entry := fun t j => existsb (Nat.eqb j) (nth t rows []) |}.
(** test_calc_average_uniqueness. *)
Example calc_average_uniqueness_case :
  match calc_update_avg_unique t_matrix [0; 2] [0], calc_update_avg_unique t_matrix [0; 2] [0; 0] with
  | [Some a; Some b], [Some a'; Some b'] => (b == 1 /\ a < 1 /\ a' < a /\ b' == b)%Q
  | _, _ => False
  end.
Proof. vm_compute. repeat split. Qed.

(** ** tests/transformers/test_cusum_filter.py: 121 days, the price changes once. *)
Definition days (a b : Q) : series Q := map (fun k => (Z.of_nat k, Fin (if Nat.ltb k 60 then a else b))) (seq 0 121).
Example cusum_filter_case : cusum_transform 1%Q (days 1 3) = Ok [60%Z] /\ cusum_transform 1%Q (days 3 1) = Ok [60%Z].
Proof. vm_compute. split; reflexivity. Qed.

(** ** tests/transformers/test_moving_average.py, series of conftest.py:231-262 *)
Definition t_days (n : nat) : list Z := map (fun k => Z.of_nat (S k)) (seq 0 n).
Definition whole (l : list Z) : list (ext R) := map (fun z => Fin (IZR z)) l.
Lemma lt_whole : forall a b : Z, eltb (Fin (IZR a)) (Fin (IZR b)) = Z.ltb a b.
Proof. intros a b. cbn. destruct (Rlt_dec (IZR a) (IZR b)) as [H|H]; destruct (Z.ltb_spec a b) as [K|K]; try reflexivity; [apply lt_IZR in H; lia|elim H; apply IZR_lt; exact K]. Qed.
Lemma le_whole : forall a b : Z, eleb (Fin (IZR a)) (Fin (IZR b)) = Z.leb a b.
Proof.
  intros a b. unfold eleb. rewrite lt_whole. cbn.
  destruct (Req_EM_T (IZR a) (IZR b)) as [H|H]; destruct (Z.ltb_spec a b) as [K|K]; destruct (Z.leb_spec a b) as [L|L]; try reflexivity; try lia.
  - apply eq_IZR in H. lia.
  - elim H. f_equal. lia.
Qed.
Lemma shift_whole : forall x l, shift1 (whole (x :: l)) = NaN :: whole (firstn (length l) (x :: l)).
Proof. intros x l. unfold shift1, whole. rewrite map_length. cbn [length firstn]. rewrite <- firstn_map. reflexivity. Qed.
Lemma zip_whole : forall (f : ext R -> ext R -> bool) g, (forall a b, f (Fin (IZR a)) (Fin (IZR b)) = g a b) ->
  forall l m, zipw f (whole l) (whole m) = zipw g l m.
Proof. intros f g H. induction l as [|a l IH]; intros [|b m]; try reflexivity. cbn. rewrite H. f_equal. apply IH. Qed.
Lemma zip_shifted : forall (f : ext R -> ext R -> bool) g, (forall a b, f (Fin (IZR a)) (Fin (IZR b)) = g a b) ->
  forall x l y m, zipw f (shift1 (whole (x :: l))) (shift1 (whole (y :: m))) = f NaN NaN :: zipw g (firstn (length l) (x :: l)) (firstn (length m) (y :: m)).
Proof. intros f g H x l y m. rewrite !shift_whole. rewrite <- (zip_whole f g H). reflexivity. Qed.
Ltac crossings :=
  unfold up_cross_indices, down_cross_indices; cbv zeta;
  rewrite ?(zip_shifted eleb Z.leb le_whole), ?(zip_shifted (fun f s => eleb s f) (fun f s => Z.leb s f) (fun a b => le_whole b a));
  rewrite ?(zip_whole eltb Z.ltb lt_whole),
          ?(zip_whole (fun f s => eltb s f) (fun f s => Z.ltb s f) (fun a b => lt_whole b a)); vm_compute; reflexivity.
Definition t_fast : list Z := [1; 1; 1; 1; 2; 3; 3; 4]%Z.
Definition t_slow : list Z := [2; 2; 2; 2; 1; 1; 2; 2]%Z.
Example one_up_crossover :
  up_cross_indices (t_days 8) (whole t_fast) (whole t_slow) = [5%Z] /\ down_cross_indices (t_days 8) (whole t_fast) (whole t_slow) = [].
Proof. split; unfold t_fast, t_slow; crossings. Qed.
Example one_down_crossover :
  down_cross_indices (t_days 8) (whole t_slow) (whole t_fast) = [5%Z] /\ up_cross_indices (t_days 8) (whole t_slow) (whole t_fast) = [].
Proof. split; unfold t_fast, t_slow; crossings. Qed.
Definition t_slow2 : list Z := [2; 2; 2; 2; 1; 1; 2; 2; 3; 3; 2; 1; 2; 3; 4; 3; 2; 1]%Z.
Definition t_fast2 : list Z := [1; 1; 1; 1; 2; 3; 3; 4; 2; 1; 2; 2; 3; 2; 1; 2; 3; 4]%Z.
Example multiple_crossovers :
  up_cross_indices (t_days 18) (whole t_fast2) (whole t_slow2) = [5; 12; 17]%Z /\
  down_cross_indices (t_days 18) (whole t_fast2) (whole t_slow2) = [9; 14]%Z.
Proof. split; unfold t_fast2, t_slow2; crossings. Qed.

(** ** tests/transformers/test_ta_factory.py *)
Local Open Scope string_scope.
(** test_check_and_set_args. *)
Example check_and_set_args_case :
  check_and_set_args ["real"] CNone MNone = Err ValueError /\
  check_and_set_args ["real"] (CStr "col") MNone = Ok ["col"] /\
  check_and_set_args ["real0"; "real1"] CNone MNone = Err ValueError /\
  check_and_set_args ["real0"; "real1"] (CList [Some "col0"; Some "col1"]) MNone = Ok ["col0"; "col1"] /\
  check_and_set_args ["real"; "volume"] (CStr "col") MOther = Err TypeError /\
  check_and_set_args ["real"; "volume"] (CStr "col") (MDict [("vol", "col0")]) = Err ValueError /\
  check_and_set_args ["real"; "volume"] (CStr "col") (MDict [("volume", "col0")]) = Ok ["col"; "col0"].
Proof. vm_compute. repeat split. Qed.
(** test_check_and_set_kwargs. *)
Example check_and_set_kwargs_case :
  check_and_set_kwargs nat (Some []) None = Err ValueError /\
  check_and_set_kwargs nat (Some [("blah", 1)]) (Some ["blahh"]) = Err ValueError /\
  check_and_set_kwargs nat (Some [("blah", 1)]) (Some ["blah"]) = Ok [("blah", 1)] /\
  check_and_set_kwargs nat None (Some ["blah"]) = Ok [].
Proof. vm_compute. repeat split. Qed.
