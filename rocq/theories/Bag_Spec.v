(** Vocabulary for the bagging ensemble. *)
From Verif Require Import QSum Num Boot_Model Boot_Spec Bag_Model.

Section Spec.
  Context {num gen est0 model : Type}.
  Variables (np : numpy gen) (est : estimator num gen est0 model).

  (** The visible result of fit: its attributes or the exception. *)
  Definition visible {A} (r : result (heap * A)) : result A := match r with Ok (_, a) => Ok a | Err e => Err e end.

  (** The k-th number (counted from 0) of the stream that a seed starts. *)
  Fixpoint after (g : gen) (k : nat) : gen := match k with 0 => g | S k' => after (snd (next_int gen np g)) k' end.
  Definition kth_seed (seed : Z) (k : nat) : Z := fst (next_int gen np (after (new_state gen np seed) k)).

  (** [Y] consists of the named columns, in this order, of every row of [X]; [l'] of the elements of [l] at the given positions. *)
  Definition at_positions {A} (l : list A) (positions : list nat) (l' : list A) : Prop :=
    Forall2 (fun i x => nth_error l i = Some x) positions l'.
  Definition columns_of (X : list (list num)) (features : list nat) (Y : list (list num)) : Prop :=
    Forall2 (fun row row' => at_positions row features row') X Y.

  (** How an estimator comes about from a seed: the local generator seeds a copy of the base estimator, then draws the features,
      then the samples by the sequential bootstrap; the estimator is trained on all rows, weighted by the given weight times the
      number of draws, or on the drawn rows if it cannot use weights. *)
  Definition comes_from (X : list (list num)) (width : nat) (y : list nat) (given : list Q) (bootstrap_features : bool)
    (n_features n_samples : nat) (m : mat) (every : Z) (seed : Z) (t : trained model) : Prop :=
    exists e g features g' samples log,
      make num gen est0 model est (new_state gen np seed) = (e, g) /\
      (if bootstrap_features then randint_below gen np g width n_features else sample_without_replacement gen np g width n_features) = (features, g') /\
      seq_bootstrap m (choices gen np g') (Some (Z.of_nat n_samples)) every = Ok (samples, log) /\
      t_features model t = features /\ t_samples model t = samples /\
      if support_sample_weight num gen est0 model est then
        exists Y weights, columns_of X features Y /\ length weights = length X /\
          (forall i w, nth_error given i = Some w -> nth_error weights i = Some (w * Qn (count_occ Nat.eq_dec samples i))%Q) /\
          fit_weighted num gen est0 model est e Y y weights = Ok (t_model model t)
      else
        exists X' Y y', at_positions X samples X' /\ columns_of X' features Y /\ at_positions y samples y' /\
          fit_plain num gen est0 model est e Y y' = Ok (t_model model t).

  (** The number of samples that max_samples stands for, and of features that max_features stands for. A product of a fraction and an
      integer is a double ([rounded], see Rounding_Props.v). *)
  Definition floor (q : Q) (k : nat) : Prop := (Qn k <= q /\ q < Qn k + 1)%Q.
  Definition sample_size (p : size_arg) (n k : nat) : Prop :=
    (1 <= k <= n) /\ match p with SInt z => z = Z.of_nat k | SFloat (Fin q) => floor (rounded (q * Qn n)) k | _ => False end.
  Definition feature_size (p : size_arg) (n k : nat) : Prop :=
    match p with
    | SInt z => z = Z.of_nat k /\ (1 <= k <= n)
    | SFloat (Fin q) => (0 < rounded (q * Qn n) /\ rounded (q * Qn n) <= Qn n)%Q /\ exists f, floor (rounded (q * Qn n)) f /\ k = Nat.max 1 f
    | _ => False
    end.

  (** Changing the number of estimators and the warm_start flag. *)
  Definition with_size (p : params) (n : Z) (warm : bool) : params :=
    {| samples_info_sets := samples_info_sets p; price_bars := price_bars p; n_estimators := n; max_samples := max_samples p;
       max_features := max_features p; bootstrap_features := bootstrap_features p; oob_score := oob_score p; warm_start := warm;
       random_state := random_state p; update_probs_every := update_probs_every p |}.
  (** A classifier on which fit has not been called. *)
  Definition fresh : attributes model := {| ensemble := None; n_classes := 0; oob := None |}.

  (** The class codes of labels: positions among the sorted distinct labels. *)
  Definition codes_of (labels : list Z) (y : list nat) : Prop :=
    exists classes, increasingZ classes /\ (forall c, In c classes <-> In c labels) /\ Forall2 (fun l c => nth_error classes c = Some l) labels y.

  (** A row-wise classifier: outputs depend on the row only. An empty batch may fail. *)
  Definition row_wise (proba : model -> list (list num) -> result (list (list Q))) (f : model -> list num -> list Q) (n_classes : nat) : Prop :=
    (forall m rows, rows <> [] -> proba m rows = Ok (map (f m) rows)) /\ (forall m row, length (f m row) = n_classes).
  (** The same for predictions of class codes. *)
  Definition row_wise_labels (pred : model -> list (list num) -> result (list nat)) (f : model -> list num -> nat) : Prop :=
    forall m rows, rows <> [] -> pred m rows = Ok (map (f m) rows).
  (** The position of the first maximum of a list. *)
  Definition first_max (l : list Q) (k : nat) : Prop :=
    exists v, nth_error l k = Some v /\ (forall i x, nth_error l i = Some x -> (x <= v)%Q) /\ (forall i x, i < k -> nth_error l i = Some x -> (x < v)%Q).
  (** The estimators that were not trained on sample [i]. *)
  Definition unseen (i : nat) (ts : list (trained model)) : list (trained model) := filter (fun t => negb (existsb (Nat.eqb i) (t_samples model t))) ts.
  (** What the estimators that were not trained on sample [i] say about its row [x]: each sees its own features of the row. *)
  Definition opinions {A} (f : model -> list num -> A) (ts : list (trained model)) (i : nat) (x : list num) (l : list A) : Prop :=
    Forall2 (fun t v => exists x', at_positions x (t_features model t) x' /\ v = f (t_model model t) x') (unseen i ts) l.
  (** A decision, column by column, is the mean of distributions over [nc] classes, or the share of each class among votes;
      it is NaN if there are none. *)
  Definition mean_of (nc : nat) (l : list (list Q)) (row : list (ext Q)) : Prop :=
    length row = nc /\ forall c, c < nc ->
      match l with
      | [] => nth_error row c = Some NaN
      | _ => exists q, nth_error row c = Some (Fin q) /\ (q == qmean (map (fun v => nth c v 0) l))%Q
      end.
  Definition share_of (nc : nat) (l : list nat) (row : list (ext Q)) : Prop :=
    length row = nc /\ forall c, c < nc ->
      match l with
      | [] => nth_error row c = Some NaN
      | _ => exists q, nth_error row c = Some (Fin q) /\ (q == Qn (count_occ Nat.eq_dec l c) / Qn (length l))%Q
      end.

  (** The conditions on parameters and data under which fit is to proceed. *)
  Definition acceptable (p : params) (d : data num) (self : attributes model) (h : heap) : Prop :=
    (exists ms, sample_size (max_samples p) (length (d_rows num d)) ms) /\
    (exists mf, feature_size (max_features p) (d_width num d) mf) /\
    ~ (warm_start p = true /\ oob_score p = true) /\
    (forall t, In t (d_index num d) -> exists e, In (Some t, e) (samples_info_sets p)) /\
    0 < length (d_rows num d) /\ 0 < d_width num d /\ length (d_labels num d) = length (d_rows num d) /\
    (forall a, d_weight num d = Some a -> exists w, nth_error h a = Some w /\ length w = length (d_rows num d)) /\
    (0 < n_estimators p)%Z /\
    (forall ts, warm_start p = true -> ensemble model self = Some ts -> (Z.of_nat (length ts) <= n_estimators p)%Z).
  (** Libraries that keep their promises: fitting succeeds, and draws are in range. *)
  Definition libraries_fine : Prop :=
    (forall e X y w, exists m, fit_weighted num gen est0 model est e X y w = Ok m) /\
    (forall e X y, exists m, fit_plain num gen est0 model est e X y = Ok m) /\
    (forall g, fair_choice (choices gen np g)) /\
    (forall g n k, 0 < n -> Forall (fun i => i < n) (fst (randint_below gen np g n k))) /\
    (forall g n k, k <= n -> Forall (fun i => i < n) (fst (sample_without_replacement gen np g n k))).
  (** The same parameters with out-of-bag scoring switched on or off. *)
  Definition with_oob (p : params) (on : bool) : params :=
    {| samples_info_sets := samples_info_sets p; price_bars := price_bars p; n_estimators := n_estimators p; max_samples := max_samples p;
       max_features := max_features p; bootstrap_features := bootstrap_features p; oob_score := on; warm_start := warm_start p;
       random_state := random_state p; update_probs_every := update_probs_every p |}.
  (** Fitted estimators that work row by row with all [nc] classes, and that reject an empty batch. *)
  Definition scores_rows (nc : nat) : Prop :=
    (exists proba f, predict_proba num gen est0 model est = Some proba /\ row_wise proba f nc) \/
    (exists f, predict_proba num gen est0 model est = None /\ row_wise_labels (predict num gen est0 model est) f /\ forall m x, f m x < nc).
  Definition rejects_empty : Prop :=
    match predict_proba num gen est0 model est with
    | Some proba => forall m, proba m [] = Err ValueError
    | None => forall m, predict num gen est0 model est m [] = Err ValueError
    end.
  (** The weights that the caller gives: ones if there are none. *)
  Definition given_is (d : data num) (h : heap) (given : list Q) : Prop :=
    match d_weight num d with None => given = repeat 1%Q (length (d_rows num d)) | Some a => nth_error h a = Some given end.
End Spec.
