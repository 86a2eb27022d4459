(** What aligning, the data sets and the signals should be. *)
From Coq Require Import String QArith DecimalString.
From Verif Require Import Prelude Num QSum Pipe_Model.
Open Scope nat_scope.

(** The name of the column of probabilities of class number [i]: primary_side_pred_proba_ and the number in decimal. *)
Definition proba_column (i : nat) : string := ("primary_side_pred_proba_" ++ NilZero.string_of_uint (Nat.to_uint i))%string.

Section Alignment.
  Context {A : Type} {HA : Arith A}.
  Notation cell := (ext A).

  (** Every row has a cell for every column. *)
  Definition proper (f : frame A) : Prop := Forall (fun r => length (snd r) = length (columns f)) (rows f).
  (** All times are after 1 January 1700 (the code's minus infinity). *)
  Definition after_1700 (times : list Z) : Prop := Forall (fun t => (-8520336000000000000 < t)%Z) times.

  (** The feature rows that belong to alignment time number [i]: after the previous alignment time, and up to this one. *)
  Definition belongs (al : list Z) (i : nat) (t : Z) : bool :=
    match nth_error al i with Some hi => (t <=? hi)%Z | None => false end
    && match i with O => true | S j => match nth_error al j with Some lo => (lo <? t)%Z | None => true end end.
  Definition window (f : frame A) (al : list Z) (i : nat) : list (Z * list cell) := filter (fun r => belongs al i (fst r)) (rows f).
  (** The values in a column of some rows. *)
  Definition cells_at (c : nat) (rs : list (Z * list cell)) : list cell := map (fun r => nth c (snd r) NaN) rs.

  (** The value of column [c] at alignment time [i]: that of the latest window that has one. [combined l x] says that x is
      what the values l are combined to. *)
  Inductive aligned_value (combined : list cell -> cell -> Prop) (f : frame A) (al : list Z) (c : nat) : nat -> cell -> Prop :=
  | AV_new i x : window f al i <> [] -> combined (cells_at c (window f al i)) x -> x <> NaN -> aligned_value combined f al c i x
  | AV_none : window f al 0 = [] \/ combined (cells_at c (window f al 0)) NaN -> aligned_value combined f al c 0 NaN
  | AV_carried i x : window f al (S i) = [] \/ combined (cells_at c (window f al (S i))) NaN ->
      aligned_value combined f al c i x -> aligned_value combined f al c (S i) x.

  (** The rows of a frame up to a time. *)
  Definition upto (T : Z) {V} (rs : list (Z * V)) : list (Z * V) := filter (fun r => (fst r <=? T)%Z) rs.

  (** * Data sets *)
  (** A frame has a row at this time, without missing values. *)
  Definition complete_at (t : Z) (f : frame A) : Prop := exists row, In (t, row) (rows f) /\ ~ In NaN row.
  (** A time that can be used for training: it has a label, and all features are there. *)
  Definition usable (features : list (frame A)) (y : list (Z * cell)) (t : Z) : Prop :=
    (exists l, In (t, l) y /\ l <> NaN) /\ Forall (complete_at t) features.
  (** A row that is made of the rows of the frames at a time. *)
  Definition made_of (features : list (frame A)) (t : Z) (row : list cell) : Prop :=
    exists parts, row = concat parts /\ Forall2 (fun f part => In (t, part) (rows f)) features parts.
  (** The frames of a dictionary, with distinct times and at least one column. *)
  Definition good_frames (d : dict (frame A)) : Prop := Forall (fun f => NoDup (index f) /\ columns f <> []) (map snd d).
  (** What the primary model says (with [method]: its predictions, or its probabilities) about the row of X at time t. *)
  Definition said {V} (method : model A -> list (list cell) -> result (list V)) (m : option (model A)) (X : frame A) (t : Z) (x : V) : Prop :=
    exists pm vs i, m = Some pm /\ method pm (map snd (rows X)) = Ok vs /\ nth_error (index X) i = Some t /\ nth_error vs i = Some x.

  (** The columns that the primary model adds to the features of the metalabeling model. *)
  Definition prediction_columns (p : pipeline A) : list string :=
    (if use_predictions p then ["primary_side_pred"%string] else []) ++
    (if use_proba p then match primary_model p with Some m => map proba_column (seq 0 (n_classes m)) | None => [] end else []).

  (** * Signals *)
  (** The frame of the times at which all features are there, with these features. *)
  Definition complete_rows (features : list (frame A)) (F : frame A) : Prop :=
    NoDup (index F) /\ (forall t, In t (index F) <-> Forall (complete_at t) features) /\ forall t row, In (t, row) (rows F) -> made_of features t row.
  (** What the model that decides the size sees: the metalabeling model if there is one (its own features, then the
      prediction and the probabilities of the primary model if these are wanted), and otherwise the primary model. *)
  Definition decider (p : pipeline A) : option (model A) := match metalabeling_model p with Some m => Some m | None => primary_model p end.
  Definition decider_features (p : pipeline A) (features : dict (frame A) * dict (frame A)) (Xp Xs : frame A) : Prop :=
    match metalabeling_model p with
    | None => Xs = Xp
    | Some _ =>
        NoDup (index Xs) /\ (forall t, In t (index Xs) -> Forall (complete_at t) (map snd (snd features))) /\
        (forall t, In t (index Xp) -> Forall (complete_at t) (map snd (snd features)) -> In t (index Xs)) /\
        forall t row, In (t, row) (rows Xs) -> In t (index Xp) -> exists base pred prob, made_of (map snd (snd features)) t base /\ row = base ++ pred ++ prob /\
          (if use_predictions p then exists q, pred = [q] /\ said predict (primary_model p) Xp t q else pred = []) /\
          (if use_proba p then said predict_proba (primary_model p) Xp t prob else prob = [])
    end.
  (** The sizes, as a function of the probabilities. *)
  Definition sizes_without_sizer (p : pipeline A) (Xs : frame A) (sizes : list (Z * cell)) : Prop :=
    forall t size, In (t, size) sizes <->
      exists m probs, decider p = Some m /\ said predict_proba (decider p) Xs t probs /\
        match metalabeling_model p with
        | Some _ => exists k c, nth_error (classes m) k = Some c /\ eeqb c (Fin a1) = true /\ (forall j d, j < k -> nth_error (classes m) j = Some d -> eeqb d (Fin a1) = false) /\ nth_error probs k = Some size
        | None => size = row_max probs
        end.
  (** What the bet sizer is given for a time: the greatest probability, its class, and the side of the primary model. *)
  Definition sizer_input (p : pipeline A) (Xp Xs : frame A) (t : Z) (x : cell * cell * option cell) : Prop :=
    exists m probs k c, decider p = Some m /\ said predict_proba (decider p) Xs t probs /\ argmax probs = Ok k /\ nth_error (classes m) k = Some c /\
      fst x = (row_max probs, c) /\
      match metalabeling_model p with
      | None => snd x = None
      | Some _ => exists side, snd x = Some side /\ (In t (index Xp) -> said predict (primary_model p) Xp t side)
      end.
  Definition right_sizes (p : pipeline A) (Xp Xs : frame A) (sizes : list (Z * cell)) : Prop :=
    match bet_sizer p with
    | None => sizes_without_sizer p Xs sizes
    | Some sizer => exists input, sizer input = Ok sizes /\ map fst input = index Xs /\ forall t x, In (t, x) input -> sizer_input p Xp Xs t x
    end.

  (** * No look-ahead *)
  Definition agree (T : Z) (f f' : frame A) : Prop := columns f = columns f' /\ upto T (rows f) = upto T (rows f').
  Definition agree_dict (T : Z) (d d' : dict (frame A)) : Prop := Forall2 (fun kf kf' => fst kf = fst kf' /\ agree T (snd kf) (snd kf')) d d'.
  (** A transformer whose output up to a time only depends on its input up to this time. *)
  Definition causal_transformer (tr : frame A -> result (frame A)) : Prop :=
    forall T f f' g g', agree T f f' -> tr f = Ok g -> tr f' = Ok g' -> agree T g g'.
  (** A model that treats each row separately. *)
  Definition rowwise (m : model A) : Prop :=
    (exists h, forall rs v, predict m rs = Ok v -> v = map h rs) /\ (exists h, forall rs v, predict_proba m rs = Ok v -> v = map h rs).
  Definition rowwise_sizer (s : list (Z * (cell * cell * option cell)) -> result (list (Z * cell))) : Prop :=
    exists h, forall l v, s l = Ok v -> v = map (fun e => (fst e, h (snd e))) l.
  Definition causal_transformers (d : dict (option (frame A -> result (frame A)))) : Prop := forall key tr, In (key, Some tr) d -> causal_transformer tr.
  (** The features that the others are aligned to have increasing times. *)
  Definition sorted_lead (p : pipeline A) (X : dict (frame A)) : Prop :=
    forall P M lead, transform p X = Ok (P, M) -> lookup P (align_on p) = Ok lead -> increasingZ (index lead) /\ after_1700 (index lead).

  (** * The trader *)
  (** Two frames that differ at most in the columns that create_strategy_bars writes. *)
  Definition same_except_bars (f f' : frame A) : Prop :=
    index f = index f' /\ forall name, ~ In name ["stop_loss"; "profit_taking"; "num_expiration_bars"]%string -> column f name = column f' name.
  (** The volatility that the factors are multiplied by. *)
  Definition volatility (tr : trader A) (f : frame A) (vol : Z -> cell) : Prop :=
    if volatility_adjusted tr
    then exists close v, column f "close" = Ok close /\ daily_vol tr (map fst close) (map snd close) = Ok v /\ vol = series_at v
    else forall t, vol t = Fin a1.
  (** A transformer that does not look at these columns. *)
  Definition ignores_bars (tr : frame A -> result (frame A)) : Prop := forall f f', same_except_bars f f' -> tr f = tr f'.
  (** No transformer looks at these columns of the bars; in particular no key with the bars is without transformer. *)
  Definition bars_not_used (p : pipeline A) (X : dict nat) : Prop :=
    (forall key tr, In (key, Some tr) (primary_transformers p ++ meta_transformers p) -> ignores_bars tr) /\
    (forall key a, In (key, None) (primary_transformers p ++ meta_transformers p) -> lookup X key = Ok a -> lookup X (align_on p) <> Ok a).
End Alignment.

(** A single value is kept; several are combined by the method. *)
Definition is_mean (l : list (ext Q)) (x : ext Q) : Prop :=
  (In NaN l -> x = NaN) /\ (forall qs, l = map Fin qs -> exists m, x = Fin m /\ (m * Qn (length qs) == qsum qs)%Q).
Definition is_min (l : list (ext Q)) (x : ext Q) : Prop :=
  (In NaN l -> x = NaN) /\ (~ In NaN l -> In x l /\ forall y, In y l -> eleb x y = true).
Definition is_max (l : list (ext Q)) (x : ext Q) : Prop :=
  (In NaN l -> x = NaN) /\ (~ In NaN l -> In x l /\ forall y, In y l -> eleb y x = true).
Definition combined_by (how : dict string) (key : string) (l : list (ext Q)) (x : ext Q) : Prop :=
  l = [x] \/
  (2 <= List.length l /\ exists name, lookup how key = Ok name /\
     ((name = "mean"%string /\ is_mean l x) \/ (name = "min"%string /\ is_min l x) \/ (name = "max"%string /\ is_max l x))).

(** What aligning makes of an entry of a dictionary of features, when the features [lead] decide the times. *)
Definition aligned_entry (p : pipeline Q) (lead : frame Q) (kf kf' : string * frame Q) : Prop :=
  fst kf' = fst kf /\
  (fst kf = align_on p -> snd kf' = snd kf) /\
  (fst kf <> align_on p ->
     columns (snd kf') = columns (snd kf) /\ index (snd kf') = index lead /\ proper (snd kf') /\
     forall i t, nth_error (index lead) i = Some t -> exists row, nth_error (rows (snd kf')) i = Some (t, row) /\
       forall c, c < List.length (columns (snd kf)) -> exists x, nth_error row c = Some x /\
         aligned_value (combined_by (align_how p) (fst kf)) (snd kf) (index lead) c i x).
Definition fine (d : dict (frame Q)) : Prop := Forall (fun kf => proper (snd kf) /\ after_1700 (index (snd kf))) d.
(** The labels -1, 0 and 1. *)
Definition label (x : ext Q) : Prop := exists q, x = Fin q /\ (q == -1 \/ q == 0 \/ q == 1)%Q.
(** The first of the greatest entries. *)
Definition first_greatest (k : nat) (x : ext Q) (l : list (ext Q)) : Prop :=
  nth_error l k = Some x /\ forall j y, nth_error l j = Some y -> eleb y x = true /\ (j < k -> eltb y x = true).
