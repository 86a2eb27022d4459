(** Model of the classifier as an object: the constructor, set_params and a history of calls of fit
    (model/sequentially_bootstrapped_bagging_classifier.py:216-266 and 268-462). *)
From Verif Require Import Prelude Num Boot_Model Bag_Model.

Section State.
  Variables num gen est0 model : Type.
  Variables (np : numpy gen) (est : estimator num gen est0 model).

  (** The parameters, `_ind_mat`, `timestamp_int_index_mapping` and the attributes set by fit. *)
  Record classifier := { c_params : params; c_cached : option mat; c_mapping : list (option Z * nat); c_fitted : attributes model }.

  (** __init__ (lines 216-258): the property ind_mat fills `_ind_mat`. *)
  Definition new_classifier (p : params) : result classifier :=
    do mi <- get_ind_matrix (samples_info_sets p) (price_bars p) ;;
    Ok {| c_params := p; c_cached := Some (fst mi); c_mapping := index_mapping (samples_info_sets p) (ncols (fst mi));
          c_fitted := {| ensemble := None; n_classes := 0; oob := None |} |}.
  (** BaseEstimator.set_params with known names: only the attributes that are parameters change. *)
  Definition set_parameters (p : params) (c : classifier) : classifier :=
    {| c_params := p; c_cached := c_cached c; c_mapping := c_mapping c; c_fitted := c_fitted c |}.
  (** The property ind_mat (lines 260-266). *)
  Definition ind_mat (c : classifier) : result mat :=
    match c_cached c with
    | Some m => Ok m
    | None => do mi <- get_ind_matrix (samples_info_sets (c_params c)) (price_bars (c_params c)) ;; Ok (fst mi)
    end.
  (** Whether fit returns at line 414, before `self._ind_mat = None` (line 460). *)
  Definition nothing_to_add (c : classifier) : bool :=
    let old := if warm_start (c_params c) then match ensemble _ (c_fitted c) with Some ts => ts | None => [] end else [] in
    (n_estimators (c_params c) =? Z.of_nat (length old))%Z.
  (** fit. Simplification: the object after an exception is not described. *)
  Definition fit_again (c : classifier) (n_jobs : nat) (schedule : list nat) (d : data num) (h : heap) : result (heap * classifier) :=
    do r <- fit_with num gen est0 model np est (c_mapping c) (ind_mat c) (c_params c) n_jobs schedule d (c_fitted c) h ;;
    let cached := if nothing_to_add c then match ind_mat c with Ok m => Some m | Err _ => c_cached c end else None in
    Ok (fst r, {| c_params := c_params c; c_cached := cached; c_mapping := c_mapping c; c_fitted := snd r |}).

  (** A history of calls. *)
  Inductive event := ESet (p : params) | EFit (n_jobs : nat) (schedule : list nat) (d : data num).
  Definition perform (s : heap * classifier) (e : event) : result (heap * classifier) :=
    match e with
    | ESet p => Ok (fst s, set_parameters p (snd s))
    | EFit n_jobs schedule d => fit_again (snd s) n_jobs schedule d (fst s)
    end.
  Definition history (s : heap * classifier) (events : list event) : result (heap * classifier) := foldM perform s events.
End State.
