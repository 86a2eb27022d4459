(** Vocabulary for histories of the bagging classifier. *)
From Verif Require Import Prelude Num Bag_Model BagState_Model.

(** The parameters [p] with the label spans and bars of [q]. *)
Definition with_spans (p q : params) : params :=
  {| samples_info_sets := samples_info_sets q; price_bars := price_bars q; n_estimators := n_estimators p; max_samples := max_samples p;
     max_features := max_features p; bootstrap_features := bootstrap_features p; oob_score := oob_score p; warm_start := warm_start p;
     random_state := random_state p; update_probs_every := update_probs_every p |}.
(** Every call of set_params of the history leaves the label spans and the bars as they are in [p]. *)
Definition leaves_spans {num} (p : params) (events : list (event num)) : Prop :=
  forall q, In (ESet num q) events -> samples_info_sets q = samples_info_sets p /\ price_bars q = price_bars p.
(** What fit makes of the classifier, or the exception: the ensemble and the number of classes; out-of-bag results as well. *)
Definition trained_ensemble {model} (r : result (heap * classifier model)) : result (option (list (trained model)) * nat) :=
  do hc <- r ;; Ok (ensemble model (c_fitted model (snd hc)), n_classes model (c_fitted model (snd hc))).
Definition all_fitted {model} (r : result (heap * classifier model)) : result (attributes model) := do hc <- r ;; Ok (c_fitted model (snd hc)).
