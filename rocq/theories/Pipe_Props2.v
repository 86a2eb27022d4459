(** What predict and predict_proba of the strategy pipeline return: C76. *)
From Coq Require Import String QArith.
From Verif Require Import Prelude Num Pipe_Model Pipe_Spec Pipe_Proofs10 Pipe_Props.
Open Scope nat_scope.

(** The primary model predicts for every time at which all its features are complete, from these features; the metalabeling model
    from its own features, followed by what the primary model said at the same time. *)
Theorem C76_predict : forall (A : Type) (HA : Arith A) (p : pipeline A) X P M s ms, features_of p X = Ok (P, M) -> good_frames P -> (metalabeling_model p <> None -> good_frames M) ->
  predict_all p X = Ok (s, ms) ->
  exists Xp, complete_rows (map snd P) Xp /\ map fst s = index Xp /\ (forall t x, In (t, x) s <-> said predict (primary_model p) Xp t x) /\
  match metalabeling_model p with
  | None => ms = None
  | Some mm => exists Xs q, decider_features p (P, M) Xp Xs /\ ms = Some q /\ map fst q = index Xs /\ (forall t x, In (t, x) q <-> said predict (Some mm) Xs t x)
  end.
Proof. exact @predictions_ok. Qed.
Print Assumptions C76_predict.
(** The same for probabilities: one for each class. *)
Theorem C76_predict_proba : forall (A : Type) (HA : Arith A) (p : pipeline A) X P M s ms, features_of p X = Ok (P, M) -> good_frames P -> (metalabeling_model p <> None -> good_frames M) ->
  predict_proba_all p X = Ok (s, ms) ->
  exists Xp m, complete_rows (map snd P) Xp /\ primary_model p = Some m /\ map fst s = index Xp /\ (forall t x, In (t, x) s <-> said predict_proba (Some m) Xp t x) /\
  (forall t x, In (t, x) s -> List.length x = List.length (classes m)) /\
  match metalabeling_model p with
  | None => ms = None
  | Some mm => exists Xs q, decider_features p (P, M) Xp Xs /\ ms = Some q /\ map fst q = index Xs /\ (forall t x, In (t, x) q <-> said predict_proba (Some mm) Xs t x) /\
      (forall t x, In (t, x) q -> List.length x = List.length (classes mm))
  end.
Proof. exact @probabilities_all_ok. Qed.
Print Assumptions C76_predict_proba.
(** Predictions and probabilities are for the same times. *)
Theorem C76_same_times : forall (A : Type) (HA : Arith A) (p : pipeline A) X s ms q mq, predict_all p X = Ok (s, ms) -> predict_proba_all p X = Ok (q, mq) ->
  map fst s = map fst q /\ option_map (map fst) ms = option_map (map fst) mq.
Proof. exact @same_times. Qed.
Print Assumptions C76_same_times.
(** With a metalabeling model that is not fitted there are no predictions, probabilities or signals. *)
Theorem C76_unfitted : forall (A : Type) (HA : Arith A) (p : pipeline A) X mm, metalabeling_model p = Some mm -> fitted mm = false ->
  predict_all p X = Err NotFittedError /\ is_ok (predict_proba_all p X) = false /\ is_ok (get_side_and_size p X) = false.
Proof. exact @unfitted_refused. Qed.
Print Assumptions C76_unfitted.
(** Data that ends before the leading data starts is refused. *)
Theorem C76_outdated : forall (A : Type) (HA : Arith A) (p : pipeline A) X lead t0, lookup X (align_on p) = Ok lead -> head (index lead) = Some t0 ->
  (exists key f, In (key, f) X /\ index f <> [] /\ forall t, In t (index f) -> (t < t0)%Z) -> is_ok (predict_all p X) = false.
Proof. exact @outdated_refused. Qed.
Print Assumptions C76_outdated.
Definition ex_pm : pipeline Q := ex_p None None (Some ex_meta) false.
Example C76_case : exists s m pr mpr, predict_all ex_pm ex_X = Ok (s, Some m) /\ predict_proba_all ex_pm ex_X = Ok (pr, Some mpr) /\ List.length s = 3 /\ List.length m = 3 /\
  List.length mpr = 3 /\ nth_error s 0 = Some (20%Z, q 1).
Proof. do 4 eexists. split; [run|]. split; [run|]. repeat split. Qed.
