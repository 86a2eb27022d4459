(** Parameters of the SADF test. *)
From Coq Require Import Reals Lra String.
From Verif Require Import Series OLS_Model Break_Model Break_Spec Break_Cases Trend_Spec.
Local Open Scope nat_scope.

Lemma eleb_fin : forall a b : R, eleb (Fin a) (Fin b) = true <-> (a <= b)%R.
Proof.
  intros a b. unfold eleb; cbn. unfold aeqb; cbn.
  destruct (Rlt_dec a b), (Req_EM_T a b); cbn; split; intro H; try reflexivity; try lra; discriminate H.
Qed.

Lemma c87 : forall n m phi, sadf_construct (LagCount n) m (Fin phi) = Ok tt <-> (0 <= phi <= 1)%R /\ (n < m)%Z.
Proof.
  intros n m phi. unfold sadf_construct.
  destruct (eleb (Fin 0%R) (Fin phi)) eqn:E0, (eleb (Fin phi) (Fin 1%R)) eqn:E1; cbn [andb negb raise_if bind].
  - apply eleb_fin in E0, E1. destruct (Z.ltb_spec n m); cbn [negb raise_if]; split; intro H'; try reflexivity; try (split; [lra|lia]); try discriminate H'.
    destruct H'; lia.
  - split; [intro H; discriminate H|]. intros [[_ H] _]. apply eleb_fin in H. congruence.
  - split; [intro H; discriminate H|]. intros [[H _] _]. apply eleb_fin in H. congruence.
  - split; [intro H; discriminate H|]. intros [[H _] _]. apply eleb_fin in H. congruence.
Qed.

Lemma c87_exponent : forall lags m phi, (forall v, phi = Fin v -> ~ (0 <= v <= 1)%R) ->
  sadf_construct lags m phi = Err AssertionError.
Proof.
  intros lags m phi H. unfold sadf_construct.
  replace (eleb (Fin 0%R) phi && eleb phi (Fin 1%R)) with false; [reflexivity|].
  destruct phi as [v| | |]; try reflexivity.
  destruct (eleb (Fin 0%R) (Fin v)) eqn:E0, (eleb (Fin v) (Fin 1%R)) eqn:E1; try reflexivity.
  apply eleb_fin in E0, E1. exfalso. apply (H v eq_refl). lra.
Qed.

Lemma c87_rejected : forall lags m phi, sadf_construct lags m phi <> Ok tt ->
  sadf_construct lags m phi = Err AssertionError \/ sadf_construct lags m phi = Err TypeError /\ exists l, lags = LagList l.
Proof.
  intros lags m phi. unfold sadf_construct.
  destruct (negb (eleb (Fin 0%R) phi && eleb phi (Fin 1%R))); cbn [raise_if bind]; [now left|].
  destruct lags as [n|l]; [|intros _; right; split; [reflexivity|now exists l]].
  destruct (negb (n <? m)%Z); cbn [raise_if]; [now left|]. intro H; now destruct H.
Qed.

Lemma c87_list : forall l m phi, sadf_construct (LagList l) m phi <> Ok tt.
Proof.
  intros l m phi. unfold sadf_construct. destruct (negb _); cbn [raise_if bind]; intro H; discriminate H.
Qed.

Lemma c87_unknown : forall inv model lags m const phi s,
  ~ In model ["no_trend"; "linear"; "quadratic"; "sm_poly_1"; "sm_poly_2"; "sm_exp"; "sm_power"]%string ->
  sadf_run inv model lags m const phi s = Err ValueError.
Proof.
  intros inv model lags m const phi s H. unfold sadf_run, get_X_y.
  repeat match goal with
  | |- context[String.eqb model ?n] => destruct (String.eqb_spec model n) as [E|_]; [exfalso; apply H; rewrite E; cbn; tauto|]
  end. reflexivity.
Qed.

Lemma c87_cases : sadf_construct (LagCount 2) 20 (Fin (1 / 2)%R) = Ok tt /\
  sadf_construct (LagCount 20) 20 (Fin (1 / 2)%R) = Err AssertionError /\
  sadf_construct (LagList [1; 2]%Z) 20 (Fin (1 / 2)%R) = Err TypeError /\
  sadf_construct (LagCount 2) 20 NaN = Err AssertionError /\
  sadf_run inv_small "cubic" 1 2 false 0 ex_square = Err ValueError.
Proof.
  assert (eleb (Fin 0%R) (Fin (1 / 2)%R) && eleb (Fin (1 / 2)%R) (Fin 1%R) = true) as E
    by (apply andb_true_intro; split; apply eleb_fin; lra).
  split; [apply c87; split; [lra|lia]|]. split; [unfold sadf_construct; rewrite E; reflexivity|].
  split; [unfold sadf_construct; rewrite E; reflexivity|]. split; [reflexivity|].
  apply c87_unknown. cbn. intuition discriminate.
Qed.

Lemma c44_sides name : ((exists d, name = side_name d) -> csw_construct name = Ok name) /\ ((forall d, name <> side_name d) -> csw_construct name = Err AssertionError).
Proof.
  split.
  - intros [[] ->]; reflexivity.
  - intros H. unfold csw_construct. destruct (existsb _ _) eqn:E; [|reflexivity]. exfalso. apply existsb_exists in E. destruct E as (x & Hx & E). apply String.eqb_eq in E. subst x.
    destruct Hx as [<-|[<-|[<-|[]]]]; [apply (H Negative)|apply (H Positive)|apply (H TwoSided)]; reflexivity.
Qed.
