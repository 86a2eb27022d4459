(** C45: ordinary least squares. *)
From Coq Require Import Reals Lra.
From Verif Require Import Series OLS_Model OLS_Spec OLS_Proofs OLS_Proofs2 OLS_Short Trend_Model Trend_Spec Trend_Proofs Trend_Proofs4.
Local Open Scope nat_scope.

(** For every design matrix and response (of matching heights) and every sound matrix inverse: the residuals are
    orthogonal to every regressor, no coefficient vector has a smaller sum of squared residuals, no other one reaches
    it, and, when there are more rows than columns, the variance matrix is the residual variance times the inverse Gram
    matrix and has a non-negative diagonal. *)
Theorem C45_least_squares : forall inv, inv_sound inv ->
  forall X y b V, nr y = nr X -> nc y = 1 -> get_beta_and_beta_var inv X y = Ok (b, V) ->
  let beta := fun l => at_ b l 0 in
  (forall j, j < nc X -> rsumn (nr X) (fun i => at_ X i j * resid X y beta i)%R = 0%R) /\
  (forall c, (sse X y beta <= sse X y c)%R) /\
  (forall c, (sse X y c <= sse X y beta)%R -> forall j, j < nc X -> c j = beta j) /\
  exists N, inverse_of (gram X) N /\
    (nc X < nr X -> forall i j, V i j = Fin (sse X y beta / (INR (nr X) - INR (nc X)) * at_ N i j)%R) /\
    (nc X < nr X -> forall j, j < nc X -> exists v, V j j = Fin v /\ (0 <= v)%R).
Proof. exact c45. Qed.
Print Assumptions C45_least_squares.

(** The estimate is returned exactly when the Gram matrix is invertible. *)
Theorem C45_defined : forall inv X y, inv_sound inv -> inv_complete (nc X) inv -> nr y = nr X ->
  (exists b V, get_beta_and_beta_var inv X y = Ok (b, V)) <-> (exists N, inverse_of (gram X) N).
Proof. exact ols_defined. Qed.
Print Assumptions C45_defined.

(** With fewer rows than regressors no estimate is ever returned; with as many, the fit is exact and the whole variance
    matrix is NaN. *)
Theorem C45_few_rows : forall inv, inv_sound inv -> forall X y, nr y = nr X -> nc y = 1 -> nr X <= nc X ->
  (nr X < nc X -> forall r, get_beta_and_beta_var inv X y <> Ok r) /\
  (nr X = nc X -> forall b V, get_beta_and_beta_var inv X y = Ok (b, V) ->
     sse X y (fun l => at_ b l 0) = 0%R /\ forall i j, V i j = NaN).
Proof. exact c45_few. Qed.
Print Assumptions C45_few_rows.

(** The assumptions can be met: a concrete inverse and a concrete regression (three points on two regressors). *)
Example C45_case : inv_sound inv_small /\ inv_complete 1 inv_small /\ inv_complete 2 inv_small /\
  exists b V, get_beta_and_beta_var inv_small (trend_design 3) (colvec [1; 0; 5]%R) = Ok (b, V).
Proof.
  split; [exact inv_small_sound|]. split; [exact inv_small_complete_1|]. split; [exact inv_small_complete_2|].
  exact (ols_ok inv_small inv_small_sound inv_small_complete_2 [1; 0; 5]%R ltac:(cbn; lia)).
Qed.
