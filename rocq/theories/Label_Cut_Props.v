(** C126: labels do not depend on earlier bars. *)
From Coq Require Import ZArith QArith Lia List String Permutation.
From Verif Require Import Prelude PreludeFacts Num Series Label_Model Label_Spec Label_Props Label_Cut_Spec Label_Cut_Proofs.
Import ListNotations.
Local Notation length := List.length.
Local Open Scope nat_scope.

(** Leave out the first [m] bars: a remaining event whose volatility is the same has the same end, return and label. *)
Theorem C126_row : forall (A : Type) (HA : Arith A) dv dv' order order' cfg (y y' : frame A) out out' m i (o o' : out_row A),
  valid_times (f_index y) -> well_formed y -> without_first m y y' ->
  Permutation order (seq 0 (length (f_index y))) -> Permutation order' (seq 0 (length (f_index y'))) -> (0 <= n_expiration_bars cfg)%Z ->
  transform dv order cfg y = Ok out -> transform dv' order' cfg y' = Ok out' ->
  nth_error out (m + i) = Some o -> nth_error out' i = Some o' -> o_vol o' = o_vol o -> o' = o.
Proof. exact @cut_row. Qed.
Print Assumptions C126_row.

(** Without adjustment for volatility the remaining output is the same. *)
Theorem C126_fixed_barriers : forall (A : Type) (HA : Arith A) dv dv' order order' cfg (y y' : frame A) out out' m,
  valid_times (f_index y) -> well_formed y -> without_first m y y' ->
  Permutation order (seq 0 (length (f_index y))) -> Permutation order' (seq 0 (length (f_index y'))) -> (0 <= n_expiration_bars cfg)%Z -> volatility_adjusted cfg = false ->
  transform dv order cfg y = Ok out -> transform dv' order' cfg y' = Ok out' -> out' = skipn m out.
Proof. exact @cut_fixed. Qed.
Print Assumptions C126_fixed_barriers.

Definition case_cut : frame Q := {| f_index := skipn 2 case_idx; f_cols := [("close"%string, skipn 2 (fq [100; 101; 94; 110; 90; 80]%Q))] |}.
Example C126_case : without_first 2 case_frame case_cut /\ transform no_vol [0; 1; 2; 3] case_cfg case_cut <> Ok [] /\
  match transform no_vol [5; 4; 3; 2; 1; 0] case_cfg case_frame, transform no_vol [0; 1; 2; 3] case_cfg case_cut with Ok a, Ok b => b = skipn 2 a | _, _ => False end.
Proof.
  split; [|split; [vm_compute; discriminate|vm_compute; reflexivity]]. split; [reflexivity|]. intros name. unfold column, case_frame, case_cut. cbn [f_cols find fst]. destruct (String.eqb "close" name); reflexivity.
Qed.

(** A negative number of bars makes the expiration look back: then the earlier bars matter. *)
Definition case_back : config Q :=
  {| n_expiration_bars := -1; profit_taking_factor := 1 # 20; stop_loss_factor := 1 # 20; metalabeling := false;
     close_column := "close"; side_column := "side"; volatility_adjusted := false; expiration_label := false |}.
Example C126_negative_bars : match transform no_vol [5; 4; 3; 2; 1; 0] case_back case_frame, transform no_vol [0; 1; 2; 3] case_back case_cut with Ok a, Ok b => b <> skipn 2 a | _, _ => False end.
Proof. vm_compute. discriminate. Qed.
