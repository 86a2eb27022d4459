(** C126 for the trend scanner. *)
From Coq Require Import Reals ZArith Lia List.
From Verif Require Import Prelude PreludeFacts Num Series Boot_Model Label_Model OLS_Model Trend_Model Trend_Spec Trend_Props Trend_Cut_Proofs.
Import ListNotations.
Local Open Scope nat_scope.

(** Bars before the events do not matter to the trend scanner, whatever its step, its regression routine and the memory it is given. *)
Theorem C126_trend : forall inv junk cfg ev (P S : list (Z * R)), NoDup (map fst (P ++ S)) -> 1 <= t_min cfg -> incl ev (map fst S) ->
  snd (transform inv junk cfg (Some ev) (P ++ S)) = snd (transform inv junk cfg (Some ev) S).
Proof. exact trend_cut. Qed.
Print Assumptions C126_trend.

Example C126_trend_case : NoDup (map fst ([(5%Z, 9%R)] ++ ex_y)) /\ incl [10%Z] (map fst ex_y) /\
  exists r, snd (transform inv_small (fun _ _ => NaN) ex_cfg (Some [10%Z]) ([(5%Z, 9%R)] ++ ex_y)) = Ok [r] /\ tr_end r = Some 30%Z /\ tr_label r = Fin (-1)%R.
Proof.
  assert (N : NoDup (map fst ([(5%Z, 9%R)] ++ ex_y))) by (cbn; repeat constructor; cbn; intuition lia). assert (I : incl [10%Z] (map fst ex_y)) by (intros t [<-|[]]; now left).
  assert (Ht : 1 <= t_min ex_cfg) by (cbn; lia). split; [exact N|]. split; [exact I|]. rewrite (C126_trend _ _ _ _ _ _ N Ht I). destruct C32_case as (_ & r & A & B & C & _). exists r. tauto.
Qed.
