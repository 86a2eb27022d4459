(** The microstructural features (mizarlabs/transformers/microstructural_features) with arithmetic in given numbers and the rolling means and sums
    as pandas 1.2 computes them (Double_Vpin_Model, Double_Cross_Model). [log], [exp] and [root] stand for np.log, np.exp and the square root on
    numbers; they are arbitrary functions. Rolling maxima and minima involve no rounding. *)
From Coq Require Import Reals String.
From Verif Require Import Prelude Num Series Feat_Model Double_Vpin_Model Double_Cross_Model.
Local Open Scope nat_scope.

Section Micro.
  Variable numbers : Arith R.
  Variables log exp root : R -> R.
  Local Notation num n := (@anat R numbers n).

  (** np.log, np.sqrt, np.exp and `x ** 0.5` with missing and infinite values, as elog, esqrt, eexp and epow_half. *)
  Definition nlog (x : ext R) : ext R :=
    match x with
    | Fin a => if Rlt_dec 0 a then Fin (log a) else if Req_EM_T a 0 then NInf else NaN
    | PInf => PInf | NInf => NaN | NaN => NaN
    end.
  Definition nsqrt (x : ext R) : ext R :=
    match x with Fin a => if Rlt_dec a 0 then NaN else Fin (root a) | PInf => PInf | NInf => NaN | NaN => NaN end.
  Definition nexp (x : ext R) : ext R := match x with Fin a => Fin (exp a) | PInf => PInf | NInf => Fin 0%R | NaN => NaN end.
  Definition npow_half (x : ext R) : ext R := match x with NInf => PInf | _ => nsqrt x end.
  Definition nsquare (x : ext R) : ext R := @emul R numbers x x.

  (** `s.rolling(window=w).cov(t)` for series with the same index (pandas/core/window/rolling.py, cov and _prep_binary):
      (mean(x y) - mean(x) mean(y)) * (count / (count - 1)). *)
  Definition count_at (w : nat) (l : list (ext R)) (i : nat) : nat := length (finite_vals (slice (S i - w) (S i) l)).
  Definition rolling_cov_running (w : nat) (s t : list (ext R)) : list (ext R) :=
    let x := zipw (fun a b => @eadd R numbers a (@emul R numbers (Fin (@a0 R numbers)) b)) s t in
    let y := zipw (fun a b => @eadd R numbers b (@emul R numbers (Fin (@a0 R numbers)) a)) s t in
    let count := map (count_at w (zipw (@eadd R numbers) x y)) (seq 0 (length x)) in
    let bias_adj := map (fun n => @ediv R numbers (Fin (num n)) (@esub R numbers (Fin (num n)) (Fin (@a1 R numbers)))) count in
    zipw (@emul R numbers)
      (zipw (@esub R numbers) (@kahan_mean R numbers w (zipw (@emul R numbers) x y)) (zipw (@emul R numbers) (@kahan_mean R numbers w x) (@kahan_mean R numbers w y)))
      bias_adj.

  (** RollMeasure.transform (first_generation.py:29-36). *)
  Definition roll_measure_running (window : nat) (close_name : string) (X : frame) : result (list (ext R)) :=
    do _ <- check_missing_columns X [close_name] ;;
    do close <- column close_name X ;;
    let close_diff := @diff R numbers close in
    let close_diff_lag := shift1 close_diff in
    Ok (map (fun c => @emul R numbers (Fin (num 2)) (nsqrt (@eabs R numbers c))) (rolling_cov_running window close_diff close_diff_lag)).

  (** ParkinsonVolatility.transform (first_generation.py:98-110); [constant] is 1 / (4 * np.log(2)). *)
  Definition parkinson_running (constant : R) (window : nat) (high_name low_name : string) (X : frame) : result (list (ext R)) :=
    do _ <- check_missing_columns X [high_name; low_name] ;;
    do h <- column high_name X ;;
    do l <- column low_name X ;;
    Ok (@kahan_mean R numbers window (map (fun r => @emul R numbers (Fin constant) (nsquare (nlog r))) (zipw (@ediv R numbers) h l))).

  (** _get_beta (first_generation.py:113-130), _get_gamma (133-147), _get_alpha (150-165); [den] and [c] are 3 - 2 * 2 ** 0.5 and 2 ** 0.5 - 1. *)
  Definition beta_running (h l : list (ext R)) (window : nat) : list (ext R) :=
    @kahan_mean R numbers window (@kahan_sum R numbers 2 (map nsquare (map nlog (zipw (@ediv R numbers) h l)))).
  Definition gamma_running (h l : list (ext R)) : list (ext R) :=
    map nsquare (map nlog (zipw (@ediv R numbers) (rolling 2 agg_max h) (rolling 2 agg_min l))).
  Definition alpha_running (den c : R) (beta gamma : list (ext R)) : list (ext R) :=
    map set_negative_to_zero
      (zipw (@esub R numbers) (map (fun b => @ediv R numbers (@emul R numbers (Fin c) (npow_half b)) (Fin den)) beta)
                              (map (fun g => npow_half (@ediv R numbers g (Fin den))) gamma)).

  (** CorwinSchultzSpread.transform (first_generation.py:196-205). *)
  Definition corwin_schultz_running (den c : R) (window : nat) (high_name low_name : string) (X : frame) : result (list (ext R)) :=
    do _ <- check_missing_columns X [high_name; low_name] ;;
    do h <- column high_name X ;;
    do l <- column low_name X ;;
    let alpha := alpha_running den c (beta_running h l window) (gamma_running h l) in
    let one := Fin (@a1 R numbers) in
    Ok (map (fun a => @ediv R numbers (@emul R numbers (Fin (num 2)) (@esub R numbers (nexp a) one)) (@eadd R numbers one (nexp a))) alpha).

  (** BeckersParkinsonVolatility.transform (first_generation.py:236-248); [c], [d] and [e] are 2 ** -0.5 - 1, k2 * den and k2 ** 2 * den. *)
  Definition beckers_parkinson_running (c d e : R) (window : nat) (high_name low_name : string) (X : frame) : result (list (ext R)) :=
    do _ <- check_missing_columns X [high_name; low_name] ;;
    do h <- column high_name X ;;
    do l <- column low_name X ;;
    let sigma := map (fun b => @ediv R numbers (@emul R numbers (Fin c) (npow_half b)) (Fin d)) (beta_running h l window) in
    let sigma := zipw (@eadd R numbers) sigma (map (fun g => npow_half (@ediv R numbers g (Fin e))) (gamma_running h l)) in
    Ok (map set_negative_to_zero sigma).

  (** KyleLambda.transform (second_generation.py:37-47), AmihudLambda.transform (78-87), HasbrouckLambda.transform (118-129). *)
  Definition kyle_running (window : nat) (close_name volume_name : string) (X : frame) : result (list (ext R)) :=
    do _ <- check_missing_columns X [close_name; volume_name] ;;
    do c <- column close_name X ;;
    do v <- column volume_name X ;;
    Ok (@kahan_mean R numbers window (zipw (@ediv R numbers) (map (@eabs R numbers) (@diff R numbers c)) v)).
  Definition amihud_running (window : nat) (close_name volume_name : string) (X : frame) : result (list (ext R)) :=
    do _ <- check_missing_columns X [close_name; volume_name] ;;
    do c <- column close_name X ;;
    do v <- column volume_name X ;;
    Ok (@kahan_mean R numbers window (zipw (@ediv R numbers) (map (@eabs R numbers) (@diff R numbers (map nlog c))) v)).
  Definition hasbrouck_running (window : nat) (close_name volume_name : string) (X : frame) : result (list (ext R)) :=
    do _ <- check_missing_columns X [close_name; volume_name] ;;
    do c <- column close_name X ;;
    do v <- column volume_name X ;;
    Ok (@kahan_mean R numbers window (zipw (@ediv R numbers) (map (@eabs R numbers) (@diff R numbers (map nlog c))) (map nsqrt v))).
End Micro.
