(** Model of get_daily_vol (mizarlabs/transformers/targets/labeling.py:438-463). *)
From Coq Require Import Reals.
From Verif Require Import Series Boot_Model.
Local Open Scope nat_scope.

(** pd.Timedelta(days=1) in nanoseconds. *)
Definition one_day : Z := 86400000000000%Z.

(** `index.searchsorted(v)` (left side): for a sorted index, the number of smaller entries. *)
Definition searchsorted (idx : list Z) (v : Z) : nat := length (filter (fun t => t <? v)%Z idx).

Section Generic.
  Context {A : Type} `{Arith A}.

  (** `close.loc[t]` on a series whose index has no repetitions. *)
  Definition loc_value (idx : list Z) (vals : list (ext A)) (t : Z) : result (ext A) :=
    match position t idx with
    | Some p => get vals p
    | None => Err KeyError
    end.

  (** The return series of lines 450-461: (index value, return).
      Simplification: the index is strictly increasing and without NaT. *)
  Definition daily_returns (idx : list Z) (close : list (ext A)) : result (list (Z * ext A)) :=
    let pos := map (fun t => searchsorted idx (t - one_day)) idx in
    let filtered := filter (fun p => Nat.ltb 0 p) pos in
    do refs <- mapM (fun p => get idx (p - 1)) filtered ;;
    let ix := skipn (length idx - length filtered) idx in
    do cur <- mapM (loc_value idx close) ix ;;
    do ref <- mapM (loc_value idx close) refs ;;
    Ok (combine ix (map (fun x => esub x (Fin a1)) (zipw ediv cur ref))).

  (** Line 462, with [ewm_std] the standard deviation of `ewm(span)`. *)
  Definition get_daily_vol (ewm_std : list (ext A) -> list (ext A)) (idx : list Z) (close : list (ext A))
    : result (list (Z * ext A)) :=
    do r <- daily_returns idx close ;;
    Ok (combine (map fst r) (ewm_std (map snd r))).
End Generic.

(** pandas `ewm(span=s).std()` (adjust=True, ignore_na=False, bias=False), used on line 462: at position [k] the finite
    observations up to [k] with weights (1-alpha)^(k-j), alpha = 2/(s+1); infinite values count as missing.
    Simplification: closed form of the weighted variance instead of the incremental update (Ewm_Model has the update, C105
    proves them equal); the span is at least 1. *)
Definition ewm_obs (span : R) (l : list (ext R)) (k : nat) : list (R * R) :=
  flat_map (fun j => match nth_error l j with
                     | Some (Fin x) => [((1 - 2 / (span + 1)) ^ (k - j), x)%R]
                     | _ => [] end) (seq 0 (S k)).
Definition lsum (l : list R) : R := fold_right Rplus 0%R l.
Definition ewm_std_at (span : R) (l : list (ext R)) (k : nat) : ext R :=
  let obs := ewm_obs span l k in
  let sw := lsum (map fst obs) in
  let sw2 := lsum (map (fun o => fst o * fst o)%R obs) in
  let mean := (lsum (map (fun o => fst o * snd o) obs) / sw)%R in
  let var := (lsum (map (fun o => fst o * ((snd o - mean) * (snd o - mean))) obs) / sw)%R in
  let den := (sw * sw - sw2)%R in
  match obs with
  | [] => NaN
  | _ => if Rlt_dec 0 den then Fin (sqrt (sw * sw / den * var)) else NaN
  end.
Definition ewm_std (span : R) (l : list (ext R)) : list (ext R) := map (ewm_std_at span l) (seq 0 (length l)).
