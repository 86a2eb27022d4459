(** Model of the triple-barrier labelling (mizarlabs/transformers/targets/labeling.py:32-435).
    Everything is generic in the number type. *)
From Coq Require Import String.
From Verif Require Import Series Boot_Model DailyVol_Model Weights_Model.
Local Open Scope nat_scope.

Section Label.
  Context {A : Type} `{Arith A}.

  (** A data frame with a datetime index (nanoseconds) and named numeric columns. *)
  Record frame := { f_index : list Z; f_cols : list (string * list (ext A)) }.
  Definition column (f : frame) (name : string) : option (list (ext A)) :=
    option_map snd (find (fun c => String.eqb (fst c) name) (f_cols f)).

  (** Names from mizarlabs/static.py:21. *)
  Definition SIDE : string := "side"%string.

  (** * get_horizontal_barriers_hit, lines 290-359 *)

  Record hits := { h_pt : list Z; h_sl : list Z }.

  (** One iteration of the parallel loop, lines 326-357: reads the inputs, writes position [i] of the two outputs.
      Timestamps are milliseconds; 0 means not hit. Simplification: millisecond timestamps are exact in a double. *)
  Definition barrier_iter (expiry index : list Z) (close side sl pt : list (ext A)) (h : hits) (i : nat) : hits :=
    match nth_error index i, nth_error expiry i, nth_error close i, nth_error side i, nth_error sl i, nth_error pt i with
    | Some t_i, Some e_i, Some c_i, Some s_i, Some sl_i, Some pt_i =>
      let mask := map (fun t => (t_i <=? t) && (t <? e_i))%Z index in
      let close_in := mask_sel close mask in
      let returns := map (fun c => emul (esub (ediv c c_i) (Fin a1)) s_i) close_in in
      let times := mask_sel index mask in
      let sl_times := mask_sel times (map (fun r => eltb r sl_i) returns) in
      let pt_times := mask_sel times (map (fun r => eltb pt_i r) returns) in
      {| h_sl := match sl_times with [] => h_sl h | t :: ts => set_at (h_sl h) i (list_minZ t ts) end;
         h_pt := match pt_times with [] => h_pt h | t :: ts => set_at (h_pt h) i (list_minZ t ts) end |}
    | _, _, _, _, _, _ => h   (* arrays of unequal length: does not occur *)
    end.

  (** Lines 319-359; [order] is the order in which the iterations of `prange` are executed. *)
  Definition get_horizontal_barriers_hit (order : list nat) (expiry index : list Z) (close side sl pt : list (ext A)) : hits :=
    fold_left (barrier_iter expiry index close side sl pt) order
      {| h_pt := repeat 0%Z (length expiry); h_sl := repeat 0%Z (length expiry) |}.

  (** * triple_barrier_labeling, lines 208-287 *)

  (** `pd.Series(..., Int64).replace(0, nan)` and `pd.to_datetime(unit="ms")`, lines 268-283. *)
  Definition ms_to_datetime (t : Z) : option Z := if (t =? 0)%Z then None else Some (t * 1000000)%Z.

  (** A row of barriers_df. *)
  Record barriers := { b_vertical : option Z; b_stop : option Z; b_profit : option Z }.

  (** The barrier width of every row; a factor that is not positive means no barrier (NaN), lines 240-252. *)
  Definition profit_barriers (factor : A) (vol : list (ext A)) : list (ext A) :=
    if altb a0 factor then map (fun v => emul (Fin factor) v) vol else map (fun _ => NaN) vol.
  Definition stop_barriers (factor : A) (vol : list (ext A)) : list (ext A) :=
    if altb a0 factor then map (fun v => emul (Fin (aopp factor)) v) vol else map (fun _ => NaN) vol.

  (** [side_present]: whether barrier_info_df has the column SIDE, line 233. The other two columns are always there
      when called from the transformer. *)
  Definition triple_barrier_labeling (order : list nat) (index : list Z) (close : list (ext A))
      (vertical : list (option Z)) (vol side : list (ext A)) (side_present : bool) (pt_factor sl_factor : A)
    : result (list barriers) :=
    if negb side_present then Err AssertionError else
    if altb pt_factor a0 && altb sl_factor a0 then Err ValueError else
    match rev index with
    | [] => Err IndexError                                           (* close.index[-1], line 259 *)
    | last :: _ =>
      let expiry := map (fun v => to_ms (match v with Some t => t | None => last end)) vertical in
      let h := get_horizontal_barriers_hit order expiry (map to_ms index) close side
                 (stop_barriers sl_factor vol) (profit_barriers pt_factor vol) in
      Ok (map (fun r => {| b_vertical := fst (fst r); b_stop := ms_to_datetime (snd (fst r)); b_profit := ms_to_datetime (snd r) |})
            (combine (combine vertical (h_sl h)) (h_pt h)))
    end.

  (** `barriers_df.dropna(how="all").min(axis=1)`, line 182: the earliest of the three, skipping NaT. *)
  Definition omin (x y : option Z) : option Z :=
    match x, y with
    | Some a, Some b => Some (Z.min a b)
    | Some a, None => Some a
    | None, y => y
    end.
  Definition first_barrier (b : barriers) : option Z := omin (omin (b_vertical b) (b_stop b)) (b_profit b).

  (** * get_labels, lines 362-435 *)

  (** `np.sign`, line 425. *)
  Definition np_sign (x : ext A) : ext A :=
    match x with
    | NaN => NaN
    | _ => match esign x with Lt => Fin (aopp a1) | Eq => Fin a0 | Gt => Fin a1 end
    end.

  (** Lines 417-420. *)
  Definition meta_label (r : ext A) : ext A :=
    if eltb (Fin a0) r then Fin a1 else if eltb r (Fin a0) then Fin a0 else NaN.

  (** One row of the output: (return, label), or nothing for a row without end time (lines 390, 397).
      The price at an end time that is not a bar raises KeyError (line 405). The assertion on line 410 compares the
      same quotient computed in two ways: for bars it always holds. *)
  Definition label_row (index : list Z) (close : list (ext A)) (metalabeling expiration_label : bool)
      (start : Z) (side : ext A) (b : barriers) (end_time : option Z) : result (option (ext A * ext A)) :=
    match end_time with
    | None => Ok None
    | Some e =>
      do pe <- loc_value index close e ;;
      do ps <- loc_value index close start ;;
      let r := esub (ediv pe ps) (Fin a1) in
      let r := if metalabeling then emul r side else r in
      let l := if metalabeling then meta_label r else np_sign r in
      let l := if expiration_label then
                 match b_stop b, b_profit b with None, None => Fin a0 | _, _ => l end
               else l in
      Ok (Some (r, l))
    end.

  (** Line 418 adds the column LABEL to the rows that have an end time (line 390) through `.loc` with a condition. pandas does
      not accept a scalar for this if the frame has no rows: ValueError ("cannot set a frame with no defined index and a scalar"). *)
  Definition no_rows (ends : list (option Z)) : bool := forallb (fun e => match e with None => true | Some _ => false end) ends.

  (** * TripleBarrierMethodLabeling, lines 73-205 *)

  Record config := {
    n_expiration_bars : Z; profit_taking_factor : A; stop_loss_factor : A;
    metalabeling : bool; close_column : string; side_column : string;
    volatility_adjusted : bool; expiration_label : bool
  }.

  (** The constructor, lines 102-128: an empty side column name is rejected when meta-labelling. *)
  Definition construct (cfg : config) : result config :=
    if metalabeling cfg && String.eqb (side_column cfg) ""%string then Err AssertionError else Ok cfg.

  (** `shift(-n)` of the index, line 161. *)
  Definition shift_times (n : Z) (idx : list Z) : list (option Z) :=
    map (fun k => let p := (Z.of_nat k + n)%Z in
                  if (0 <=? p)%Z then nth_error idx (Z.to_nat p) else None) (seq 0 (length idx)).

  (** One row of the output frame. *)
  Record out_row := { o_end : option Z; o_vol : ext A; o_return : ext A; o_label : ext A }.

  (** Assigning a series to a column aligns it on the index, line 164. *)
  Definition align (idx : list Z) (s : list (Z * ext A)) : list (ext A) :=
    map (fun t => match find (fun r => Z.eqb (fst r) t) s with Some r => snd r | None => NaN end) idx.

  (** transform, lines 48-58 and 130-205. [daily_vol] is get_daily_vol with the configured window, [order] the
      execution order of the parallel loop.
      Simplification: the index is strictly increasing and without NaT; columns have the length of the index. *)
  Definition transform (daily_vol : list Z -> list (ext A) -> result (list (Z * ext A))) (order : list nat)
      (cfg : config) (y : frame) : result (list out_row) :=
    let idx := f_index y in
    match column y (close_column cfg) with
    | None => Err AssertionError                                       (* _check_input *)
    | Some close =>
      if metalabeling cfg && (match column y (side_column cfg) with None => true | Some _ => false end)
      then Err AssertionError else
      let vertical := shift_times (n_expiration_bars cfg) idx in
      do vol <- (if volatility_adjusted cfg then do v <- daily_vol idx close ;; Ok (align idx v)
                 else Ok (map (fun _ => Fin a1) idx)) ;;
      do side <- (match column y SIDE with
                  | None => Ok (map (fun _ => Fin a1) idx)
                  | Some _ => match column y (side_column cfg) with Some s => Ok s | None => Err KeyError end
                  end) ;;
      do bs <- triple_barrier_labeling order idx close vertical vol side (String.eqb (side_column cfg) SIDE)
                 (profit_taking_factor cfg) (stop_loss_factor cfg) ;;
      let ends := map first_barrier bs in
      do _ <- raise_if (metalabeling cfg && no_rows ends) ValueError ;;
      do labels <- mapM (fun r => let '(t, s, b, e) := r in
                           label_row idx close (metalabeling cfg) (expiration_label cfg) t s b e)
                     (combine (combine (combine idx side) bs) ends) ;;
      Ok (map (fun r => let '(v, e, l) := r in
             if is_nan v then {| o_end := None; o_vol := v; o_return := NaN; o_label := NaN |}
             else match l with
                  | Some (r, lab) => {| o_end := e; o_vol := v; o_return := r; o_label := lab |}
                  | None => {| o_end := e; o_vol := v; o_return := NaN; o_label := NaN |}
                  end)
           (combine (combine vol ends) labels))
    end.
End Label.
Arguments frame A : clear implicits.
Arguments config A : clear implicits.
Arguments out_row A : clear implicits.
