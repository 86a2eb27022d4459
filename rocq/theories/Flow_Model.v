(** How the outputs of the labelling transformers are handed on to cross-validation, weights and bagging, as in the
    project's fixtures (mizarlabs/tests/conftest.py:120-123 and 284-303). *)
From Coq Require Import Reals.
From Verif Require Import Series Label_Model Trend_Model.
Local Open Scope nat_scope.

Section Flow.
  Context {A : Type} `{Arith A}.

  (** `target_labels.dropna()` (conftest.py:291) and its column of end times (conftest.py:123), as pairs (start, end).
      The frame has the columns end time, volatility, return and label (transformers/targets/labeling.py:194-205). *)
  Definition label_spans (index : list Z) (out : list (out_row A)) : list (Z * Z) :=
    flat_map (fun r => match o_end (snd r) with
                       | Some e => if is_nan (o_vol (snd r)) || is_nan (o_return (snd r)) || is_nan (o_label (snd r))
                                   then [] else [(fst r, e)]
                       | None => []
                       end) (combine index out).
End Flow.

(** The same for the frame of the trend scanner (transformers/targets/trend_scanning.py:132-147), whose columns are end
    time, t-value, return and label. *)
Definition trend_spans (rows : list trend_row) : list (Z * Z) :=
  flat_map (fun r => match tr_end r with
                     | Some e => if is_nan (tr_t r) || is_nan (tr_return r) || is_nan (tr_label r) then [] else [(tr_start r, e)]
                     | None => []
                     end) rows.

(** `pred_times` and `eval_times` for the cross-validator (model/model_selection.py:105-113): the index and the column
    of end times. *)
Definition times_of (spans : list (Z * Z)) : list Z := map fst spans.
Definition ends_of (spans : list (Z * Z)) : list (option Z) := map (fun s => Some (snd s)) spans.
