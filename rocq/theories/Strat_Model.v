(** A StrategySignalPipeline whose bet sizer is a BetSizingFromProbabilities: how the two models fit together. *)
From Coq Require Import Reals String.
From Verif Require Import Prelude Num Bet_Model Pipe_Model.
Open Scope nat_scope.

(** The frame that get_side_and_size gives the bet sizer (mizarlabs/model/pipeline.py, lines 570-589): columns "prob" and "pred", "side"
    with a metalabeling model, and nothing else. [meta] says whether there is one. Simplification: the sizer has the default
    names of columns (mizarlabs/transformers/trading/bet_sizing.py, lines 66-78), which are these. *)
Definition sizer_row (e : Z * (ext R * ext R * option (ext R))) : brow :=
  {| b_time := fst e; b_prob := fst (fst (snd e)); b_pred := snd (fst (snd e)); b_side := match snd (snd e) with Some s => s | None => NaN end; b_end := None |}.
Definition sizer_of (cdf : R -> R) (c : bet_cfg) (meta : bool) (l : list (Z * (ext R * ext R * option (ext R)))) : result (list (Z * ext R)) :=
  bet_transform cdf c {| has_prob := true; has_pred := true; has_side := meta; has_end := false; b_rows := map sizer_row l |}.
