(** Vocabulary for the properties of labels that are handed on. *)
From Coq Require Import Reals Permutation.
From Verif Require Import Series Label_Model Label_Spec Trend_Model Cusum_Spec Flow_Model.

(** All columns of a row are known, and the label ends at [e]. *)
Definition complete_row {A} (o : out_row A) (e : Z) : Prop :=
  o_end o = Some e /\ o_vol o <> NaN /\ o_return o <> NaN /\ o_label o <> NaN.

(** Labels in time order, at most one per start, each ending no earlier than it starts. *)
Definition proper_spans (l : list (Z * Z)) : Prop :=
  increasingZ (map fst l) /\ forall s e, In (s, e) l -> (s <= e)%Z.

(** Labels, as pairs of start and end, that a user can have: the complete rows of a run of the triple-barrier labelling
    or of the trend scanner (with events in time order), or some of them in the same order (those of sampled events, say). *)
Inductive labelled : list (Z * Z) -> Prop :=
| by_barriers (A : Type) (HA : Arith A) daily_vol order (cfg : config A) (y : frame A) out :
    valid_times (f_index y) -> well_formed y -> Permutation order (seq 0 (length (f_index y))) -> (0 <= n_expiration_bars cfg)%Z ->
    Label_Model.transform daily_vol order cfg y = Ok out -> labelled (label_spans (f_index y) out)
| by_trends inv junk cfg events (y : list (Z * R)) rows :
    increasingZ (map fst y) -> (forall ev, events = Some ev -> increasingZ ev) -> 1 <= t_min cfg ->
    snd (Trend_Model.transform inv junk cfg events y) = Ok rows -> labelled (trend_spans rows)
| selected l l' : labelled l -> subseq l' l -> labelled l'.

(** Two labels have no moment in common. *)
Definition disjoint (a b : Z * Z) : Prop := (snd a < fst b)%Z \/ (snd b < fst a)%Z.
