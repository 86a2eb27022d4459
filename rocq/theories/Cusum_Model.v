(** Model of CUSUMFilter (mizarlabs/transformers/sampling/down_sampling.py:6-47). Generic in the number type. *)
From Verif Require Import Series.

Section Cusum.
  Context {A : Type} `{Arith A}.

  (** A series: (index value, value). Values are finite numbers, infinite or NaN. *)
  Definition series := list (Z * ext A).

  (** `diff.loc[index]`, lines 35-36: the value at a label; a repeated label yields a Series, on which `max` raises
      ValueError. *)
  Definition loc (s : series) (t : Z) : result (ext A) :=
    match filter (fun r => Z.eqb (fst r) t) s with
    | [r] => Ok (snd r)
    | [] => Err KeyError
    | _ => Err ValueError
    end.

  Record cstate := { pos : ext A; neg : ext A; picked : list Z }.

  (** The loop body, lines 33-45. *)
  Definition cusum_step (h : A) (st : cstate) (t : Z) (d : ext A) : cstate :=
    let p := py_max (Fin a0) (eadd (pos st) d) in
    let n := py_min (Fin a0) (eadd (neg st) d) in
    if eltb n (eopp (Fin h)) then {| pos := p; neg := Fin a0; picked := picked st ++ [t] |}
    else if eltb (Fin h) p then {| pos := Fin a0; neg := n; picked := picked st ++ [t] |}
    else {| pos := p; neg := n; picked := picked st |}.

  (** The whole loop, lines 29-45: from the second label on. *)
  Definition cusum_loop (h : A) (X : series) : result cstate :=
    let d := combine (map fst X) (diff (map snd X)) in
    foldM (fun st t => do v <- loc d t ;; Ok (cusum_step h st t v))
          {| pos := Fin a0; neg := Fin a0; picked := [] |} (tl (map fst X)).

  (** transform, lines 19-47. Simplification: the threshold is a finite number. *)
  Definition cusum_transform (h : A) (X : series) : result (list Z) :=
    do st <- cusum_loop h X ;; Ok (picked st).
End Cusum.
Arguments series A : clear implicits.
Arguments cstate A : clear implicits.
