(** C115: VPIN in double precision. *)
From Coq Require Import Reals ZArith QArith Qreals Lra Lia List String.
From Verif Require Import Prelude PreludeFacts Num Series Feat_Model Feat_Spec Feat_Proofs5 Feat_Proofs6 Feat_Props Double_Model Double_Spec Double_Proofs Double_Proofs2
  Rounding_Model Rounding_Proofs Rounding_Arith_Model Rounding_Arith_Proofs Double_Vpin_Model Double_Vpin_Spec Double_Vpin_Proofs Double_Vpin_Proofs2 Double_Vpin_Proofs3 Double_Vpin_Proofs4.
Import ListNotations.
Local Open Scope R_scope.
Local Notation length := List.length.

(** In exact arithmetic the running, compensated sums give the VPIN of C41. *)
Theorem C115_exact : forall w volume buy sell X, (0 < w)%nat -> vpin_running Arith_R w volume buy sell X = vpin w volume buy sell X.
Proof. intros. now apply c115_exact. Qed.
Print Assumptions C115_exact.

(** Whatever the arithmetic, the closing assertion never fails: a feature comes back, with one value per row. *)
Theorem C115_never_fails : forall (A : Arith R) w volume buy sell X v b s,
  lookup volume X = Some v -> lookup buy X = Some b -> lookup sell X = Some s -> length b = length v -> length s = length v ->
  exists out, vpin_running A w volume buy sell X = Ok out /\ length out = length v /\
    forall i, (w <= i < length v)%nat -> exists y, nth_error out i = Some y /\ y <> NaN.
Proof. exact c115_never_fails. Qed.
Print Assumptions C115_never_fails.

(** Rolling sums of multiples of a power of two are exact, as long as no window holds 2^53 of them; missing values are allowed. *)
Theorem C115_sums : forall e w (l : list (option Z)), (-1074 <= e)%Z -> (0 < w)%nat ->
  (forall i, (i < length l)%nat -> (window_size w l i < 2 ^ 53)%Z) ->
  @kahan_sum R Arith_double w (map (in_double e) l) = rolling w agg_sum (map (in_double e) l).
Proof. exact c115_sums. Qed.
Print Assumptions C115_sums.

(** Then VPIN is the exact VPIN rounded once. *)
Theorem C115_ticks : forall e w volume buy sell X (bars : list (option (Z * Z))), (-1074 <= e)%Z -> (0 < w)%nat ->
  lookup volume X = Some (map (in_double e) (traded bars)) ->
  lookup buy X = Some (map (in_double e) (bought bars)) -> lookup sell X = Some (map (in_double e) (sold bars)) ->
  (forall b s, In (Some (b, s)) bars -> (0 <= b /\ 0 <= s)%Z) ->
  (forall i, (i < length bars)%nat -> (window_size w (traded bars) i < 2 ^ 53)%Z) ->
  exists out out', vpin w volume buy sell X = Ok out /\ vpin_running Arith_double w volume buy sell X = Ok out' /\ Forall2 rounds_to out out'.
Proof. exact c115_ticks. Qed.
Print Assumptions C115_ticks.

(** Without missing values: as in C41, with the quotient rounded, and never outside [0, 1]. *)
Theorem C115_vpin : forall e w volume buy sell X (bars : list (Z * Z)), (-1074 <= e)%Z -> (0 < w)%nat ->
  let units f := map (fun p => IZR (f p) * powerRZ 2 e) bars in
  let v := units (fun p => fst p + snd p)%Z in let b := units fst in let s := units snd in
  has_column X volume v -> has_column X buy b -> has_column X sell s ->
  (forall p, In p bars -> (0 <= fst p /\ 0 <= snd p)%Z) ->
  (forall i, (i < length bars)%nat -> (window_size w (traded (map Some bars)) i < 2 ^ 53)%Z) ->
  exists out, vpin_running Arith_double w volume buy sell X = Ok out /\ length out = length bars /\ forall i, (i < length bars)%nat ->
    let total := rsum (trailing w (row v) i) in let imbalance := rsum (trailing w (fun j => Rabs (row b j - row s j)) i) in
    exists y, nth_error out i = Some y /\
      ((i + 1 < w)%nat -> y = NaN) /\
      ((w <= i + 1)%nat -> total = 0 -> y = if Nat.eqb i (w - 1) then NaN else Fin 0) /\
      ((w <= i + 1)%nat -> total <> 0 -> exists q, y = Fin q /\ nearest (imbalance / total) q /\ 0 <= q <= 1).
Proof. exact c115_vpin. Qed.
Print Assumptions C115_vpin.

(** The transformer with rounded rational numbers is the transformer in doubles: it can be run. *)
Theorem C115_executable : forall w v b s,
  @vpin_values R Arith_double w (map real v) (map real b) (map real s) =
  match @vpin_values Q Arith_rounded w v b s with Ok out => Ok (map real out) | Err e => Err e end.
Proof. exact c115_executable. Qed.
Print Assumptions C115_executable.

(** For decimal volumes the bounds fail. Two bars without trades after two with trades: minus infinity, where C41 has 0. *)
Definition quiet : list (Q * Q) := [(5 # 10, 3 # 10); (8 # 10, 1 # 10); (0, 0); (0, 0)]%Q.
Theorem C115_decimals_refuted : ~ forall w (bars : list (Q * Q)) out, (0 < w)%nat -> (forall p, In p bars -> (0 <= fst p /\ 0 <= snd p)%Q) ->
  decimal_vpin w bars = Ok out -> forall y, In y out -> y = NaN \/ exists q, y = Fin q /\ 0 <= q <= 1.
Proof.
  intros F. assert (E : exists out, decimal_vpin 2 quiet = Ok out /\ In NInf out).
  { rewrite decimal_run. replace (rounded_vpin 2 quiet) with (Ok [NaN; Fin (4768517252509937 # 9007199254740992); Fin (7005599420354105 # 9007199254740992); NInf])
      by (vm_compute; reflexivity). eexists. split; [reflexivity|]. cbn. auto. }
  destruct E as (out & E & H).
  destruct (F 2%nat quiet out ltac:(lia)
    ltac:(intros p Hp; repeat destruct Hp as [<-|Hp]; try destruct Hp; split; unfold Qle; cbn; lia) E NInf H) as [?|(q & ? & _)]; discriminate.
Qed.
Print Assumptions C115_decimals_refuted.
(** Finite values leave [0, 1] as well, even with trades in the window (row 4): 1 + 2^-52 there, then 2. *)
Definition quiet2 : list (Q * Q) := [(1 # 10, 0); (0, 1); (6 # 10, 4 # 10); (0, 1); (0, 0); (0, 0)]%Q.
Theorem C115_above_one_refuted : exists out x, decimal_vpin 2 quiet2 = Ok out /\ nth_error out 4 = Some (Fin x) /\ 1 < x /\ nth_error out 5 = Some (Fin 2).
Proof.
  rewrite decimal_run. assert (exists r, rounded_vpin 2 quiet2 = Ok r /\ exists x y, nth_error r 4 = Some (Fin x) /\ nth_error r 5 = Some (Fin y) /\
    (Qle_bool x 1 = false /\ y == 2)%Q) as (r & -> & x & y & Ex & Ey & Lx & Hy).
  { eexists. split; [vm_compute; reflexivity|]. do 2 eexists. cbn [nth_error]. split; [reflexivity|]. split; [reflexivity|]. split; reflexivity. }
  exists (map real r), (Q2R x). split; [reflexivity|]. rewrite !nth_error_map, Ex, Ey. cbn [option_map real]. split; [reflexivity|]. split.
  - rewrite <- RMicromega.Q2R_1. apply Qlt_Rlt. apply Qnot_le_lt. intros H. apply Qle_bool_iff in H. congruence.
  - rewrite (Qeq_eqR _ _ Hy). do 2 f_equal. unfold Q2R. cbn. lra.
Qed.
Print Assumptions C115_above_one_refuted.
(** So the feature of the last rows depends on bars that have left the window (in exact arithmetic it does not: C64). *)
Theorem C115_history_refuted : ~ forall w m (bars : list (Q * Q)) out out', (0 < w)%nat -> (forall p, In p bars -> (0 <= fst p /\ 0 <= snd p)%Q) ->
  decimal_vpin w bars = Ok out -> decimal_vpin w (skipn m bars) = Ok out' -> skipn w out' = skipn (m + w) out.
Proof.
  intros F. specialize (F 2%nat 1%nat quiet). rewrite !decimal_run in F.
  replace (rounded_vpin 2 quiet) with (Ok [NaN; Fin (4768517252509937 # 9007199254740992); Fin (7005599420354105 # 9007199254740992); NInf]) in F
    by (vm_compute; reflexivity).
  assert (exists r, rounded_vpin 2 (skipn 1 quiet) = Ok r /\ nth_error r 2 <> Some NInf /\ length r = 3%nat) as (r & E & H & L).
  { eexists. split; [vm_compute; reflexivity|]. split; [discriminate|reflexivity]. }
  rewrite E in F. specialize (F _ _ ltac:(lia)
    ltac:(intros p Hp; repeat destruct Hp as [<-|Hp]; try destruct Hp; split; unfold Qle; cbn; lia) eq_refl eq_refl).
  apply (f_equal (fun l => nth_error l 0)) in F. cbv beta in F. rewrite !nth_error_skipn'', !nth_error_map in F.
  change (2 + 0)%nat with 2%nat in F. change (1 + 2 + 0)%nat with 3%nat in F. cbn [nth_error] in F. fold (@nth_error (ext Q) r 2) in F.
  destruct (nth_error r 2) as [[| | |]|]; cbn [option_map real] in F; try (apply H; reflexivity); congruence.
Qed.
Print Assumptions C115_history_refuted.

(** A case that meets the hypotheses: volumes in units of 2^-3, an empty window, windows of two bars. *)
Definition eighths : list (Z * Z) := [(4, 3); (8, 1); (0, 0); (0, 0); (5, 2)]%Z.
Definition eighths_frame : frame :=
  let units f := map (fun p => Fin (IZR (f p) * powerRZ 2 (-3))) eighths in
  {| f_index := [1; 2; 3; 4; 5]%Z;
     f_cols := [("volume", units (fun p => fst p + snd p)%Z); ("buy", units fst); ("sell", units snd)]%string |}.
Example C115_case : exists out, vpin_running Arith_double 2 "volume" "buy" "sell" eighths_frame = Ok out /\
  nth_error out 0 = Some NaN /\ nth_error out 1 = Some (Fin (1 / 2)) /\ nth_error out 3 = Some (Fin 0).
Proof.
  destruct (C115_vpin (-3) 2 "volume" "buy" "sell" eighths_frame eighths) as (out & E & L & H); try lia.
  - unfold has_column. cbn [lookup eighths_frame find f_cols String.eqb Ascii.eqb Bool.eqb fst snd option_map]. rewrite map_map. reflexivity.
  - unfold has_column. cbn [lookup eighths_frame find f_cols String.eqb Ascii.eqb Bool.eqb fst snd option_map]. rewrite map_map. reflexivity.
  - unfold has_column. cbn [lookup eighths_frame find f_cols String.eqb Ascii.eqb Bool.eqb fst snd option_map]. rewrite map_map. reflexivity.
  - intros p Hp. repeat destruct Hp as [<-|Hp]; try destruct Hp; cbn; lia.
  - intros i Hi. do 5 (destruct i as [|i]; [reflexivity|]). cbn in Hi. lia.
  - exists out. split; [exact E|]. cbv zeta in H. assert (P : powerRZ 2 (-3) = / 8) by (change (powerRZ 2 (-3)) with (/ (2 * (2 * (2 * 1)))); field). rewrite P in H.
    destruct (H 0%nat ltac:(cbn; lia)) as (y0 & -> & A & _). destruct (H 1%nat ltac:(cbn; lia)) as (y1 & -> & _ & _ & B).
    destruct (H 3%nat ltac:(cbn; lia)) as (y3 & -> & _ & C & _). split; [rewrite A by lia; reflexivity|]. split.
    + destruct B as (q & -> & N & _); [lia|cbn; lra|]. do 2 f_equal.
      assert (D : is_double (1 / 2)). { exists 1%Z, (-1)%Z. split; [change (powerRZ 2 (-1)) with (/ (2 * 1)); field|]. split; [reflexivity|lia]. }
      replace (rsum _ / rsum _) with (1 / 2) in N.
      2: { cbn. rewrite (Rabs_pos_eq (4 * / 8 - 3 * / 8)), (Rabs_pos_eq (8 * / 8 - 1 * / 8)) by lra. field. }
      destruct N as [_ N]. specialize (N _ D). rewrite (Rminus_diag_eq (1 / 2)) in N by reflexivity. rewrite Rabs_R0 in N.
      destruct (Req_dec q (1 / 2)); auto. assert (0 < Rabs (q - 1 / 2)) by (apply Rabs_pos_lt; lra). lra.
    + rewrite C; [reflexivity|lia|cbn; lra].
Qed.
