(** Crossings of moving averages of the opposite prices. *)
From Coq Require Import Reals Lra String.
From Verif Require Import PreludeFacts Series Feat_Model Feat_Spec Feat_Proofs3 Mirror_Spec.
Local Open Scope nat_scope.

Lemma rsum_opp v : rsum (map Ropp v) = (- rsum v)%R.
Proof. induction v as [|x v IH]; cbn; [ring|]. unfold rsum in *. rewrite IH. ring. Qed.
Lemma average_opp v : average (map Ropp v) = (- average v)%R.
Proof. unfold average. rewrite rsum_opp, map_length. unfold Rdiv. ring. Qed.
Lemma all_numbers_opp l : all_numbers (map opposite l) = option_map (map Ropp) (all_numbers l).
Proof. induction l as [|[x| | |] l IH]; auto. cbn [map opposite all_numbers]. rewrite IH. now destruct (all_numbers l). Qed.
Lemma last_values_opp w l i : last_values w (map opposite l) i = option_map (map Ropp) (last_values w l i).
Proof.
  unfold last_values. destruct (Nat.ltb (i + 1) w); [reflexivity|]. rewrite <- all_numbers_opp, map_map. f_equal. apply map_ext. intros j.
  change (@NaN R) with (opposite NaN) at 1. apply map_nth.
Qed.
Lemma moving_average_opp w l i : moving_average w (map opposite l) i = option_map Ropp (moving_average w l i).
Proof. unfold moving_average. rewrite last_values_opp. destruct (last_values w l i); [|reflexivity]. cbn. now rewrite average_opp. Qed.

Lemma up_opp fast slow l i : up_crossing fast slow (map opposite l) i <-> down_crossing fast slow l i.
Proof.
  unfold up_crossing, down_crossing. split.
  - intros (j & f0 & s0 & f1 & s1 & E & A & B & C & D & P & Q). rewrite !moving_average_opp in *. exists j.
    destruct (moving_average fast l j) as [f0'|], (moving_average slow l j) as [s0'|], (moving_average fast l i) as [f1'|], (moving_average slow l i) as [s1'|]; try discriminate.
    cbn in *. injection A as <-. injection B as <-. injection C as <-. injection D as <-. exists f0', s0', f1', s1'. repeat split; auto; lra.
  - intros (j & f0 & s0 & f1 & s1 & E & A & B & C & D & P & Q). exists j, (- f0)%R, (- s0)%R, (- f1)%R, (- s1)%R. rewrite !moving_average_opp, A, B, C, D. repeat split; auto; lra.
Qed.
Lemma map_opp_opp l : map opposite (map opposite l) = l.
Proof. rewrite map_map. rewrite <- (map_id l) at 2. apply map_ext. intros [x| | |]; cbn; auto. f_equal. ring. Qed.
Lemma down_opp fast slow l i : down_crossing fast slow (map opposite l) i <-> up_crossing fast slow l i.
Proof. rewrite <- up_opp, map_opp_opp. reflexivity. Qed.

Lemma direction_opp fast slow l i d : direction fast slow l i d -> direction fast slow (map opposite l) i (- d).
Proof.
  unfold direction. rewrite up_opp, down_opp. intros [[H ->]|[[H ->]|(H & H' & ->)]]; [right; left; now split|left; split; auto; ring|right; right; repeat split; auto; ring].
Qed.
Lemma recent_opp fast slow l i d : most_recent_direction fast slow l i d -> most_recent_direction fast slow (map opposite l) i (- d).
Proof.
  intros [(j & Hj & Hd & D & N)|(-> & N)].
  - left. exists j. split; [exact Hj|]. split; [destruct Hd as [->| ->]; [now right|left; ring]|]. split; [now apply direction_opp|].
    intros k Hk. rewrite <- Ropp_0. now apply direction_opp, N.
  - right. split; [ring|]. intros k Hk. rewrite <- Ropp_0. now apply direction_opp, N.
Qed.
Lemma direction_fun fast slow l i d d' : direction fast slow l i d -> direction fast slow l i d' -> d = d'.
Proof.
  pose proof (crossings_exclusive fast slow l i) as X. unfold direction. intros [[H ->]|[[H ->]|(H & H' & ->)]] [[G ->]|[[G ->]|(G & G' & ->)]]; auto; tauto.
Qed.
Lemma recent_fun fast slow l i d d' : most_recent_direction fast slow l i d -> most_recent_direction fast slow l i d' -> d = d'.
Proof.
  intros [(j & Hj & Hd & D & N)|(-> & N)] [(j' & Hj' & Hd' & D' & N')|(-> & N')]; auto.
  - destruct (Nat.lt_trichotomy j j') as [L|[L|L]].
    + assert (E := direction_fun _ _ _ _ _ _ (N j' ltac:(lia)) D'). destruct Hd'; lra.
    + subst j'. now apply (direction_fun fast slow l j).
    + assert (E := direction_fun _ _ _ _ _ _ (N' j ltac:(lia)) D). destruct Hd; lra.
  - assert (E := direction_fun _ _ _ _ _ _ (N' j Hj) D). destruct Hd; lra.
  - assert (E := direction_fun _ _ _ _ _ _ (N j' Hj') D'). destruct Hd'; lra.
Qed.

Theorem crossover_mirror fast slow fill name X X' : 1 <= fast -> 1 <= slow -> NoDup (f_index X) -> well_formed X -> well_formed X' -> opposite_column name X X' ->
  ma_crossover fast slow fill name X' = match ma_crossover fast slow fill name X with Ok side => Ok (map opposite side) | Err e => Err e end.
Proof.
  intros Hf Hs HN HW HW' (EI & EC & _). destruct (lookup name X) as [c|] eqn:Ec.
  2:{ unfold ma_crossover, column. now rewrite EC, Ec. }
  assert (HN' : NoDup (f_index X')) by now rewrite EI. cbn [option_map] in EC.
  assert (exists side side', ma_crossover fast slow fill name X = Ok (map Fin side) /\ ma_crossover fast slow fill name X' = Ok (map Fin side') /\ side' = map Ropp side) as (s & s' & -> & -> & ->).
  2:{ f_equal. now rewrite !map_map. }
  destruct fill.
  - destruct (c39_filled fast slow name X c Hf Hs HN HW Ec) as (s & E & L & D). destruct (c39_filled fast slow name X' _ Hf Hs HN' HW' EC) as (s' & E' & L' & D').
    exists s, s'. repeat split; auto. apply list_ext. intros i. rewrite nth_error_map. rewrite EI in L'.
    destruct (nth_error s i) as [d|] eqn:N, (nth_error s' i) as [d'|] eqn:N'; cbn; auto.
    + f_equal. exact (recent_fun _ _ _ _ _ _ (D' _ _ N') (recent_opp _ _ _ _ _ (D _ _ N))).
    + exfalso. apply nth_error_None in N'. assert (i < List.length s) by (apply nth_error_Some; congruence). lia.
    + exfalso. apply nth_error_None in N. assert (i < List.length s') by (apply nth_error_Some; congruence). lia.
  - destruct (c39_plain fast slow name X c Hf Hs HN HW Ec) as (s & E & L & D). destruct (c39_plain fast slow name X' _ Hf Hs HN' HW' EC) as (s' & E' & L' & D').
    exists s, s'. repeat split; auto. apply list_ext. intros i. rewrite nth_error_map. rewrite EI in L'.
    destruct (nth_error s i) as [d|] eqn:N, (nth_error s' i) as [d'|] eqn:N'; cbn; auto.
    + f_equal. exact (direction_fun _ _ _ _ _ _ (D' _ _ N') (direction_opp _ _ _ _ _ (D _ _ N))).
    + exfalso. apply nth_error_None in N'. assert (i < List.length s) by (apply nth_error_Some; congruence). lia.
    + exfalso. apply nth_error_None in N. assert (i < List.length s') by (apply nth_error_Some; congruence). lia.
Qed.
