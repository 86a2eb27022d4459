(** Proofs: the filter on a price that changes once. *)
From Coq Require Import QArith Lqa Lia.
From Verif Require Import PreludeFacts Series Cusum_Model Cusum_Spec Cusum_Proofs Direction_Spec.
Local Open Scope nat_scope.

Definition level (a b : Q) (n : nat) (k : nat) : Q := if Nat.ltb k n then a else b.
Lemma level_rises h a b n N : (0 <= h)%Q -> 1 <= n -> rises h (level a b n) N (fun k => k = n /\ (h < b - a)%Q).
Proof.
  intros Hh Hn k _. split.
  - intros (-> & K). exists 0. split; [lia|]. split; [intros u (-> & _); lia|]. unfold level. rewrite Nat.ltb_irrefl. destruct (Nat.ltb_spec 0 n); [exact K|lia].
  - intros (i & Hi & V & K). unfold level in K. destruct (Nat.ltb_spec k n); destruct (Nat.ltb_spec i n); try (exfalso; lra || lia).
    assert (K' : (h < b - a)%Q) by exact K. split; [|exact K']. destruct (Nat.eq_dec k n); [assumption|]. pose proof (V n (conj eq_refl K') ltac:(lia)). lia.
Qed.
Lemma level_falls h a b n N : (0 <= h)%Q -> 1 <= n -> falls h (level a b n) N (fun k => k = n /\ (h < a - b)%Q).
Proof.
  intros Hh Hn k _. split.
  - intros (-> & K). exists 0. split; [lia|]. split; [intros u (-> & _); lia|]. unfold level. rewrite Nat.ltb_irrefl. destruct (Nat.ltb_spec 0 n); [exact K|lia].
  - intros (i & Hi & V & K). unfold level in K. destruct (Nat.ltb_spec k n); destruct (Nat.ltb_spec i n); try (exfalso; lra || lia).
    assert (K' : (h < a - b)%Q) by exact K. split; [|exact K']. destruct (Nat.eq_dec k n); [assumption|]. pose proof (V n (conj eq_refl K') ltac:(lia)). lia.
Qed.
Lemma filter_only f n N : (forall k, k < N -> f k = true -> k = n) -> filter f (seq 0 N) = if (Nat.ltb n N && f n)%bool then [n] else [].
Proof.
  induction N as [|N IH]; intros H; [reflexivity|]. rewrite seq_S, filter_app, IH by (intros; apply H; auto). cbn [filter Nat.add].
  destruct (Nat.ltb_spec n N); destruct (Nat.ltb_spec n (S N)); try lia; cbn [andb].
  - destruct (f N) eqn:E; [pose proof (H N ltac:(lia) E); lia|]. now rewrite app_nil_r.
  - assert (n = N) by lia. subst. reflexivity.
  - destruct (f N) eqn:E; [pose proof (H N ltac:(lia) E); lia|]. reflexivity.
Qed.
Lemma nth_map_const {A B} (b d : B) (l : list A) : forall k, k < length l -> nth k (map (fun _ => b) l) d = b.
Proof. induction l as [|x l IH]; intros [|k] H; cbn in *; try lia; [reflexivity|]. apply IH. lia. Qed.
Lemma one_step_selected h a b before after : (0 <= h)%Q -> before <> [] -> NoDup (before ++ after) ->
  (((h < b - a)%Q \/ (h < a - b)%Q) -> cusum_transform h (one_step a b before after) = Ok (firstn 1 after)) /\
  ((b - a <= h)%Q -> (a - b <= h)%Q -> cusum_transform h (one_step a b before after) = Ok []).
Proof.
  intros Hh Hb Hd. set (X := map (fun t => (t, a)) before ++ map (fun t => (t, b)) after).
  assert (E1 : one_step a b before after = map (fun r => (fst r, Fin (snd r))) X) by (unfold one_step, X; now rewrite map_app, !map_map).
  assert (E2 : map fst X = before ++ after) by (unfold X; rewrite map_app, !map_map; cbn [fst]; now rewrite !map_id).
  assert (E3 : forall k, k < length X -> nth k (map snd X) 0%Q = level a b (length before) k).
  { intros k Hk. unfold X in *. rewrite app_length, !map_length in Hk. rewrite map_app, !map_map. cbn [snd]. unfold level. destruct (Nat.ltb_spec k (length before)).
    - rewrite app_nth1 by (rewrite map_length; lia). apply nth_map_const. lia.
    - rewrite app_nth2 by (rewrite map_length; lia). rewrite map_length. apply nth_map_const. lia. }
  assert (LX : length X = length before + length after) by (unfold X; now rewrite app_length, !map_length).
  assert (Ln : 1 <= length before) by (destruct before; [congruence|cbn; lia]).
  destruct (c22 h X Hh ltac:(now rewrite E2)) as (up & down & U & D & _ & T). rewrite E1, T.
  assert (U' : forall k, k < length X -> (up k = true <-> k = length before /\ (h < b - a)%Q)).
  { apply (rises_unique h (level a b (length before))); [|now apply level_rises]. intros k Hk. rewrite (U k Hk). split; intros (i & I1 & I2 & I3); exists i; split; auto; split; auto; [rewrite <- !E3 by lia|rewrite !E3 by lia]; exact I3. }
  assert (D' : forall k, k < length X -> (down k = true <-> k = length before /\ (h < a - b)%Q)).
  { apply (falls_unique h (level a b (length before))); [|now apply level_falls]. intros k Hk. rewrite (D k Hk). split; intros (i & I1 & I2 & I3); exists i; split; auto; split; auto; [rewrite <- !E3 by lia|rewrite !E3 by lia]; exact I3. }
  rewrite (filter_only _ (length before)).
  2: { intros k Hk K. apply orb_true_iff in K. destruct K as [K|K]; [apply U' in K|apply D' in K]; tauto. }
  rewrite LX in *. split.
  - intros K. destruct after as [|t after]; [cbn [length]; rewrite Nat.add_0_r, Nat.ltb_irrefl; reflexivity|]. destruct (Nat.ltb_spec (length before) (length before + length (t :: after))) as [L|L]; [|cbn in L; lia].
    assert (F : up (length before) || down (length before) = true) by (apply orb_true_iff; destruct K as [K|K]; [left; apply U'|right; apply D']; auto).
    rewrite F. cbn [andb map firstn]. rewrite E2, app_nth2, Nat.sub_diag by lia. reflexivity.
  - intros K1 K2. destruct (Nat.ltb_spec (length before) (length before + length after)) as [L|L]; [|reflexivity]. cbn [andb].
    destruct (up (length before)) eqn:Eu; [apply U' in Eu; [|lia]; destruct Eu; lra|]. destruct (down (length before)) eqn:Ed; [apply D' in Ed; [|lia]; destruct Ed; lra|]. reflexivity.
Qed.
