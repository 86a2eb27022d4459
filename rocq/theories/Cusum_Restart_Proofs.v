(** At every event the CUSUM filter forgets all earlier prices. *)
From Coq Require Import ZArith QArith Qabs Lqa Lia List Sorted.
From Verif Require Import Prelude PreludeFacts Num Series Cusum_Model Cusum_Spec Cusum_Proofs Cusum_Props Cusum_Restart_Spec.
Import ListNotations.
Local Open Scope nat_scope.

Lemma last_true (f : nat -> bool) k : (forall u, f u = true -> u < k -> False) \/ exists d, d < k /\ f d = true /\ forall u, f u = true -> u < k -> u <= d.
Proof.
  induction k as [|k IH]; [left; intros; lia|]. destruct (f k) eqn:E; [right; exists k; repeat split; [lia|exact E|intros; lia]|].
  destruct IH as [IH|(d & D1 & D2 & D3)].
  - left. intros u Hu L. destruct (Nat.eq_dec u k) as [->|]; [congruence|]. apply (IH u Hu). lia.
  - right. exists d. split; [lia|]. split; [exact D2|]. intros u Hu L. destruct (Nat.eq_dec u k) as [->|]; [congruence|]. apply D3; [exact Hu|lia].
Qed.

Section Dir.
  Variables (h : Q) (p : nat -> Q) (n : nat) (U D : nat -> bool).
  Hypotheses (Hh : (0 <= h)%Q) (HU : rises h p n (fun k => U k = true)) (HD : falls h p n (fun k => D k = true)).
  Lemma rise_level k : k < n -> U k = true -> exists i, i < k /\ (forall u, U u = true \/ D u = true -> u < k -> u <= i) /\ (h < p k - p i)%Q.
  Proof.
    intros Hk H. apply (HU k Hk) in H. destruct H as (i & Hi & L & M). destruct (last_true D k) as [N|(d & D1 & D2 & D3)].
    - exists i. split; [exact Hi|]. split; [|exact M]. intros u [Hu|Hu] Lu; [now apply L|]. exfalso. now apply (N u).
    - destruct (le_lt_dec d i) as [C|C].
      + exists i. split; [exact Hi|]. split; [|exact M]. intros u [Hu|Hu] Lu; [now apply L|]. specialize (D3 u Hu Lu). lia.
      + assert (G : (p d <= p i)%Q).
        { destruct (Qlt_le_dec (p i) (p d)) as [G|G]; [|exact G]. exfalso. pose proof D2 as Dd. apply (HD d ltac:(lia)) in Dd. destruct Dd as (j & Hj & Lj & Mj).
          destruct (lt_eq_lt_dec j i) as [[J|J]|J].
          - assert (Di : D i = true) by (apply (HD i ltac:(lia)); exists j; split; [exact J|]; split; [intros u Hu Lu; apply Lj; [exact Hu|lia]|lra]). specialize (Lj i Di C). lia.
          - subst j. lra.
          - assert (Uj : U j = true) by (apply (HU j ltac:(lia)); exists i; split; [exact J|]; split; [intros u Hu Lu; apply L; [exact Hu|lia]|lra]). specialize (L j Uj ltac:(lia)). lia. }
        exists d. split; [exact D1|]. split; [|lra]. intros u [Hu|Hu] Lu; [specialize (L u Hu Lu); lia|now apply D3].
  Qed.
End Dir.
Lemma rises_opp h p n U : falls h p n U -> rises h (fun k => - p k)%Q n U.
Proof. intros H k Hk. rewrite (H k Hk). split; intros (i & Hi & L & M); exists i; (split; [exact Hi|]); (split; [exact L|]); lra. Qed.
Lemma falls_opp h p n U : rises h p n U -> falls h (fun k => - p k)%Q n U.
Proof. intros H k Hk. rewrite (H k Hk). split; intros (i & Hi & L & M); exists i; (split; [exact Hi|]); (split; [exact L|]); lra. Qed.

Lemma moves_of h p n (U D : nat -> bool) : (0 <= h)%Q -> rises h p n (fun k => U k = true) -> falls h p n (fun k => D k = true) ->
  moves h p n (fun k => U k || D k = true).
Proof.
  intros Hh HU HD k Hk. split.
  - intros H. apply Bool.orb_true_iff in H. destruct H as [H|H].
    + destruct (rise_level h p n U D Hh HU HD k Hk H) as (i & Hi & L & M). exists i. split; [exact Hi|]. split; [intros u Hu; apply L; now apply Bool.orb_true_iff|]. rewrite Qabs_pos; lra.
    + destruct (rise_level h _ n D U Hh (rises_opp _ _ _ _ HD) (falls_opp _ _ _ _ HU) k Hk H) as (i & Hi & L & M). exists i. split; [exact Hi|].
      split; [intros u Hu; apply L; apply Bool.orb_true_iff in Hu; tauto|]. rewrite Qabs_neg; lra.
  - intros (i & Hi & L & M). apply Bool.orb_true_iff. destruct (Qlt_le_dec (p k - p i) 0) as [N|N].
    + rewrite Qabs_neg in M by lra. right. apply (HD k Hk). exists i. split; [exact Hi|]. split; [intros u Hu; apply L; rewrite Hu; apply Bool.orb_true_r|lra].
    + rewrite Qabs_pos in M by lra. left. apply (HU k Hk). exists i. split; [exact Hi|]. split; [intros u Hu; apply L; rewrite Hu; reflexivity|lra].
Qed.
Lemma moves_unique h p n U V : moves h p n U -> moves h p n V -> forall k, k < n -> (U k <-> V k).
Proof.
  intros HU HV k. induction k as [k IH] using lt_wf_ind. intros Hk. rewrite (HU k Hk), (HV k Hk). split; intros (i & Hi & L & M); exists i; (split; [exact Hi|]); (split; [|exact M]); intros u Hu Lu; apply L; try exact Lu; apply (IH u Lu ltac:(lia)); exact Hu.
Qed.

Definition prices (X : list (Z * Q)) : nat -> Q := fun k => nth k (map snd X) 0%Q.
Definition fin_rows (X : list (Z * Q)) : list (Z * ext Q) := map (fun r => (fst r, Fin (snd r))) X.
Lemma exact_moves h X : (0 <= h)%Q -> NoDup (map fst X) -> exists E : nat -> bool, moves h (prices X) (length X) (fun k => E k = true) /\
  cusum_transform h (fin_rows X) = Ok (map (fun k => nth k (map fst X) 0%Z) (filter E (seq 0 (length X)))).
Proof.
  intros Hh N. unfold fin_rows. destruct (C22_exact_crossings h X Hh N) as (u & d & U & D & _ & ->). exists (fun k => u k || d k). split; [|reflexivity]. now apply moves_of.
Qed.

(** * Runs started at different bars *)
Lemma prices_app_l P S k : k < length P -> prices (P ++ S) k = prices P k.
Proof. intros H. unfold prices. rewrite map_app, app_nth1 by (rewrite map_length; exact H). reflexivity. Qed.
Lemma prices_app_r P S k : prices (P ++ S) (length P + k) = prices S k.
Proof. unfold prices. rewrite map_app, app_nth2 by (rewrite map_length; lia). rewrite map_length. f_equal. lia. Qed.

Lemma same_before h P S (E F : nat -> bool) : moves h (prices (P ++ S)) (length (P ++ S)) (fun k => E k = true) -> moves h (prices P) (length P) (fun k => F k = true) ->
  forall k, k < length P -> E k = F k.
Proof.
  intros HE HF k Hk. apply Bool.eq_iff_eq_true. revert k Hk. apply (moves_unique h (prices P)); [|exact HF]. intros k Hk. rewrite (HE k ltac:(rewrite app_length; lia)).
  split; intros (i & Hi & L & M); exists i; (split; [exact Hi|]); (split; [exact L|]); rewrite !prices_app_l in * by lia; exact M.
Qed.
Lemma same_after h P S (E F : nat -> bool) : moves h (prices (P ++ S)) (length (P ++ S)) (fun k => E k = true) -> moves h (prices S) (length S) (fun k => F k = true) ->
  E (length P) = true -> forall k, 0 < k -> k < length S -> E (length P + k) = F k.
Proof.
  intros HE HF E0 k. induction k as [k IH] using lt_wf_ind. intros K0 Hk. apply Bool.eq_iff_eq_true. rewrite (HE (length P + k) ltac:(rewrite app_length; lia)), (HF k Hk).
  split; intros (i & Hi & L & M).
  - pose proof (L (length P) E0 ltac:(lia)) as G. exists (i - length P). split; [lia|]. split.
    + intros u Hu Lu. destruct (Nat.eq_dec u 0) as [->|]; [lia|]. rewrite <- IH in Hu by lia. specialize (L _ Hu ltac:(lia)). lia.
    + replace i with (length P + (i - length P)) in M by lia. rewrite !prices_app_r in M. exact M.
  - exists (length P + i). split; [lia|]. split.
    + intros u Hu Lu. destruct (le_lt_dec u (length P)) as [C|C]; [lia|]. replace u with (length P + (u - length P)) in Hu by lia. rewrite IH in Hu by lia. specialize (L _ Hu ltac:(lia)). lia.
    + rewrite !prices_app_r. exact M.
Qed.
Lemma never_first h p n (F : nat -> bool) : moves h p n (fun k => F k = true) -> 0 < n -> F 0 = false.
Proof. intros H Hn. destruct (F 0) eqn:E; [|reflexivity]. apply (H 0 Hn) in E. destruct E as (i & Hi & _). lia. Qed.

Lemma NoDup_app_r {A} (l m : list A) : NoDup (l ++ m) -> NoDup m.
Proof. intros H. apply NoDup_app_iff in H. tauto. Qed.

(** * In terms of the times returned *)
Definition picks (E : nat -> bool) (l : list Z) : list Z := map (fun k => nth k l 0%Z) (filter E (seq 0 (length l))).
Lemma picks_cons E x l : picks E (x :: l) = (if E 0 then [x] else []) ++ picks (fun k => E (S k)) l.
Proof.
  unfold picks. cbn [length seq filter]. rewrite <- seq_shift.
  assert (G : forall s, map (fun k => nth k (x :: l) 0%Z) (filter E (map S s)) = map (fun k => nth k l 0%Z) (filter (fun k => E (S k)) s)).
  { induction s as [|a s IH]; [reflexivity|]. change (map S (a :: s)) with (S a :: map S s). change (filter E (S a :: map S s)) with (if E (S a) then S a :: filter E (map S s) else filter E (map S s)).
    change (filter (fun k => E (S k)) (a :: s)) with (if E (S a) then a :: filter (fun k => E (S k)) s else filter (fun k => E (S k)) s). destruct (E (S a)); [|exact IH]. change (nth (S a) (x :: l) 0%Z :: map (fun k => nth k (x :: l) 0%Z) (filter E (map S s)) = nth a l 0%Z :: map (fun k => nth k l 0%Z) (filter (fun k => E (S k)) s)). f_equal. exact IH. }
  destruct (E 0); [change (x :: map (fun k => nth k (x :: l) 0%Z) (filter E (map S (seq 0 (length l)))) = [x] ++ map (fun k => nth k l 0%Z) (filter (fun k => E (S k)) (seq 0 (length l))))|]; rewrite (G (seq 0 (length l))); reflexivity.
Qed.
Lemma picks_ext E F l : (forall k, k < length l -> E k = F k) -> picks E l = picks F l.
Proof. intros H. unfold picks. f_equal. apply filter_ext_in. intros k Hk. apply in_seq in Hk. apply H. lia. Qed.
Lemma picks_app E l r : picks E (l ++ r) = picks E l ++ picks (fun k => E (length l + k)) r.
Proof. revert E. induction l as [|x l IH]; intros E; [reflexivity|]. cbn [app length]. rewrite !picks_cons, IH, <- app_assoc. reflexivity. Qed.
Lemma picks_In E l t : In t (picks E l) <-> exists k, k < length l /\ nth k l 0%Z = t /\ E k = true.
Proof. unfold picks. rewrite in_map_iff. split; intros (k & A & B); exists k; [apply filter_In in B; destruct B as [B C]; apply in_seq in B; repeat split; [lia|exact A|exact C]|destruct B as [B C]; split; [exact B|]; apply filter_In; split; [apply in_seq; lia|exact C]]. Qed.
Lemma picks_at E l x r : NoDup (l ++ x :: r) -> In x (picks E (l ++ x :: r)) -> E (length l) = true.
Proof.
  intros N H. apply picks_In in H. destruct H as (k & K & Ek & T). assert (k = length l); [|now subst].
  apply (proj1 (NoDup_nth (l ++ x :: r) 0%Z) N); [exact K|rewrite app_length; cbn; lia|]. rewrite Ek, app_nth2, Nat.sub_diag by lia. reflexivity.
Qed.
Lemma events_of h X : (0 <= h)%Q -> NoDup (map fst X) -> exists E : nat -> bool, moves h (prices X) (length X) (fun k => E k = true) /\ cusum_transform h (fin_rows X) = Ok (picks E (map fst X)).
Proof. intros Hh N. destruct (exact_moves h X Hh N) as (E & M & ->). exists E. split; [exact M|]. unfold picks. now rewrite map_length. Qed.

Lemma restart h P t q S : (0 <= h)%Q -> NoDup (map fst (P ++ (t, q) :: S)) ->
  exists before all after, cusum_transform h (fin_rows P) = Ok before /\ cusum_transform h (fin_rows (P ++ (t, q) :: S)) = Ok all /\ cusum_transform h (fin_rows ((t, q) :: S)) = Ok after /\
    (In t all -> all = before ++ t :: after).
Proof.
  intros Hh N. pose proof N as N0. rewrite map_app in N. destruct (events_of h _ Hh (NoDup_app_l _ _ N)) as (B & MB & EB). destruct (events_of h _ Hh N0) as (A & MA & EA). destruct (events_of h ((t, q) :: S) Hh (NoDup_app_r _ _ N)) as (F & MF & EF).
  exists (picks B (map fst P)), (picks A (map fst (P ++ (t, q) :: S))), (picks F (map fst ((t, q) :: S))). split; [exact EB|]. split; [exact EA|]. split; [exact EF|]. intros HI.
  rewrite map_app in *. cbn [map fst] in *. pose proof (picks_at _ _ _ _ N HI) as A0. rewrite map_length in A0. rewrite picks_app. f_equal.
  - apply picks_ext. rewrite map_length. now apply (same_before h P ((t, q) :: S)).
  - rewrite !picks_cons, map_length, Nat.add_0_r, A0, (never_first _ _ _ _ MF ltac:(cbn; lia)). cbn [app]. f_equal. apply picks_ext. rewrite map_length. intros k Hk. apply (same_after h P ((t, q) :: S) A F MA MF A0); cbn; lia.
Qed.

(** * A run started later *)
Fixpoint lst (f : nat -> bool) (k : nat) : nat := match k with 0 => 0 | S j => if f j then j else lst f j end.
Fixpoint cnt (f : nat -> bool) (k : nat) : nat := match k with 0 => 0 | S j => (if f j then 1 else 0) + cnt f j end.
Lemma lst_le f k : lst f k <= k.
Proof. induction k as [|k IH]; cbn; [lia|]. destruct (f k); lia. Qed.
Lemma lst_spec f k i : lst f k <= i <-> forall u, f u = true -> u < k -> u <= i.
Proof.
  induction k as [|k IH]; cbn; [split; intros; lia|]. destruct (f k) eqn:E.
  - split; [intros H u Hu L; lia|intros H; apply (H k E); lia].
  - rewrite IH. split; intros H u Hu L; [destruct (Nat.eq_dec u k) as [->|]; [congruence|]|]; apply H; auto; lia.
Qed.
Lemma moves_lst h p n f : moves h p n (fun k => f k = true) -> forall k, k < n -> (f k = true <-> exists i, lst f k <= i < k /\ (h < Qabs (p k - p i))%Q).
Proof.
  intros M k Hk. rewrite (M k Hk). split; [intros (i & Hi & L & G); exists i; split; [split; [apply lst_spec; exact L|exact Hi]|exact G]|intros (i & [L Hi] & G); exists i; split; [exact Hi|]; split; [apply lst_spec; exact L|exact G]].
Qed.
Lemma late h P S (E F : nat -> bool) : moves h (prices (P ++ S)) (length (P ++ S)) (fun k => E k = true) -> moves h (prices S) (length S) (fun k => F k = true) ->
  forall k, k <= length S -> let a := cnt (fun j => E (length P + j)) k in let b := cnt F k in
    a = b /\ lst E (length P + k) <= length P + lst F k \/ a = b + 1 /\ length P + lst F k <= lst E (length P + k).
Proof.
  intros HE HF k. induction k as [|k IH]; intros Hk.
  - left. cbn. split; [reflexivity|]. rewrite !Nat.add_0_r. apply lst_le.
  - specialize (IH ltac:(lia)). cbv zeta in *. pose proof (moves_lst _ _ _ _ HE (length P + k) ltac:(rewrite app_length; lia)) as GE. pose proof (moves_lst _ _ _ _ HF k ltac:(lia)) as GF.
    rewrite Nat.add_succ_r. cbn [cnt lst]. pose proof (lst_le F k). pose proof (lst_le E (length P + k)). destruct IH as [[C L]|[C L]].
    + assert (I : F k = true -> E (length P + k) = true).
      { intros H1. apply GE. apply GF in H1. destruct H1 as (i & Hi & G). exists (length P + i). split; [lia|]. rewrite !prices_app_r. exact G. }
      destruct (F k) eqn:Fk; [rewrite (I eq_refl); left; lia|]. destruct (E (length P + k)); [right; lia|left; lia].
    + assert (I : E (length P + k) = true -> F k = true).
      { intros H1. apply GF. apply GE in H1. destruct H1 as (i & Hi & G). exists (i - length P). split; [lia|]. replace i with (length P + (i - length P)) in G by lia. rewrite !prices_app_r in G. exact G. }
      destruct (E (length P + k)) eqn:Ek; [rewrite (I eq_refl); right; lia|]. destruct (F k); [left; lia|right; lia].
Qed.
Lemma cnt_filter f n : length (filter f (seq 0 n)) = cnt f n.
Proof. induction n as [|n IH]; [reflexivity|]. rewrite seq_S, filter_app, app_length, IH. cbn. destruct (f n); cbn; lia. Qed.
Lemma picks_length E l : length (picks E l) = cnt E (length l).
Proof. unfold picks. rewrite map_length. apply cnt_filter. Qed.
Lemma picks_sub E l t : In t (picks E l) -> In t l.
Proof. intros H. apply picks_In in H. destruct H as (k & K & <- & _). apply nth_In. exact K. Qed.
Lemma filter_none {A} (f : A -> bool) l : (forall x, In x l -> f x = false) -> filter f l = [].
Proof. induction l as [|x l IH]; intros H; [reflexivity|]. cbn. rewrite (H x (or_introl eq_refl)). apply IH. intros y Hy. apply H. now right. Qed.
Lemma filter_all {A} (f : A -> bool) l : (forall x, In x l -> f x = true) -> filter f l = l.
Proof. induction l as [|x l IH]; intros H; [reflexivity|]. cbn. rewrite (H x (or_introl eq_refl)), IH; [reflexivity|]. intros y Hy. apply H. now right. Qed.

Lemma late_start h P S : (0 <= h)%Q -> NoDup (map fst (P ++ S)) ->
  exists all ev, cusum_transform h (fin_rows (P ++ S)) = Ok all /\ cusum_transform h (fin_rows S) = Ok ev /\
    length ev <= length (filter (fun t => existsb (Z.eqb t) (map fst S)) all) <= length ev + 1.
Proof.
  intros Hh N. pose proof N as N0. rewrite map_app in N. destruct (events_of h _ Hh N0) as (E & ME & EE). destruct (events_of h S Hh (NoDup_app_r _ _ N)) as (F & MF & EF).
  exists (picks E (map fst (P ++ S))), (picks F (map fst S)). split; [exact EE|]. split; [exact EF|]. rewrite map_app, picks_app, filter_app, filter_none, filter_all; cbn [app].
  - rewrite !picks_length, !map_length. pose proof (late h P S E F ME MF (length S) (Nat.le_refl _)) as L. cbv zeta in L. lia.
  - intros t Ht. apply picks_sub in Ht. apply existsb_exists. exists t. split; [exact Ht|apply Z.eqb_refl].
  - intros t Ht. apply picks_sub in Ht. destruct (existsb _ _) eqn:X; [|reflexivity]. apply existsb_exists in X. destruct X as (u & Hu & Eu). apply Z.eqb_eq in Eu. subst u. apply NoDup_app_iff in N. exfalso. destruct N as (_ & _ & N). exact (N t Ht Hu).
Qed.
Lemma inc_split l x r : increasingZ (l ++ x :: r) -> (forall y, In y l -> (y < x)%Z) /\ (forall y, In y r -> (x < y)%Z).
Proof.
  unfold increasingZ. induction l as [|a l IH]; cbn; intros H; inversion H as [|? ? H1 H2]; subst.
  - split; [tauto|]. rewrite Forall_forall in H2. exact H2.
  - destruct (IH H1) as [A B]. split; [|exact B]. rewrite Forall_forall in H2. intros y [<-|Hy]; [apply H2, in_or_app; right; now left|now apply A].
Qed.
Lemma inc_nodup l : increasingZ l -> NoDup l.
Proof. unfold increasingZ. induction 1 as [|a l _ IH F]; constructor; [|exact IH]. intros HI. rewrite Forall_forall in F. specialize (F a HI). lia. Qed.
Lemma agree_after h P S all ev t : (0 <= h)%Q -> increasingZ (map fst (P ++ S)) ->
  cusum_transform h (fin_rows (P ++ S)) = Ok all -> cusum_transform h (fin_rows S) = Ok ev -> In t all -> In t ev -> filter (Z.ltb t) all = filter (Z.ltb t) ev.
Proof.
  intros Hh I HA HE TA TE. pose proof (inc_nodup _ I) as N. assert (NS : NoDup (map fst S)) by (rewrite map_app in N; exact (NoDup_app_r _ _ N)).
  assert (TS : In t (map fst S)) by (destruct (events_of h S Hh NS) as (F & _ & EF); rewrite HE in EF; injection EF as ->; exact (picks_sub _ _ _ TE)).
  apply in_map_iff in TS. destruct TS as ([t' q] & Et & TS). cbn in Et. subst t'. apply in_split in TS. destruct TS as (S1 & S2 & ->).
  destruct (restart h S1 t q S2 Hh NS) as (b1 & a1 & c1 & B1 & A1 & C1 & R1). rewrite HE in A1. injection A1 as <-. specialize (R1 TE).
  rewrite app_assoc in HA, N, I. destruct (restart h (P ++ S1) t q S2 Hh N) as (b2 & a2 & c2 & B2 & A2 & C2 & R2). rewrite HA in A2. injection A2 as <-. specialize (R2 TA). rewrite C1 in C2. injection C2 as <-. subst all ev.
  rewrite map_app in I. cbn [map fst] in I. destruct (inc_split _ _ _ I) as [LT GT].
  assert (K : forall X b, cusum_transform h (fin_rows X) = Ok b -> (forall y, In y (map fst X) -> In y (map fst (P ++ S1))) -> NoDup (map fst X) -> filter (Z.ltb t) b = []).
  { intros X b HX Sub NX. apply filter_none. intros y Hy. destruct (events_of h X Hh NX) as (F & _ & EF). rewrite HX in EF. injection EF as ->. apply picks_sub in Hy. specialize (LT y (Sub y Hy)). apply Z.ltb_ge. lia. }
  rewrite map_app in N. cbn [map fst] in N. rewrite map_app in NS.
  rewrite !filter_app. rewrite (K _ _ B2 (fun y H => H) (NoDup_app_l _ _ N)). rewrite (K _ _ B1). { reflexivity. } { intros y Hy. rewrite map_app. apply in_or_app. now right. } { exact (NoDup_app_l _ _ NS). }
Qed.
