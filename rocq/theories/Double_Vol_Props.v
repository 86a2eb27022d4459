(** C122: the daily volatility from prices held in doubles, and how far it can move when the returns move. *)
From Coq Require Import Reals ZArith Lra Lia List String.
From Verif Require Import Prelude PreludeFacts Num Series DailyVol_Model Double_Model Double_Spec Double_Proofs Double_Z_Model Double_Ewm_Model Boot_Proofs Double_Vol_Proofs Double_Vol_Proofs2.
Import ListNotations.
Local Open Scope R_scope.
Local Notation length := List.length.

(** Exact arithmetic. If every daily return of two price histories is known and the i-th returns are at most e apart, the i-th volatilities are
    both missing or at most sqrt 2 * e apart. *)
Theorem C122_stable : forall span e idx close r out idx' close' r' out', 1 <= span ->
  daily_returns idx close = Ok r -> daily_returns idx' close' = Ok r' -> length r = length r' ->
  (forall i t x t' y, nth_error r i = Some (t, x) -> nth_error r' i = Some (t', y) -> exists a b, x = Fin a /\ y = Fin b /\ Rabs (a - b) <= e) ->
  get_daily_vol (ewm_std span) idx close = Ok out -> get_daily_vol (ewm_std span) idx' close' = Ok out' ->
  forall i t x t' y, nth_error out i = Some (t, x) -> nth_error out' i = Some (t', y) ->
  (x = NaN /\ y = NaN) \/ exists a b, x = Fin a /\ y = Fin b /\ Rabs (a - b) <= sqrt 2 * e.
Proof.
  intros span e idx close r out idx' close' r' out' Hs R R' L N E E' i t x t' y Hx Hy. unfold get_daily_vol in E, E'. rewrite R in E. rewrite R' in E'. cbn [bind] in E, E'. injection E as <-. injection E' as <-.
  apply nth_error_combine_inv in Hx as [Ht Hx]. apply nth_error_combine_inv in Hy as [_ Hy].
  assert (F : Forall2 (near e) (map snd r) (map snd r')).
  { clear -L N. revert r' L N. induction r as [|[t x] r IH]; intros [|[t' y] r'] L N; try discriminate; cbn; constructor; [apply (N 0%nat t x t' y); reflexivity|].
    apply IH; [now injection L|]. intros i. apply (N (S i)). }
  assert (He : 0 <= e). { destruct r as [|[t0 x0] r]; [destruct i; discriminate|]. destruct r' as [|[t1 x1] r']; [discriminate|]. destruct (N 0%nat t0 x0 t1 x1 eq_refl eq_refl) as (a & b & _ & _ & H). pose proof (Rabs_pos (a - b)). lra. }
  destruct (std_near e span _ _ i x y Hs F Hx Hy) as [H|(a & b & -> & -> & _ & _ & H)]; [now left|right]. exists a, b. split; [reflexivity|]. split; [reflexivity|].
  apply Rsqr_incr_0_var; [|apply Rmult_le_pos; [apply sqrt_pos|exact He]]. rewrite Rsqr_mult, Rsqr_sqrt by lra. unfold Rsqr. cbn in H. lra.
Qed.
Print Assumptions C122_stable.

(** Exact arithmetic. A volatility is at most sqrt 2 times the largest return. *)
Theorem C122_size : forall span B idx close r out, 1 <= span -> daily_returns idx close = Ok r ->
  (forall t x, In (t, x) r -> exists a, x = Fin a /\ Rabs a <= B) -> get_daily_vol (ewm_std span) idx close = Ok out ->
  forall t x, In (t, x) out -> x = NaN \/ exists a, x = Fin a /\ 0 <= a <= sqrt 2 * B.
Proof.
  intros span B idx close r out Hs R N E t x Hin. unfold get_daily_vol in E. rewrite R in E. cbn [bind] in E. injection E as <-.
  apply In_nth_error in Hin as (i & Hi). apply nth_error_combine_inv in Hi as [Ht Hi].
  assert (F : forall v, In v (map snd r) -> exists c, v = Fin c /\ Rabs c <= B) by (intros v Hv; apply in_map_iff in Hv as ([t0 v0] & <- & Hin); now apply (N t0)).
  assert (HB : 0 <= B). { destruct r as [|[t0 x0] r]; [destruct i; discriminate|]. destruct (N t0 x0 (or_introl eq_refl)) as (a & _ & H). pose proof (Rabs_pos a). lra. }
  destruct (std_size B span _ i x Hs F Hi) as [H|(a & -> & H0 & H)]; [now left|right]. exists a. split; [reflexivity|]. split; [exact H0|].
  apply Rsqr_incr_0_var; [|apply Rmult_le_pos; [apply sqrt_pos|exact HB]]. rewrite Rsqr_mult, Rsqr_sqrt by lra. unfold Rsqr. lra.
Qed.
Print Assumptions C122_size.

(** Doubles. Prices without gaps that are doubles between lo and K * lo: the volatility has the times of the exact one, no value in the first row and a
    value in every other. Its distance d from the exact volatility satisfies d * exact <= K^2 (span + 1)^3 / 2^39 and d^2 <= K^2 (span + 1)^3 / 2^38. *)
Theorem C122_doubles : forall lo K span idx close out, 0 < lo -> 1 <= K <= 2 ^ 40 -> 2 <= span -> span + 1 <= 16384 ->
  (forall x, In x close -> exists p, x = Fin p /\ is_double p /\ lo <= p <= K * lo) ->
  daily_vol_running Arith_double double_root span idx close = Ok out ->
  exists exact, get_daily_vol (ewm_std span) idx close = Ok exact /\ map fst out = map fst exact /\
  forall i t x y, nth_error out i = Some (t, x) -> nth_error exact i = Some (t, y) ->
  (i = 0%nat /\ x = NaN /\ y = NaN) \/
  exists a b, x = Fin a /\ y = Fin b /\ 0 <= a /\ 0 <= b /\ Rabs (a - b) * b <= K ^ 2 * (span + 1) ^ 3 / 2 ^ 39 /\ Rabs (a - b) ^ 2 <= K ^ 2 * (span + 1) ^ 3 / 2 ^ 38.
Proof. intros lo K span idx close out Hlo HK Hs Hs14 F E. apply (volatility_close lo K Hlo HK span Hs Hs14 idx close out); [apply Forall_forall; exact F|exact E]. Qed.
Print Assumptions C122_doubles.

(** A case that meets the hypotheses: three bars two days apart at 100, 101 and 99. *)
Definition bars3 : list Z := [0; 2 * one_day; 4 * one_day]%Z.
Definition prices3 : list (ext R) := [Fin 100; Fin 101; Fin 99].
Lemma returns3 (N : Arith R) p q u : @daily_returns R N bars3 [Fin p; Fin q; Fin u] = Ok (combine [2 * one_day; 4 * one_day]%Z (map (fun x => @esub R N x (Fin (@a1 R N))) (zipw (@ediv R N) [Fin q; Fin u] [Fin p; Fin q]))).
Proof.
  unfold daily_returns. replace (map (fun t => searchsorted bars3 (t - one_day)) bars3) with (seq 0 3) by (vm_compute; reflexivity).
  replace (filter (fun k => Nat.ltb 0 k) (seq 0 3)) with (seq 1 2) by reflexivity.
  replace (mapM (fun k => get bars3 (k - 1)) (seq 1 2)) with (Ok [0; 2 * one_day]%Z) by (vm_compute; reflexivity). cbn [bind].
  change (length bars3 - length (seq 1 2))%nat with 1%nat. reflexivity.
Qed.
Example C122_doubles_case : exists out, daily_vol_running Arith_double double_root 100 bars3 prices3 = Ok out /\ length out = 2%nat /\
  (forall x, In x prices3 -> exists p, x = Fin p /\ is_double p /\ 50 <= p <= 4 * 50).
Proof.
  unfold daily_vol_running, get_daily_vol, prices3. rewrite returns3. cbn [bind]. eexists. split; [reflexivity|]. split; [reflexivity|].
  intros x [<-|[<-|[<-|[]]]]; eexists; (split; [reflexivity|]); (split; [|lra]); [apply (is_double_IZR 100)|apply (is_double_IZR 101)|apply (is_double_IZR 99)]; lia.
Qed.
Example C122_size_case : exists r out, daily_returns bars3 prices3 = Ok r /\ (forall t x, In (t, x) r -> exists a, x = Fin a /\ Rabs a <= 1 / 10) /\ get_daily_vol (ewm_std 100) bars3 prices3 = Ok out /\ length out = 2%nat.
Proof.
  unfold get_daily_vol, prices3. rewrite returns3. eexists _, _. split; [reflexivity|]. split; [|cbn [bind]; split; reflexivity].
  intros t x H. unfold zipw in H. cbn [combine map fst snd ediv aeqb a0 Arith_R] in H. destruct (Req_EM_T 100 0); [lra|]. destruct (Req_EM_T 101 0); [lra|].
  destruct H as [H|[H|[]]]; injection H as _ <-; eexists; (split; [reflexivity|]); unfold adiv; cbn; apply Rabs_le; lra.
Qed.
Example C122_stable_case : exists r r', daily_returns bars3 prices3 = Ok r /\ daily_returns bars3 [Fin 100; Fin 102; Fin 99] = Ok r' /\ length r = length r' /\
  (forall i t x t' y, nth_error r i = Some (t, x) -> nth_error r' i = Some (t', y) -> exists a b, x = Fin a /\ y = Fin b /\ Rabs (a - b) <= 1 / 100).
Proof.
  unfold prices3. rewrite !returns3. eexists _, _. split; [reflexivity|]. split; [reflexivity|]. split; [reflexivity|]. unfold zipw. cbn [combine map fst snd ediv aeqb a0 Arith_R].
  destruct (Req_EM_T 100 0); [lra|]. destruct (Req_EM_T 101 0); [lra|]. destruct (Req_EM_T 102 0); [lra|].
  intros [|[|i]] t x t' y Hx Hy; [| |destruct i; discriminate]; injection Hx as _ <-; injection Hy as _ <-; eexists _, _; (split; [reflexivity|]); (split; [reflexivity|]); unfold adiv; cbn; apply Rabs_le; lra.
Qed.
