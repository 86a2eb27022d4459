(** The trend scanner does not look at bars before an event. *)
From Coq Require Import Reals ZArith Lia List.
From Verif Require Import Prelude PreludeFacts Num Series Boot_Model Label_Model OLS_Model Trend_Model.
Import ListNotations.
Local Open Scope nat_scope.

Lemma position_app t l r : ~ In t l -> position t (l ++ r) = option_map (fun p => length l + p) (position t r).
Proof.
  induction l as [|x l IH]; intros H; cbn; [now destruct (position t r)|]. destruct (Z.eqb_spec t x) as [->|]; [exfalso; apply H; now left|].
  rewrite IH by (intros K; apply H; now right). now destruct (position t r).
Qed.
Lemma get_app {B} (l r : list B) k : get (l ++ r) (length l + k) = get r k.
Proof. unfold get. rewrite nth_error_app2 by lia. replace (length l + k - length l) with k by lia. reflexivity. Qed.
Lemma scan_app inv junk (l r : list R) p m w s : 1 <= m ->
  scan_index inv junk (l ++ r) (length l + p) m w s = do x <- scan_index inv junk r p m w s ;; Ok (option_map (fun y => (fst y, length l + snd y)) x).
Proof.
  intros Hm. unfold scan_index. rewrite skipn_app, skipn_all2 by lia. cbn [app]. replace (length l + p - length l) with p by lia.
  destruct (Nat.eqb _ _); [|reflexivity]. destruct (scan_window _ _ _ _ _) as [[t i]|e]; [|reflexivity]. cbn. do 3 f_equal. lia.
Qed.
Lemma row_app P S t p s : trend_row_of (P ++ S) t (length P + p) (option_map (fun y => (fst y, length P + snd y)) s) = trend_row_of S t p s.
Proof. destruct s as [[x e]|]; [|reflexivity]. cbn [option_map fst snd trend_row_of]. rewrite !get_app. reflexivity. Qed.
Lemma mapM_same {B C} (f g : B -> result C) l : (forall x, In x l -> f x = g x) -> mapM f l = mapM g l.
Proof. induction l as [|x l IH]; intros H; [reflexivity|]. cbn [mapM]. rewrite (H x (or_introl eq_refl)), IH by (intros y Hy; apply H; now right). reflexivity. Qed.

Lemma trend_cut inv junk cfg ev P S : NoDup (map fst (P ++ S)) -> 1 <= t_min cfg -> incl ev (map fst S) ->
  snd (transform inv junk cfg (Some ev) (P ++ S)) = snd (transform inv junk cfg (Some ev) S).
Proof.
  intros N Hm I. unfold transform.
  assert (K : forall X : list (Z * R), incl ev (map fst X) -> forallb (fun t => existsb (Z.eqb t) (map fst X)) ev = true).
  { intros X HX. apply forallb_forall. intros t Ht. apply existsb_exists. exists t. split; [apply HX, Ht|apply Z.eqb_refl]. }
  rewrite (K S I), (K (P ++ S)) by (intros t Ht; rewrite map_app; apply in_or_app; right; apply I, Ht). cbn [negb snd]. apply mapM_same. intros [n t] HI. apply in_combine_r in HI.
  rewrite map_app in N. apply NoDup_app_iff in N. destruct N as (_ & _ & N). rewrite !map_app, position_app by (intros X; exact (N t X (I t HI))). rewrite map_length.
  destruct (position t (map fst S)) as [p|]; [|reflexivity]. cbn [option_map]. rewrite <- (map_length snd P) at 1. rewrite scan_app by exact Hm. rewrite map_length.
  destruct (scan_index _ _ _ _ _ _ _) as [s|e]; [|reflexivity]. cbn [bind]. apply row_app.
Qed.
