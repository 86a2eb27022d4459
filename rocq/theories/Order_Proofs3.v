(** Trends do not depend on the clock. *)
From Coq Require Import Reals Lia.
From Verif Require Import PreludeFacts Series Boot_Model OLS_Model Trend_Model Order_Spec Order_Spec3 Order_Proofs.
Local Open Scope nat_scope.

Section Trend.
  Variable f : Z -> Z.
  Hypothesis Hf : keeps_order f.

  Lemma trend_row_retimed y t p s : trend_row_of (map (retime_row f) y) (f t) p s = on_ok (retime_trend f) (trend_row_of y t p s).
  Proof.
    unfold trend_row_of. destruct s as [[v e]|]; [|reflexivity]. rewrite !get_map_f. destruct (get y e) as [re|]; [|reflexivity]. cbn [on_ok bind].
    destruct (get y p) as [r0|]; reflexivity.
  Qed.
  Theorem trend_retimed inv junk cfg events y :
    transform inv junk cfg (option_map (map f) events) (map (retime_row f) y) =
    (option_map (map f) (fst (transform inv junk cfg events y)), on_ok (map (retime_trend f)) (snd (transform inv junk cfg events y))).
  Proof.
    unfold transform. cbv zeta.
    assert (Ei : map fst (map (retime_row f) y) = map f (map fst y)) by (now rewrite !map_map).
    assert (Es : map snd (map (retime_row f) y) = map snd y) by (now rewrite map_map).
    rewrite Ei, Es. set (index := map fst y).
    assert (Ek : match option_map (map f) events with None => true | Some ev => forallb (fun t => existsb (Z.eqb t) (map f index)) ev end =
                 match events with None => true | Some ev => forallb (fun t => existsb (Z.eqb t) index) ev end).
    { destruct events as [ev|]; [|reflexivity]. cbn [option_map]. induction ev as [|t ev IH]; [reflexivity|]. cbn [map forallb]. rewrite IH. f_equal. apply (memZ_map f Hf t index). }
    rewrite Ek. destruct (negb _); [reflexivity|]. cbn [fst snd option_map]. set (ev := match events with None => index | Some ev => ev end).
    assert (Ee : match option_map (map f) events with None => map f index | Some ev => ev end = map f ev) by (unfold ev; destruct events; reflexivity).
    rewrite Ee. f_equal. rewrite map_length.
    assert (Ec : forall l l', combine l (map f l') = map (fun r : nat * Z => (fst r, f (snd r))) (combine l l')).
    { induction l as [|n l IH]; intros [|t l']; cbn; auto. now rewrite IH. }
    rewrite Ec, mapM_map. apply mapM_on_ok. intros [n t] _. cbn [fst snd]. rewrite (position_map f Hf). destruct (position t index) as [p|]; [|reflexivity].
    destruct (scan_index _ _ _ _ _ _ _) as [s|]; [|reflexivity]. cbn [bind]. apply trend_row_retimed.
  Qed.
End Trend.
