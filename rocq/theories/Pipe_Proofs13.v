(** When a position can be made. *)
From Coq Require Import String QArith.
From Verif Require Import Prelude PreludeFacts Num Pipe_Model Pipe_Spec Pipe_Proofs1 Pipe_Proofs2 Pipe_Proofs3 Pipe_Proofs4 Pipe_Proofs5 Pipe_Proofs7.
Open Scope nat_scope.

Section Trader.
  Context {A : Type} {HA : Arith A}.
  Theorem position_result (tr : trader A) h X Xf signal valid h' bars : Forall proper h -> deref h X = Ok Xf -> create_signal tr Xf = Ok (signal, valid) -> create_strategy_bars tr h X = Ok (h', bars) ->
    (NoDup (index signal) -> exists pos, create_position tr h X = Ok (h', pos, valid)) /\ (~ NoDup (index signal) -> create_position tr h X = Err ValueError).
  Proof.
    intros Hh Ed Es Eb.
    destruct (signal_flag tr Xf signal valid Es) as (_ & Cs & _). destruct (bars_ok tr h X h' bars Hh Eb) as (a & f & f' & vol & sl & pt & Ea & Ef & _ & _ & _ & Cb & Rb & _).
    assert (Nb : NoDup (index bars)).
    { unfold index. rewrite Rb, map_map. cbn [fst]. rewrite map_id. unfold create_signal in Es. destruct (check_X_dict Xf) as [u|] eqn:Ex; [|discriminate]. apply check_X_dict_Ok in Ex.
      rewrite Forall_forall in Ex. assert (Hin : exists k, In (k, f) Xf); [|destruct Hin as (k & Hk); exact (Ex _ Hk)].
      clear -Ed Ea Ef. unfold deref in Ed. revert Xf Ed. induction X as [|[k b] X IH]; intros Xf Ed; [discriminate|]. cbn in Ed, Ea.
      destruct (get h b) as [fb|] eqn:Eg; [|discriminate]. cbn [bind] in Ed. destruct (mapM _ X) as [r|]; [|discriminate]. injection Ed as <-.
      destruct (String.eqb k _); [injection Ea as ->; apply get_Ok in Eg; exists k; left; congruence|]. destruct (IH Ea r eq_refl) as (k' & Hk'). exists k'. now right. }
    unfold create_position. rewrite Ed. cbn [bind]. rewrite Es. cbn [bind]. rewrite Eb. cbn [bind fst snd]. split.
    - intros Ns. destruct (concat2_frame signal bars Ns Nb) as (g & Eg & Cg & _ & (N & _ & _)). rewrite Eg. cbn [bind].
      assert (Ec : check_missing_columns g (bar_columns ++ ["size"; "side"]%string) = Ok tt). { unfold check_missing_columns. rewrite Cg, Cs, Cb. reflexivity. }
      rewrite Ec. cbn [bind]. apply unique_index_spec in N. rewrite N. cbn [negb raise_if bind]. eauto.
    - intros Hn. assert (Ec : concat2 signal bars = Err ValueError); [|now rewrite Ec]. unfold concat2.
      destruct (same_index (index signal) (index bars)) eqn:E; [apply same_index_spec in E; rewrite E in Hn; contradiction|].
      destruct (unique_index (index signal)) eqn:Eu; [apply unique_index_spec in Eu; contradiction|reflexivity].
  Qed.
End Trader.
