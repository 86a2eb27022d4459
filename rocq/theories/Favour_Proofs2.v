(** The number of rounds through a double is the exact one. *)
From Coq Require Import Lqa.
From Verif Require Import QSum QSumFacts Boot_Model Favour_Spec.

Lemma ceiling_unique x c c' : is_ceiling x c -> is_ceiling x c' -> c = c'.
Proof.
  intros [A B] [A' B']. assert (inject_Z c < inject_Z (c' + 1))%Q as H1 by (rewrite inject_Z_plus; change (inject_Z 1) with 1%Q; lra).
  assert (inject_Z c' < inject_Z (c + 1))%Q as H2 by (rewrite inject_Z_plus; change (inject_Z 1) with 1%Q; lra).
  rewrite <- Zlt_Qlt in H1, H2. lia.
Qed.

Lemma ceil_through_double a b d : (0 <= a < 2 ^ 53)%Z -> (0 < b)%Z -> double_near (inject_Z a / inject_Z b) d ->
  is_ceiling d (ceil_div a b).
Proof.
  intros Ha Hb HD. unfold ceil_div. set (c := (- (- a / b))%Z).
  assert (b * (c - 1) < a <= b * c)%Z as [C1 C2].
  { unfold c. pose proof (Z.div_mod (- a) b ltac:(lia)). pose proof (Z.mod_pos_bound (- a) b Hb). nia. }
  assert (0 < inject_Z b)%Q as HB by (change 0%Q with (inject_Z 0); rewrite <- Zlt_Qlt; exact Hb).
  destruct HD as [[Z0 D0]|[k [m [L [H [E D]]]]]].
  - assert (a = 0)%Z as ->.
    { assert (inject_Z a == 0)%Q as Z1.
      { setoid_replace (inject_Z a) with (inject_Z a / inject_Z b * inject_Z b)%Q by (field; lra). rewrite Z0. ring. }
      change 0%Q with (inject_Z 0) in Z1. exact (proj1 (inject_Z_injective a 0) Z1). }
    assert (c = 0)%Z as -> by nia. split; rewrite D0; [discriminate|reflexivity].
  - set (K := (2 ^ Z.of_nat k)%Z) in *. assert (0 < K)%Z as HK by (apply Z.pow_pos_nonneg; lia).
    assert (0 < inject_Z K)%Q as HKQ by (change 0%Q with (inject_Z 0); rewrite <- Zlt_Qlt; exact HK).
    (* everything over the common denominator, as integers *)
    assert (2 ^ 52 * b <= a * K)%Z as L'.
    { rewrite Zle_Qle, !inject_Z_mult.
      setoid_replace (inject_Z a * inject_Z K)%Q with (inject_Z a / inject_Z b * inject_Z K * inject_Z b)%Q by (field; lra).
      apply Qmult_le_compat_r; [exact L|lra]. }
    assert (2 * Z.abs (m * b - a * K) <= b)%Z as D'.
    { rewrite E in D.
      assert (inject_Z m / inject_Z K - inject_Z a / inject_Z b == inject_Z (m * b - a * K) / (inject_Z K * inject_Z b))%Q as X.
      { unfold Zminus. rewrite inject_Z_plus, inject_Z_opp, !inject_Z_mult. field. split; lra. }
      rewrite X in D. apply Qabs_Qle_condition in D. destruct D as [D1 D2].
      assert (0 < inject_Z K * inject_Z b)%Q as HP by nra.
      assert (- inject_Z b <= 2 * inject_Z (m * b - a * K))%Q as F1.
      { apply (Qmult_le_r _ _ (2 * (inject_Z K * inject_Z b))) in D1; [|nra].
        setoid_replace (- / (2 * inject_Z K) * (2 * (inject_Z K * inject_Z b)))%Q with (- inject_Z b)%Q in D1 by (field; lra).
        setoid_replace (inject_Z (m * b - a * K) / (inject_Z K * inject_Z b) * (2 * (inject_Z K * inject_Z b)))%Q
          with (2 * inject_Z (m * b - a * K))%Q in D1 by (field; split; lra). exact D1. }
      assert (2 * inject_Z (m * b - a * K) <= inject_Z b)%Q as F2.
      { apply (Qmult_le_r _ _ (2 * (inject_Z K * inject_Z b))) in D2; [|nra].
        setoid_replace (/ (2 * inject_Z K) * (2 * (inject_Z K * inject_Z b)))%Q with (inject_Z b)%Q in D2 by (field; lra).
        setoid_replace (inject_Z (m * b - a * K) / (inject_Z K * inject_Z b) * (2 * (inject_Z K * inject_Z b)))%Q
          with (2 * inject_Z (m * b - a * K))%Q in D2 by (field; split; lra). exact D2. }
      change 2%Q with (inject_Z 2) in F1, F2. rewrite <- inject_Z_mult in F1, F2. rewrite <- inject_Z_opp in F1.
      rewrite <- Zle_Qle in F1, F2. lia. }
    assert (m <= c * K)%Z as G1 by nia.
    assert ((c - 1) * K < m)%Z as G2 by nia.
    split; rewrite E.
    + apply Qle_shift_div_r; [exact HKQ|]. rewrite <- inject_Z_mult, <- Zle_Qle. exact G1.
    + setoid_replace (inject_Z m / inject_Z K + 1)%Q with ((inject_Z m + inject_Z K) / inject_Z K)%Q by (field; lra).
      apply Qlt_shift_div_l; [exact HKQ|]. rewrite <- inject_Z_mult, <- inject_Z_plus, <- Zlt_Qlt. lia.
Qed.
