(* The clock advances while it has fewer than 2^26 steps behind it, but not for ever. *)
From Coq Require Import ZArith List Lia.
From Verif Require Import ClockModel ClockSpec ClockProofs.
Local Open Scope Z_scope.

Lemma clock_next dt n : float64 dt -> 0 < dt -> Z.of_nat n * Z.of_nat n <= 2 ^ 53 -> clock dt n < clock dt (S n).
Proof.
  intros F D B. assert (C := clock_drift dt n F B). assert (C0 : 0 <= clock dt n) by (apply clock_nonneg; lia).
  cbn [clock]. unfold add_floats. set (c := clock dt n) in *. assert (E := round_error (c + dt) ltac:(lia)). set (x := round_float (c + dt)) in *.
  set (k := Z.of_nat n) in *. assert (K : 0 <= k) by lia. assert (U : 4 < 2 ^ 53) by reflexivity. set (u := 2 ^ 53) in *. clearbody c x k u.
  assert (A : Z.abs (c - k * dt) <= dt). { destruct (Z.le_gt_cases (Z.abs (c - k * dt)) dt); [assumption|]. exfalso. nia. }
  assert (S : c + dt <= (k + 2) * dt) by lia. assert (K2 : k + 2 < u) by nia.
  destruct (Z.le_gt_cases x c) as [H|H]; [|exact H]. exfalso. assert (dt <= Z.abs (x - (c + dt))) by lia. nia.
Qed.

Lemma clock_increases dt : float64 dt -> 0 < dt -> forall b a, (a < b)%nat -> Z.of_nat b * Z.of_nat b <= 2 ^ 53 -> clock dt a < clock dt b.
Proof.
  intros F D. induction b as [|b IH]; intros a L B; [lia|]. assert (BB : Z.of_nat b * Z.of_nat b <= 2 ^ 53) by nia.
  assert (N := clock_next dt b F D BB). destruct (Nat.eq_dec a b) as [->|NE]; [exact N|]. specialize (IH a ltac:(lia) BB). lia.
Qed.

Lemma round_stall k : 0 <= k -> round_float (2 ^ 53 * 2 ^ k + 2 ^ k) = 2 ^ 53 * 2 ^ k.
Proof.
  intros K. assert (P := pow_pos k K). assert (E : 2 ^ 53 * 2 ^ k + 2 ^ k = (2 ^ 53 + 1) * 2 ^ k) by ring.
  assert (P1 : 2 ^ (k + 1) = 2 * 2 ^ k) by (rewrite Z.pow_add_r by lia; change (2 ^ 1) with 2; ring).
  assert (L : Z.log2 (2 ^ 53 * 2 ^ k + 2 ^ k) = k + 53) by (rewrite E, Z.log2_mul_pow2 by lia; change (Z.log2 (2 ^ 53 + 1)) with 53; lia).
  unfold round_float. rewrite L. replace (Z.max 0 (k + 53 - 52)) with (k + 1) by lia. rewrite P1.
  assert (Q : (2 ^ 53 * 2 ^ k + 2 ^ k) / (2 * 2 ^ k) = 2 ^ 52) by (symmetry; apply (Z.div_unique _ _ _ (2 ^ k)); [lia|change (2 ^ 53) with (2 * 2 ^ 52); ring]).
  assert (R : (2 ^ 53 * 2 ^ k + 2 ^ k) mod (2 * 2 ^ k) = 2 ^ k) by (symmetry; apply (Z.mod_unique _ _ (2 ^ 52)); [lia|change (2 ^ 53) with (2 * 2 ^ 52); ring]).
  rewrite Q, R, Z.compare_refl. change (Z.even (2 ^ 52)) with true. cbv iota. change (2 ^ 53) with (2 * 2 ^ 52). ring.
Qed.

Lemma clock_stall k n : 0 <= k -> Z.of_nat n = 2 ^ 53 -> forall j, clock (2 ^ k) (n + j) = 2 ^ 53 * 2 ^ k.
Proof.
  intros K N. assert (B : clock (2 ^ k) n = 2 ^ 53 * 2 ^ k) by (rewrite (clock_exact (2 ^ k) 1 k n ltac:(lia) K ltac:(lia) ltac:(lia)), N; reflexivity).
  induction j as [|j IH]; [rewrite Nat.add_0_r; exact B|]. rewrite Nat.add_succ_r. cbn [clock]. unfold add_floats. rewrite IH. apply round_stall, K.
Qed.
