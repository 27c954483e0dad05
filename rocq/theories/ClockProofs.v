(* Proofs about the clock in binary64. *)
From Coq Require Import ZArith List Lia Bool.
From Verif Require Import ResultsModel ClockModel ClockSpec.
Import ListNotations.
Local Open Scope Z_scope.

Lemma pow_pos k : 0 <= k -> 0 < 2 ^ k. Proof. intros; apply Z.pow_pos_nonneg; lia. Qed.

(* the rounded number: a multiple of 2^k at distance at most half of it *)
Lemma round_parts z : 0 <= z -> exists q k, round_float z = q * 2 ^ k /\ 0 <= k /\ 2 * Z.abs (q * 2 ^ k - z) <= 2 ^ k /\
  (2 * Z.abs (q * 2 ^ k - z) = 2 ^ k -> Z.even q = true) /\ (k = 0 /\ z < 2 ^ 53 \/ 2 ^ (52 + k) <= z < 2 ^ (53 + k)).
Proof.
  intros Z0. unfold round_float. set (k := Z.max 0 (Z.log2 z - 52)). assert (K : 0 <= k) by lia. assert (P := pow_pos k K).
  set (q := z / 2 ^ k). set (r := z mod 2 ^ k). assert (D : z = 2 ^ k * q + r) by (apply Z.div_mod; lia).
  assert (B : 0 <= r < 2 ^ k) by (apply Z.mod_pos_bound; lia).
  set (q' := match 2 * r ?= 2 ^ k with Lt => q | Gt => q + 1 | Eq => if Z.even q then q else q + 1 end).
  exists q', k. split; [reflexivity|]. split; [exact K|]. split.
  - unfold q'. destruct (Z.compare_spec (2 * r) (2 ^ k)) as [H|H|H]; [destruct (Z.even q)|..]; nia.
  - split.
    { unfold q'. destruct (Z.compare_spec (2 * r) (2 ^ k)) as [H|H|H].
      - intros _. destruct (Z.even q) eqn:EV; [exact EV|]. rewrite Z.add_1_r, Z.even_succ, <- Z.negb_even, EV. reflexivity.
      - intros A. exfalso. replace (q * 2 ^ k - z) with (- r) in A by lia. lia.
      - intros A. exfalso. replace ((q + 1) * 2 ^ k - z) with (2 ^ k - r) in A by lia. lia. }
    destruct (Z.eq_dec z 0) as [->|NZ]; [left; cbn in *; split; [reflexivity|lia]|].
    destruct (Z.log2_spec z ltac:(lia)) as (L1 & L2). destruct (Z.le_gt_cases (Z.log2 z) 52) as [L|L].
    + left. split; [lia|]. eapply Z.lt_le_trans; [exact L2|]. apply Z.pow_le_mono_r; lia.
    + right. assert (E : k = Z.log2 z - 52) by lia. rewrite E. replace (52 + (Z.log2 z - 52)) with (Z.log2 z) by lia.
      replace (53 + (Z.log2 z - 52)) with (Z.succ (Z.log2 z)) by lia. lia.
Qed.

Lemma round_exact_multiple z q k : 0 <= z -> 0 <= k -> z = q * 2 ^ k -> Z.max 0 (Z.log2 z - 52) <= k -> round_float z = z.
Proof.
  intros Z0 K E LE. unfold round_float. set (j := Z.max 0 (Z.log2 z - 52)) in *. assert (J : 0 <= j) by lia. assert (P := pow_pos j J).
  assert (S : 2 ^ k = 2 ^ (k - j) * 2 ^ j) by (rewrite <- Z.pow_add_r by lia; f_equal; lia).
  assert (ZZ : z = (q * 2 ^ (k - j)) * 2 ^ j) by (rewrite E, S; ring).
  assert (R0 : z mod 2 ^ j = 0) by (rewrite ZZ; apply Z.mod_mul; lia).
  assert (D := Z.div_mod z (2 ^ j) ltac:(lia)). rewrite R0. cbn [Z.mul]. destruct (Z.compare_spec 0 (2 ^ j)); lia.
Qed.

Lemma round_id z : float64 z -> round_float z = z.
Proof.
  intros (m & k & M & K & E). assert (P := pow_pos k K). assert (Z0 : 0 <= z) by nia.
  destruct (Z.eq_dec m (2 ^ 53)) as [->|NE].
  - apply (round_exact_multiple z 1 (53 + k)); [lia|lia|rewrite E, Z.pow_add_r by lia; ring|].
    rewrite E, <- Z.pow_add_r, Z.log2_pow2 by lia. lia.
  - apply (round_exact_multiple z m k Z0 K E). destruct (Z.eq_dec m 0) as [->|N0]; [rewrite E; cbn; lia|].
    rewrite E, Z.log2_mul_pow2 by lia. assert (L : Z.log2 m < 53) by (apply Z.log2_lt_pow2; lia). lia.
Qed.

Lemma round_float64 z : 0 <= z -> float64 (round_float z).
Proof.
  intros Z0. destruct (round_parts z Z0) as (q & k & -> & K & D & EV & B). assert (P := pow_pos k K). exists q, k. split; [|auto].
  destruct B as [(-> & B)|(B1 & B2)].
  - change (2 ^ 0) with 1 in *. lia.
  - rewrite Z.pow_add_r in B1, B2 by lia. split; [nia|]. destruct (Z.le_gt_cases q (2 ^ 53)); [assumption|]. exfalso. nia.
Qed.

Lemma round_nearest z : 0 <= z -> nearest z (round_float z).
Proof.
  intros Z0. split; [apply round_float64, Z0|]. intros y (m & j & M & J & ->).
  destruct (round_parts z Z0) as (q & k & -> & K & D & EV & B). assert (P := pow_pos k K). assert (PJ := pow_pos j J).
  (* a multiple of 2^k is not nearer *)
  assert (G : forall t, Z.abs (q * 2 ^ k - z) <= Z.abs (t * 2 ^ k - z) /\
    (Z.abs (q * 2 ^ k - z) = Z.abs (t * 2 ^ k - z) -> t * 2 ^ k <> q * 2 ^ k -> exists j, 0 <= j /\ Z.abs (t * 2 ^ k - q * 2 ^ k) = 2 ^ j /\ (2 ^ (j + 1) | q * 2 ^ k))).
  { intros t. destruct (Z.eq_dec t q) as [->|NE]; [split; [lia|intros _ X; destruct (X eq_refl)]|].
    assert (T : 2 ^ k <= Z.abs (t * 2 ^ k - q * 2 ^ k)) by nia. split; [lia|]. intros E _. exists k. split; [exact K|]. split; [lia|].
    destruct (proj1 (Z.even_spec q) (EV ltac:(lia))) as (h & ->). exists h. rewrite Z.pow_add_r by lia. change (2 ^ 1) with 2. ring. }
  destruct (Z.le_gt_cases k j) as [L|L].
  { replace (m * 2 ^ j) with ((m * 2 ^ (j - k)) * 2 ^ k); [apply G|]. rewrite <- Z.mul_assoc, <- Z.pow_add_r by lia. do 2 f_equal. lia. }
  destruct B as [(-> & B)|(B1 & B2)]; [lia|].
  (* a number with a smaller exponent is below the binade *)
  assert (S : 2 ^ k = 2 ^ (k - j) * 2 ^ j) by (rewrite <- Z.pow_add_r by lia; f_equal; lia).
  assert (P2 : 2 <= 2 ^ (k - j)) by (change 2 with (2 ^ 1) at 1; apply Z.pow_le_mono_r; lia).
  assert (Y : m * 2 ^ j <= 2 ^ 52 * 2 ^ k). { rewrite S. change (2 ^ 53) with (2 * 2 ^ 52) in M. set (h := 2 ^ 52) in *. assert (0 < h) by reflexivity. nia. }
  rewrite Z.pow_add_r in B1 by lia. destruct (G (2 ^ 52)) as (G1 & G2). split; [lia|].
  intros E NE. assert (Y' : m * 2 ^ j = 2 ^ 52 * 2 ^ k) by lia. rewrite Y' in *. apply G2; assumption.
Qed.

Lemma round_error z : 0 <= z -> 2 ^ 53 * Z.abs (round_float z - z) <= z.
Proof.
  intros Z0. destruct (round_parts z Z0) as (q & k & -> & K & D & EV & B). destruct B as [(-> & B)|(B1 & B2)].
  - change (2 ^ 0) with 1 in *. lia.
  - rewrite Z.pow_add_r in B1 by lia. change (2 ^ 53) with (2 ^ 52 * 2). nia.
Qed.

Lemma clock_nonneg dt n : 0 <= dt -> 0 <= clock dt n.
Proof.
  intros D. induction n as [|n IH]; cbn [clock]; [lia|]. unfold add_floats.
  destruct (round_float64 (clock dt n + dt) ltac:(lia)) as (m & k & M & K & ->). assert (P := pow_pos k K). nia.
Qed.

Lemma clock_exact dt m k n : 0 < m -> 0 <= k -> dt = m * 2 ^ k -> Z.of_nat n * m <= 2 ^ 53 -> clock dt n = Z.of_nat n * dt.
Proof.
  intros M K E. induction n as [|n IH]; intros B; [reflexivity|]. cbn [clock]. rewrite IH by nia. unfold add_floats.
  replace (Z.of_nat n * dt + dt) with (Z.of_nat (S n) * dt) by lia. apply round_id. exists (Z.of_nat (S n) * m), k. split; [nia|]. split; [exact K|]. rewrite E. ring.
Qed.

Lemma name_exact dt m k n : 0 < m -> 0 <= k -> dt = m * 2 ^ k -> Z.of_nat n * m <= 2 ^ 53 -> step_name dt n = n.
Proof.
  intros M K E B. unfold step_name. rewrite (clock_exact dt m k n M K E B). assert (P := pow_pos k K). rewrite Z.div_mul by nia. apply Nat2Z.id.
Qed.

Lemma clock_drift dt n : float64 dt -> Z.of_nat n * Z.of_nat n <= 2 ^ 53 -> 2 ^ 53 * Z.abs (clock dt n - Z.of_nat n * dt) <= Z.of_nat n * Z.of_nat n * dt.
Proof.
  intros F. assert (D : 0 <= dt) by (destruct F as (m & k & M & K & ->); assert (P := pow_pos k K); nia).
  induction n as [|n IH]; intros B; [cbn; lia|]. destruct n as [|n].
  - cbn [clock]. unfold add_floats. rewrite Z.add_0_l, (round_id _ F). lia.
  - specialize (IH ltac:(nia)). change (clock dt (S (S n))) with (round_float (clock dt (S n) + dt)). set (c := clock dt (S n)) in *.
    assert (C : 0 <= c) by (apply clock_nonneg; exact D).
    assert (RE := round_error (c + dt) ltac:(lia)). set (x := round_float (c + dt)) in *. set (N := Z.of_nat (S n)) in *.
    assert (NN : 1 <= N) by lia. replace (Z.of_nat (S (S n))) with (N + 1) in * by lia. set (u := 2 ^ 53) in *. clearbody c x N u.
    assert (A : u * Z.abs (x - (N + 1) * dt) <= u * Z.abs (x - (c + dt)) + u * Z.abs (c - N * dt)) by nia.
    assert (c <= N * dt + Z.abs (c - N * dt)) by lia.
    assert (Z.abs (c - N * dt) <= dt). { destruct (Z.le_gt_cases (Z.abs (c - N * dt)) dt); [assumption|]. exfalso. nia. }
    assert (0 <= (N - 1) * dt) by nia. replace ((N + 1) * (N + 1) * dt) with (N * N * dt + (N * dt + dt + dt) + (N - 1) * dt) by ring. lia.
Qed.

(* the name of a step is its number or that before *)
Lemma name_near dt n : float64 dt -> 0 < dt -> (0 < n)%nat -> Z.of_nat n * Z.of_nat n < 2 ^ 53 -> step_name dt n = n \/ step_name dt n = (n - 1)%nat.
Proof.
  intros F D N B. assert (C := clock_drift dt n F ltac:(lia)). unfold step_name. set (c := clock dt n) in *. set (k := Z.of_nat n) in *. clearbody c.
  assert (A : Z.abs (c - k * dt) < dt). { set (u := 2 ^ 53) in *. clearbody u. destruct (Z.le_gt_cases dt (Z.abs (c - k * dt))); [exfalso; nia|assumption]. }
  destruct (Z.le_gt_cases (k * dt) c) as [H|H].
  - left. replace (c / dt) with k; [apply Nat2Z.id|]. apply (Z.div_unique c dt k (c - k * dt)); lia.
  - right. replace (c / dt) with (k - 1); [lia|]. apply (Z.div_unique c dt (k - 1) (c - (k - 1) * dt)); lia.
Qed.

Section Files.
  Context {S : Type}.

  Lemma saved_other dt (state : nat -> S) : forall steps f k, (forall n, In n steps -> step_name dt n <> k) -> save_states dt state steps f k = f k.
  Proof.
    induction steps as [|n steps IH]; intros f k H; cbn [save_states]; [reflexivity|]. rewrite IH by (intros m M; apply H; right; exact M).
    unfold put. destruct (Nat.eq_dec (step_name dt n) k) as [E|E]; [destruct (H n (or_introl eq_refl) E)|reflexivity].
  Qed.
  Lemma saved_own dt (state : nat -> S) : forall steps f n, (forall m, In m steps -> step_name dt m = m) -> In n steps -> save_states dt state steps f n = Some (state n).
  Proof.
    induction steps as [|a steps IH]; intros f n H I; [destruct I|]. cbn [save_states]. destruct (in_dec Nat.eq_dec n steps) as [J|J].
    - apply IH; [intros m M; apply H; right; exact M|exact J].
    - destruct I as [->|I]; [|contradiction]. rewrite saved_other.
      + unfold put. rewrite (H n (or_introl eq_refl)). destruct (Nat.eq_dec n n); congruence.
      + intros m M E. rewrite (H m (or_intror M)) in E. congruence.
  Qed.
  Lemma load_map (f : files nat S) (g : nat -> S) : forall ks, (forall k, In k ks -> f k = Some (g k)) -> load_all f ks = Good (map g ks).
  Proof. induction ks as [|k ks IH]; intros H; [reflexivity|]. cbn [load_all map]. rewrite (H k (or_introl eq_refl)), IH; [reflexivity|]. intros j J. apply H. right. exact J. Qed.

  Lemma kept dt m k (state : nat -> S) force steps f : 0 < m -> 0 <= k -> dt = m * 2 ^ k ->
    (forall n, In n steps -> Z.of_nat n * m <= 2 ^ 53) -> (force = true \/ exists n, In n steps /\ f n = None) ->
    exists f', keep_states dt state force steps f = (f', Good (map state steps)) /\
      (forall n, f' n = if in_dec Nat.eq_dec n steps then Some (state n) else f n) /\
      keep_states dt state false steps f' = (f', Good (map state steps)).
  Proof.
    intros M K E B Q. assert (NM : forall n, In n steps -> step_name dt n = n) by (intros n I; exact (name_exact dt m k n M K E (B n I))).
    set (f' := save_states dt state steps f). exists f'.
    assert (OWN : forall n, In n steps -> f' n = Some (state n)) by (intros n I; apply saved_own; assumption).
    assert (SIM : force || negb (forallb (present f) steps) = true).
    { destruct Q as [->|(n & I & N)]; [reflexivity|]. apply orb_true_intro. right. apply negb_true_iff. apply not_true_iff_false. intros A. rewrite forallb_forall in A. specialize (A n I). unfold present in A. rewrite N in A. discriminate. }
    split; [|split].
    - unfold keep_states. rewrite SIM. fold f'. rewrite (load_map f' state steps OWN). reflexivity.
    - intros n. destruct (in_dec Nat.eq_dec n steps) as [I|I]; [exact (OWN n I)|]. apply saved_other. intros j J. rewrite (NM j J). intros ->. contradiction.
    - unfold keep_states. assert (A : forallb (present f') steps = true) by (apply forallb_forall; intros n I; unfold present; rewrite (OWN n I); reflexivity).
      rewrite A. cbn [orb negb]. rewrite (load_map f' state steps OWN). reflexivity.
  Qed.
End Files.
