(* The clock of a run in floating point and the names of files taken from it: C114. *)
From Coq Require Import ZArith List Lia SpecFloat.
From Verif Require Import ResultsModel ClockModel ClockSpec ClockProofs ClockAdvance.
Import ListNotations.
Local Open Scope Z_scope.

(* the sums of the model are those of IEEE 754: the nearest binary64 number, and of binary64 numbers themselves *)
Theorem C114_rounding : forall a b, 0 <= a -> 0 <= b -> nearest (a + b) (add_floats a b) /\ (float64 (a + b) -> add_floats a b = a + b) /\
  2 ^ 53 * Z.abs (add_floats a b - (a + b)) <= a + b.
Proof. exact (fun a b A B => conj (round_nearest (a + b) (Z.add_nonneg_nonneg a b A B)) (conj (round_id (a + b)) (round_error (a + b) (Z.add_nonneg_nonneg a b A B)))). Qed.
Print Assumptions C114_rounding.
(* 2^53 and 1 are added, a tie; 0.1 is added ten times, as computed by the standard library *)
Example C114_rounding_example : add_floats (2 ^ 53) 1 = 2 ^ 53 /\ add_floats (2 ^ 53) 3 = 2 ^ 53 + 4 /\ float64 time_step_tenth /\
  match fold_left (fun t _ => SFadd 53 1024 t (S754_finite false 7205759403792794 (-56))) (seq 0 10) (S754_zero false) with
  | S754_finite false m e => Z.pos m * 2 ^ (e + 1074) = clock time_step_tenth 10
  | _ => False
  end.
Proof. split; [reflexivity|]. split; [reflexivity|]. split; [exists 3602879701896397, (1074 - 55); split; [lia|split; [lia|reflexivity]]|]. vm_compute. reflexivity. Qed.

(* time steps with few bits: the clock is exact and the name of the file is the number of the step *)
Theorem C114_dyadic : forall dt m k n, 0 < m -> 0 <= k -> dt = m * 2 ^ k -> Z.of_nat n * m <= 2 ^ 53 ->
  clock dt n = Z.of_nat n * dt /\ step_name dt n = n.
Proof. exact (fun dt m k n M K E B => conj (clock_exact dt m k n M K E B) (name_exact dt m k n M K E B)). Qed.
Print Assumptions C114_dyadic.
(* the step 1 / 128 of the two examples *)
Example C114_dyadic_example : time_step_128 = 1 * 2 ^ 1067 /\ Z.of_nat 768 * 1 <= 2 ^ 53.
Proof. split; [reflexivity|]. apply Z.leb_le. reflexivity. Qed.

(* any time step: the clock is off by at most n^2 roundings, and the name is the number of the step or one less *)
Theorem C114_drift : forall dt n, float64 dt -> Z.of_nat n * Z.of_nat n <= 2 ^ 53 ->
  2 ^ 53 * Z.abs (clock dt n - Z.of_nat n * dt) <= Z.of_nat n * Z.of_nat n * dt.
Proof. exact clock_drift. Qed.
Print Assumptions C114_drift.
Theorem C114_near : forall dt n, float64 dt -> 0 < dt -> (0 < n)%nat -> Z.of_nat n * Z.of_nat n < 2 ^ 53 ->
  step_name dt n = n \/ step_name dt n = (n - 1)%nat.
Proof. exact name_near. Qed.
Print Assumptions C114_near.
(* both happen with the step 0.1 *)
Example C114_near_example : float64 time_step_tenth /\ 0 < time_step_tenth /\ Z.of_nat 1000 * Z.of_nat 1000 < 2 ^ 53 /\
  step_name time_step_tenth 4 = 4%nat /\ step_name time_step_tenth 5 = 4%nat.
Proof. split; [exists 3602879701896397, (1074 - 55); split; [lia|split; [lia|reflexivity]]|]. split; [reflexivity|]. split; [apply Z.ltb_lt; reflexivity|]. split; vm_compute; reflexivity. Qed.

(* the clock advances, so that records of products at different steps have different times *)
Theorem C114_advances : forall dt, float64 dt -> 0 < dt -> forall b a, (a < b)%nat -> Z.of_nat b * Z.of_nat b <= 2 ^ 53 -> clock dt a < clock dt b.
Proof. exact clock_increases. Qed.
Print Assumptions C114_advances.
Example C114_advances_example : float64 time_step_tenth /\ 0 < time_step_tenth /\ (4 < 1000)%nat /\ Z.of_nat 1000 * Z.of_nat 1000 <= 2 ^ 53.
Proof. split; [exact (proj1 C114_near_example)|]. split; [reflexivity|]. split; [lia|]. apply Z.leb_le. reflexivity. Qed.
(* but not for ever: with a power of two as time step it stands still from step 2^53 on *)
Theorem C114_stands : forall k n, 0 <= k -> Z.of_nat n = 2 ^ 53 -> forall j, clock (2 ^ k) (n + j) = 2 ^ 53 * 2 ^ k.
Proof. exact clock_stall. Qed.
Print Assumptions C114_stands.
Example C114_stands_example : time_step_128 = 2 ^ 1067 /\ Z.of_nat (Z.to_nat (2 ^ 53)) = 2 ^ 53.
Proof. split; [reflexivity|]. apply Z2Nat.id. apply Z.leb_le. reflexivity. Qed.

(* states of different steps do not always get different names *)
Theorem C114_names_refuted : ~ forall dt, float64 dt -> 0 < dt -> forall n n', step_name dt n = step_name dt n' -> n = n'.
Proof.
  intros H. discriminate (H time_step_tenth (proj1 C114_near_example) (proj1 (proj2 C114_near_example)) 4%nat 5%nat
    (eq_trans (proj1 (proj2 (proj2 (proj2 C114_near_example)))) (eq_sym (proj2 (proj2 (proj2 (proj2 C114_near_example))))))).
Qed.
Print Assumptions C114_names_refuted.

(* time steps with few bits: the states drawn are those of the output steps, every file holds the state of its step,
   other files are left alone, and the next run finds everything *)
Theorem C114_kept : forall (S : Type) dt m k (state : nat -> S) force steps f, 0 < m -> 0 <= k -> dt = m * 2 ^ k ->
  (forall n, In n steps -> Z.of_nat n * m <= 2 ^ 53) -> (force = true \/ exists n, In n steps /\ f n = None) ->
  exists f', keep_states dt state force steps f = (f', Good (map state steps)) /\
    (forall n, f' n = if in_dec Nat.eq_dec n steps then Some (state n) else f n) /\
    keep_states dt state false steps f' = (f', Good (map state steps)).
Proof. exact @kept. Qed.
Print Assumptions C114_kept.
Example C114_kept_example : time_step_128 = 1 * 2 ^ 1067 /\ (forall n, In n (seq 0 32) -> Z.of_nat n * 1 <= 2 ^ 53) /\
  exists n, In n (seq 0 32) /\ (fun _ => None : option nat) n = None.
Proof.
  split; [reflexivity|]. split; [intros n I; apply in_seq in I; apply Z.le_trans with 32; [lia|apply Z.leb_le; reflexivity]|].
  exists 7%nat. split; [apply in_seq; lia|reflexivity].
Qed.

(* not for every time step: with 0.1 the file of step 4 holds the state of step 5, that of step 5 is missing, and the
   example stops with an error, now and whenever it is started again *)
Theorem C114_kept_refuted : forall (S : Type) (state : nat -> S), exists f',
  keep_states time_step_tenth state false (seq 0 6) (fun _ => None) = (f', Bad NoFile) /\ f' 4%nat = Some (state 5%nat) /\ f' 5%nat = None /\
  snd (keep_states time_step_tenth state false (seq 0 6) f') = Bad NoFile.
Proof. intros S state. eexists. split; [reflexivity|]. split; [vm_compute; reflexivity|]. split; vm_compute; reflexivity. Qed.
Print Assumptions C114_kept_refuted.
