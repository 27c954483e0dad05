(* Model of the clock of a run in binary64 and of the file names taken from it:
   conmech/solvers/solver.py (so) 42, conmech/simulations/problem_solver.py (ps) 157, 558, 652,
   examples/Jureczka_Ochal_Bartman_2023.py (job) 126-137, 164-172, 181-187 and
   examples/Bartman_Ochal_Sofonea_2024.py (bos) 153-158, 182-201.
   A float that is not negative is the integer z with value z * 2^-1074, so that subnormal numbers are included.
   Left out: overflow, negative numbers. *)
From Coq Require Import ZArith List.
From Verif Require Import ResultsModel.
Import ListNotations.
Local Open Scope Z_scope.

(* rounding to nearest, ties to even, to 53 bits *)
Definition round_float (z : Z) : Z :=
  let k := Z.max 0 (Z.log2 z - 52) in
  let q := z / 2 ^ k in
  let r := z mod 2 ^ k in
  let q' := match 2 * r ?= 2 ^ k with
            | Lt => q
            | Gt => q + 1
            | Eq => if Z.even q then q else q + 1
            end in
  q' * 2 ^ k.
(* the sum of two floats *)
Definition add_floats (a b : Z) : Z := round_float (a + b).

(* so:42 current_time = 0 and ps:157 current_time += time_step, n times *)
Fixpoint clock (time_step : Z) (n : nat) : Z :=
  match n with O => 0 | S n => add_floats (clock time_step n) time_step end.

(* job:167, bos:190  int(state.time // time_step); the floor of the exact quotient, as the remainder that CPython
   takes first is exact *)
Definition step_name (time_step : Z) (n : nat) : nat := Z.to_nat (clock time_step n / time_step).

(* job:164-172, bos:182-201  every state that the run puts out is written under the name of its time; [state n] is
   the state after n steps *)
Fixpoint save_states {S : Type} (time_step : Z) (state : nat -> S) (steps : list nat) (f : files nat S) : files nat S :=
  match steps with
  | [] => f
  | n :: steps => save_states time_step state steps (put Nat.eq_dec f (step_name time_step n) (state n))
  end.

(* job:126-187 and bos:153-225 for one name: simulate and write if a file is missing, then read the files of the
   output steps for drawing *)
Definition keep_states {S : Type} (time_step : Z) (state : nat -> S) (force : bool) (steps : list nat) (f : files nat S)
  : files nat S * outcome (list S) :=
  let simulate := orb force (negb (forallb (present f) steps)) in
  let f' := if simulate then save_states time_step state steps f else f in
  (f', load_all f' steps).

(* job:74, bos:53 *)
Definition time_step_128 : Z := 2 ^ (1074 - 7).
(* examples/example_dynamic.py:27, example_quasistatic.py:24  the float written 0.1 *)
Definition time_step_tenth : Z := 3602879701896397 * 2 ^ (1074 - 55).
