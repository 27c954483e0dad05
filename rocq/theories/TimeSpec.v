(* What marching in time means, stated without the store: sequences of fields, one per step. *)
From Coq Require Import Reals List Arith ZArith Bool String.
From Verif Require Import PyModel RVec StateModel TimeModel.
Import ListNotations.
Local Open Scope R_scope.

Section Spec.
  Context {I : Type}.
  Variable iterate : I -> vectors -> R -> R -> result I.
  Variable answer : I -> vec -> vec -> vec -> R -> result (nat * vec).
  Variable size : nat.       (* number of entries of an array *)

  (* the time after k steps *)
  Definition instant (t0 dt : R) (k : nat) : R := t0 + INR k * dt.

  (* how far the time of the state is behind the clock of the solver before step k + 1; a state
     made by a step has the time of the clock *)
  Definition behind (t0 s0 : R) (k : nat) : R := match k with O => t0 - s0 | _ => 0 end.

  (* velocity driven: [b], [t], [p] do not change *)
  Definition velocity_history (b t p : vec) (dt t0 s0 : R) (n : nat) (inner : nat -> I) (u v : nat -> vec) : Prop :=
    forall k, (k < n)%nat ->
      answer (inner k) (v k) (v k) (u k) dt = Ok (size, v (S k)) /\
      u (S k) = (fun i => u k i + (dt + behind t0 s0 k) * v (S k) i) /\
      iterate (inner k) (mkVectors b (u (S k)) (v (S k)) t p) dt (instant t0 dt (S k)) = Ok (inner (S k)).

  (* displacement driven: [v], [t], [p] do not change *)
  Definition displacement_history (v t p : vec) (dt t0 s0 : R) (n : nat) (inner : nat -> I) (b u : nat -> vec) : Prop :=
    forall k, (k < n)%nat ->
      answer (inner k) (u k) v (u k) dt = Ok (size, u (S k)) /\
      b (S k) = (fun i => b k i + (dt + behind t0 s0 k) * u (S k) i) /\
      iterate (inner k) (mkVectors (b (S k)) (u (S k)) v t p) dt (instant t0 dt (S k)) = Ok (inner (S k)).

  (* what iterate() leaves does not depend on earlier calls *)
  Definition forgets : Prop :=
    forall i x dt t i', iterate i x dt t = Ok i' -> forall y dt' t', iterate i' y dt' t' = iterate i y dt' t'.
End Spec.

(* coupled problems: in each time step two solvers are asked in turn *)
Section CoupledSpec.
  Context {I J : Type}.
  Variables (size nodes_count : nat).
  Variable update : I -> vec -> vec -> vec -> R -> R -> result I.
  Variable second_update : J -> vec -> vec -> vec -> vec -> R -> result J.
  Variable answer : I -> vec -> vec -> vec -> R -> result (nat * vec).
  Variable second_answer : J -> vec -> vec -> vec -> R -> result (nat * vec).

  (* what is known between two time steps: the solvers, the guesses for the velocity and for the
     temperature or potential, the arrays of the first solver, two of the second, and the
     displacement of the state *)
  Record fields := mkFields {
    one : I; two : J; guess_x : vec; guess_y : vec;
    one_u : vec; one_v : vec; one_t : vec; one_p : vec;
    two_u : vec; two_v : vec; shift : vec }.

  (* n passes at time [now] *)
  Definition alternation (a : fields) (dt dt2 now : R) (n : nat) (i : nat -> I) (j : nat -> J) (x y : nat -> vec) : Prop :=
    i O = one a /\ j O = two a /\ x O = guess_x a /\ y O = guess_y a /\
    forall k, (k < n)%nat ->
      update (i k) (one_u a) (one_v a) (y k) dt now = Ok (i (S k)) /\
      answer (i (S k)) (x k) (one_v a) (one_u a) dt = Ok (size, x (S k)) /\
      second_update (j k) (fun c => one_u a c + dt * x (S k) c) (x (S k)) (one_t a) (one_p a) dt2 = Ok (j (S k)) /\
      second_answer (j (S k)) (y k) (two_v a) (two_u a) dt2 = Ok (nodes_count, y (S k)).

  (* how much pass k + 1 changed *)
  Definition change (x y : nat -> vec) (k : nat) : R :=
    sqrt (sum size (fun c => Rsqr (x (S k) c - x k c)) + sum nodes_count (fun c => Rsqr (y (S k) c - y k c))).

  (* at least 5 passes, at most 10, and in between as many as it takes for the change to be small *)
  Definition stops (n : nat) (x y : nat -> vec) : Prop :=
    (5 <= n <= 10)%nat /\ (forall k, (5 <= k < n)%nat -> 1 / 1000 < change x y (k - 1)) /\
    (n = 10%nat \/ change x y (n - 1) <= 1 / 1000).

  (* one time step *)
  Definition advances (dt dt2 now lag : R) (a b : fields) : Prop :=
    exists n i j x y, alternation a dt dt2 now n i j x y /\ stops n x y /\
      b = mkFields (i n) (j n) (x n) (y n)
            (fun c => one_u a c + dt * x n c) (x n) (y n) (y n)
            (fun c => one_u a c + dt2 * x n c) (x n)
            (fun c => shift a c + (dt + lag) * x n c).

  Definition coupled_history (dt dt2 t0 s0 : R) (n : nat) (h : nat -> fields) : Prop :=
    forall k, (k < n)%nat -> advances dt dt2 (instant t0 dt (S k)) (behind t0 s0 k) (h k) (h (S k)).

  (* the state after k steps *)
  Definition coupled_view (nodes : vec) (dt t0 s0 : R) (h : nat -> fields) (k : nat) : view * list vec :=
    (match k with
     | O => mkView (fun _ => 0) (shift (h O)) nodes (one_v (h O)) s0
     | _ => mkView (fun _ => 0) (shift (h k)) (fun c => nodes c + shift (h k) c) (one_v (h k)) (instant t0 dt k)
     end, [guess_y (h k)]).
End CoupledSpec.

(* the state after k steps: a state not yet stepped has the time and the nodes it was made with *)
Definition velocity_view (nodes b : vec) (dt t0 s0 : R) (u v : nat -> vec) (k : nat) : view :=
  match k with
  | O => mkView b (u O) nodes (v O) s0
  | _ => mkView b (u k) (fun i => nodes i + u k i) (v k) (instant t0 dt k)
  end.

Definition displacement_view (nodes v : vec) (dt t0 s0 : R) (b u : nat -> vec) (k : nat) : view :=
  match k with
  | O => mkView (b O) (u O) nodes v s0
  | _ => mkView (b k) (u k) (fun i => nodes i + u k i) v (instant t0 dt k)
  end.

(* the steps at which outputs are due *)
Definition requested (n_steps : nat) (output_step : list Z) : list Z :=
  match output_step with [] => [Z.of_nat n_steps] | _ => output_step end.

Fixpoint non_decreasing (from : Z) (l : list Z) : Prop :=
  match l with [] => True | x :: l => (from <= x)%Z /\ non_decreasing x l end.
