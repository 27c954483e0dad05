(* What the states of a posed problem show: times and positions of the nodes. *)
From Coq Require Import Reals List Arith ZArith String.
From Verif Require Import Common PyModel RVec MeshModel NormalsModel StateModel TimeModel TimeSpec ProblemModel.
Import ListNotations.
Local Open Scope R_scope.

(* the positions x are the nodes moved by u; both arrays hold first coordinates, then second ones *)
Definition moved (nodes : list P2) (u x : vec) : Prop :=
  forall n p, nth_error nodes n = Some p ->
    x n = fst p + u n /\ x (List.length nodes + n)%nat = snd p + u (List.length nodes + n)%nat.

(* a state shown after q steps of dt from the displacement u0 *)
Definition shows (nodes : list P2) (dt : R) (u0 : vec) (q : nat) (w : view) : Prop :=
  view_time w = INR q * dt /\
  match q with
  | O => view_displacement w = u0 /\ moved nodes (fun _ => 0) (view_displaced w)
  | S _ => moved nodes (view_displacement w) (view_displaced w)
  end.

(* every returned state is the one that was asked for *)
Definition shows_all {V W} (nodes : list P2) (dt : R) (u0 : vec) (n : nat) (out : list Z) (m : store V) (l : list (state W)) : Prop :=
  List.length l = List.length (requested n out) /\
  forall j q s, nth_error (requested n out) j = Some q -> nth_error l j = Some s ->
    shows nodes dt u0 (Z.to_nat q) (look m s).

(* the arrays of a solver: absement, displacement, velocity, temperature, potential *)
Definition arrays {I} (s : stepper I) : list nat := [b_vector s; u_vector s; v_vector s; t_vector s; p_vector s].
(* a solver nobody has used: the clock at 0, one step to do, five arrays of zeros *)
Definition unused {V I} (dt : R) (d : driver V I) : Prop :=
  current_time (d_sv d) = 0 /\ time_step (d_sv d) = dt /\ d_done d = 0%nat /\ d_to_do d = 1%nat /\
  (forall r, In r (arrays (d_sv d)) -> forall i, StateModel.load (d_mem d) r i = 0) /\
  NoDup (arrays (d_sv d)) /\ (forall r, In r (arrays (d_sv d)) -> (r < List.length (cells (d_mem d)))%nat).

(* the time shown, for problems with one number per node *)
Definition timed_all {V W} (dt : R) (n : nat) (out : list Z) (m : store V) (l : list (state W)) : Prop :=
  List.length l = List.length (requested n out) /\
  forall j q s, nth_error (requested n out) j = Some q -> nth_error l j = Some s ->
    view_time (look m s) = INR (Z.to_nat q) * dt.
