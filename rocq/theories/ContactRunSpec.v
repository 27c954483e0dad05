(* Independent specification of runs with contact (C85). *)
From Coq Require Import Reals List Arith.
From Verif Require Import PyModel RVec ContactModel ContactSpec ConstrainedSpec StatementModel StatementSpec.
Local Open Scope R_scope.

(* nodal forces that the law of a kind of problem in the plane leaves to be balanced by contact:
   left hand side minus right hand side of the law *)
Section Imbalance.
  Variable p : physics.
  Notation n := (ph_n p).
  Definition creeping (x : vec) (i : nat) : R :=
    mv n (damping p) x i + mv n (stiffness p) (advanced p (ph_u p) x) i - load p i.
  Definition moving (x : vec) (i : nat) : R := mv n (mass p) (rate p (ph_v p) x) i + creeping x i.
  Definition imbalance (k : kind) (x : vec) (i : nat) : R :=
    match k with
    | StaticDisplacement => mv n (stiffness p) x i - load p i
    | QuasistaticVelocity => creeping x i
    | QuasistaticVelocityWithPiezoelectric => creeping x i + electric_load p i
    | DynamicVelocity => moving x i
    | DynamicVelocityWithTemperature => moving x i - thermal_load p i
    | DynamicVelocityWithPiezoelectric => moving x i - electric_load p i
    | _ => 0
    end.
End Imbalance.

(* the kinds of problems solved for the velocity *)
Definition velocity_kind (k : kind) : Prop :=
  match k with
  | QuasistaticVelocity | QuasistaticVelocityWithPiezoelectric
  | DynamicVelocity | DynamicVelocityWithTemperature | DynamicVelocityWithPiezoelectric => True
  | _ => False
  end.
(* the step of time goes forward where there is one; static problems are solved with step 0,
   conmech/simulations/problem_solver.py:52-56 *)
Definition forward (k : kind) (dt : R) : Prop := velocity_kind k -> 0 < dt.

(* n steps from displacement u0 and velocity v0: every velocity solves the variational inequality
   of its step, with the forces left over and the contact energy that the fields before it give,
   and moves the displacement on *)
Definition contact_governed (size : nat) (pin : nat -> R -> Prop) (forces : vec -> vec -> R -> vec -> vec)
    (J : vec -> vec -> R) (dt : R) (u0 v0 : vec) (n : nat) (u v : nat -> vec) : Prop :=
  u O = u0 /\ v O = v0 /\
  forall j, (j < n)%nat ->
    (forall i, u (S j) i = u j i + dt * v (S j) i) /\
    contact_inequality size pin (forces (u j) (v j) (INR j * dt)) (J (u j)) (v (S j)).

(* a minimiser of functions of arrays: an array of the length of the start, least if there is a
   least one of that length *)
Definition reliable (find : (nat * vec -> result R) -> nat * vec -> nat * vec) : Prop :=
  forall f n g, (exists x, minimises (fun y => f (n, y)) x) ->
  exists x, find f (n, g) = (n, x) /\ minimises (fun y => f (n, y)) x.

(* a law whose potential is least at value 0 *)
Definition resisting_law (law : contact_law) (dt : R) : Prop :=
  forall n v s, let phi := density (normal_bound law) (potential_normal_direction law)
    (tangential_bound law) (potential_tangential_direction law) dt n in phi (fun _ => 0) s <= phi v s.
