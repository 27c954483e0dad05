(* Independent specification of whole runs (C79, C81-C83): fields that advance by implicit Euler and
   obey a law at every step, and what a returned state shows of them. *)
From Coq Require Import Reals List Arith.
From Verif Require Import RVec StateModel DirichletSpec StatementSpec.
Local Open Scope R_scope.

Section Governed.
  Variable size : nat.
  (* which dofs are prescribed, and the law of a step from given fields at a given time *)
  Variable pin : nat -> R -> Prop.
  Variable law : vec -> vec -> R -> vec -> nat -> Prop.

  (* n steps from displacement u0 and velocity v0: every velocity obeys the law of its step, whose
     loads are those of the time before the step, and moves the displacement on *)
  Definition governed (dt : R) (u0 v0 : vec) (n : nat) (u v : nat -> vec) : Prop :=
    u O = u0 /\ v O = v0 /\
    forall j, (j < n)%nat ->
      (forall i, u (S j) i = u j i + dt * v (S j) i) /\
      obeys size pin (law (u j) (v j) (INR j * dt)) (v (S j)).

  (* the state after q steps *)
  Definition shows (dt : R) (u v : nat -> vec) (q : nat) (w : view) : Prop :=
    view_time w = INR q * dt /\ view_displacement w = u q /\ view_velocity w = v q.
  (* the same with absement and displacement in place of displacement and velocity *)
  Definition shows_creep (dt : R) (b u : nat -> vec) (q : nat) (w : view) : Prop :=
    view_time w = INR q * dt /\ view_absement w = b q /\ view_displacement w = u q.
End Governed.
