(* Specification of what moving bodies do with a solver that never renews its system (C108). *)
From Coq Require Import Reals List Arith.
From Verif Require Import RVec.
Local Open Scope R_scope.

(* every step looks for the velocity of a body that is at rest and undeformed at time 0, whatever the
   body does; the displacement moves on with it *)
Definition stale_motion (dt : R) (takes : vec -> Prop) (law : R -> vec -> vec -> vec -> Prop) (u0 v0 : vec) (n : nat) (u v : nat -> vec) : Prop :=
  u O = u0 /\ v O = v0 /\
  forall j, (j < n)%nat ->
    (forall i, u (S j) i = u j i + dt * v (S j) i) /\
    takes (v (S j)) /\
    law 0 (fun i => v (S j) i / dt) (v (S j)) (fun i => dt * v (S j) i).
