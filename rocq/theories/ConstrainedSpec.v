(* Independent specification of contact problems with prescribed values (C84, C85). *)
From Coq Require Import Reals List Arith.
From Verif Require Import PyModel RVec ContactModel ContactSpec.
Import ListNotations.
Local Open Scope R_scope.

(* x has the prescribed values *)
Definition admissible (pin : nat -> R -> Prop) (x : vec) : Prop := forall d v, pin d v -> x d = v.

(* least cost among the vectors with the prescribed values; the cost raises for none of them *)
Definition minimises_among (pin : nat -> R -> Prop) (cost : vec -> result R) (x : vec) : Prop :=
  admissible pin x /\
  exists c, cost x = Ok c /\ forall y, admissible pin y -> exists c', cost y = Ok c' /\ c <= c'.

(* contact energy of the nodal values v, at displacement s *)
Definition contact_energy (law : contact_law) (nodes : nat -> vec) (normals : nat -> vec)
    (faces : list (list nat)) (dt : R) (s v : nat -> vec) : R :=
  boundary_sum nodes faces (fun ei => density (normal_bound law) (potential_normal_direction law)
    (tangential_bound law) (potential_tangential_direction law) dt (normals ei)) v s.

(* the variational inequality of contact with residual r: y ranges over the admissible vectors *)
Definition contact_inequality (n : nat) (pin : nat -> R -> Prop) (residual : vec -> vec) (J : vec -> R) (x : vec) : Prop :=
  admissible pin x /\
  forall y, admissible pin y -> 0 <= dot n (residual x) (fun i => y i - x i) + J y - J x.

(* dof k of node a (N nodes, component by component) has a prescribed value *)
Definition fixed_dof (pin : nat -> R -> Prop) (N a k : nat) : Prop := exists v, pin (k * N + a)%nat v.
