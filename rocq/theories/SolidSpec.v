(* Solids: which nodes of a tetrahedral mesh are fixed by others.  Nothing here refers to the model. *)
From Coq Require Import Reals List Arith.
From Verif Require Import RVec MeshSpec FemSpec DirichletModel DirichletSpec.
Import ListNotations.
Local Open Scope R_scope.

(* a displacement without strain is fixed on a tetrahedron as soon as three of its corners are *)
Inductive fastened (pin : nat -> Prop) (els : list (list nat)) : nat -> Prop :=
| fastened_pin i : pin i -> fastened pin els i
| fastened_by e i j k l : In e els -> In i e -> In j e -> In k e -> i <> j -> i <> k -> j <> k -> In l e ->
    fastened pin els i -> fastened pin els j -> fastened pin els k -> fastened pin els l.

(* all three components of node i are prescribed *)
Definition clamped3 (N : nat) (conds : list condition) (i : nat) : Prop :=
  forall c, (c < 3)%nat -> exists v, prescribed conds (c * N + i)%nat v.

(* a sliding of the planes z = const in x direction that leaves the plane z = h at rest *)
Definition sliding (N : nat) (nodes : nat -> vec) (h : R) (u : vec) : Prop :=
  forall i, (i < N)%nat -> u i = nodes i 2%nat - h /\ u (N + i)%nat = 0 /\ u (2 * N + i)%nat = 0.
