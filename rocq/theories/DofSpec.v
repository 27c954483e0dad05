(* Independent specification of the dof slices of a boundary (C09). *)
From Coq Require Import List Arith.
Import ListNotations.

(* the (dof, condition entry) pairs denoted by a pair of slices [a,b) and [c,e) *)
Definition slice_pairs (s : (nat * nat) * (nat * nat)) : list (nat * nat) :=
  let '((a, b), (c, e)) := s in combine (seq a (b - a)) (seq c (e - c)).

(* both slices of a pair have the same length *)
Definition matching (s : (nat * nat) * (nat * nat)) : Prop :=
  let '((a, b), (c, e)) := s in a <= b /\ c <= e /\ b - a = e - c.

(* what a boundary with nodes i stands for: dof n + k*N of node n (the p-th node of
   the boundary), component k < dim, belongs to condition entry p *)
Definition boundary_dof (i : list nat) (N dim : nat) (dof p : nat) : Prop :=
  exists k n, k < dim /\ nth_error i p = Some n /\ dof = n + k * N.
