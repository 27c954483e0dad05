(* Independent specification of nodal loads. *)
From Coq Require Import Reals List Arith.
From Verif Require Import RVec PyModel FemSpec.
Import ListNotations.

(* an N x d table *)
Definition rectangular {A} (d : nat) (rows : list (list A)) : Prop := Forall (fun r => length r = d) rows.

(* the values of a (possibly raising) function at all nodes *)
Definition values {P T V} (f : P -> T -> result V) (nodes : list P) (t : T) (l : list V) : Prop :=
  Forall2 (fun p v => f p t = Ok v) nodes l.

Local Open Scope R_scope.

(* length of a segment; area of a triangle in space by the Gram determinant *)
Definition inner_product (d : nat) (a b : vec) : R := sum d (fun c => a c * b c).
Definition segment_length (x : nat -> vec) : R :=
  let a c := x 1%nat c - x 0%nat c in sqrt (inner_product 2 a a).
Definition triangle_area (x : nat -> vec) : R :=
  let a c := x 1%nat c - x 0%nat c in
  let b c := x 2%nat c - x 0%nat c in
  sqrt (inner_product 3 a a * inner_product 3 b b - inner_product 3 a b ^ 2) / 2.
Definition face_measure (d : nat) (nodes : nat -> vec) (f : list nat) : R :=
  match d with
  | 2%nat => segment_length (corners nodes f)
  | _ => triangle_area (corners nodes f)
  end.

(* faces of a d-dimensional mesh: d distinct nodes in range *)
Definition faces_ok (d N : nat) (faces : list (list nat)) : Prop :=
  Forall (fun f => length f = d /\ NoDup f /\ Forall (fun k => (k < N)%nat) f) faces.

(* integral over the faces of the piecewise linear interpolant of nodal values g *)
Definition face_integral (d : nat) (nodes : nat -> vec) (faces : list (list nat)) (g : vec) : R :=
  lsum faces (fun f => face_measure d nodes f * (lsum f g / INR d)).
