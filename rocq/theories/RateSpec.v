(* Independent specification of the error of the convergence table (C115). Nothing here refers to the model. *)
From Coq Require Import Reals List Arith.
From Verif Require Import RVec MeshSpec FemSpec.
Import ListNotations.
Local Open Scope R_scope.

(* the values of w at the corners of an element *)
Definition at_corners (w : nat -> R) (e : list nat) : nat -> R := fun k => w (nth k e 0%nat).
(* Q is the integral over the mesh of the square of the piecewise linear function with nodal values w: over every
   element, twice its area times the integral over the reference triangle *)
Definition square_integral (nodes : nat -> vec) (els : list (list nat)) (w : nat -> R) (Q : R) : Prop :=
  exists I : list nat -> R,
    (forall e, In e els -> is_triangle_integral (fun s t => bary2 (at_corners w e) s t * bary2 (at_corners w e) s t) (I e)) /\
    Q = lsum els (fun e => 2 * element_area nodes e * I e).
(* lists of mesh sizes and errors with e = C h^p, the sizes decreasing *)
Fixpoint order (C p : R) (l : list (R * R)) : Prop :=
  match l with
  | [] => True
  | (h, e) :: l => 0 < h /\ e = C * Rpower h p /\ (forall q, In q l -> fst q < h) /\ order C p l
  end.
