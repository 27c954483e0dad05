(* Independent specification of a plane elastic boundary value problem in strong form and of L2 norms
   of piecewise linear fields.  Nothing here refers to the model. *)
From Coq Require Import Reals List Arith.
From Verif Require Import RVec MeshSpec FemSpec StressSpec.
Import ListNotations.
Local Open Scope R_scope.

(* coordinate k moved by h *)
Definition moved (x : vec) (k : nat) (h : R) : vec := fun j => if (j =? k)%nat then x j + h else x j.

(* l is the partial derivative of f in direction k at x *)
Definition partial_derivative (f : vec -> R) (k : nat) (x : vec) (l : R) : Prop :=
  derivable_pt_lim (fun h => f (moved x k h)) 0 l.

(* G x c k = d u_c / d x_k at x *)
Definition displacement_gradient (u : vec -> vec) (G : vec -> nat -> vec) : Prop :=
  forall x c k, (c < 2)%nat -> (k < 2)%nat -> partial_derivative (fun y => u y c) k x (G x c k).

(* - div sigma = f for the stresses of Hooke's law *)
Definition equilibrium (m l : R) (G : vec -> nat -> vec) (f : vec -> vec) : Prop :=
  forall x c, (c < 2)%nat -> exists d : vec,
    (forall k, (k < 2)%nat -> partial_derivative (fun y => hooke 2 m l (G y) c k) k x (d k)) /\
    - (d 0%nat + d 1%nat) = f x c.

(* sigma n *)
Definition traction (m l : R) (G : vec -> nat -> vec) (n : vec) (x : vec) (c : nat) : R :=
  hooke 2 m l (G x) c 0%nat * n 0%nat + hooke 2 m l (G x) c 1%nat * n 1%nat.

Definition to_right : vec := fun c => match c with 0%nat => 1 | _ => 0 end.
Definition upwards : vec := fun c => match c with 1%nat => 1 | _ => 0 end.
Definition downwards : vec := fun c => match c with 1%nat => - 1 | _ => 0 end.
Definition along (v n : vec) : R := v 0%nat * n 0%nat + v 1%nat * n 1%nat.

(* integral of |e|^2 for the piecewise linear plane field with nodal rows e n *)
Definition squared_l2 (nodes : nat -> vec) (els : list (list nat)) (e : nat -> vec) : R :=
  integral (element_area nodes) els (fun el =>
    mean_product 2 (fun k => e (nth k el 0%nat) 0%nat) (fun k => e (nth k el 0%nat) 0%nat)
    + mean_product 2 (fun k => e (nth k el 0%nat) 1%nat) (fun k => e (nth k el 0%nat) 1%nat)).

(* total area of the elements that meet in node n *)
Definition area_around (nodes : nat -> vec) (els : list (list nat)) (n : nat) : R :=
  lsum (around els n) (element_area nodes).

(* mean of |e|^2 over the elements that meet in node n *)
Definition mean_square_around (nodes : nat -> vec) (els : list (list nat)) (e : nat -> vec) (n : nat) : R :=
  squared_l2 nodes (around els n) e / area_around nodes els n.
