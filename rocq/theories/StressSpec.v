(* Independent specification of nodal stresses of piecewise linear fields on a triangulation.
   Nothing here refers to the model. *)
From Coq Require Import Reals List Arith.
From Verif Require Import RVec MeshSpec FemSpec.
Import ListNotations.
Local Open Scope R_scope.

(* the elements that meet in node n *)
Definition around (els : list (list nat)) (n : nat) : list (list nat) :=
  filter (fun e => existsb (Nat.eqb n) e) els.

(* unweighted mean over the elements that meet in node n *)
Definition mean_around (els : list (list nat)) (n : nat) (q : list nat -> R) : R :=
  lsum (around els n) q / INR (length (around els n)).

(* Hooke's law: 2 m eps + l (div) I *)
Definition hooke (d : nat) (m l : R) (G : nat -> vec) : mat := fun i j =>
  2 * m * strain G i j + (if (i =? j)%nat then l * divergence d G else 0).

(* rows: field n c is component c at node n; G c e k its derivative k on element e *)
Definition rows_gradient (nodes : nat -> vec) (els : list (list nat)) (field : nat -> vec)
    (G : nat -> list nat -> vec) : Prop :=
  forall c, (c < 2)%nat -> field_gradient 2 nodes els (fun n => field n c) (G c).

(* the field b + A x *)
Definition affine_rows (N : nat) (nodes : nat -> vec) (b : vec) (A : mat) (field : nat -> vec) : Prop :=
  forall n c, (n < N)%nat -> (c < 2)%nat ->
  field n c = b c + (A c 0%nat * nodes n 0%nat + A c 1%nat * nodes n 1%nat).

(* equality of the four entries *)
Definition same2 (A B : mat) : Prop := forall i j, (i < 2)%nat -> (j < 2)%nat -> A i j = B i j.

(* double contraction *)
Definition contract (A B : mat) : R := sum 2 (fun i => sum 2 (fun j => A i j * B i j)).

Definition negate (A : mat) : mat := fun i j => - A i j.
