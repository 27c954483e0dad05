(* Independent specification of block elimination. *)
From Coq Require Import Reals List Arith.
From Verif Require Import RVec PyModel.
Import ListNotations.
Local Open Scope R_scope.

(* x holds d components of nc + nf nodes, component by component; xc holds those of the
   first nc nodes and xf those of the others *)
Definition contact_of (d nc nf : nat) (x xc : vec) : Prop :=
  forall k i, (k < d)%nat -> (i < nc)%nat -> xc (k * nc + i)%nat = x (k * (nc + nf) + i)%nat.
Definition free_of (d nc nf : nat) (x xf : vec) : Prop :=
  forall k i, (k < d)%nat -> (i < nf)%nat -> xf (k * nf + i)%nat = x (k * (nc + nf) + nc + i)%nat.
Definition parts (d nc nf : nat) (x xc xf : vec) : Prop :=
  contact_of d nc nf x xc /\ free_of d nc nf x xf.

(* B is the inverse of the n x n matrix A *)
Definition is_inverse (n : nat) (A B : mat) : Prop := forall i j, (i < n)%nat -> (j < n)%nat ->
  sum n (fun l => A i l * B l j) = delta i j /\ sum n (fun l => B i l * A l j) = delta i j.

(* contract of numpy.linalg.inv *)
Definition inverts (inv : nat -> mat -> result mat) : Prop := forall n A,
  (forall B, inv n A = Ok B -> is_inverse n A B) /\
  ((exists B, is_inverse n A B) -> exists B, inv n A = Ok B).

(* the block of the free dofs *)
Definition free_block (d nc nf : nat) (A F : mat) : Prop :=
  forall k i l j, (k < d)%nat -> (i < nf)%nat -> (l < d)%nat -> (j < nf)%nat ->
  F (k * nf + i)%nat (l * nf + j)%nat = A (k * (nc + nf) + nc + i)%nat (l * (nc + nf) + nc + j)%nat.
