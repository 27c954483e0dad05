(* The patch test: fields that are affine functions of the place.  Nothing here refers to the model. *)
From Coq Require Import Reals List Arith.
From Verif Require Import RVec MeshSpec FemSpec ForcesSpec GaussSpec.
Import ListNotations.
Local Open Scope R_scope.

(* the affine field b + A x at a place, and a stacked field with N nodes that has its values *)
Definition affine_at (d : nat) (b : vec) (A : mat) (x : vec) : vec := fun k => b k + sum d (fun c => A k c * x c).
Definition affine_values (d N : nat) (x : nat -> vec) (b : vec) (A : mat) (u : vec) : Prop :=
  forall k n, (k < d)%nat -> (n < N)%nat -> u (k * N + n)%nat = affine_at d b A (x n) k.

(* isotropic stress of the displacement gradient A *)
Definition stress (d : nat) (mu la : R) (A : mat) : mat :=
  fun k c => mu * (A k c + A c k) + la * (sum d (fun i => A i i) * delta k c).

(* force on a surface with normal n *)
Definition traction (d : nat) (S : mat) (n : vec) : vec := fun k => sum d (fun c => S k c * n c).

(* work of the constant stress S on the boundary against the interpolant of v *)
Definition boundary_work (d N : nat) (x : nat -> vec) (faces : list (list nat)) (n : list nat -> vec) (S : mat) (v : vec) : R :=
  lsum faces (fun f => face_measure d x f * sum d (fun k => traction d S (n f) k * (lsum f (component N v k) / INR d))).

(* what acts on the boundary is what the loads say: at every node of a boundary face that is not held the force t of the
   face is the surface load h if the face is loaded, and nothing otherwise *)
Definition loads_match (d width : nat) (els : list (list nat)) (loaded : list nat -> Prop) (pinned : nat -> Prop) (t : list nat -> vec) (h : nat -> vec) : Prop :=
  forall f i, boundary_face (Datatypes.S d) els f -> In i f -> pinned i \/
  forall k, (k < width)%nat -> (loaded f -> t f k = h i k) /\ (~ loaded f -> t f k = 0).
