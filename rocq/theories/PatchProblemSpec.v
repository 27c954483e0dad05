(* The patch test for posed problems, in the words of the user's mesh. *)
From Coq Require Import Reals List Arith Bool String.
From Verif Require Import Common PyModel RVec MeshModel MeshBuildModel MeshSpec NormalsModel FemModel FemSpec ForcesSpec
  ProblemModel ProblemSpec GaussSpec PatchSpec.
Import ListNotations.
Local Open Scope R_scope.

Definition user_points (pb : problem) : nat -> vec := node_table coord2 zero2 (pr_nodes pb).

(* neither condition holds at the centre of the face *)
Definition user_loaded (pb : problem) (contact fixed : P2 -> bool) (f : list nat) : Prop :=
  ~ face_holds mean2 (pr_nodes pb) contact f /\ ~ face_holds mean2 (pr_nodes pb) fixed f.

(* the prescribed values are those of the field w *)
Definition prescribes (pb : problem) (fixed : P2 -> bool) (width : nat) (g : P2 -> R) (w : P2 -> vec) : Prop :=
  forall i p k, user_fixed pb fixed i -> nth_error (pr_nodes pb) i = Some p -> (k < width)%nat -> g p = w p k.

(* the force of every face is the load h on it, except at fixed nodes *)
Definition user_match (pb : problem) (contact fixed : P2 -> bool) (width : nat) (t : list nat -> vec) (h : P2 -> vec) : Prop :=
  loads_match 2 width (pr_elements pb) (user_loaded pb contact fixed) (user_fixed pb fixed) t (fun i => h (nth i (pr_nodes pb) zero2)).

(* all of the boundary is fixed *)
Definition closed_problem (pb : problem) (fixed : P2 -> bool) : Prop :=
  forall i, boundary_node 3 (pr_elements pb) i -> holds_at (pr_nodes pb) fixed i.

(* the derivative matrices turn the integral of a derivative into a flux through the boundary; rows of inner nodes balance *)
Definition obeys_gauss (d N : nat) (x : nat -> vec) (els : list (list nat)) : Prop :=
  forall B k, get_basic_matrices x els = Ok B -> (k < d)%nat ->
  (forall n faces v, outer_normals d x els n -> boundary_list d els faces ->
     bilinear N N (FemModel.V B k) (fun _ => 1) v = flux d x faces n v k) /\
  (forall b, (b < N)%nat -> ~ boundary_node (S d) els b -> sum N (fun a => FemModel.V B k a b) = 0).
