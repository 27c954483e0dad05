(* Which faces belong to a boundary: those whose centre satisfies the condition of the user. *)
From Coq Require Import Reals List Arith.
From Verif Require Import RVec MeshSpec CrossSpec.
Import ListNotations.
Local Open Scope R_scope.

(* p is the centre of the corners f: w coordinates, each the average of the coordinates of the corners *)
Definition centre_of (w : nat) (x : nat -> vec) (f : list nat) (p : list R) : Prop :=
  List.length p = w /\ forall c, (c < w)%nat -> INR (List.length f) * nth c p 0 = lsum f (fun i => x i c).

(* the faces of a mesh of simplices in w dimensions, split by the conditions for contact and for clamping *)
Record split_faces (w : nat) (nodes : list (list R)) (els : list (list nat)) (ic id : list R -> bool)
    (fc fd fn : list (list nat)) : Prop := {
  split_contact : forall f, In f fc <-> boundary_face (S w) els f /\ exists p, centre_of w (table_of nodes) f p /\ ic p = true;
  split_dirichlet : forall f, In f fd <-> boundary_face (S w) els f /\ exists p, centre_of w (table_of nodes) f p /\ id p = true;
  split_neumann : forall f, In f fn <-> boundary_face (S w) els f /\
    exists p, centre_of w (table_of nodes) f p /\ ic p = false /\ id p = false }.
