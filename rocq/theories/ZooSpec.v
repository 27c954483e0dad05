(* What a mesh of tetrahedra is to be.  Nothing here refers to the model. *)
From Coq Require Import Reals List Arith Sorted.
From Verif Require Import RVec MeshSpec FemSpec CrossSpec SolidSpec.
Import ListNotations.
Local Open Scope R_scope.

(* p is in the tetrahedron with these corners / inside of it *)
Definition within_solid (corner : nat -> vec) (p : vec) : Prop :=
  exists a : nat -> R, (forall i, (i < 4)%nat -> 0 <= a i) /\ sum 4 a = 1 /\
    forall c, (c < 3)%nat -> p c = sum 4 (fun i => a i * corner i c).
Definition inside_solid (corner : nat -> vec) (p : vec) : Prop :=
  exists a : nat -> R, (forall i, (i < 4)%nat -> 0 < a i) /\ sum 4 a = 1 /\
    forall c, (c < 3)%nat -> p c = sum 4 (fun i => a i * corner i c).

(* a mesh of tetrahedra: oriented, without overlap, no face in three elements, and a displacement
   without strain vanishes as soon as it does so on one boundary face *)
Record solid_grid (nodes : list (list R)) (els : list (list nat)) : Prop := {
  solid_rows : Forall (fun r => List.length r = 3%nat) nodes;
  solid_distinct : NoDup nodes;
  solid_shape : simplices 4 els;
  solid_range : in_range (List.length nodes) els;
  solid_used : forall k, (k < List.length nodes)%nat -> referenced els k;
  solid_oriented : forall e, In e els -> 0 < det_3d (corners (table_of nodes) e);
  solid_apart : forall i j e f p, nth_error els i = Some e -> nth_error els j = Some f ->
    inside_solid (corners (table_of nodes) e) p -> within_solid (corners (table_of nodes) f) p -> i = j;
  solid_faces : forall f ks, List.length f = 3%nat -> NoDup f -> NoDup ks ->
    (forall k, In k ks -> exists e, nth_error els k = Some e /\ incl f e) -> (List.length ks <= 2)%nat;
  solid_rigid : forall (pin : nat -> Prop) f, boundary_face 4 els f -> (forall k, In k f -> pin k) ->
    forall k, (k < List.length nodes)%nat -> fastened pin els k }.

(* three corners of an element in one of the sides of the unit cube *)
Definition cube_side (nodes : list (list R)) (els : list (list nat)) (f : list nat) : Prop :=
  StronglySorted lt f /\ List.length f = 3%nat /\ (exists e, In e els /\ incl f e) /\
  exists c v, (c < 3)%nat /\ (v = 0 \/ v = 1) /\ forall n, In n f -> table_of nodes n c = v.

(* the unit cube cut into tetrahedra with corners at the multiples of 1/2 *)
Record cube_grid (nodes : list (list R)) (els : list (list nat)) : Prop := {
  cube_solid : solid_grid nodes els;
  cube_points : forall r, In r nodes <->
    exists i j k, (i <= 2)%nat /\ (j <= 2)%nat /\ (k <= 2)%nat /\ r = [INR i / 2; INR j / 2; INR k / 2];
  cube_volume : lsum els (element_volume (table_of nodes)) = 1;
  cube_cover : forall p : vec, (forall c, (c < 3)%nat -> 0 <= p c <= 1) ->
    exists e, In e els /\ within_solid (corners (table_of nodes) e) p;
  cube_only : forall e p, In e els -> within_solid (corners (table_of nodes) e) p ->
    forall c, (c < 3)%nat -> 0 <= p c <= 1;
  cube_faces : forall f, boundary_face 4 els f <-> cube_side nodes els f }.

(* the square of the distance of a node to the origin *)
Definition norm2 (nodes : list (list R)) (i : nat) : R := sum 3 (fun c => table_of nodes i c * table_of nodes i c).

(* a ball: the boundary nodes are on a sphere up to a tolerance, the others are inside *)
Record ball_grid (r2 eps : R) (nodes : list (list R)) (els : list (list nat)) : Prop := {
  ball_solid : solid_grid nodes els;
  ball_surface : forall i, boundary_node 4 els i -> Rabs (norm2 nodes i - r2) <= eps;
  ball_inner : forall i, (i < List.length nodes)%nat -> ~ boundary_node 4 els i -> norm2 nodes i < r2 / 4 }.

(* rows moved by v *)
Definition moved_by (v : vec) (nodes nodes' : list (list R)) : Prop :=
  Forall2 (fun r r' => List.length r = 3%nat /\ r' = [nth 0 r 0 + v 0%nat; nth 1 r 0 + v 1%nat; nth 2 r 0 + v 2%nat]) nodes nodes'.

(* the rows are moved by v: nowhere, or so that their lowest corner is where it was asked for *)
Definition placed_by (nodes : list (list R)) (pos : option (list R)) (v : vec) : Prop :=
  pos = None /\ (forall c, (c < 3)%nat -> v c = 0) \/
  exists p, pos = Some p /\ List.length p = 3%nat /\
    forall c, (c < 3)%nat -> lowest nodes c (nth c p 0 - v c).
