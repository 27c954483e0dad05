(* What a triangulation of a rectangle is to be.  Nothing here refers to the model. *)
From Coq Require Import Reals List Arith Lra.
From Verif Require Import RVec MeshSpec FemSpec StatementSpec.
Import ListNotations.
Local Open Scope R_scope.

(* rows of coordinates as a node table *)
Definition table_of (rows : list (list R)) : nat -> vec := fun i c => nth c (nth i rows []) 0.

(* the corners of an sx by sy grid with steps hx, hy and the centres of its cells *)
Inductive cross_point (sx sy : nat) (hx hy : R) : list R -> Prop :=
| grid_corner : forall i j, (i <= sx)%nat -> (j <= sy)%nat -> cross_point sx sy hx hy [INR i * hx; INR j * hy]
| cell_centre : forall i j, (i < sx)%nat -> (j < sy)%nat ->
    cross_point sx sy hx hy [(INR i + 1 / 2) * hx; (INR j + 1 / 2) * hy].

(* (x, y) is in the triangle with these corners / inside of it *)
Definition within (corner : nat -> vec) (x y : R) : Prop :=
  exists a b c, 0 <= a /\ 0 <= b /\ 0 <= c /\ a + b + c = 1 /\
    x = a * corner 0%nat 0%nat + b * corner 1%nat 0%nat + c * corner 2%nat 0%nat /\
    y = a * corner 0%nat 1%nat + b * corner 1%nat 1%nat + c * corner 2%nat 1%nat.
Definition inside (corner : nat -> vec) (x y : R) : Prop :=
  exists a b c, 0 < a /\ 0 < b /\ 0 < c /\ a + b + c = 1 /\
    x = a * corner 0%nat 0%nat + b * corner 1%nat 0%nat + c * corner 2%nat 0%nat /\
    y = a * corner 0%nat 1%nat + b * corner 1%nat 1%nat + c * corner 2%nat 1%nat.

(* the elements cover the rectangle from the origin to (lx, ly), nothing else, and do not overlap *)
Record tiles (nodes : nat -> vec) (els : list (list nat)) (lx ly : R) : Prop := {
  tiles_cover : forall x y, 0 <= x <= lx -> 0 <= y <= ly -> exists e, In e els /\ within (corners nodes e) x y;
  tiles_only : forall e x y, In e els -> within (corners nodes e) x y -> 0 <= x <= lx /\ 0 <= y <= ly;
  tiles_apart : forall i j e f x y, nth_error els i = Some e -> nth_error els j = Some f ->
    inside (corners nodes e) x y -> within (corners nodes f) x y -> i = j }.

(* the smallest coordinate of the rows in direction k is c *)
Definition lowest (rows : list (list R)) (k : nat) (c : R) : Prop :=
  (exists r, In r rows /\ nth k r 0 = c) /\ forall r, In r rows -> c <= nth k r 0.

(* neighbours on the outline of the grid *)
Inductive outline (sx sy : nat) (hx hy : R) : list R -> list R -> Prop :=
| on_bottom : forall i, (i < sx)%nat -> outline sx sy hx hy [INR i * hx; 0] [INR (S i) * hx; 0]
| on_top : forall i, (i < sx)%nat -> outline sx sy hx hy [INR i * hx; INR sy * hy] [INR (S i) * hx; INR sy * hy]
| on_left : forall j, (j < sy)%nat -> outline sx sy hx hy [0; INR j * hy] [0; INR (S j) * hy]
| on_right : forall j, (j < sy)%nat -> outline sx sy hx hy [INR sx * hx; INR j * hy] [INR sx * hx; INR (S j) * hy].

(* n is the least number of pieces of length at most p into which l can be cut *)
Definition steps (l p : R) (n : nat) : Prop :=
  (1 <= n)%nat /\ l <= INR n * p /\ forall m, l <= INR m * p -> (n <= m)%nat.

(* a triangulation of the rectangle from the origin to (lx, ly) by sx * sy cells of four triangles *)
Record cross_grid (sx sy : nat) (lx ly : R) (nodes : list (list R)) (els : list (list nat)) : Prop := {
  grid_count : length nodes = (2 * (sx * sy) + (sx + sy) + 1)%nat;
  grid_distinct : NoDup nodes;
  grid_points : forall row, In row nodes <-> cross_point sx sy (lx / INR sx) (ly / INR sy) row;
  grid_cells : length els = (4 * (sx * sy))%nat;
  grid_shape : simplices 3 els;
  grid_range : in_range (length nodes) els;
  grid_used : forall k, (k < length nodes)%nat -> referenced els k;
  grid_oriented : forall e, In e els -> 0 < det_2d (corners (table_of nodes) e);
  grid_area : lsum els (element_area (table_of nodes)) = lx * ly;
  grid_tiles : tiles (table_of nodes) els lx ly;
  grid_faces : forall f, boundary_face 3 els f <->
    exists k l r s, nth_error nodes k = Some r /\ nth_error nodes l = Some s /\
      (outline sx sy (lx / INR sx) (ly / INR sy) r s \/ outline sx sy (lx / INR sx) (ly / INR sy) s r) /\
      f = [k; l] /\ (k < l)%nat;
  (* a plane displacement without strain vanishes as soon as it does so on one boundary edge *)
  grid_rigid : forall (pin : nat -> Prop) f, boundary_face 3 els f -> (forall k, In k f -> pin k) ->
    forall k, (k < length nodes)%nat -> held pin els k }.

(* rows moved by (x, y) *)
Definition moved (x y : R) (nodes nodes' : list (list R)) : Prop :=
  Forall2 (fun r r' => exists a b, r = [a; b] /\ r' = [a + x; b + y]) nodes nodes'.

(* the length of the boundary of a triangle *)
Definition side (a b : vec) : R := sqrt ((a 0%nat - b 0%nat)² + (a 1%nat - b 1%nat)²).
Definition perimeter (corner : nat -> vec) : R :=
  side (corner 0%nat) (corner 1%nat) + side (corner 1%nat) (corner 2%nat) + side (corner 2%nat) (corner 0%nat).

(* a request for a mesh: sizes, the bound, the numbers of cells; the steps are not below 0.0001 *)
Record request (lx ly p : R) (sx sy : nat) : Prop := {
  rq_x : 0 < lx; rq_y : 0 < ly; rq_p : 0 < p; rq_sx : steps lx p sx; rq_sy : steps ly p sy;
  rq_tx : 1 / 10000 <= lx / INR sx; rq_ty : 1 / 10000 <= ly / INR sy }.
Definition placed_at (pos : option (list R)) (x y : R) : Prop :=
  pos = Some [x; y] \/ pos = None /\ x = 0 /\ y = 0.
