(* Meshes read from files: what is asked of a file and what the mesh is to be.  The file has points and cells by
   type.  Nothing here refers to functions of the model. *)
From Coq Require Import Reals List Arith Bool String Permutation.
From Verif Require Import RVec MeshSpec FemSpec CrossSpec SolidSpec ZooSpec ZooModel.
Import ListNotations.
Local Open Scope string_scope.
Local Open Scope list_scope.
Local Open Scope R_scope.

(* cells of the given type are the first entry with its name *)
Definition cells_of (f : mesh_file) (name : string) (cells : list (list nat)) : Prop :=
  exists before after, mf_cells f = before ++ (name, cells) :: after /\ forall c, ~ In (name, c) before.
Definition no_cells (f : mesh_file) (name : string) : Prop := forall c, ~ In (name, c) (mf_cells f).

(* points with three coordinates and tetrahedra that are not flat *)
Record solid_file (f : mesh_file) (cells : list (list nat)) : Prop := {
  sf_width : mf_width f = 3%nat;
  sf_rows : Forall (fun r => List.length r = 3%nat) (mf_points f);
  sf_points : mf_points f <> [];
  sf_cells : cells_of f "tetra" cells;
  sf_shape : simplices 4 cells;
  sf_range : in_range (List.length (mf_points f)) cells;
  sf_solid : forall e, In e cells -> det_3d (corners (table_of (mf_points f)) e) <> 0 }.

(* points with two or three coordinates and triangles *)
Record plane_file (f : mesh_file) (cells : list (list nat)) : Prop := {
  pf_width : mf_width f = 2%nat \/ mf_width f = 3%nat;
  pf_rows : Forall (fun r => List.length r = mf_width f) (mf_points f);
  pf_points : mf_points f <> [];
  pf_none : no_cells f "tetra";
  pf_cells : cells_of f "triangle" cells;
  pf_shape : simplices 3 cells;
  pf_range : in_range (List.length (mf_points f)) cells }.
(* no triangle is a segment when the third coordinate is dropped *)
Definition spread_out (f : mesh_file) (cells : list (list nat)) : Prop :=
  forall e, In e cells -> det_2d (corners (table_of (mf_points f)) e) <> 0.

(* the move asked for: none, or the one that puts the lowest coordinates of the points of the file to p *)
Definition asked_move (w : nat) (points : list (list R)) (pos : option (list R)) (v : vec) : Prop :=
  pos = None /\ (forall c, (c < w)%nat -> v c = 0) \/
  exists p, pos = Some p /\ List.length p = w /\ forall c, (c < w)%nat -> lowest points c (nth c p 0 - v c).

(* nodes and elements are those of the cells: every point that is used by a cell once, moved by v, the first w
   coordinates only, and cell by cell the same corners *)
Definition takes_over (w : nat) (points : list (list R)) (cells : list (list nat)) (v : vec)
    (nodes : list (list R)) (els : list (list nat)) : Prop :=
  exists used, NoDup used /\ (forall i, In i used <-> referenced cells i) /\
    Forall2 (fun i r => exists q, nth_error points i = Some q /\ List.length r = w /\
      forall c, (c < w)%nat -> nth c r 0 = nth c q 0 + v c) used nodes /\
    Forall2 (fun e e' => Permutation e (map (fun n => nth n used 0%nat) e')) cells els.

(* the lowest coordinate c of the points used by cells *)
Definition lowest_used (points : list (list R)) (cells : list (list nat)) (c : nat) (b : R) : Prop :=
  (exists i q, referenced cells i /\ nth_error points i = Some q /\ nth c q 0 = b) /\
  forall i q, referenced cells i -> nth_error points i = Some q -> b <= nth c q 0.

(* twice the area of a triangle in space, squared *)
Definition square_in_space (x : nat -> vec) : R :=
  let a c := x 1%nat c - x 0%nat c in
  let b c := x 2%nat c - x 0%nat c in
  let cr i j := a i * b j - a j * b i in
  Rsqr (cr 0%nat 1%nat) + Rsqr (cr 0%nat 2%nat) + Rsqr (cr 1%nat 2%nat).
