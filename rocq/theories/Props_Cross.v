(* C56, C57: the structured cross mesh and placing meshes. *)
From Coq Require Import Reals List Arith ZArith Bool String Lia Lra.
From Verif Require Import Common PyModel RVec LinAlg MeshModel MeshBuildModel MeshSpec DofModel DofSpec
  DirichletModel DirichletSpec DirichletProofs DirichletMeshProofs FemModel FemSpec
  StatementModel StatementSpec StatementLawProofs StatementMeshProofs
  CrossModel CrossSpec CrossTheorems CrossBuiltProofs CrossFinalProofs CrossExamples CentreSpec CentreProofs.
Import ListNotations.
Local Open Scope string_scope.
Local Open Scope list_scope.
Local Open Scope R_scope.

(* ------------------------------------------------------------------ C56 *)

(* the lowest corner is where it was asked for and the shape is kept *)
Theorem C56_placed : forall w nodes position, Forall (fun r => List.length r = w) nodes -> nodes <> [] ->
  List.length position = w ->
  exists nodes', translate_nodes nodes (Some position) = Ok nodes' /\
    List.length nodes' = List.length nodes /\ Forall (fun r => List.length r = w) nodes' /\
    (forall k, (k < w)%nat -> lowest nodes' k (nth k position 0)) /\
    (forall i j k, (i < List.length nodes)%nat -> (j < List.length nodes)%nat -> (k < w)%nat ->
      nth k (nth i nodes' []) 0 - nth k (nth j nodes' []) 0 = nth k (nth i nodes []) 0 - nth k (nth j nodes []) 0).
Proof. exact translate_placed. Qed.
Print Assumptions C56_placed.

Theorem C56_unplaced : forall nodes, translate_nodes nodes None = Ok nodes.
Proof. reflexivity. Qed.
Print Assumptions C56_unplaced.

(* a position of another dimension is refused, except that one number is used for every direction *)
Theorem C56_mismatch : forall w nodes, Forall (fun r => List.length r = w) nodes -> nodes <> [] ->
  forall position, List.length position <> w -> (forall x, position <> [x]) ->
  translate_nodes nodes (Some position) = Err ValueError.
Proof. exact translate_mismatch. Qed.
Print Assumptions C56_mismatch.
Theorem C56_one_number : forall w nodes x, Forall (fun r => List.length r = w) nodes -> nodes <> [] ->
  exists nodes', translate_nodes nodes (Some [x]) = Ok nodes' /\ forall k, (k < w)%nat -> lowest nodes' k x.
Proof. exact translate_one. Qed.
Print Assumptions C56_one_number.

Example C56_example : Forall (fun r => List.length r = 2%nat) [[1; 2]; [3; -1]] /\ [[1; 2]; [3; -1]] <> [] /\
  List.length [10; 20] = 2%nat /\ List.length [1; 2; 3] <> 2%nat.
Proof. repeat split; try discriminate. repeat constructor. Qed.

(* ------------------------------------------------------------------ C57 *)

(* numbers of cells exist and are unique *)
Theorem C57_cells : forall l p, 0 < l -> 0 < p -> exists n, steps l p n /\ forall n', steps l p n' -> n' = n.
Proof. exact steps_unique. Qed.
Print Assumptions C57_cells.

(* count, distinctness and place of the nodes, shape, orientation and area of the elements, the
   elements tile the rectangle, the boundary faces are the pieces of its outline *)
Theorem C57_grid : forall lx ly p sx sy, request lx ly p sx sy ->
  exists nodes els, cross_rectangle [lx; ly] p = Ok (nodes, els) /\ cross_grid sx sy lx ly nodes els.
Proof. exact request_grid. Qed.
Print Assumptions C57_grid.

(* the bound limits width and height of elements ... *)
Theorem C57_extent : forall lx ly p sx sy, request lx ly p sx sy ->
  forall nodes els e i j c, cross_rectangle [lx; ly] p = Ok (nodes, els) -> In e els ->
  (i < 3)%nat -> (j < 3)%nat -> (c < 2)%nat ->
  corners (table_of nodes) e i c - corners (table_of nodes) e j c <= p.
Proof. exact cross_extent. Qed.
Print Assumptions C57_extent.

(* ... not their perimeter, whose name it has *)
Theorem C57_perimeter_refuted : exists nodes els e, cross_rectangle [1; 1] 1 = Ok (nodes, els) /\ In e els /\
  1 < perimeter (corners (table_of nodes) e).
Proof. exact unit_perimeter. Qed.
Print Assumptions C57_perimeter_refuted.

(* steps below the tolerance 0.0001 of the look-ups: in a small mesh all corners of all elements are
   the first node *)
Theorem C57_small_refuted : forall lx ly p sx sy, 0 < lx -> 0 < ly -> 0 < p -> steps lx p sx -> steps ly p sy ->
  lx + ly < 1 / 10000 ->
  exists nodes, cross_rectangle [lx; ly] p = Ok (nodes, repeat [0; 0; 0]%nat (4 * (sx * sy))).
Proof. exact small_rectangle. Qed.
Print Assumptions C57_small_refuted.

(* degenerate requests raise *)
Theorem C57_zero_bound : forall lx ly, cross_rectangle [lx; ly] 0 = Err ZeroDivision.
Proof. exact zero_bound. Qed.
Print Assumptions C57_zero_bound.
Theorem C57_zero_size : forall l p, p <> 0 ->
  cross_rectangle [0; l] p = Err ZeroDivision /\ cross_rectangle [l; 0] p = Err ZeroDivision.
Proof. exact zero_size. Qed.
Print Assumptions C57_zero_size.

(* the mesh with boundaries: any description with conditions for its extra boundaries *)
Theorem C57_mesh_total : forall lx ly p sx sy, request lx ly p sx sy ->
  forall pos x y (zeros : list (list R) -> vec) kwargs, placed_at pos x y ->
  Forall (fun '(key, (_, cond)) => key = "contact" \/ key = "dirichlet" \/ (cond <> None /\ reserved key = false)) kwargs ->
  exists m, cross_mesh [lx; ly] p pos (make_description zeros kwargs) = Ok m.
Proof. exact cross_mesh_total. Qed.
Print Assumptions C57_mesh_total.

Theorem C57_mesh : forall lx ly p sx sy, request lx ly p sx sy ->
  forall pos x y, placed_at pos x y ->
  forall (d : @Description (list R) vec) m contact dirichlet,
  dict_get (indicators d) "contact" = Some contact -> dict_get (indicators d) "dirichlet" = Some dirichlet ->
  cross_mesh [lx; ly] p pos d = Ok m ->
  let N := List.length (m_nodes m) in
  N = (2 * (sx * sy) + (sx + sy) + 1)%nat /\
  triangles N (table_of (m_nodes m)) (m_elements m) /\
  (forall i, (i < N)%nat -> referenced (m_elements m) i) /\
  lsum (m_elements m) (element_area (table_of (m_nodes m))) = lx * ly /\
  forall row, In row (m_nodes m) <->
    exists a b, cross_point sx sy (lx / INR sx) (ly / INR sy) [a; b] /\ row = [a + x; b + y].
Proof. exact cross_mesh_built. Qed.
Print Assumptions C57_mesh.
(* a boundary edge is of contact, clamped or loaded as its midpoint says *)
Theorem C57_faces : forall lx ly p sx sy, request lx ly p sx sy ->
  forall pos x y, placed_at pos x y ->
  forall (d : @Description (list R) vec) m contact dirichlet,
  dict_get (indicators d) "contact" = Some contact -> dict_get (indicators d) "dirichlet" = Some dirichlet ->
  cross_mesh [lx; ly] p pos d = Ok m ->
  split_faces 2 (m_nodes m) (m_elements m) contact dirichlet (faces_of m "contact") (faces_of m "dirichlet") (faces_of m "neumann").
Proof. exact cross_split. Qed.
Print Assumptions C57_faces.

(* one clamped boundary edge is enough: the whole way from the description to an elasticity
   operator that is definite on the free dofs *)
Theorem C57_definite : forall lx ly p sx sy, request lx ly p sx sy ->
  forall pos x y (d : @Description (list R) vec) dirichlet f a b a' b' mp density mu la,
  placed_at pos x y ->
  (exists c, dict_get (indicators d) "contact" = Some c) ->
  dict_get (indicators d) "dirichlet" = Some dirichlet ->
  dict_get (MeshBuildModel.conditions d) "dirichlet" = Some f ->
  (forall name, In name (map fst (indicators d)) -> name <> "contact" -> name <> "dirichlet" ->
     (exists c, dict_get (MeshBuildModel.conditions d) name = Some c) /\ reserved name = false) ->
  outline sx sy (lx / INR sx) (ly / INR sy) [a; b] [a'; b'] ->
  dirichlet [a + x; b + y] = true -> dirichlet [a' + x; b' + y] = true ->
  elastic mp = Some (mu, la) -> 0 < mu -> 0 <= la -> positive_density density ->
  exists m ops E conds, cross_mesh [lx; ly] p pos d = Ok m /\
    let N := List.length (m_nodes m) in
    reinitialize_matrices N (table_of (m_nodes m)) (m_elements m) mp density = Ok ops /\
    elasticity ops = Some E /\ mesh_conditions m 2 "dirichlet" = Ok conds /\ well_shaped (2 * N) conds /\
    symmetric (2 * N) E /\ definite_free (2 * N) conds E.
Proof. exact cross_whole. Qed.
Print Assumptions C57_definite.

(* hence static and quasistatic problems on it have exactly one solution (C31_unique) *)
Theorem C57_stable : forall lx ly p sx sy, request lx ly p sx sy ->
  forall pos x y, placed_at pos x y ->
  forall (d : @Description (list R) vec) m contact dirichlet,
  dict_get (indicators d) "contact" = Some contact -> dict_get (indicators d) "dirichlet" = Some dirichlet ->
  cross_mesh [lx; ly] p pos d = Ok m ->
  forall f a b a' b' mp density ops ph mu la, dict_get (MeshBuildModel.conditions d) "dirichlet" = Some f ->
  outline sx sy (lx / INR sx) (ly / INR sy) [a; b] [a'; b'] ->
  dirichlet [a + x; b + y] = true -> dirichlet [a' + x; b' + y] = true ->
  reinitialize_matrices (List.length (m_nodes m)) (table_of (m_nodes m)) (m_elements m) mp density = Ok ops ->
  ph_n ph = (2 * List.length (m_nodes m))%nat ->
  positive_density density -> elastic mp = Some (mu, la) -> 0 < mu -> 0 <= la ->
  elasticity ops = Some (stiffness ph) ->
  exists conds, mesh_conditions m 2 "dirichlet" = Ok conds /\ well_shaped (2 * List.length (m_nodes m)) conds /\
    stable_kind ph conds StaticDisplacement /\
    (forall k th ze, quasistatic_kind k -> viscous mp = Some (th, ze) -> 0 < th -> 0 <= ze ->
       viscosity ops = Some (damping ph) -> stable_kind ph conds k).
Proof. exact cross_mesh_stable. Qed.
Print Assumptions C57_stable.

Example C57_example : request (5 / 2) 1 1 3 1 /\ placed_at (Some [10; 20]) 10 20 /\
  dict_get (indicators plate_description) "contact" = Some (near 20 1) /\
  dict_get (indicators plate_description) "dirichlet" = Some (near 10 0) /\
  dict_get (MeshBuildModel.conditions plate_description) "dirichlet" = Some no_values /\
  (exists m, cross_mesh [5 / 2; 1] 1 (Some [10; 20]) plate_description = Ok m) /\
  outline 3 1 (5 / 2 / INR 3) (1 / INR 1) [0; INR 0 * (1 / INR 1)] [0; INR 1 * (1 / INR 1)] /\
  near 10 0 [0 + 10; INR 0 * (1 / INR 1) + 20] = true /\ near 10 0 [0 + 10; INR 1 * (1 / INR 1) + 20] = true.
Proof.
  split; [exact plate_request|]. split; [left; reflexivity|].
  destruct plate_indicators as (A & B & C). split; [exact A|]. split; [exact B|]. split; [exact C|].
  split; [exact plate_mesh|]. exact plate_edge.
Qed.
Example C57_small_example : 0 < 1 / 100000 /\ 0 < 1 /\ steps (1 / 100000) 1 1 /\ 1 / 100000 + 1 / 100000 < 1 / 10000.
Proof. exact tiny_request. Qed.
