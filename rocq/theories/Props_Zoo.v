(* C91, C92, C93: the solids of the library, elasticity in space, meshes read from files. *)
From Coq Require Import Reals List Arith ZArith Bool String Lia Lra.
From Verif Require Import Common PyModel RVec LinAlg MeshModel MeshBuildModel MeshSpec DofModel DofSpec DirichletModel DirichletSpec
  FemModel FemSpec FemFinalProofs StatementModel StatementSpec StatementLawProofs StatementMeshProofs
  CrossModel CrossSpec SolidSpec SolidProofs ZooModel ZooSpec ZooProofs ZooBuilt ZooTwist ZooFinal ImportSpec ImportProofs CentreSpec CentreProofs.
Import ListNotations.
Local Open Scope string_scope.
Local Open Scope list_scope.
Local Open Scope R_scope.

(* ------------------------------------------------------------------ C91 *)

(* the tables: oriented tetrahedra without overlap that fill the unit cube, its surface is their boundary *)
Theorem C91_cube : cube_grid (fst cube) (snd cube).
Proof. exact cube_is_grid. Qed.
Print Assumptions C91_cube.

(* the nodes of the boundary are on the sphere of radius 1/sqrt 3 up to rounding, all others deep inside *)
Theorem C91_ball : ball_grid (1 / 3) (1 / 50000000) (fst ball) (snd ball).
Proof. exact ball_is_grid. Qed.
Print Assumptions C91_ball.

(* a mesh of tetrahedra can be placed anywhere, in one way *)
Theorem C91_placed : forall nodes els pos, solid_grid nodes els -> els <> [] ->
  (pos = None \/ exists p, pos = Some p /\ List.length p = 3%nat) ->
  exists v, placed_by nodes pos v /\ forall v', placed_by nodes pos v' -> forall c, (c < 3)%nat -> v c = v' c.
Proof. exact placed_once. Qed.
Print Assumptions C91_placed.

(* with a complete description of the boundary a mesh is made *)
Theorem C91_made : forall nodes els, solid_grid nodes els -> els <> [] -> forall pos v, placed_by nodes pos v ->
  forall (zeros : list (list R) -> vec) kwargs,
  Forall (fun '(key, (_, cond)) => key = "contact" \/ key = "dirichlet" \/ (cond <> None /\ reserved key = false)) kwargs ->
  exists m, solid_mesh (nodes, els) pos (make_description zeros kwargs) = Ok m.
Proof. exact solid_total. Qed.
Print Assumptions C91_made.

(* it has the nodes of the table, moved, each in an element, and the same volume *)
Theorem C91_mesh : forall nodes els, solid_grid nodes els -> els <> [] -> forall pos v, placed_by nodes pos v ->
  forall (d : @Description (list R) vec) (m : @MeshData (list R) vec) ic id,
  dict_get (indicators d) "contact" = Some ic -> dict_get (indicators d) "dirichlet" = Some id ->
  solid_mesh (nodes, els) pos d = Ok m ->
  let N := List.length (m_nodes m) in
  N = List.length nodes /\
  tetrahedra N (table_of (m_nodes m)) (m_elements m) /\
  (forall i, (i < N)%nat -> referenced (m_elements m) i) /\
  lsum (m_elements m) (element_volume (table_of (m_nodes m))) = lsum els (element_volume (table_of nodes)) /\
  forall row, In row (m_nodes m) <->
    exists q, In q nodes /\ row = [nth 0 q 0 + v 0%nat; nth 1 q 0 + v 1%nat; nth 2 q 0 + v 2%nat].
Proof. exact built_solid. Qed.
Print Assumptions C91_mesh.
Theorem C91_lowest : forall nodes els pos v (d : @Description (list R) vec) (m : @MeshData (list R) vec) ic id p,
  solid_grid nodes els -> els <> [] -> placed_by nodes pos v -> pos = Some p ->
  dict_get (indicators d) "contact" = Some ic -> dict_get (indicators d) "dirichlet" = Some id ->
  solid_mesh (nodes, els) pos d = Ok m -> forall c, (c < 3)%nat -> lowest (m_nodes m) c (nth c p 0).
Proof. exact placed_lowest. Qed.
Print Assumptions C91_lowest.
(* a boundary face is of contact, clamped or loaded as its centre says *)
Theorem C91_faces : forall nodes els, solid_grid nodes els -> els <> [] -> forall pos v, placed_by nodes pos v ->
  forall (d : @Description (list R) vec) (m : @MeshData (list R) vec) ic id,
  dict_get (indicators d) "contact" = Some ic -> dict_get (indicators d) "dirichlet" = Some id ->
  solid_mesh (nodes, els) pos d = Ok m ->
  split_faces 3 (m_nodes m) (m_elements m) ic id (faces_of m "contact") (faces_of m "dirichlet") (faces_of m "neumann").
Proof. exact solid_split. Qed.
Print Assumptions C91_faces.

(* a condition at the three corners of one boundary face is enough: nothing assumed to succeed *)
Theorem C91_definite : forall nodes els, solid_grid nodes els -> els <> [] -> forall pos v, placed_by nodes pos v ->
  forall (d : @Description (list R) vec) id f face mp mu la,
  (exists c, dict_get (indicators d) "contact" = Some c) ->
  dict_get (indicators d) "dirichlet" = Some id -> dict_get (MeshBuildModel.conditions d) "dirichlet" = Some f ->
  (forall name, In name (map fst (indicators d)) -> name <> "contact" -> name <> "dirichlet" ->
     (exists c, dict_get (MeshBuildModel.conditions d) name = Some c) /\ reserved name = false) ->
  boundary_face 4 els face ->
  (forall k, In k face -> exists q, nth_error nodes k = Some q /\ id [nth 0 q 0 + v 0%nat; nth 1 q 0 + v 1%nat; nth 2 q 0 + v 2%nat] = true) ->
  elastic mp = Some (mu, la) -> 0 < la <= mu -> piezo mp = None ->
  exists m ops E conds, solid_mesh (nodes, els) pos d = Ok m /\
    let N := List.length (m_nodes m) in
    reinitialize_matrices N (table_of (m_nodes m)) (m_elements m) mp None = Ok ops /\
    elasticity ops = Some E /\ mesh_conditions m 3 "dirichlet" = Ok conds /\ well_shaped (3 * N) conds /\
    symmetric (3 * N) E /\ definite_free (3 * N) conds E.
Proof. exact solid_whole. Qed.
Print Assumptions C91_definite.

Example C91_example : solid_grid (fst cube) (snd cube) /\ snd cube <> [] /\ solid_grid (fst ball) (snd ball) /\ snd ball <> [] /\
  placed_by (fst cube) None (fun _ => 0) /\
  (exists c, dict_get (indicators bottom_description) "contact" = Some c) /\
  dict_get (indicators bottom_description) "dirichlet" = Some bottom /\
  (exists f, dict_get (MeshBuildModel.conditions bottom_description) "dirichlet" = Some f) /\
  (forall name, In name (map fst (indicators bottom_description)) -> name <> "contact" -> name <> "dirichlet" ->
     (exists c, dict_get (MeshBuildModel.conditions bottom_description) name = Some c) /\ reserved name = false) /\
  boundary_face 4 (snd cube) [0; 1; 3]%nat /\
  (forall k, In k [0; 1; 3]%nat -> exists q, nth_error (fst cube) k = Some q /\ bottom [nth 0 q 0 + 0; nth 1 q 0 + 0; nth 2 q 0 + 0] = true) /\
  elastic (soft 2 1) = Some (2, 1) /\ 0 < 1 <= 2 /\ piezo (soft 2 1) = None.
Proof.
  destruct bottom_case as (A & B & C & D & E & _). destruct bottom_face as [F G].
  split; [exact (cube_solid _ _ cube_is_grid)|]. split; [exact cube_nonempty|]. split; [exact (ball_solid _ _ _ _ ball_is_grid)|].
  split; [exact ball_nonempty|]. split; [exact A|]. split; [exact B|]. split; [exact C|]. split; [exact D|]. split; [exact E|].
  split; [exact F|]. split; [exact G|]. repeat split; lra.
Qed.
Print Assumptions C91_example.

(* ------------------------------------------------------------------ C92 *)

(* any mesh of tetrahedra: no displacement has negative energy as long as the second modulus is at most the first *)
Theorem C92_semidefinite : forall N nodes els mp density ops, tetrahedra N nodes els ->
  reinitialize_matrices N nodes els mp density = Ok ops ->
  (forall mu la E, elastic mp = Some (mu, la) -> 0 <= la <= mu -> elasticity ops = Some E -> pos_semidef (3 * N) E) /\
  (forall th ze C, viscous mp = Some (th, ze) -> 0 <= ze <= th -> viscosity ops = Some C -> pos_semidef (3 * N) C).
Proof. exact semidefinite_3d. Qed.
Print Assumptions C92_semidefinite.

(* when the conditions fasten every node the problems have one solution at most *)
Theorem C92_static : forall N nodes els mp density ops p conds, tetrahedra N nodes els ->
  reinitialize_matrices N nodes els mp density = Ok ops -> ph_n p = (3 * N)%nat ->
  forall mu la, (forall i, (i < N)%nat -> fastened (clamped3 N conds) els i) ->
  elastic mp = Some (mu, la) -> 0 < la <= mu ->
  elasticity ops = Some (stiffness p) -> stable_kind p conds StaticDisplacement.
Proof. exact static_3d. Qed.
Print Assumptions C92_static.
Theorem C92_quasistatic : forall N nodes els mp density ops p conds, tetrahedra N nodes els ->
  reinitialize_matrices N nodes els mp density = Ok ops -> ph_n p = (3 * N)%nat ->
  forall k th ze mu la, quasistatic_kind k -> (forall i, (i < N)%nat -> fastened (clamped3 N conds) els i) ->
  viscous mp = Some (th, ze) -> 0 < ze <= th -> elastic mp = Some (mu, la) -> 0 <= la <= mu ->
  viscosity ops = Some (damping p) -> elasticity ops = Some (stiffness p) -> stable_kind p conds k.
Proof. exact quasistatic_3d. Qed.
Print Assumptions C92_quasistatic.
Theorem C92_dynamic : forall N nodes els mp density ops p conds, tetrahedra N nodes els ->
  reinitialize_matrices N nodes els mp density = Ok ops -> ph_n p = (3 * N)%nat ->
  forall k th ze mu la, dynamic_kind k -> (forall i, (i < N)%nat -> referenced els i) -> 0 < mass_density mp ->
  viscous mp = Some (th, ze) -> 0 <= ze <= th -> elastic mp = Some (mu, la) -> 0 <= la <= mu ->
  mass p = acceleration_operator ops -> viscosity ops = Some (damping p) ->
  elasticity ops = Some (stiffness p) -> stable_kind p conds k.
Proof. exact dynamic_3d. Qed.
Print Assumptions C92_dynamic.

(* on the solids of the library one boundary face is enough *)
Theorem C92_solid : forall nodes els, solid_grid nodes els -> els <> [] -> forall pos v, placed_by nodes pos v ->
  forall (d : @Description (list R) vec) (m : @MeshData (list R) vec) ic id,
  dict_get (indicators d) "contact" = Some ic -> dict_get (indicators d) "dirichlet" = Some id ->
  solid_mesh (nodes, els) pos d = Ok m ->
  forall f face mp density ops ph, dict_get (MeshBuildModel.conditions d) "dirichlet" = Some f ->
  reinitialize_matrices (List.length (m_nodes m)) (table_of (m_nodes m)) (m_elements m) mp density = Ok ops ->
  ph_n ph = (3 * List.length (m_nodes m))%nat ->
  forall mu la, boundary_face 4 els face ->
  (forall k, In k face -> exists q, nth_error nodes k = Some q /\ id [nth 0 q 0 + v 0%nat; nth 1 q 0 + v 1%nat; nth 2 q 0 + v 2%nat] = true) ->
  elastic mp = Some (mu, la) -> elasticity ops = Some (stiffness ph) ->
  exists conds, mesh_conditions m 3 "dirichlet" = Ok conds /\ well_shaped (3 * List.length (m_nodes m)) conds /\
    (0 < la <= mu -> stable_kind ph conds StaticDisplacement) /\
    (forall k th ze, quasistatic_kind k -> viscous mp = Some (th, ze) -> 0 < ze <= th -> 0 <= la <= mu ->
       viscosity ops = Some (damping ph) -> stable_kind ph conds k).
Proof. exact solid_stable. Qed.
Print Assumptions C92_solid.
Theorem C92_solid_dynamic : forall nodes els, solid_grid nodes els -> els <> [] -> forall pos v, placed_by nodes pos v ->
  forall (d : @Description (list R) vec) (m : @MeshData (list R) vec) ic id,
  dict_get (indicators d) "contact" = Some ic -> dict_get (indicators d) "dirichlet" = Some id ->
  solid_mesh (nodes, els) pos d = Ok m ->
  forall mp density ops ph,
  reinitialize_matrices (List.length (m_nodes m)) (table_of (m_nodes m)) (m_elements m) mp density = Ok ops ->
  ph_n ph = (3 * List.length (m_nodes m))%nat ->
  forall k th ze mu la conds, dynamic_kind k -> 0 < mass_density mp ->
  viscous mp = Some (th, ze) -> 0 <= ze <= th -> elastic mp = Some (mu, la) -> 0 <= la <= mu ->
  mass ph = acceleration_operator ops -> viscosity ops = Some (damping ph) -> elasticity ops = Some (stiffness ph) ->
  stable_kind ph conds k.
Proof. exact solid_dynamic. Qed.
Print Assumptions C92_solid_dynamic.

(* The full statement, definiteness for all moduli of real materials (mu > 0 and la >= 0), fails: on the cube of
   the library with its whole bottom clamped the energy is not bounded below as soon as 11 la > 18 mu, ... *)
Theorem C92_bottomless_refuted : forall pos v, placed_by (fst cube) pos v ->
  forall (d : @Description (list R) vec) id f mp mu la,
  (exists c, dict_get (indicators d) "contact" = Some c) ->
  dict_get (indicators d) "dirichlet" = Some id -> dict_get (MeshBuildModel.conditions d) "dirichlet" = Some f ->
  (forall name, In name (map fst (indicators d)) -> name <> "contact" -> name <> "dirichlet" ->
     (exists c, dict_get (MeshBuildModel.conditions d) name = Some c) /\ reserved name = false) ->
  (forall r, id r = true -> nth 2 r 0 = v 2%nat) ->
  elastic mp = Some (mu, la) -> piezo mp = None -> 18 * mu < 11 * la ->
  exists m ops E conds, solid_mesh cube pos d = Ok m /\
    let N := List.length (m_nodes m) in
    reinitialize_matrices N (table_of (m_nodes m)) (m_elements m) mp None = Ok ops /\
    elasticity ops = Some E /\ mesh_conditions m 3 "dirichlet" = Ok conds /\
    ~ definite_free (3 * N) conds E /\
    forall b u0 bound, exists u, (forall dof w, prescribed conds dof w -> u dof = u0 dof) /\
      qform (3 * N) E u / 2 - dot (3 * N) b u < bound.
Proof. exact bottom_bottomless. Qed.
Print Assumptions C92_bottomless_refuted.

(* ... and without the second modulus horizontal layers slide freely *)
Theorem C92_sliding_refuted : forall pos v, placed_by (fst cube) pos v ->
  forall (d : @Description (list R) vec) id f mp mu la,
  (exists c, dict_get (indicators d) "contact" = Some c) ->
  dict_get (indicators d) "dirichlet" = Some id -> dict_get (MeshBuildModel.conditions d) "dirichlet" = Some f ->
  (forall name, In name (map fst (indicators d)) -> name <> "contact" -> name <> "dirichlet" ->
     (exists c, dict_get (MeshBuildModel.conditions d) name = Some c) /\ reserved name = false) ->
  (forall r, id r = true -> nth 2 r 0 = v 2%nat) ->
  elastic mp = Some (mu, la) -> piezo mp = None -> la = 0 ->
  exists m ops E conds, solid_mesh cube pos d = Ok m /\
    let N := List.length (m_nodes m) in
    reinitialize_matrices N (table_of (m_nodes m)) (m_elements m) mp None = Ok ops /\
    elasticity ops = Some E /\ mesh_conditions m 3 "dirichlet" = Ok conds /\
    ~ definite_free (3 * N) conds E.
Proof. exact bottom_slides. Qed.
Print Assumptions C92_sliding_refuted.

Example C92_example : placed_by (fst cube) None (fun _ => 0) /\
  (exists c, dict_get (indicators bottom_description) "contact" = Some c) /\
  dict_get (indicators bottom_description) "dirichlet" = Some bottom /\
  (exists f, dict_get (MeshBuildModel.conditions bottom_description) "dirichlet" = Some f) /\
  (forall name, In name (map fst (indicators bottom_description)) -> name <> "contact" -> name <> "dirichlet" ->
    (exists c, dict_get (MeshBuildModel.conditions bottom_description) name = Some c) /\ reserved name = false) /\
  (forall r, bottom r = true -> nth 2 r 0 = 0) /\
  elastic (soft 1 2) = Some (1, 2) /\ piezo (soft 1 2) = None /\ 18 * 1 < 11 * 2 /\ elastic (soft 1 0) = Some (1, 0).
Proof.
  destruct bottom_case as (A & B & C & D & E & F). split; [exact A|]. split; [exact B|]. split; [exact C|]. split; [exact D|].
  split; [exact E|]. split; [exact F|]. repeat split; lra.
Qed.
Print Assumptions C92_example.

(* ------------------------------------------------------------------ C93 *)

(* tetrahedra are read, whatever else is in the file *)
Theorem C93_solid : forall f cells pos v, solid_file f cells -> asked_move 3 (mf_points f) pos v ->
  forall (V : Type) (d : @Description (list R) V) (m : @MeshData (list R) V),
  (exists c, dict_get (indicators d) "contact" = Some c) -> (exists c, dict_get (indicators d) "dirichlet" = Some c) ->
  imported_mesh f pos d = Ok m ->
  takes_over 3 (mf_points f) cells v (m_nodes m) (m_elements m) /\
  tetrahedra (List.length (m_nodes m)) (table_of (m_nodes m)) (m_elements m) /\
  (forall i, (i < List.length (m_nodes m))%nat -> referenced (m_elements m) i) /\
  lsum (m_elements m) (element_volume (table_of (m_nodes m))) = lsum cells (element_volume (table_of (mf_points f))).
Proof. exact @solid_read. Qed.
Print Assumptions C93_solid.
Theorem C93_solid_made : forall f cells pos v, solid_file f cells -> asked_move 3 (mf_points f) pos v ->
  forall (V : Type) (zeros : list (list R) -> V) kwargs,
  Forall (fun '(key, (_, cond)) => key = "contact" \/ key = "dirichlet" \/ (cond <> None /\ reserved key = false)) kwargs ->
  exists m, imported_mesh f pos (make_description zeros kwargs) = Ok m.
Proof. exact @solid_made. Qed.
Print Assumptions C93_solid_made.

(* otherwise the triangles are, without their third coordinate *)
Theorem C93_plane : forall f cells pos v, plane_file f cells -> asked_move 2 (mf_points f) pos v ->
  forall (V : Type) (d : @Description (list R) V) (m : @MeshData (list R) V),
  (exists c, dict_get (indicators d) "contact" = Some c) -> (exists c, dict_get (indicators d) "dirichlet" = Some c) ->
  imported_mesh f pos d = Ok m ->
  takes_over 2 (mf_points f) cells v (m_nodes m) (m_elements m) /\
  (spread_out f cells -> triangles (List.length (m_nodes m)) (table_of (m_nodes m)) (m_elements m)) /\
  (forall i, (i < List.length (m_nodes m))%nat -> referenced (m_elements m) i) /\
  lsum (m_elements m) (element_area (table_of (m_nodes m))) = lsum cells (element_area (table_of (mf_points f))).
Proof. exact @plane_read. Qed.
Print Assumptions C93_plane.
Theorem C93_plane_made : forall f cells pos v, plane_file f cells -> asked_move 2 (mf_points f) pos v ->
  forall (V : Type) (zeros : list (list R) -> V) kwargs,
  Forall (fun '(key, (_, cond)) => key = "contact" \/ key = "dirichlet" \/ (cond <> None /\ reserved key = false)) kwargs ->
  exists m, imported_mesh f pos (make_description zeros kwargs) = Ok m.
Proof. exact @plane_made. Qed.
Print Assumptions C93_plane_made.
(* the boundary faces of both are split by their centres *)
Theorem C93_solid_faces : forall f cells, solid_file f cells -> forall pos v, asked_move 3 (mf_points f) pos v ->
  forall (V : Type) (d : @Description (list R) V) (m : @MeshData (list R) V) ic id,
  dict_get (indicators d) "contact" = Some ic -> dict_get (indicators d) "dirichlet" = Some id ->
  imported_mesh f pos d = Ok m ->
  split_faces 3 (m_nodes m) (m_elements m) ic id (faces_of m "contact") (faces_of m "dirichlet") (faces_of m "neumann").
Proof. exact solid_file_split. Qed.
Print Assumptions C93_solid_faces.
Theorem C93_plane_faces : forall f cells, plane_file f cells -> forall pos v, asked_move 2 (mf_points f) pos v ->
  forall (V : Type) (d : @Description (list R) V) (m : @MeshData (list R) V) ic id,
  dict_get (indicators d) "contact" = Some ic -> dict_get (indicators d) "dirichlet" = Some id ->
  imported_mesh f pos d = Ok m ->
  split_faces 2 (m_nodes m) (m_elements m) ic id (faces_of m "contact") (faces_of m "dirichlet") (faces_of m "neumann").
Proof. exact plane_file_split. Qed.
Print Assumptions C93_plane_faces.

(* files with neither are refused *)
Theorem C93_unknown : forall (V : Type) f pos (d : @Description (list R) V), no_cells f "tetra" -> no_cells f "triangle" ->
  imported_mesh f pos d = Err (KeyError "triangle").
Proof. exact @unknown_file. Qed.
Print Assumptions C93_unknown.

(* a move exists for every position of the right length *)
Theorem C93_move : forall w nodes pos, Forall (fun r => List.length r = w) nodes -> nodes <> [] ->
  (pos = None \/ exists p, pos = Some p /\ List.length p = w) -> exists v, asked_move w nodes pos v.
Proof. exact asked_exists. Qed.
Print Assumptions C93_move.

(* the mesh comes to the position asked for up to the distance of its lowest node to the lowest point of the file *)
Theorem C93_position : forall w points cells v nodes els p c a b, takes_over w points cells v nodes els ->
  asked_move w points (Some p) v -> (c < w)%nat -> lowest points c a -> lowest_used points cells c b ->
  lowest nodes c (nth c p 0 + (b - a)).
Proof. exact read_position. Qed.
Print Assumptions C93_position.
(* so a point that no cell uses displaces it *)
Theorem C93_position_refuted : exists m, imported_mesh stray_file (Some [0; 0]) none_description = Ok m /\
  lowest (m_nodes m) 0 1 /\ ~ lowest (m_nodes m) 0 0.
Proof. exact stray_moved. Qed.
Print Assumptions C93_position_refuted.

(* a surface in space is flattened: a triangle of positive area becomes an element of area 0 without complaint *)
Theorem C93_area_refuted : exists m, imported_mesh upright_file None none_description = Ok m /\
  (forall e, In e [[0; 1; 2]%nat] -> square_in_space (corners (table_of (mf_points upright_file)) e) = 1) /\
  lsum (m_elements m) (element_area (table_of (m_nodes m))) = 0 /\ m_elements m <> [].
Proof. exact upright_flat. Qed.
Print Assumptions C93_area_refuted.

Example C93_example : solid_file gmsh_file [[0; 2; 3; 4]%nat] /\ plane_file stray_file [[1; 2; 3]%nat] /\
  spread_out stray_file [[1; 2; 3]%nat] /\ plane_file upright_file [[0; 1; 2]%nat] /\
  (exists c, dict_get (indicators none_description) "contact" = Some c) /\
  (exists c, dict_get (indicators none_description) "dirichlet" = Some c) /\
  no_cells {| mf_width := 2; mf_points := [[0; 0]; [1; 0]; [1; 1]; [0; 1]]; mf_cells := [("quad", [[0; 1; 2; 3]%nat])] |} "triangle".
Proof.
  split; [exact gmsh_solid|]. split; [exact stray_plane|]. split; [exact stray_spread|]. split; [exact upright_plane|].
  split; [exact (proj1 none_indicators)|]. split; [exact (proj2 none_indicators)|]. intros c [H|[]]. discriminate.
Qed.
Print Assumptions C93_example.
