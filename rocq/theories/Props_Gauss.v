(* C102, C103: the divergence theorem of the assembled matrices and the patch test. *)
From Coq Require Import Reals List Arith ZArith Bool String Lia Lra.
From Verif Require Import Common PyModel RVec LinAlg MeshModel MeshBuildModel MeshSpec NormalsModel FemModel FemSpec ForcesModel ForcesSpec
  DirichletSpec StatementModel StatementSpec RegistryModel StateModel TimeModel TimeSpec MethodModel ProblemModel ProblemSpec ProblemFinal ProblemWitness
  CrossModel CrossSpec ZooSpec ZooModel ImportSpec GaussSpec GaussFinal GaussBuilt SidesFinal PatchSpec PatchProofs PatchProblemSpec PatchPosed PatchWitness.
Import ListNotations.
Local Open Scope string_scope.
Local Open Scope list_scope.
Local Open Scope R_scope.

(* ------------------------------------------------------------------ C102 *)

(* outer normals exist; the integral of a derivative of an interpolant is its flux through the boundary *)
Theorem C102_plane : forall N x els, triangles N x els ->
  (exists n, outer_normals 2 x els n) /\
  (two_sided 2 x els -> forall n faces v g c, outer_normals 2 x els n -> boundary_list 2 els faces -> field_gradient 2 x els v g -> (c < 2)%nat ->
   integral (element_area x) els (fun e => g e c) = flux 2 x faces n v c).
Proof. exact plane_gauss. Qed.
Print Assumptions C102_plane.
Theorem C102_solid : forall N x els, tetrahedra N x els ->
  (exists n, outer_normals 3 x els n) /\
  (two_sided 3 x els -> forall n faces v g c, outer_normals 3 x els n -> boundary_list 3 els faces -> field_gradient 3 x els v g -> (c < 3)%nat ->
   integral (element_volume x) els (fun e => g e c) = flux 3 x faces n v c).
Proof. exact solid_gauss. Qed.
Print Assumptions C102_solid.

(* so do the matrices V of the library *)
Theorem C102_matrix_plane : forall N x els, triangles N x els -> two_sided 2 x els -> obeys_gauss 2 N x els.
Proof. exact gauss_plane. Qed.
Print Assumptions C102_matrix_plane.
Theorem C102_matrix_solid : forall N x els, tetrahedra N x els -> two_sided 3 x els -> obeys_gauss 3 N x els.
Proof. exact gauss_solid. Qed.
Print Assumptions C102_matrix_solid.

(* when elements have different sides of their common faces: if they do not overlap, or are turned alike *)
Theorem C102_apart_plane : forall N x els, triangles N x els -> apart_plane x els -> two_sided 2 x els.
Proof. exact (fun N x els HT => sided_2d N x els HT (triangles_simplices N x els HT)). Qed.
Print Assumptions C102_apart_plane.
Theorem C102_apart_solid : forall N x els, tetrahedra N x els -> apart_solid x els -> two_sided 3 x els.
Proof. exact (fun N x els HT => sided_3d N x els HT (tetrahedra_simplices N x els HT)). Qed.
Print Assumptions C102_apart_solid.
Theorem C102_turned : forall x els, simplices 3 els -> turned_alike x els -> two_sided 2 x els.
Proof. exact alike_sided. Qed.
Print Assumptions C102_turned.

(* the meshes that the library makes; files whose cells have different sides of their common faces *)
Theorem C102_cross : forall lx ly p sx sy, request lx ly p sx sy -> forall pos x y, placed_at pos x y ->
  forall (d : @Description (list R) vec) m ic id, dict_get (indicators d) "contact" = Some ic -> dict_get (indicators d) "dirichlet" = Some id ->
  cross_mesh [lx; ly] p pos d = Ok m -> obeys_gauss 2 (List.length (m_nodes m)) (table_of (m_nodes m)) (m_elements m).
Proof. exact gauss_cross. Qed.
Print Assumptions C102_cross.
Theorem C102_grid : forall nodes els, solid_grid nodes els -> els <> [] -> forall pos v, placed_by nodes pos v ->
  forall (d : @Description (list R) vec) (m : @MeshData (list R) vec) ic id, dict_get (indicators d) "contact" = Some ic -> dict_get (indicators d) "dirichlet" = Some id ->
  solid_mesh (nodes, els) pos d = Ok m -> obeys_gauss 3 (List.length (m_nodes m)) (table_of (m_nodes m)) (m_elements m).
Proof. exact gauss_grid. Qed.
Print Assumptions C102_grid.
Theorem C102_solid_file : forall f cells, solid_file f cells -> two_sided 3 (table_of (mf_points f)) cells -> forall pos v, asked_move 3 (mf_points f) pos v ->
  forall (V : Type) (d : @Description (list R) V) (m : @MeshData (list R) V) ic id, dict_get (indicators d) "contact" = Some ic -> dict_get (indicators d) "dirichlet" = Some id ->
  imported_mesh f pos d = Ok m -> obeys_gauss 3 (List.length (m_nodes m)) (table_of (m_nodes m)) (m_elements m).
Proof. exact gauss_solid_file. Qed.
Print Assumptions C102_solid_file.
Theorem C102_plane_file : forall f cells, plane_file f cells -> spread_out f cells -> two_sided 2 (table_of (mf_points f)) cells -> forall pos v, asked_move 2 (mf_points f) pos v ->
  forall (V : Type) (d : @Description (list R) V) (m : @MeshData (list R) V) ic id, dict_get (indicators d) "contact" = Some ic -> dict_get (indicators d) "dirichlet" = Some id ->
  imported_mesh f pos d = Ok m -> obeys_gauss 2 (List.length (m_nodes m)) (table_of (m_nodes m)) (m_elements m).
Proof. exact gauss_plane_file. Qed.
Print Assumptions C102_plane_file.

(* the condition on the sides cannot be left out: a folded strip *)
Theorem C102_folded_refuted : exists N x els v g faces, triangles N x els /\ field_gradient 2 x els v g /\ boundary_list 2 els faces /\
  forall n, outer_normals 2 x els n -> integral (element_area x) els (fun e => g e 1%nat) <> flux 2 x faces n v 1.
Proof. exact folded_refutes. Qed.
Print Assumptions C102_folded_refuted.

Example C102_example : triangles 6 (user_points (patch_problem carried)) patch_elements /\ turned_alike (user_points (patch_problem carried)) patch_elements /\
  simplices 3 patch_elements /\ boundary_list 2 patch_elements (MeshModel.boundary_surfaces patch_elements) /\
  field_gradient 2 (user_points (patch_problem carried)) patch_elements (fun i => tilt (nth i patch_nodes zero2)) (fun _ => tilt_slope) /\
  tilt_slope 0%nat = 2 /\ boundary_node 3 patch_elements 4 /\ ~ boundary_node 3 patch_elements 5 /\
  (exists B, get_basic_matrices (user_points (patch_problem carried)) patch_elements = Ok B).
Proof. exact patch_geometry. Qed.
Example C102_solid_example : tetrahedra 5 double_points double_elements /\ two_sided 3 double_points double_elements /\
  (exists B, get_basic_matrices double_points double_elements = Ok B).
Proof. exact double_geometry. Qed.

(* ------------------------------------------------------------------ C103 *)

(* the elasticity matrix applied to an affine displacement: nothing at inner nodes, the work of the constant stress at the boundary *)
Theorem C103_plane : forall N x els p ops mu la E b A u, triangles N x els -> two_sided 2 x els ->
  reinitialize_matrices N x els p None = Ok ops -> elastic p = Some (mu, la) -> elasticity ops = Some E -> affine_values 2 N x b A u ->
  (forall k i, (k < 2)%nat -> (i < N)%nat -> ~ boundary_node 3 els i -> mv (2 * N) E u (k * N + i)%nat = 0) /\
  (forall n faces v, outer_normals 2 x els n -> boundary_list 2 els faces ->
   dot (2 * N) v (mv (2 * N) E u) = boundary_work 2 N x faces n (stress 2 mu la A) v).
Proof. exact (fun N x els p ops mu la E b A u HT => operator_2d N x els p ops mu la E b A u HT (triangles_simplices N x els HT)). Qed.
Print Assumptions C103_plane.
(* in space the matrix is that of another law unless mu = la, see C24; inner nodes are at rest all the same *)
Theorem C103_solid : forall N x els p ops mu la E b A u, tetrahedra N x els -> two_sided 3 x els ->
  reinitialize_matrices N x els p None = Ok ops -> elastic p = Some (mu, la) -> elasticity ops = Some E -> affine_values 3 N x b A u ->
  (forall k i, (k < 3)%nat -> (i < N)%nat -> ~ boundary_node 4 els i -> mv (3 * N) E u (k * N + i)%nat = 0) /\
  (mu = la -> forall n faces v, outer_normals 3 x els n -> boundary_list 3 els faces ->
   dot (3 * N) v (mv (3 * N) E u) = boundary_work 3 N x faces n (stress 3 mu la A) v).
Proof. exact (fun N x els p ops mu la E b A u HT => operator_3d N x els p ops mu la E b A u HT (tetrahedra_simplices N x els HT)). Qed.
Print Assumptions C103_solid.

(* the patch test for the problems that a user poses: if the values and loads are those of an affine displacement, the solver returns it *)
Theorem C103_static : forall {V W} pb ic id g bt (answer : method forces -> vec -> vec -> vec -> R -> result (nat * vec)) fi fo cls mu la (m0 : store V) b A n,
  posed pb ic id g ->
  prepared pb bt None ->
  two_sided 2 (user_points pb) (pr_elements pb) ->
  loaded pb 2 fi fo ->
  elastic (pr_material pb) = Some (mu, la) ->
  0 < mu ->
  0 <= la ->
  clamped_mesh pb id ->
  answers_exactly (2 * List.length (m_nodes (bt_mesh bt))) answer ->
  answers_definite (2 * List.length (m_nodes (bt_mesh bt))) (2 * List.length (m_nodes (bt_mesh bt))) answer ->
  (forall g, iterate_variables cls g = None) ->
  (forall p k, (k < 2)%nat -> fi p 0 k = 0) ->
  prescribes pb id 2 g (fun p => affine_at 2 b A (coord2 p)) ->
  outer_normals 2 (user_points pb) (pr_elements pb) n ->
  user_match pb ic id 2 (fun f => traction 2 (stress 2 mu la A) (n f)) (fun p => fo p 0) ->
  exists d : driver V (method forces), step_solver pb bt StaticDisplacement m0 = Ok d /\ forall u0, exists d' (s : state W),
    static_solve (b_dimension (bt_body bt)) (b_count (bt_body bt)) (start_positions bt)
      (MethodModel.iterate (integrate_forces (bt_mesh bt) (bt_basic bt)) (bt_body bt) StaticDisplacement cls) answer u0 [] d = (d', Ok s) /\
    affine_values 2 (List.length (m_nodes (bt_mesh bt))) (node_table coord2 zero2 (m_nodes (bt_mesh bt))) b A (view_displacement (look (d_mem d') s)).
Proof. intros V W pb ic id g bt answer fi fo cls mu la m0 b A n. exact (fun PO PR TS => patch_static pb ic id g PO bt PR TS answer fi fo cls mu la m0 b A n). Qed.
Print Assumptions C103_static.

Theorem C103_direct : forall {V W} pb ic id g bt linsolve fi fo cls mu la (m0 : store V) b A n,
  posed pb ic id g ->
  prepared pb bt None ->
  two_sided 2 (user_points pb) (pr_elements pb) ->
  loaded pb 2 fi fo ->
  elastic (pr_material pb) = Some (mu, la) ->
  0 < mu ->
  0 <= la ->
  clamped_mesh pb id ->
  (forall n A r x, linsolve n A r = Ok x -> solves n A r x) ->
  (forall n A r, pos_def n A -> exists x, linsolve n A r = Ok x) ->
  (forall g, iterate_variables cls g = None) ->
  (forall p k, (k < 2)%nat -> fi p 0 k = 0) ->
  prescribes pb id 2 g (fun p => affine_at 2 b A (coord2 p)) ->
  outer_normals 2 (user_points pb) (pr_elements pb) n ->
  user_match pb ic id 2 (fun f => traction 2 (stress 2 mu la A) (n f)) (fun p => fo p 0) ->
  exists d : driver V (method forces), step_solver pb bt StaticDisplacement m0 = Ok d /\ forall u0, exists d' (s : state W),
    static_solve (b_dimension (bt_body bt)) (b_count (bt_body bt)) (start_positions bt)
      (MethodModel.iterate (integrate_forces (bt_mesh bt) (bt_basic bt)) (bt_body bt) StaticDisplacement cls)
      (direct_answer (bt_body bt) StaticDisplacement linsolve) u0 [] d = (d', Ok s) /\
    affine_values 2 (List.length (m_nodes (bt_mesh bt))) (node_table coord2 zero2 (m_nodes (bt_mesh bt))) b A (view_displacement (look (d_mem d') s)).
Proof. intros V W pb ic id g bt linsolve fi fo cls mu la m0 b A n. exact (fun PO PR TS => patch_direct pb ic id g PO bt PR TS linsolve fi fo cls mu la m0 b A n). Qed.
Print Assumptions C103_direct.

(* if all of the boundary is fixed, the values alone have to be affine *)
Theorem C103_closed : forall {V W} pb ic id g bt (answer : method forces -> vec -> vec -> vec -> R -> result (nat * vec)) fi fo cls mu la (m0 : store V) b A,
  posed pb ic id g ->
  prepared pb bt None ->
  two_sided 2 (user_points pb) (pr_elements pb) ->
  loaded pb 2 fi fo ->
  elastic (pr_material pb) = Some (mu, la) ->
  0 < mu ->
  0 <= la ->
  clamped_mesh pb id ->
  answers_exactly (2 * List.length (m_nodes (bt_mesh bt))) answer ->
  answers_definite (2 * List.length (m_nodes (bt_mesh bt))) (2 * List.length (m_nodes (bt_mesh bt))) answer ->
  (forall g, iterate_variables cls g = None) ->
  (forall p k, (k < 2)%nat -> fi p 0 k = 0) ->
  prescribes pb id 2 g (fun p => affine_at 2 b A (coord2 p)) ->
  closed_problem pb id ->
  exists d : driver V (method forces), step_solver pb bt StaticDisplacement m0 = Ok d /\ forall u0, exists d' (s : state W),
    static_solve (b_dimension (bt_body bt)) (b_count (bt_body bt)) (start_positions bt)
      (MethodModel.iterate (integrate_forces (bt_mesh bt) (bt_basic bt)) (bt_body bt) StaticDisplacement cls) answer u0 [] d = (d', Ok s) /\
    affine_values 2 (List.length (m_nodes (bt_mesh bt))) (node_table coord2 zero2 (m_nodes (bt_mesh bt))) b A (view_displacement (look (d_mem d') s)).
Proof. intros V W pb ic id g bt answer fi fo cls mu la m0 b A. exact (fun PO PR TS => patch_closed pb ic id g PO bt PR TS answer fi fo cls mu la m0 b A). Qed.
Print Assumptions C103_closed.

(* the same for a membrane *)
Theorem C103_poisson : forall {V W} pb ic id g bt (answer : method forces -> vec -> vec -> vec -> R -> result (nat * vec)) fi fo cls c full (m0 : store V) b A n,
  posed pb ic id g ->
  prepared pb bt None ->
  two_sided 2 (user_points pb) (pr_elements pb) ->
  heated pb fi fo ->
  membrane (pr_material pb) = Some c ->
  c <> 0 ->
  grounded_mesh pb id ->
  answers_exactly (List.length (m_nodes (bt_mesh bt))) answer ->
  answers_definite (List.length (m_nodes (bt_mesh bt))) full answer ->
  (forall g, iterate_variables cls g = None) ->
  (forall p, fi p 0 0%nat = 0) ->
  prescribes pb id 1 g (fun p _ => b + dot 2 A (coord2 p)) ->
  outer_normals 2 (user_points pb) (pr_elements pb) n ->
  user_match pb ic id 1 (fun f _ => c ^ 2 * dot 2 A (n f)) (fun p => fo p 0) ->
  exists d : driver V (method forces), step_solver pb bt StaticPoisson m0 = Ok d /\ exists d' (s : state W) cell,
    poisson_solve (start_positions bt)
      (MethodModel.iterate (integrate_forces (bt_mesh bt) (bt_basic bt)) (bt_body bt) StaticPoisson cls) answer d = (d', Ok s) /\ extra s = Thermal cell /\
    forall i, (i < List.length (m_nodes (bt_mesh bt)))%nat ->
      StateModel.load (d_mem d') cell i = b + dot 2 A (node_table coord2 zero2 (m_nodes (bt_mesh bt)) i).
Proof. intros V W pb ic id g bt answer fi fo cls c full m0 b A n. exact (fun PO PR TS => patch_poisson pb ic id g PO bt PR TS answer fi fo cls c full m0 b A n). Qed.
Print Assumptions C103_poisson.

(* a square of which three sides are carried along and the fourth is pulled *)
Example C103_example : let pb := patch_problem carried in
  posed pb nowhere carried tilt /\ (exists bt, prepared pb bt None) /\ two_sided 2 (user_points pb) (pr_elements pb) /\
  loaded pb 2 no_load tug /\ heated pb no_load warm /\ elastic (pr_material pb) = Some (4, 3) /\ membrane (pr_material pb) = Some 5 /\
  clamped_mesh pb carried /\ grounded_mesh pb carried /\
  prescribes pb carried 2 tilt (fun p => affine_at 2 tilt_shift tilt_matrix (coord2 p)) /\ prescribes pb carried 1 tilt (fun p _ => 1 + dot 2 tilt_slope (coord2 p)) /\
  (exists n, outer_normals 2 (user_points pb) (pr_elements pb) n) /\
  (forall n, outer_normals 2 (user_points pb) (pr_elements pb) n ->
    user_match pb nowhere carried 2 (fun f => traction 2 (stress 2 4 3 tilt_matrix) (n f)) (fun p => tug p 0) /\
    user_match pb nowhere carried 1 (fun f _ => 5 ^ 2 * dot 2 tilt_slope (n f)) (fun p => warm p 0)) /\
  ~ user_fixed pb carried 4 /\ tug zero2 0 0%nat = 19.
Proof. exact carried_problem. Qed.
Example C103_closed_example : let pb := patch_problem everywhere in
  posed pb nowhere everywhere tilt /\ (exists bt, prepared pb bt None) /\ two_sided 2 (user_points pb) (pr_elements pb) /\
  clamped_mesh pb everywhere /\ closed_problem pb everywhere /\ ~ user_fixed pb everywhere 5 /\
  prescribes pb everywhere 2 tilt (fun p => affine_at 2 tilt_shift tilt_matrix (coord2 p)).
Proof. exact closed_example. Qed.
