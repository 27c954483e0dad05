(* Model of the construction of a problem solver: mesh, operators, loads, step solver.
   Sources: /repo/conmech/simulations/problem_solver.py (cited ps:),
   /repo/conmech/dynamics/dynamics.py (dyn:), /repo/conmech/scene/body_forces.py (bf:).
   Plane problems.  Real numbers replace doubles.  A problem is the data that the constructors
   read off the user's problem and material objects.
   Simplifications: the arrays that the user's callbacks return all have the width that goes with
   the source, which is a part of the problem; the mesh of a mesh description is given as its nodes
   and elements. *)
From Coq Require Import Reals List Arith Bool String.
From Verif Require Import Common PyModel RVec MeshModel MeshBuildModel NormalsModel FemModel ForcesModel
  DirichletModel StatementModel StateModel TimeModel MethodModel.
Import ListNotations.
Local Open Scope string_scope.
Local Open Scope list_scope.
Local Open Scope R_scope.

(* the rows of mesh.nodes *)
Definition coord2 (a : P2) : vec := fun c => nth c [fst a; snd a] 0.

(* a source of loads as written by the user: (node, time) -> array *)
Definition load_source := P2 -> R -> result vec.

(* the problem (problems.py:12-180) and the material (body_properties.py) *)
Record problem := mkProblem {
  pr_nodes : list P2;                            (* mesh_descr *)
  pr_elements : list (list nat);
  pr_boundaries : @Description P2 vec;           (* boundaries *)
  pr_width : nat;                                (* length of the arrays of the two force sources *)
  pr_inner : load_source;                        (* inner_forces *)
  pr_outer : load_source;                        (* outer_forces *)
  (* PoissonProblem: internal_temperature, outer_temperature and the length of their arrays *)
  pr_heat : option (nat * load_source * load_source);
  pr_time_step : option R;                       (* TimeDependentProblem: time_step *)
  pr_material : properties;
  pr_relaxation : option (option R -> result tensor) }.  (* ElasticRelaxationProperties: relaxation *)

(* problems.py:47-57  the forces of a problem that does not define its own: the time is a keyword
   argument there, but FieldSource (bf:52) passes it by position *)
Definition default_forces : load_source := fun _ _ => Err TypeError.
(* problems.py:91-97  the sources of a Poisson problem that does not define its own: np.zeros(len(x))
   for one node x, so their arrays have length 2 *)
Definition default_temperature : nat * load_source := (2%nat, fun _ _ => Ok (fun _ => 0)).

(* bf:58-62  a BodyForces object with the width of its arrays *)
Definition forces := (nat * body_forces P2 R)%type.

(* time == timestamp *)
Definition same_time (a b : R) : bool := if Req_EM_T a b then true else false.

Section Built.
  Variable m : @MeshData P2 vec.
  Variable B : basic.
  Let nodes := m_nodes m.
  Let N := List.length nodes.
  Let table := fun i => coord2 (nth i nodes zero2).

  (* bf:82-89  integrate on this mesh: length and entries of the stacked array *)
  Definition integrate_forces (f : forces) (t : R) : forces * result (nat * vec) :=
    let '(w, bf) := f in
    let '(bf', r) := ForcesModel.integrate same_time nodes table 2 (faces_of m "neumann") (volume_at_nodes B) bf t in
    ((w, bf'), bind r (fun x => Ok ((w * N)%nat, x))).

  (* dyn:46-76  reinitialize_matrices: the new operators, in new arrays behind those of the heap;
     an array of zeros is set aside for an operator that the material does not have *)
  Definition some_mat (o : option mat) : mat := match o with Some A => A | None => fun _ _ => 0 end.
  Definition install (h : heap) (ops : operators) : heap * operator_refs :=
    let a := List.length (mats h) in
    let ref (k rows cols : nat) ty := mkSmat ty (mkMref (a + k) rows cols) in
    let opt {A} (o : option A) r := match o with Some _ => Some r | None => None end in
    (mkHeap (mats h ++ [acceleration_operator ops; some_mat (elasticity ops); some_mat (viscosity ops);
                        some_mat (thermal_expansion ops); some_mat (thermal_conductivity ops);
                        some_mat (piezoelectricity ops); some_mat (permittivity ops);
                        some_mat (poisson_operator ops)]) (vecs h),
     mkOps (ref 0 (2 * N) (2 * N) (2, 2))%nat
           (opt (elasticity ops) (ref 1 (2 * N) (2 * N) (2, 2)))%nat
           (opt (viscosity ops) (ref 2 (2 * N) (2 * N) (2, 2)))%nat
           (opt (thermal_expansion ops) (ref 3 N (2 * N) (1, 2)))%nat
           (opt (thermal_conductivity ops) (ref 4 N N (1, 1)))%nat
           (opt (piezoelectricity ops) (ref 5 N (2 * N) (2, 2)))%nat
           (opt (permittivity ops) (ref 6 N N (1, 1)))%nat
           (opt (poisson_operator ops) (ref 7 N N (1, 1)))%nat).
End Built.

(* body.mesh, body.dynamics and its parts *)
Record built := mkBuilt {
  bt_mesh : @MeshData P2 vec;
  bt_normals : list P2;
  bt_basic : basic;                        (* volume_at_nodes, _w_matrix before weighting *)
  bt_body : body;
  bt_world : StatementModel.world forces }.

(* dyn:78-100  the relaxation operator is made of _w_matrix *)
Definition relaxation_of (m : @MeshData P2 vec) (density : option (nat -> R)) (tn : tensor) : result mat :=
  let table := fun i => coord2 (nth i (m_nodes m) zero2) in
  Ok (relaxation2 (List.length (m_nodes m)) (w_matrix2 table (m_elements m) density) tn).

(* dyn:46-76  reinitialize_matrices(density) of a body whose other attributes are given *)
Definition reinitialize (pb : problem) (m : @MeshData P2 vec) (density : option (nat -> R)) (h : heap)
  : result (basic * body * heap) :=
  let table := fun i => coord2 (nth i (m_nodes m) zero2) in
  let N := List.length (m_nodes m) in
  bind (get_basic_matrices table (m_elements m)) (fun B =>
  bind (reinitialize_matrices N table (m_elements m) (pr_material pb) density) (fun ops =>
  let '(h', refs) := install m h ops in
  Ok (B, mkBody 2 N (mesh_conditions m) refs (pr_relaxation pb) (relaxation_of m density), h'))).

(* ps:48-87  ProblemSolver.__init__: Mesh, Dynamics (dyn:15-44), then the sources.  A temperature
   object without sources raises when it is asked *)
Definition construct (pb : problem) : result built :=
  bind (mesh_init2 (pr_nodes pb) (pr_elements pb) (pr_boundaries pb)) (fun '(m, normals) =>
  bind (reinitialize pb m None (mkHeap [] [])) (fun '(B, b, h) =>
  let force := mkForces (fresh_source (Some (pr_inner pb))) (fresh_source (Some (pr_outer pb))) in
  let heat := match pr_heat pb with
              | Some (width, i, o) => (width, mkForces (fresh_source (Some i)) (fresh_source (Some o)))
              | None => (1%nat, mkForces (fresh_source None) (fresh_source None))
              end in
  Ok (mkBuilt m normals B b (StatementModel.mkWorld h (pr_width pb, force) heat None None)))).

(* ps:341-345  NonHomogenousSolver.update_density, without refresh_solvers: the operators are
   replaced; the loads and the relaxation cache stay as they are *)
Definition update_density (pb : problem) (bt : built) (density : nat -> R) : result built :=
  let w := bt_world bt in
  bind (reinitialize pb (bt_mesh bt) (Some density) (hp w)) (fun '(B, b, h) =>
  Ok (mkBuilt (bt_mesh bt) (bt_normals bt) B b
        (StatementModel.mkWorld h (w_force w) (w_temperature w) (w_tensor w) (w_relaxation w)))).

Section Solver.
  Context {V : Type}.
  Notation driver := (driver V (method forces)).

  (* ps:50-54  time_step *)
  Definition time_step_of (pb : problem) : R := match pr_time_step pb with Some dt => dt | None => 0 end.

  (* ps:109-148  the step solver for a statement of kind k, in a memory m0; ps:84-85 done, to_do *)
  Definition step_solver (pb : problem) (bt : built) (k : kind) (m0 : store V) : result driver :=
    match new_solver (setup (integrate_forces (bt_mesh bt) (bt_basic bt)) (bt_body bt) k (bt_world bt))
            (time_step_of pb) m0 with
    | (m1, Ok s) => Ok (mkDriver m1 s 0 1)
    | (_, Err e) => Err e
    end.
End Solver.

(* the arrays of mesh.nodes that the states keep *)
Definition start_positions (bt : built) : vec :=
  fun a => let N := List.length (m_nodes (bt_mesh bt)) in coord2 (nth (a mod N) (m_nodes (bt_mesh bt)) zero2) (a / N)%nat.
