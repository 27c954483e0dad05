(* Model of the solvers of a posed problem with contact: what the optimisation solvers are told of
   the mesh, and the Schur step solver.
   Sources: /repo/conmech/simulations/problem_solver.py (cited ps:),
   /repo/conmech/solvers/optimization/optimization.py (op:).
   Plane problems; real numbers replace doubles. *)
From Coq Require Import Reals List Arith ZArith Bool String.
From Verif Require Import Common PyModel RVec MeshModel MeshBuildModel NormalsModel FemModel ForcesModel
  DirichletModel StatementModel RegistryModel StateModel TimeModel MethodModel SchurModel ContactModel OptimisationModel ProblemModel.
Import ListNotations.
Local Open Scope string_scope.
Local Open Scope list_scope.
Local Open Scope R_scope.

(* op:131-141  mesh.nodes, mesh.contact_boundary, mesh.boundaries.contact_normals; schur_complement.py:32-33
   contact_nodes_count.  Built meshes have a normal for every contact face (C89_normals), so the
   default is not used *)
Definition contact_of (bt : built) : contact_mesh :=
  let m := bt_mesh bt in
  mkContactMesh (fun i => coord2 (nth i (m_nodes m) zero2)) 2
    (fun ei => coord2 (nth ei (contact_normals m (bt_normals bt)) zero2))
    (faces_of m "contact") (Z.to_nat (contact_nodes_count m)).

Section Solver.
  Context {V : Type}.
  (* ps:109-148  the step solver of a Schur class, in a memory m0 *)
  Definition schur_step_solver (pb : problem) (bt : built) (k : kind) (inv : nat -> mat -> result mat) (m0 : store V)
    : result (driver V (schur_method forces)) :=
    match new_solver (schur_setup (integrate_forces (bt_mesh bt) (bt_basic bt)) (bt_body bt) k (contact_of bt) inv (bt_world bt))
            (time_step_of pb) m0 with
    | (m1, Ok s) => Ok (mkDriver m1 s 0 1)
    | (_, Err e) => Err e
    end.
End Solver.

(* registry.py:40-53, global_optimization.py:25-56, schur_complement.py:142-178: the classes registered as
   "global" and "schur" for static, quasistatic and dynamic problems *)
Definition global_class (k : kind) : solver_class :=
  match k with DynamicVelocity => DynamicGlobal | QuasistaticVelocity => QuasistaticGlobal | _ => StaticGlobal end.
Definition schur_class_of (k : kind) : solver_class :=
  match k with DynamicVelocity => DynamicSchur | QuasistaticVelocity => QuasistaticSchur | _ => StaticSchur end.

Section Runs.
  Context {V W : Type}.
  Variables (bt : built) (k : kind) (law : contact_law).
  Variable minimise : route -> nat -> (arr -> result R) -> arr -> arr.
  Variables (name : string) (maxiter : option nat).
  Let integrate := integrate_forces (bt_mesh bt) (bt_basic bt).
  Let b := bt_body bt.

  (* ps:436-477 and ps:318-338 with the solver of the class "global" *)
  Definition global_motion (n : nat) (u0 v0 : vec) (out : list Z) (given : list nat) (d : driver V (method forces))
    : driver V (method forces) * result (list (state W)) :=
    dynamic_solve (b_dimension b) (b_count b) (start_positions bt) (MethodModel.iterate integrate b k (global_class k))
      (global_answer b k (contact_of bt) law minimise name maxiter) n u0 v0 out given d.
  Definition global_rest (u0 : vec) (given : list nat) (d : driver V (method forces)) : driver V (method forces) * result (state W) :=
    static_solve (b_dimension b) (b_count b) (start_positions bt) (MethodModel.iterate integrate b k (global_class k))
      (global_answer b k (contact_of bt) law minimise name maxiter) u0 given d.

  (* the same with the solver of the class "schur" *)
  Definition schur_motion (n : nat) (u0 v0 : vec) (out : list Z) (given : list nat) (d : driver V (schur_method forces))
    : driver V (schur_method forces) * result (list (state W)) :=
    dynamic_solve (b_dimension b) (b_count b) (start_positions bt) (schur_iterate integrate b k (contact_of bt) (schur_class_of k))
      (schur_answer b k (contact_of bt) law minimise name maxiter false) n u0 v0 out given d.
  Definition schur_rest (u0 : vec) (given : list nat) (d : driver V (schur_method forces)) : driver V (schur_method forces) * result (state W) :=
    static_solve (b_dimension b) (b_count b) (start_positions bt) (schur_iterate integrate b k (contact_of bt) (schur_class_of k))
      (schur_answer b k (contact_of bt) law minimise name maxiter false) u0 given d.
End Runs.
