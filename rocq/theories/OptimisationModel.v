(* Model of the optimisation solvers: which minimiser is called, with which loss, and what is made
   of its answer, for both layouts of the unknowns.
   Sources: /repo/conmech/solvers/optimization/optimization.py (cited op:),
   /repo/conmech/solvers/optimization/global_optimization.py (gl:),
   /repo/conmech/solvers/optimization/schur_complement.py (sc:), /repo/conmech/solvers/solver.py (so:).
   Simplifications: real numbers for doubles; the minimisers of scipy, kosopt and adam are one
   parameter, which returns an array and does not raise; the tolerance and the measured computation
   time are left out; the loss of a WaveStatement with an interior law is
   ContactModel.interior_loss and is not used here. *)
From Coq Require Import Reals List Arith Bool String Ascii.
From Verif Require Import PyModel RVec DirichletModel StatementModel RegistryModel TimeModel MethodModel ContactModel SchurModel.
Import ListNotations.
Local Open Scope R_scope.

(* ------------------------------------------------------------ which minimiser *)

Definition mem_string (l : list string) (s : string) : bool := existsb (String.eqb s) l.

(* op:40-46 *)
Definition QSMLM_NAMES : list string :=
  ["quasi secant method"; "limited memory quasi secant method"; "quasi secant method limited memory"; "qsm"; "qsmlm"]%string.
(* op:47-53 *)
Definition GLOBAL_QSMLM_NAMES : list string :=
  ["global quasi secant method"; "global limited memory quasi secant method";
   "global quasi secant method limited memory"; "globqsm"; "globqsmlm"]%string.
(* op:55 *)
Definition ADAM_NAMES : list string := ["adam"; "torch_adam"]%string.

(* any(method.lower().startswith(pref) for pref in GLOBAL_QSMLM_NAMES) *)
Definition global_name (lowered : string) : bool := existsb (fun pref => String.prefix pref lowered) GLOBAL_QSMLM_NAMES.

(* the branches of op:157-239: adam.minimize, self.minimizer, subgradient.minimize with [nstep],
   qsmlmi.minimize, scipy with the constraint, scipy with a method and perhaps the subgradient *)
Inductive route :=
| Adam
| QuasiSecant
| GlobalQuasiSecant (nstep : nat)
| DiscontinuousGradient
| Constrained
| Scipy (name : string) (gradient : bool).

(* op:225-227  method[len("gradiented "):] *)
Definition strip (pref s : string) : string := String.substring (String.length pref) (String.length s - String.length pref) s.

(* op:157-239; op:178-182: nstep = int(5) *)
Definition route_of (method : string) : route :=
  let m := lower method in
  if mem_string ADAM_NAMES m then Adam
  else if mem_string QSMLM_NAMES m then QuasiSecant
  else if global_name m then GlobalQuasiSecant 5
  else if mem_string ["discontinuous gradient"; "discontinuous gradient method"; "dg"]%string m then DiscontinuousGradient
  else if String.eqb m "constrained"%string then Constrained
  else if String.prefix "gradiented "%string method then Scipy (strip "gradiented "%string method) true
  else Scipy method false.

(* op:145-155  whether self.minimizer is made when it is still None *)
Definition makes_minimizer (method : string) : bool :=
  mem_string QSMLM_NAMES (lower method) || global_name (lower method).

(* op:129, 212  the number of iterations: kwargs["maxiter"], or a multiple of len(initial_guess);
   op:165, 202 *)
Definition iterations (maxiter : option nat) (first_axis : nat) (r : route) : nat :=
  let n := match maxiter with Some m => m | None => (first_axis * 1000)%nat end in
  match r with
  | Adam => (n * 100)%nat
  | DiscontinuousGradient => (10 * 1000)%nat
  | Constrained => match maxiter with Some m => m | None => (first_axis * (1000 * 1000 * 1000))%nat end
  | _ => n
  end.

(* op:206-210  constr: the least of the second components of the contact nodes, of a vector of
   length 2 * q; np.min of no numbers raises ValueError *)
Fixpoint least (l : list R) : result R :=
  match l with
  | [] => Err ValueError
  | [x] => Ok x
  | x :: l => bind (least l) (fun y => Ok (Rmin x y))
  end.
Definition constr (contact_nodes_count : nat) (x : arr) : result R :=
  let offset := (fst x / 2)%nat in
  least (map (fun i => snd x (offset + i)%nat) (seq 0 (Nat.min contact_nodes_count (fst x - offset)))).

(* ------------------------------------------------------------ the solvers *)

(* what the loss is told of the mesh: op:131-141 *)
Record contact_mesh := mkContactMesh {
  mesh_nodes : nat -> vec;
  mesh_width : nat;
  mesh_normals : nat -> vec;
  mesh_faces : list (list nat);
  mesh_contact_count : nat }.

Section Optimisation.
  Context {F : Type}.
  Variable integrate : F -> R -> F * result (nat * vec).
  Variable b : body.
  Variable k : kind.
  Variable mesh : contact_mesh.
  Variable law : contact_law.
  (* minimiser: branch, number of iterations, loss, start *)
  Variable minimise : route -> nat -> (arr -> result R) -> arr -> arr.
  (* the keywords method and maxiter of solve() *)
  Variables (method_name : string) (maxiter : option nat).

  Definition dim : nat := dimension_in k (b_dimension b).
  Definition total_dofs : nat := (b_dimension b * b_count b)%nat.

  (* op:74-81, 95-102  self.loss; dimension_out = dimension_in for all statements *)
  Definition loss_of : sized -> arr -> arr -> arr -> arr -> list (list nat) -> R -> result R :=
    match k with
    | StaticPoisson => poisson_loss law (mesh_nodes mesh) (mesh_width mesh) (mesh_normals mesh)
    | _ => loss law dim dim (mesh_nodes mesh) (mesh_width mesh) (mesh_normals mesh)
    end.

  (* op:116-241  Optimization._solve_impl; [first_axis] is len(initial_guess) *)
  Definition optimise (lhs : sized) (rhs : arr) (variable_old displacement : vec) (dt : R)
      (first_axis : nat) (guess : arr) : arr :=
    minimise (route_of method_name) (iterations maxiter first_axis (route_of method_name))
      (fun x => loss_of lhs rhs x (total_dofs, variable_old) (total_dofs, displacement) (mesh_faces mesh) dt)
      guess.

  Definition held_lhs (i : method F) : sized := shown_matrix (hp (m_world i)) (sm_data (m_lhs i)).
  Definition held_rhs (i : method F) : arr := shown_vector (hp (m_world i)) (m_rhs i).

  (* so:91-97  the prescribed values are written into the answer *)
  Definition written (x : arr) : result (nat * vec) :=
    bind (b_conditions b dim (dirichlet_cond_name k)) (fun conds => Ok (fst x, overwrite_all conds (snd x))).

  (* so:84-99 with gl:13-23: the guess is a vector *)
  Definition global_answer (i : method F) (guess variable_old displacement : vec) (dt : R) : result (nat * vec) :=
    written (optimise (held_lhs i) (held_rhs i) variable_old displacement dt total_dofs (total_dofs, guess)).

  (* ---------------------------------------------------------- Schur *)

  Variable inv : nat -> mat -> result mat.
  Variable driving_vector : bool.
  Record schur_method := mkSchurMethod { s_method : method F; s_schur : schur }.

  (* so:27-66, sc:17-45 *)
  Definition schur_setup (w : StatementModel.world F) (x : vectors) (dt : R) : result schur_method :=
    bind (setup integrate b k w x dt) (fun i =>
    bind (init inv dim (mesh_contact_count mesh) (b_count b) (held_lhs i) (held_rhs i)) (fun s =>
    Ok (mkSchurMethod i s))).

  (* sc:142-190  iterate() of the class c: pass for the static one *)
  Definition schur_iterate (c : solver_class) (i : schur_method) (x : vectors) (dt t : R) : result schur_method :=
    match c with
    | QuasistaticSchur | RelaxedSchur | DynamicSchur =>
        bind (MethodModel.iterate integrate b k c (s_method i) x dt t) (fun m =>
        bind (SchurModel.iterate dim (mesh_contact_count mesh) (b_count b) (s_schur i) (held_rhs m)) (fun s =>
        Ok (mkSchurMethod m s)))
    | _ => Ok i
    end.

  (* sc:108-115  len() of the truncated guess: it has one row for two components or a driving
     vector *)
  Definition truncated_axis : nat :=
    if ((dim =? 2)%nat || driving_vector)%bool then 1%nat else Nat.min (mesh_contact_count mesh) total_dofs.

  (* so:84-99 with sc:76-106 *)
  Definition schur_answer (i : schur_method) (guess variable_old displacement : vec) (dt : R) : result (nat * vec) :=
    bind (solve_impl dim (mesh_contact_count mesh) driving_vector
      (optimise (node_relations (s_schur i)) (node_forces (s_schur i)) variable_old displacement dt truncated_axis)
      (s_schur i) (total_dofs, guess)) written.
End Optimisation.
Arguments schur_method : clear implicits.
