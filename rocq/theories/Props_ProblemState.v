(* C90: what the states returned for a posed problem show. *)
From Coq Require Import Reals List Arith ZArith Bool String Lia Lra.
From Verif Require Import Common PyModel RVec MeshModel MeshBuildModel NormalsModel StatementModel RegistryModel StateModel ConstrainedSpec SchurSpec CopyProofs TimeModel TimeSpec RunProofs
  MethodModel SchurModel OptimisationModel RunStable ContactRunSpec WholeRunProofs ProblemTotal ProblemFinal ProblemModel ProblemSpec ProblemWitness ProblemContactModel ProblemContactSpec ProblemContactFinal ProblemContactWitness
  ProblemStateSpec ProblemStateProofs Props_Problem Props_ProblemContact.
Import ListNotations.
Local Open Scope R_scope.

(* a solver just made has the time step of the problem, or 0 if it has none, and zero arrays *)
Theorem C90_solver : forall {V} pb bt k (m0 : store V) d, step_solver pb bt k m0 = Ok d ->
  (forall dt, pr_time_step pb = Some dt -> unused dt d) /\ (pr_time_step pb = None -> unused 0 d).
Proof. intros V pb bt k m0 d. exact (step_time pb bt k m0 d). Qed.
Print Assumptions C90_solver.

Theorem C90_schur_solver : forall {V} pb bt k inv (m0 : store V) d, schur_step_solver pb bt k inv m0 = Ok d ->
  (forall dt, pr_time_step pb = Some dt -> unused dt d) /\ (pr_time_step pb = None -> unused 0 d).
Proof. intros V pb bt k inv m0 d. exact (schur_time pb bt k inv m0 d). Qed.
Print Assumptions C90_schur_solver.

(* whatever the step solver does: the states have the times asked for, and the nodes are moved by
   the displacement *)
Theorem C90_dynamic : forall {V W I} bt iterate answer dt n u0 v0 out given (d d' : driver V I) (l : list (state W)),
  unused dt d -> in_stock (d_mem d) given -> non_decreasing 0 (requested n out) ->
  dynamic_solve (b_dimension (bt_body bt)) (b_count (bt_body bt)) (start_positions bt) iterate answer n u0 v0 out given d = (d', Ok l) ->
  shows_all (m_nodes (bt_mesh bt)) dt u0 n out (d_mem d') l.
Proof. intros V W I bt iterate answer dt n u0 v0 out given d d' l. exact (dynamic_shows bt iterate answer dt n u0 v0 out given d d' l). Qed.
Print Assumptions C90_dynamic.

Theorem C90_relaxation : forall {V W I} bt iterate answer dt n b0 u0 out given (d d' : driver V I) (l : list (state W)),
  unused dt d -> in_stock (d_mem d) given -> non_decreasing 0 (requested n out) ->
  relaxation_solve (b_dimension (bt_body bt)) (b_count (bt_body bt)) (start_positions bt) iterate answer n b0 u0 out given d = (d', Ok l) ->
  shows_all (m_nodes (bt_mesh bt)) dt u0 n out (d_mem d') l.
Proof. intros V W I bt iterate answer dt n b0 u0 out given d d' l. exact (relaxation_shows bt iterate answer dt n b0 u0 out given d d' l). Qed.
Print Assumptions C90_relaxation.

Theorem C90_static : forall {V W I} bt iterate answer dt u0 given (d d' : driver V I) (s : state W),
  unused dt d -> in_stock (d_mem d) given ->
  static_solve (b_dimension (bt_body bt)) (b_count (bt_body bt)) (start_positions bt) iterate answer u0 given d = (d', Ok s) ->
  shows (m_nodes (bt_mesh bt)) dt u0 1 (look (d_mem d') s).
Proof. intros V W I bt iterate answer dt u0 given d d' s. exact (static_shows bt iterate answer dt u0 given d d' s). Qed.
Print Assumptions C90_static.

Theorem C90_wave : forall {V W I} bt iterate answer dt n u0 v0 out given (d d' : driver V I) s0 (l : list (state W)),
  unused dt d -> in_stock (d_mem d) given -> non_decreasing 0 (requested n out) ->
  wave_solve (b_dimension (bt_body bt)) (b_count (bt_body bt)) (start_positions bt) iterate answer n u0 v0 None out given d = (d', s0, Ok l) ->
  timed_all dt n out (d_mem d') l.
Proof. intros V W I bt iterate answer dt n u0 v0 out given d d' s0 l. exact (wave_timed bt iterate answer dt n u0 v0 out given d d' s0 l). Qed.
Print Assumptions C90_wave.

(* a state asked for before the first step shows the nodes of the mesh and not the moved ones *)
Theorem C90_start_refuted : forall nodes dt u0 p w, nth_error nodes 0 = Some p -> u0 0%nat <> 0 ->
  shows nodes dt u0 0 w -> ~ moved nodes (view_displacement w) (view_displaced w).
Proof. exact start_behind. Qed.
Print Assumptions C90_start_refuted.

(* ------------------------------------------------------------------ examples *)
Example C90_run : exists bt d, construct (square 2) = Ok bt /\ step_solver (V:=R) (square 2) bt DynamicVelocity no_memory = Ok d /\
  unused (1 / 2) d /\ in_stock (d_mem d) [] /\ non_decreasing 0 (requested 3 [1; 3]%Z) /\
  forall u0 v0, exists d' (l : list (state unit)),
  dynamic_solve (b_dimension (bt_body bt)) (b_count (bt_body bt)) (start_positions bt)
    (MethodModel.iterate (integrate_forces (bt_mesh bt) (bt_basic bt)) (bt_body bt) DynamicVelocity DynamicSchur)
    (exact_answer (2 * List.length (m_nodes (bt_mesh bt)))) 3 u0 v0 [1; 3]%Z [] d = (d', Ok l).
Proof.
  destruct C87_dynamic_example as (bt & d & C & S & H). exists bt, d. split; [exact C|]. split; [exact S|].
  split; [apply (C90_solver _ _ _ _ _ S); reflexivity|]. split; [constructor|]. split; [exact C89_steps|exact H].
Qed.
Example C90_schur_run : forall inv, inverts inv ->
  exists bt e, prepared (bench weight pull lift) bt None /\
  schur_step_solver (V := R) (bench weight pull lift) bt DynamicVelocity inv no_memory = Ok e /\ unused (1 / 2) e.
Proof.
  intros inv HI. destruct C89_reliable as (find & RF).
  destruct (C89_run (fun _ _ => find) "BFGS" None inv DynamicVelocity (fun _ => RF) HI (or_intror eq_refl)) as (bt & d & e & P & _ & S & _).
  exists bt, e. split; [exact P|]. split; [exact S|]. apply (C90_schur_solver _ _ _ _ _ _ S). reflexivity.
Qed.
Example C90_shown : shows [(1, 2); (3, 5)] (1 / 2) (fun _ => 0) 2
  (mkView (fun _ => 0) (fun i => INR i) (fun i => nth i [1; 3; 2; 5] 0 + INR i) (fun _ => 0) 1).
Proof.
  split; [cbn; lra|]. intros n p H. destruct n as [|[|n]]; cbn in H; try (injection H as <-; cbn; lra).
  destruct n; discriminate.
Qed.
Example C90_not_shown : shows [(1, 2)] 1 (fun _ => 7) 0 (mkView (fun _ => 0) (fun _ => 7) (fun i => nth i [1; 2] 0) (fun _ => 0) 0).
Proof.
  split; [cbn; lra|]. split; [reflexivity|]. intros n p H. destruct n as [|n]; cbn in H; [injection H as <-; cbn; lra|].
  destruct n; discriminate.
Qed.
