(* C108: moving bodies with the class Direct. *)
From Coq Require Import Reals List Arith ZArith Bool String Lia Lra.
From Verif Require Import Common PyModel RVec LinAlg MeshModel MeshBuildModel MeshSpec NormalsModel DirichletSpec
  FemModel FemSpec ForcesModel StatementModel StatementSpec StateModel RegistryModel
  TimeModel TimeSpec MethodModel RunSpec RunProofs HistoryProofs RunStable ProblemModel ProblemSpec ProblemTotal ProblemFinal ProblemWitness
  ConvergenceSpec ConvergenceFinal ConvergenceWitness StaleSpec StaleFinal.
Import ListNotations.
Local Open Scope list_scope.
Local Open Scope R_scope.

(* Full claim of C108: runs of the class Direct follow the motion of C87, in which every step starts from the
   displacement and velocity that it finds, at its own time.  They do not; this is what they do: *)
Theorem C108_direct : forall {V W} pb ic id g bt linsolve fi fo th ze mu la (m0 : store V) (d d' : driver V (method forces)) n u0 v0 out given (l : list (state W)),
  posed pb ic id g ->
  construct pb = Ok bt ->
  loaded pb 2 fi fo ->
  elastic (pr_material pb) = Some (mu, la) ->
  viscous (pr_material pb) = Some (th, ze) ->
  time_step_of pb <> 0 ->
  (forall n A r x, linsolve n A r = Ok x -> solves n A r x) ->
  step_solver pb bt DynamicVelocity m0 = Ok d ->
  in_stock (d_mem d) given ->
  non_decreasing 0 (requested n out) ->
  dynamic_solve (b_dimension (bt_body bt)) (b_count (bt_body bt)) (start_positions bt)
    (MethodModel.iterate (integrate_forces (bt_mesh bt) (bt_basic bt)) (bt_body bt) DynamicVelocity Direct) (direct_answer (bt_body bt) DynamicVelocity linsolve) n u0 v0 out given d = (d', Ok l) ->
  exists u v,
  stale_motion (time_step_of pb) (takes (bt_mesh bt) id 2 g)
    (fun t a w y => moves coord2 zero2 (bt_mesh bt) id (mass_density (pr_material pb)) th ze mu la (fun p => fi p t) (fun p => fo p t) a w y)
    u0 v0 (TimeTheorems.last_step n out) u v /\
  List.length l = List.length (requested n out) /\
  forall j q (s : state W), nth_error (requested n out) j = Some q -> nth_error l j = Some s ->
    shows (time_step_of pb) u v (Z.to_nat q) (look (d_mem d') s).
Proof. intros V W pb ic id g bt linsolve fi fo th ze mu la m0 d d' n u0 v0 out given l PO PR. exact (direct_stale pb ic id g PO bt PR fi fo linsolve th ze mu la m0 d d' n u0 v0 out given l). Qed.
Print Assumptions C108_direct.

(* such runs reach their end without an error *)
Theorem C108_direct_runs : forall {V W} pb ic id g bt linsolve fi fo th ze mu la (m0 : store V) n out,
  posed pb ic id g ->
  construct pb = Ok bt ->
  loaded pb 2 fi fo ->
  elastic (pr_material pb) = Some (mu, la) ->
  viscous (pr_material pb) = Some (th, ze) ->
  0 < mass_density (pr_material pb) ->
  0 <= mu ->
  0 <= la ->
  0 <= th ->
  0 <= ze ->
  0 < time_step_of pb ->
  (forall n A r, pos_def n A -> exists x, linsolve n A r = Ok x) ->
  non_decreasing 0 (requested n out) ->
  n <> 0%nat ->
  exists d : driver V (method forces), step_solver pb bt DynamicVelocity m0 = Ok d /\ forall u0 v0, exists d' (l : list (state W)),
  dynamic_solve (b_dimension (bt_body bt)) (b_count (bt_body bt)) (start_positions bt)
    (MethodModel.iterate (integrate_forces (bt_mesh bt) (bt_basic bt)) (bt_body bt) DynamicVelocity Direct) (direct_answer (bt_body bt) DynamicVelocity linsolve) n u0 v0 out [] d = (d', Ok l).
Proof. intros V W pb ic id g bt linsolve fi fo th ze mu la m0 n out PO PR. exact (direct_stale_runs pb ic id g PO bt PR fi fo linsolve th ze mu la m0 n out). Qed.
Print Assumptions C108_direct_runs.

(* all velocities after the first step agree: neither the initial velocity nor the displacement nor later loads matter *)
Theorem C108_same : forall pb ic id g bt fi fo th ze mu la u0 v0 n u v u0' v0' n' u' v',
  posed pb ic id g ->
  construct pb = Ok bt ->
  elastic (pr_material pb) = Some (mu, la) ->
  viscous (pr_material pb) = Some (th, ze) ->
  0 < mass_density (pr_material pb) ->
  0 <= mu ->
  0 <= la ->
  0 <= th ->
  0 <= ze ->
  0 < time_step_of pb ->
  stale_motion (time_step_of pb) (takes (bt_mesh bt) id 2 g)
    (fun t a w y => moves coord2 zero2 (bt_mesh bt) id (mass_density (pr_material pb)) th ze mu la (fun p => fi p t) (fun p => fo p t) a w y) u0 v0 n u v ->
  stale_motion (time_step_of pb) (takes (bt_mesh bt) id 2 g)
    (fun t a w y => moves coord2 zero2 (bt_mesh bt) id (mass_density (pr_material pb)) th ze mu la (fun p => fi p t) (fun p => fo p t) a w y) u0' v0' n' u' v' ->
  forall j j', (j < n)%nat -> (j' < n')%nat -> veq (2 * List.length (m_nodes (bt_mesh bt))) (v (S j)) (v' (S j')).
Proof. intros pb ic id g bt fi fo th ze mu la u0 v0 n u v u0' v0' n' u' v' PO PR. exact (stale_same pb ic id g PO bt PR fi fo th ze mu la u0 v0 n u v u0' v0' n' u' v'). Qed.
Print Assumptions C108_same.

(* the runs do not approach the motion of the body: under a constant force, from rest, the true velocity is t and the true
   displacement t^2 / 2, but every state shows the velocity h and the displacement h t *)
Theorem C108_converges_refuted : forall bt, construct (fall_problem (fun _ => 1)) = Ok bt ->
  forall (V' W : Type) h linsolve (m0 : store V') (d d' : driver V' (method forces)) n out given (l : list (state W)),
  0 < h ->
  (forall n A r x, linsolve n A r = Ok x -> solves n A r x) ->
  step_solver (with_step (fall_problem (fun _ => 1)) h) bt DynamicVelocity m0 = Ok d ->
  in_stock (d_mem d) given ->
  non_decreasing 0 (requested n out) ->
  dynamic_solve (b_dimension (bt_body bt)) (b_count (bt_body bt)) (start_positions bt)
    (MethodModel.iterate (integrate_forces (bt_mesh bt) (bt_basic bt)) (bt_body bt) DynamicVelocity Direct) (direct_answer (bt_body bt) DynamicVelocity linsolve) n (alike_all bt 0) (alike_all bt 0) out given d = (d', Ok l) ->
  forall j (s : state W) i, nth_error l j = Some s -> 0 < view_time (look (d_mem d') s) ->
    (List.length (m_nodes (bt_mesh bt)) <= i < 2 * List.length (m_nodes (bt_mesh bt)))%nat ->
    view_velocity (look (d_mem d') s) i = h /\ view_displacement (look (d_mem d') s) i = h * view_time (look (d_mem d') s).
Proof. exact @fall_stale. Qed.
Print Assumptions C108_converges_refuted.

(* a run of the falling body, for every time step: hypotheses of all theorems above *)
Example C108_fall_runs : forall h, 0 < h -> exists bt d, construct (fall_problem (fun _ => 1)) = Ok bt /\
  posed (with_step (fall_problem (fun _ => 1)) h) (on_line 1) never (fun _ => 0) /\
  step_solver (V:=R) (with_step (fall_problem (fun _ => 1)) h) bt DynamicVelocity no_memory = Ok d /\ exists d' (l : list (state unit)),
  dynamic_solve (b_dimension (bt_body bt)) (b_count (bt_body bt)) (start_positions bt)
    (MethodModel.iterate (integrate_forces (bt_mesh bt) (bt_basic bt)) (bt_body bt) DynamicVelocity Direct) (direct_answer (bt_body bt) DynamicVelocity elimination_solver)
    3 (alike_all bt 0) (alike_all bt 0) [1; 3]%Z [] d = (d', Ok l).
Proof.
  intros h HP. destruct (fall_constructs (fun _ => 1)) as (bt & E). assert (PO := posed_step _ _ _ _ h (fall_posed (fun _ => 1))).
  destruct (direct_stale_runs (V:=R) (W:=unit) (with_step (fall_problem (fun _ => 1)) h) _ _ _ PO bt E (drag (fun _ => 1)) calm elimination_solver 1 2 4 3 no_memory 3 [1; 3]%Z
    (fall_loaded _) eq_refl eq_refl ltac:(cbn; lra) ltac:(lra) ltac:(lra) ltac:(lra) ltac:(lra) HP elimination_works ltac:(cbn; lia) ltac:(discriminate)) as (d & S & H).
  exists bt, d. split; [exact E|]. split; [exact PO|]. split; [exact S|]. destruct (H (alike_all bt 0) (alike_all bt 0)) as (d' & l & Q). exists d', l. exact Q.
Qed.
