(* C109: refining the time step of a body with memory leads to its creep in continuous time. *)
From Coq Require Import Reals List Arith ZArith Bool String Lia Lra.
From Verif Require Import Common PyModel RVec LinAlg MeshModel MeshBuildModel MeshSpec NormalsModel
  FemModel FemSpec ForcesModel StatementModel StatementSpec StateModel RegistryModel
  TimeModel TimeSpec MethodModel RunSpec RunProofs HistoryProofs ProblemModel ProblemSpec ProblemTotal ProblemFinal ProblemWitness
  ConvergenceSpec ConvergenceFinal ConvergenceWitness ConvergenceMemorySpec ConvergenceMemoryFinal ConvergenceMemoryWitness.
Import ListNotations.
Local Open Scope list_scope.
Local Open Scope R_scope.

(* every state of a run with the time step h differs by at most ka * h from the creep of the body, with one ka for all
   time steps, first displacements, numbers of steps and output steps *)
Theorem C109_relaxation : forall pb ic id g bt fi fo T B L D mu la f C Ab U,
  posed pb ic id g ->
  construct pb = Ok bt ->
  loaded pb 2 fi fo ->
  elastic (pr_material pb) = Some (mu, la) ->
  clamped_mesh pb id ->
  pr_relaxation pb = Some f ->
  (forall t, f (Some t) = Ok (C t)) ->
  (forall t G, 0 <= t <= T -> 0 <= memory_density (C t) G G) ->
  0 < mu ->
  0 <= la ->
  0 <= T ->
  0 <= B ->
  0 <= L ->
  0 <= D ->
  paced_load T L fi ->
  paced_load T L fo ->
  paced_tensor T D C ->
  derives (2 * (List.length (m_nodes (bt_mesh bt)))) T Ab U ->
  paced (2 * (List.length (m_nodes (bt_mesh bt)))) T B U ->
  true_creep (bt_mesh bt) id g fi fo T mu la C Ab U ->
  exists ka, 0 <= ka /\
    forall (V' W : Type) h (answer : method forces -> vec -> vec -> vec -> R -> result (nat * vec)) u0 (m0 : store V') (d d' : driver V' (method forces)) n out given (l : list (state W)),
      0 < h ->
      answers_exactly (2 * (List.length (m_nodes (bt_mesh bt)))) answer ->
      step_solver (with_step pb h) bt QuasistaticRelaxation m0 = Ok d ->
      in_stock (d_mem d) given ->
      non_decreasing 0 (requested n out) ->
      relaxation_solve (b_dimension (bt_body bt)) (b_count (bt_body bt)) (start_positions bt)
        (MethodModel.iterate (integrate_forces (bt_mesh bt) (bt_basic bt)) (bt_body bt) QuasistaticRelaxation RelaxedSchur) answer n (Ab 0) u0 out given d = (d', Ok l) ->
      forall j (s : state W), nth_error l j = Some s -> 0 < view_time (look (d_mem d') s) <= T ->
        within_creep (2 * (List.length (m_nodes (bt_mesh bt)))) (ka * h) Ab U (look (d_mem d') s).
Proof. intros pb ic id g bt fi fo T B L D mu la f C Ab U PO PR. exact (relaxation_converges pb ic id g PO bt PR fi fo T B L D mu la f C Ab U). Qed.
Print Assumptions C109_relaxation.

(* a body has one creep in continuous time *)
Theorem C109_unique : forall pb ic id g bt fi fo T B L D mu la f C Ab U Ab' U',
  posed pb ic id g ->
  construct pb = Ok bt ->
  loaded pb 2 fi fo ->
  elastic (pr_material pb) = Some (mu, la) ->
  clamped_mesh pb id ->
  pr_relaxation pb = Some f ->
  (forall t, f (Some t) = Ok (C t)) ->
  (forall t G, 0 <= memory_density (C t) G G) ->
  0 < mu ->
  0 <= la ->
  0 <= T ->
  0 <= B ->
  0 <= L ->
  0 <= D ->
  paced_load T L fi ->
  paced_load T L fo ->
  paced_tensor T D C ->
  derives (2 * (List.length (m_nodes (bt_mesh bt)))) T Ab U ->
  paced (2 * (List.length (m_nodes (bt_mesh bt)))) T B U ->
  true_creep (bt_mesh bt) id g fi fo T mu la C Ab U ->
  derives (2 * (List.length (m_nodes (bt_mesh bt)))) T Ab' U' ->
  paced (2 * (List.length (m_nodes (bt_mesh bt)))) T B U' ->
  true_creep (bt_mesh bt) id g fi fo T mu la C Ab' U' ->
  veq (2 * (List.length (m_nodes (bt_mesh bt)))) (Ab 0) (Ab' 0) ->
  forall t, 0 < t <= T -> veq (2 * (List.length (m_nodes (bt_mesh bt)))) (Ab t) (Ab' t) /\ veq (2 * (List.length (m_nodes (bt_mesh bt)))) (U t) (U' t).
Proof. intros pb ic id g bt fi fo T B L D mu la f C Ab U Ab' U' PO PR. exact (creep_one pb ic id g PO bt PR fi fo T B L D mu la f C Ab U Ab' U'). Qed.
Print Assumptions C109_unique.

(* under constant loads, with a memory [rate] times the elasticity, the displacement u of the body without memory decays
   exponentially: the creep *)
Theorem C109_exponential : forall pb ic id bt fi fo mu la rate u T,
  posed pb ic id (fun _ => 0) ->
  construct pb = Ok bt ->
  elastic (pr_material pb) = Some (mu, la) ->
  0 < rate ->
  takes (bt_mesh bt) id 2 (fun _ => 0) u ->
  balances coord2 zero2 (bt_mesh bt) None id mu la fi fo u ->
  true_creep (bt_mesh bt) id (fun _ => 0) (fun p _ => fi p) (fun p _ => fo p) T mu la (fun _ => proportional rate mu la)
    (fun t i => (1 - exp (- rate * t)) / rate * u i) (fun t i => exp (- rate * t) * u i).
Proof. intros pb ic id bt fi fo mu la rate u T PO PR EL RP TU BU. exact (creep_decays pb ic id PO bt PR fi fo mu la rate EL RP u TU BU T). Qed.
Print Assumptions C109_exponential.

(* and the runs *)
Theorem C109_decays : forall pb ic id bt fi fo mu la rate u T f,
  posed pb ic id (fun _ => 0) ->
  construct pb = Ok bt ->
  elastic (pr_material pb) = Some (mu, la) ->
  0 < rate ->
  takes (bt_mesh bt) id 2 (fun _ => 0) u ->
  balances coord2 zero2 (bt_mesh bt) None id mu la fi fo u ->
  loaded pb 2 (fun p _ => fi p) (fun p _ => fo p) ->
  clamped_mesh pb id ->
  pr_relaxation pb = Some f ->
  (forall t, f (Some t) = Ok (proportional rate mu la)) ->
  0 < mu ->
  0 <= la ->
  0 <= T ->
  exists ka, 0 <= ka /\
    forall (V' W : Type) h (answer : method forces -> vec -> vec -> vec -> R -> result (nat * vec)) u0 (m0 : store V') (d d' : driver V' (method forces)) n out given (l : list (state W)),
      0 < h ->
      answers_exactly (2 * (List.length (m_nodes (bt_mesh bt)))) answer ->
      step_solver (with_step pb h) bt QuasistaticRelaxation m0 = Ok d ->
      in_stock (d_mem d) given ->
      non_decreasing 0 (requested n out) ->
      relaxation_solve (b_dimension (bt_body bt)) (b_count (bt_body bt)) (start_positions bt)
        (MethodModel.iterate (integrate_forces (bt_mesh bt) (bt_basic bt)) (bt_body bt) QuasistaticRelaxation RelaxedSchur) answer n (fun _ => 0) u0 out given d = (d', Ok l) ->
      forall j (s : state W) i, nth_error l j = Some s -> 0 < view_time (look (d_mem d') s) <= T -> (i < 2 * (List.length (m_nodes (bt_mesh bt))))%nat ->
        Rabs (view_displacement (look (d_mem d') s) i - exp (- rate * view_time (look (d_mem d') s)) * u i) <= ka * h.
Proof. intros pb ic id bt fi fo mu la rate u T f PO PR EL RP TU BU. exact (relaxation_decays pb ic id PO bt PR fi fo mu la rate EL RP u TU BU T f). Qed.
Print Assumptions C109_decays.

(* exactly: the state of step q holds u / (1 + rate h)^q, for every time step and number of steps *)
Theorem C109_geometric : forall pb ic id bt fi fo mu la rate u f,
  posed pb ic id (fun _ => 0) ->
  construct pb = Ok bt ->
  elastic (pr_material pb) = Some (mu, la) ->
  0 < rate ->
  takes (bt_mesh bt) id 2 (fun _ => 0) u ->
  balances coord2 zero2 (bt_mesh bt) None id mu la fi fo u ->
  loaded pb 2 (fun p _ => fi p) (fun p _ => fo p) ->
  clamped_mesh pb id ->
  pr_relaxation pb = Some f ->
  (forall t, f (Some t) = Ok (proportional rate mu la)) ->
  0 < mu ->
  0 <= la ->
  forall (V' W : Type) h (answer : method forces -> vec -> vec -> vec -> R -> result (nat * vec)) u0 (m0 : store V') (d d' : driver V' (method forces)) n out given (l : list (state W)),
      0 < h ->
      answers_exactly (2 * (List.length (m_nodes (bt_mesh bt)))) answer ->
      step_solver (with_step pb h) bt QuasistaticRelaxation m0 = Ok d ->
      in_stock (d_mem d) given ->
      non_decreasing 0 (requested n out) ->
      relaxation_solve (b_dimension (bt_body bt)) (b_count (bt_body bt)) (start_positions bt)
        (MethodModel.iterate (integrate_forces (bt_mesh bt) (bt_basic bt)) (bt_body bt) QuasistaticRelaxation RelaxedSchur) answer n (fun _ => 0) u0 out given d = (d', Ok l) ->
      forall j q (s : state W) i, nth_error (requested n out) j = Some q -> nth_error l j = Some s -> (0 < q)%Z -> (i < 2 * (List.length (m_nodes (bt_mesh bt))))%nat ->
        view_displacement (look (d_mem d') s) i = u i / (1 + rate * h) ^ Z.to_nat q.
Proof.
  intros pb ic id bt fi fo mu la rate u f PO PR EL RP TU BU LD HU RF RC MU LA V' W.
  exact (relaxation_geometric pb ic id PO bt PR fi fo mu la rate EL RP u TU BU f LD HU RF RC MU LA).
Qed.
Print Assumptions C109_geometric.

(* --- concrete cases --- *)
(* a square under a constant weight, clamped on the left, with memory: all hypotheses of C109, and the displacement is not zero *)
Example C109_relaxing : forall rate T, 0 < rate -> 0 <= T -> exists bt u, construct (relaxing rate) = Ok bt /\
  posed (relaxing rate) (on_line 1) (on_line 0) (fun _ => 0) /\
  loaded (relaxing rate) 2 (fun p _ => steady p) (fun p _ => still p) /\ clamped_mesh (relaxing rate) (on_line 0) /\
  paced_load T 0 (fun p _ => steady p) /\ paced_load T 0 (fun p _ => still p) /\ paced_tensor T 0 (fun _ => proportional rate 4 3) /\
  (forall (t : R) G, 0 <= memory_density (proportional rate 4 3) G G) /\
  takes (bt_mesh bt) (on_line 0) 2 (fun _ => 0) u /\ balances coord2 zero2 (bt_mesh bt) None (on_line 0) 4 3 steady still u /\
  ~ veq (2 * (List.length (m_nodes (bt_mesh bt)))) u (fun _ => 0) /\
  derives (2 * (List.length (m_nodes (bt_mesh bt)))) T (fun t i => decayed rate t * u i) (fun t i => decay rate t * u i) /\
  (exists B, 0 <= B /\ paced (2 * (List.length (m_nodes (bt_mesh bt)))) T B (fun t i => decay rate t * u i)) /\
  true_creep (bt_mesh bt) (on_line 0) (fun _ => 0) (fun p _ => steady p) (fun p _ => still p) T 4 3 (fun _ => proportional rate 4 3)
    (fun t i => decayed rate t * u i) (fun t i => decay rate t * u i).
Proof.
  intros rate T RP T0. destruct (relaxing_constructs rate) as (bt & PR). destruct (relaxing_static rate bt PR) as (u & TU & BU).
  assert (P := relaxing_posed rate). exists bt, u. split; [exact PR|]. split; [exact P|]. split; [apply relaxing_loaded|]. split; [apply relaxing_clamped|].
  assert (Z : forall x s t : R, Rabs (x - x) <= 0 * (t - s)) by (intros; rewrite Rminus_diag_eq, Rabs_R0 by reflexivity; lra).
  split; [intros p k s t _ _; apply Z|]. split; [intros p k s t _ _; apply Z|]. split; [intros i j k s t _ _; apply Z|].
  split; [intros _ G; apply proportional_nonneg; lra|]. split; [exact TU|]. split; [exact BU|]. split; [exact (relaxing_moves rate bt PR u BU)|].
  split; [exact (decay_derives (2 * (List.length (m_nodes (bt_mesh bt)))) rate u T RP)|]. split; [exact (decay_all_paced (2 * (List.length (m_nodes (bt_mesh bt)))) rate u T RP)|].
  exact (creep_decays (relaxing rate) _ _ P bt PR steady still 4 3 rate eq_refl RP u TU BU T).
Qed.
(* its runs exist, for every time step *)
Example C109_relaxing_runs : forall rate h, 0 < rate -> 0 < h -> exists bt d, construct (relaxing rate) = Ok bt /\
  step_solver (V:=R) (with_step (relaxing rate) h) bt QuasistaticRelaxation no_memory = Ok d /\ forall u0, exists d' (l : list (state unit)),
  relaxation_solve (b_dimension (bt_body bt)) (b_count (bt_body bt)) (start_positions bt)
    (MethodModel.iterate (integrate_forces (bt_mesh bt) (bt_basic bt)) (bt_body bt) QuasistaticRelaxation RelaxedSchur)
    (exact_answer (2 * (List.length (m_nodes (bt_mesh bt))))) 3 (fun _ => 0) u0 [1; 3]%Z [] d = (d', Ok l).
Proof.
  intros rate h RP HP. destruct (relaxing_constructs rate) as (bt & PR).
  destruct (relaxation_total (V:=R) (W:=unit) (with_step (relaxing rate) h) _ _ _ (posed_step _ _ _ _ h (relaxing_posed rate)) bt PR
    (exact_answer (2 * (List.length (m_nodes (bt_mesh bt))))) (fun p _ => steady p) (fun p _ => still p) 4 3 (fun _ => Ok (proportional rate 4 3)) (fun _ => proportional rate 4 3) no_memory 3 [1; 3]%Z
    (relaxing_loaded rate) eq_refl ltac:(lra) ltac:(lra) (relaxing_clamped rate) eq_refl (fun _ => eq_refl)
    (fun _ G => proportional_nonneg rate 4 3 G ltac:(lra) ltac:(lra) ltac:(lra)) HP (exact_exactly _ _) (exact_definite _ _) ltac:(cbn; lia) ltac:(discriminate)) as (d & S & H).
  exists bt, d. split; [exact PR|]. split; [exact S|]. intros u0. destruct (H (fun _ => 0) u0) as (d' & l & Q & _). exists d', l. exact Q.
Qed.
Print Assumptions C109_relaxing_runs.
