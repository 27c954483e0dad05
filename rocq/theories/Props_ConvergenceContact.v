(* C107: refining the time step with contact leads to the motion of the body with contact in continuous time. *)
From Coq Require Import Reals List Arith ZArith Bool String Lia Lra.
From Verif Require Import Common PyModel RVec LinAlg MeshModel MeshBuildModel MeshSpec NormalsModel
  FemModel FemSpec ContactModel ContactSpec SchurSpec StatementModel StatementSpec StateModel
  TimeModel TimeSpec MethodModel RunSpec RunProofs HistoryProofs OptimisationModel ContactRunSpec ContactRunWitness
  ProblemModel ProblemSpec ProblemTotal ProblemFinal ProblemWitness ProblemContactModel ProblemContactSpec ProblemContactFinal ProblemContactWitness ProblemContactExists
  ConvergenceSpec ConvergenceFinal ConvergenceWitness ConvergenceContactSpec ConvergenceContactFinal ConvergenceContactWitness.
Import ListNotations.
Local Open Scope string_scope.
Local Open Scope list_scope.
Local Open Scope R_scope.

(* every state of a run with the time step h, of either class of solver, differs by at most ka * h from the motion
   of the body with contact, with one ka for all time steps, minimisers, numbers of steps and output steps *)
Theorem C107_dynamic : forall pb ic id g bt fi fo T B L U V A th ze mu la law,
  (forall h, 0 < h -> contact_posed (with_step pb h) ic id g fi fo DynamicVelocity th ze mu la law) ->
  construct pb = Ok bt ->
  tame law ->
  0 <= T ->
  0 <= B ->
  0 <= L ->
  paced_load T L fi ->
  paced_load T L fo ->
  derives (2 * (List.length (m_nodes (bt_mesh bt)))) T U V ->
  paced (2 * (List.length (m_nodes (bt_mesh bt)))) T B U ->
  paced (2 * (List.length (m_nodes (bt_mesh bt)))) T B V ->
  derives (2 * (List.length (m_nodes (bt_mesh bt)))) T V A ->
  paced (2 * (List.length (m_nodes (bt_mesh bt)))) T B A ->
  true_contact pb bt id g fi fo DynamicVelocity th ze mu la law T U V A ->
  exists ka, 0 <= ka /\
    forall (V' W : Type) h minimise name maxiter n out given,
      0 < h ->
      (forall i, reliable (minimise (route_of name) i)) ->
      non_decreasing 0 (requested n out) ->
      (forall (m0 : store V') (d d' : driver V' (method forces)) (l : list (state W)),
        step_solver (with_step pb h) bt DynamicVelocity m0 = Ok d ->
        in_stock (d_mem d) given ->
        global_motion bt DynamicVelocity law minimise name maxiter n (U 0) (V 0) out given d = (d', Ok l) ->
        forall j (s : state W), nth_error l j = Some s -> view_time (look (d_mem d') s) <= T ->
          within (2 * (List.length (m_nodes (bt_mesh bt)))) (ka * h) U V (look (d_mem d') s)) /\
      (forall inv (m0 : store V') (d d' : driver V' (schur_method forces)) (l : list (state W)),
        inverts inv ->
        schur_step_solver (with_step pb h) bt DynamicVelocity inv m0 = Ok d ->
        in_stock (d_mem d) given ->
        schur_motion bt DynamicVelocity law minimise name maxiter n (U 0) (V 0) out given d = (d', Ok l) ->
        forall j (s : state W), nth_error l j = Some s -> view_time (look (d_mem d') s) <= T ->
          within (2 * (List.length (m_nodes (bt_mesh bt)))) (ka * h) U V (look (d_mem d') s)).
Proof.
  intros pb ic id g bt fi fo T B L U V A th ze mu la law CP PR TA T0 B0 L0 PI PF DU LU LV DV LA.
  exact (dynamic_contact_converges pb ic id g fi fo th ze mu la law bt PR T B L TA T0 B0 L0 PI PF U V A DU LU LV CP DV LA).
Qed.
Print Assumptions C107_dynamic.

(* without inertia the first velocity v0 does not matter; the state of time 0 holds the given one *)
Theorem C107_quasistatic : forall pb ic id g bt fi fo T B L U V A th ze mu la law,
  (forall h, 0 < h -> contact_posed (with_step pb h) ic id g fi fo QuasistaticVelocity th ze mu la law) ->
  construct pb = Ok bt ->
  tame law ->
  0 <= T ->
  0 <= B ->
  0 <= L ->
  paced_load T L fi ->
  paced_load T L fo ->
  derives (2 * (List.length (m_nodes (bt_mesh bt)))) T U V ->
  paced (2 * (List.length (m_nodes (bt_mesh bt)))) T B U ->
  paced (2 * (List.length (m_nodes (bt_mesh bt)))) T B V ->
  true_contact pb bt id g fi fo QuasistaticVelocity th ze mu la law T U V A ->
  exists ka, 0 <= ka /\
    forall (V' W : Type) h minimise name maxiter v0 n out given,
      0 < h ->
      (forall i, reliable (minimise (route_of name) i)) ->
      non_decreasing 0 (requested n out) ->
      (forall (m0 : store V') (d d' : driver V' (method forces)) (l : list (state W)),
        step_solver (with_step pb h) bt QuasistaticVelocity m0 = Ok d ->
        in_stock (d_mem d) given ->
        global_motion bt QuasistaticVelocity law minimise name maxiter n (U 0) v0 out given d = (d', Ok l) ->
        forall j (s : state W), nth_error l j = Some s -> 0 < view_time (look (d_mem d') s) <= T ->
          within (2 * (List.length (m_nodes (bt_mesh bt)))) (ka * h) U V (look (d_mem d') s)) /\
      (forall inv (m0 : store V') (d d' : driver V' (schur_method forces)) (l : list (state W)),
        inverts inv ->
        schur_step_solver (with_step pb h) bt QuasistaticVelocity inv m0 = Ok d ->
        in_stock (d_mem d) given ->
        schur_motion bt QuasistaticVelocity law minimise name maxiter n (U 0) v0 out given d = (d', Ok l) ->
        forall j (s : state W), nth_error l j = Some s -> 0 < view_time (look (d_mem d') s) <= T ->
          within (2 * (List.length (m_nodes (bt_mesh bt)))) (ka * h) U V (look (d_mem d') s)).
Proof.
  intros pb ic id g bt fi fo T B L U V A th ze mu la law CP PR TA T0 B0 L0 PI PF DU LU LV.
  exact (quasistatic_contact_converges pb ic id g fi fo th ze mu la law bt PR T B L TA T0 B0 L0 PI PF U V A DU LU LV CP).
Qed.
Print Assumptions C107_quasistatic.

(* the motion in continuous time is the only one that starts like it *)
Theorem C107_motion_unique : forall pb ic id g bt fi fo T B L U V A U' V' A' th ze mu la law,
  (forall h, 0 < h -> contact_posed (with_step pb h) ic id g fi fo DynamicVelocity th ze mu la law) ->
  construct pb = Ok bt ->
  tame law ->
  0 <= T ->
  0 <= B ->
  0 <= L ->
  paced_load T L fi ->
  paced_load T L fo ->
  derives (2 * (List.length (m_nodes (bt_mesh bt)))) T U V ->
  paced (2 * (List.length (m_nodes (bt_mesh bt)))) T B U ->
  paced (2 * (List.length (m_nodes (bt_mesh bt)))) T B V ->
  derives (2 * (List.length (m_nodes (bt_mesh bt)))) T V A ->
  paced (2 * (List.length (m_nodes (bt_mesh bt)))) T B A ->
  true_contact pb bt id g fi fo DynamicVelocity th ze mu la law T U V A ->
  derives (2 * (List.length (m_nodes (bt_mesh bt)))) T U' V' ->
  paced (2 * (List.length (m_nodes (bt_mesh bt)))) T B U' ->
  paced (2 * (List.length (m_nodes (bt_mesh bt)))) T B V' ->
  derives (2 * (List.length (m_nodes (bt_mesh bt)))) T V' A' ->
  paced (2 * (List.length (m_nodes (bt_mesh bt)))) T B A' ->
  true_contact pb bt id g fi fo DynamicVelocity th ze mu la law T U' V' A' ->
  veq (2 * (List.length (m_nodes (bt_mesh bt)))) (U 0) (U' 0) ->
  veq (2 * (List.length (m_nodes (bt_mesh bt)))) (V 0) (V' 0) ->
  forall t, 0 <= t <= T -> veq (2 * (List.length (m_nodes (bt_mesh bt)))) (U t) (U' t) /\ veq (2 * (List.length (m_nodes (bt_mesh bt)))) (V t) (V' t).
Proof.
  intros pb ic id g bt fi fo T B L U V A U' V' A' th ze mu la law CP PR TA T0 B0 L0 PI PF DU LU LV DV LA TM DU' LU' LV' DV' LA'.
  exact (slide_one pb ic id g fi fo th ze mu la law bt PR T B L TA T0 B0 L0 PI PF U V A U' V' A' DU LU LV DU' LU' LV' CP DV LA TM DV' LA').
Qed.
Print Assumptions C107_motion_unique.

(* without inertia the displacement at the start decides *)
Theorem C107_flow_unique : forall pb ic id g bt fi fo T B L U V A U' V' A' th ze mu la law,
  (forall h, 0 < h -> contact_posed (with_step pb h) ic id g fi fo QuasistaticVelocity th ze mu la law) ->
  construct pb = Ok bt ->
  tame law ->
  0 <= T ->
  0 <= B ->
  0 <= L ->
  paced_load T L fi ->
  paced_load T L fo ->
  derives (2 * (List.length (m_nodes (bt_mesh bt)))) T U V ->
  paced (2 * (List.length (m_nodes (bt_mesh bt)))) T B U ->
  paced (2 * (List.length (m_nodes (bt_mesh bt)))) T B V ->
  true_contact pb bt id g fi fo QuasistaticVelocity th ze mu la law T U V A ->
  derives (2 * (List.length (m_nodes (bt_mesh bt)))) T U' V' ->
  paced (2 * (List.length (m_nodes (bt_mesh bt)))) T B U' ->
  paced (2 * (List.length (m_nodes (bt_mesh bt)))) T B V' ->
  true_contact pb bt id g fi fo QuasistaticVelocity th ze mu la law T U' V' A' ->
  veq (2 * (List.length (m_nodes (bt_mesh bt)))) (U 0) (U' 0) ->
  forall t, 0 < t <= T -> veq (2 * (List.length (m_nodes (bt_mesh bt)))) (U t) (U' t) /\ veq (2 * (List.length (m_nodes (bt_mesh bt)))) (V t) (V' t).
Proof.
  intros pb ic id g bt fi fo T B L U V A U' V' A' th ze mu la law CP PR TA T0 B0 L0 PI PF DU LU LV TM DU' LU' LV'.
  exact (drag_one pb ic id g fi fo th ze mu la law bt PR T B L TA T0 B0 L0 PI PF U V A U' V' A' DU LU LV DU' LU' LV' CP TM).
Qed.
Print Assumptions C107_flow_unique.

(* the motions in steps that runs follow exist whatever the minimiser, for every number of steps and every start *)
Theorem C107_steps_exist : forall pb ic id g fi fo k th ze mu la law bt density u0 v0 n,
  contact_posed pb ic id g fi fo k th ze mu la law ->
  prepared pb bt density ->
  positive_density density ->
  velocity_kind k ->
  exists u v, posed_motion pb bt density id g fi fo k th ze mu la law u0 v0 n u v.
Proof. intros pb ic id g fi fo k th ze mu la law bt density u0 v0 n CP PR D M. exact (motion_exists pb ic id g fi fo k th ze mu la law CP bt density PR D M u0 v0 n). Qed.
Print Assumptions C107_steps_exist.

(* laws of the library *)
Theorem C107_slope_tame : forall slope, tame (make_slope_contact_law slope).
Proof. exact slope_tame. Qed.
Print Assumptions C107_slope_tame.
Theorem C107_const_tame : forall resistance, tame (make_const_contact_law resistance).
Proof. exact const_tame. Qed.
Print Assumptions C107_const_tame.
(* the law of damped normal compliance jumps at the obstacle *)
Theorem C107_damped_refuted : forall level kappa beta, 0 <= kappa -> 0 < beta -> ~ tame (make_damped_norm_compl level kappa beta).
Proof. exact damped_not_tame. Qed.
Print Assumptions C107_damped_refuted.

(* a body that falls along the obstacle x = 1, whose law depends on the displacement: hypotheses of C107_dynamic and C107_motion_unique *)
Example C107_fall : exists bt, construct (fall_problem (fun t => t)) = Ok bt /\
  (forall h, 0 < h -> contact_posed (with_step (fall_problem (fun t => t)) h) (on_line 1) never (fun _ => 0) (drag (fun t => t)) calm DynamicVelocity 1 2 4 3 cushion) /\
  tame cushion /\ paced_load 1 2 (drag (fun t => t)) /\ paced_load 1 2 calm /\
  derives (2 * (List.length (m_nodes (bt_mesh bt)))) 1 (fun t => alike_all bt (t ^ 3 / 6)) (fun t => alike_all bt (t ^ 2 / 2)) /\
  derives (2 * (List.length (m_nodes (bt_mesh bt)))) 1 (fun t => alike_all bt (t ^ 2 / 2)) (fun t => alike_all bt t) /\
  paced (2 * (List.length (m_nodes (bt_mesh bt)))) 1 1 (fun t => alike_all bt (t ^ 3 / 6)) /\ paced (2 * (List.length (m_nodes (bt_mesh bt)))) 1 1 (fun t => alike_all bt (t ^ 2 / 2)) /\ paced (2 * (List.length (m_nodes (bt_mesh bt)))) 1 1 (fun t => alike_all bt t) /\
  true_contact (fall_problem (fun t => t)) bt never (fun _ => 0) (drag (fun t => t)) calm DynamicVelocity 1 2 4 3 cushion 1
    (fun t => alike_all bt (t ^ 3 / 6)) (fun t => alike_all bt (t ^ 2 / 2)) (fun t => alike_all bt t) /\
  ~ veq (2 * (List.length (m_nodes (bt_mesh bt)))) (alike_all bt (1 ^ 3 / 6)) (fun _ => 0).
Proof.
  destruct (fall_constructs (fun t => t)) as (bt & PR). exists bt. split; [exact PR|]. split; [apply fall_contact|]. split; [exact cushion_tame|].
  split; [intros p k s t S T; unfold drag, down; destruct (k =? 1)%nat; unfold Rabs; destruct Rcase_abs; lra|].
  split; [intros p k s t S T; unfold calm; unfold Rabs; destruct Rcase_abs; lra|].
  split; [apply fall_derives; intros t _; apply cube_slope|]. split; [apply fall_derives; intros t _; apply square_slope|].
  split; [apply fall_paced; [lra|]; intros s t S T; rewrite <- Rabs_Ropp; apply Rabs_le; assert (0 <= s * t <= 1) by nra; assert (0 <= s * s <= 1) by nra; assert (0 <= t * t <= 1) by nra; replace (s ^ 3) with (s * (s * s)) by ring; nra|].
  split; [apply fall_paced; [lra|]; intros s t S T; rewrite <- Rabs_Ropp; apply Rabs_le; nra|].
  split; [apply fall_paced; [lra|]; intros s t S T; unfold Rabs; destruct Rcase_abs; lra|].
  split; [apply (fall_slides (fun t => t) bt PR 1 (fun t => t ^ 2 / 2) (fun t => t ^ 3 / 6))|].
  intros H. assert (NP := fall_nodes (fun t => t) bt PR). specialize (H (List.length (m_nodes (bt_mesh bt))) ltac:(lia)). unfold alike_all, down in H. rewrite Nat.div_same in H by lia. cbn in H. lra.
Qed.
(* a body carried away from the obstacle: hypotheses of C107_quasistatic and C107_flow_unique *)
Example C107_leaving : forall T, 0 <= T -> exists bt, construct leaving = Ok bt /\
  (forall h, 0 < h -> contact_posed (with_step leaving h) (on_line 1) (on_line 0) (fun _ => -1) calm calm QuasistaticVelocity 1 2 4 3 cushion) /\
  tame cushion /\ paced_load T 0 calm /\ derives (2 * (List.length (m_nodes (bt_mesh bt)))) T (fun t _ => - t) (fun _ _ => -1) /\ paced (2 * (List.length (m_nodes (bt_mesh bt)))) T 1 (fun t _ => - t) /\ paced (2 * (List.length (m_nodes (bt_mesh bt)))) T 1 (fun _ _ => -1) /\
  true_contact leaving bt (on_line 0) (fun _ => -1) calm calm QuasistaticVelocity 1 2 4 3 cushion T (fun t _ => - t) (fun _ _ => -1) (fun _ _ => 0).
Proof.
  intros T T0. destruct (bench_constructs calm calm (fun _ => -1)) as (bt & PR). exists bt. split; [exact PR|]. split; [intros h HP; apply leaving_contact; auto|].
  split; [exact cushion_tame|]. split; [intros p k s t _ _; unfold calm; rewrite Rmult_0_l, Rminus_diag_eq, Rabs_R0 by reflexivity; lra|].
  split; [intros i t _ _; apply derivable_pt_lim_opp with (l := 1), derivable_pt_lim_id|].
  split; [intros i s t _ S1 S2; unfold Rabs; destruct Rcase_abs; lra|].
  split; [intros i s t _ S1 S2; rewrite Rminus_diag_eq, Rabs_R0 by reflexivity; lra|].
  apply leaving_true; auto.
Qed.
(* runs of both bodies, for every time step *)
Example C107_runs : forall h, 0 < h -> exists find, reliable find /\ exists bt d d' (l : list (state unit)), construct (fall_problem (fun t => t)) = Ok bt /\
  step_solver (V:=R) (with_step (fall_problem (fun t => t)) h) bt DynamicVelocity no_memory = Ok d /\
  global_motion bt DynamicVelocity cushion (fun _ _ => find) "BFGS" None 3 (alike_all bt 0) (alike_all bt 0) [1; 3]%Z [] d = (d', Ok l).
Proof.
  intros h HP. destruct minimiser as (find & RF). exists find. split; [exact RF|]. destruct (fall_constructs (fun t => t)) as (bt & PR). exists bt.
  destruct (global_goes_final (V := R) (W := unit) _ _ _ _ _ _ _ _ _ _ _ _ (fall_contact (fun t => t) h HP) bt None (every_prepared (fall_problem (fun t => t)) bt PR h) Logic.I (fun _ _ => find) "BFGS" None (fun _ => RF) 3 [1; 3]%Z
    Logic.I ltac:(cbn; lia) ltac:(discriminate) no_memory) as (d & S & G).
  destruct (G (alike_all bt 0) (alike_all bt 0)) as (d' & l & H). exists d, d', l. auto.
Qed.
