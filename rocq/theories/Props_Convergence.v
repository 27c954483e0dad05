(* C106: refining the time step leads to the motion of the body in continuous time. *)
From Coq Require Import Reals List Arith ZArith Bool String Lia Lra.
From Verif Require Import Common PyModel RVec LinAlg MeshModel MeshBuildModel MeshSpec NormalsModel
  FemModel FemSpec ForcesModel StatementModel StatementSpec StateModel RegistryModel
  TimeModel TimeSpec MethodModel RunSpec RunProofs HistoryProofs ProblemModel ProblemSpec ProblemTotal ProblemFinal ProblemWitness
  ConvergenceSpec ConvergenceFinal ConvergenceUnique ConvergenceWitness.
Import ListNotations.
Local Open Scope list_scope.
Local Open Scope R_scope.

(* every state of a run with the time step h differs by at most ka * h from the motion of the body, with one ka for all
   time steps, step solvers, numbers of steps and output steps *)
Theorem C106_dynamic : forall pb ic id g bt fi fo T B L U V A th ze mu la,
  posed pb ic id g ->
  construct pb = Ok bt ->
  loaded pb 2 fi fo ->
  elastic (pr_material pb) = Some (mu, la) ->
  viscous (pr_material pb) = Some (th, ze) ->
  0 < mass_density (pr_material pb) ->
  0 <= mu ->
  0 <= la ->
  0 <= th ->
  0 <= ze ->
  0 <= T ->
  0 <= B ->
  0 <= L ->
  paced_load T L fi ->
  paced_load T L fo ->
  derives (2 * (List.length (m_nodes (bt_mesh bt)))) T U V ->
  derives (2 * (List.length (m_nodes (bt_mesh bt)))) T V A ->
  paced (2 * (List.length (m_nodes (bt_mesh bt)))) T B V ->
  paced (2 * (List.length (m_nodes (bt_mesh bt)))) T B A ->
  true_motion (bt_mesh bt) id g fi fo T (mass_density (pr_material pb)) th ze mu la U V A ->
  exists ka, 0 <= ka /\
    forall (V' W : Type) h (answer : method forces -> vec -> vec -> vec -> R -> result (nat * vec)) cls (m0 : store V') (d d' : driver V' (method forces)) n out given (l : list (state W)),
      0 < h ->
      answers_exactly (2 * (List.length (m_nodes (bt_mesh bt)))) answer ->
      cls = DynamicGlobal \/ cls = DynamicSchur ->
      step_solver (with_step pb h) bt DynamicVelocity m0 = Ok d ->
      in_stock (d_mem d) given ->
      non_decreasing 0 (requested n out) ->
      dynamic_solve (b_dimension (bt_body bt)) (b_count (bt_body bt)) (start_positions bt)
        (MethodModel.iterate (integrate_forces (bt_mesh bt) (bt_basic bt)) (bt_body bt) DynamicVelocity cls) answer n (U 0) (V 0) out given d = (d', Ok l) ->
      forall j (s : state W), nth_error l j = Some s -> view_time (look (d_mem d') s) <= T ->
        within (2 * (List.length (m_nodes (bt_mesh bt)))) (ka * h) U V (look (d_mem d') s).
Proof. intros pb ic id g bt fi fo T B L U V A th ze mu la PO PR. exact (dynamic_converges pb ic id g PO bt PR fi fo T B L U V A th ze mu la). Qed.
Print Assumptions C106_dynamic.

(* without inertia the first velocity v0 does not matter; the state of time 0 holds the given one *)
Theorem C106_quasistatic : forall pb ic id g bt fi fo T B L U V th ze mu la,
  posed pb ic id g ->
  construct pb = Ok bt ->
  loaded pb 2 fi fo ->
  elastic (pr_material pb) = Some (mu, la) ->
  viscous (pr_material pb) = Some (th, ze) ->
  clamped_mesh pb id ->
  0 <= mu ->
  0 <= la ->
  0 < th ->
  0 <= ze ->
  0 <= T ->
  0 <= B ->
  0 <= L ->
  paced_load T L fi ->
  paced_load T L fo ->
  derives (2 * (List.length (m_nodes (bt_mesh bt)))) T U V ->
  paced (2 * (List.length (m_nodes (bt_mesh bt)))) T B V ->
  true_flow (bt_mesh bt) id g fi fo T th ze mu la U V ->
  exists ka, 0 <= ka /\
    forall (V' W : Type) h (answer : method forces -> vec -> vec -> vec -> R -> result (nat * vec)) cls v0 (m0 : store V') (d d' : driver V' (method forces)) n out given (l : list (state W)),
      0 < h ->
      answers_exactly (2 * (List.length (m_nodes (bt_mesh bt)))) answer ->
      cls = QuasistaticGlobal \/ cls = QuasistaticSchur ->
      step_solver (with_step pb h) bt QuasistaticVelocity m0 = Ok d ->
      in_stock (d_mem d) given ->
      non_decreasing 0 (requested n out) ->
      dynamic_solve (b_dimension (bt_body bt)) (b_count (bt_body bt)) (start_positions bt)
        (MethodModel.iterate (integrate_forces (bt_mesh bt) (bt_basic bt)) (bt_body bt) QuasistaticVelocity cls) answer n (U 0) v0 out given d = (d', Ok l) ->
      forall j (s : state W), nth_error l j = Some s -> 0 < view_time (look (d_mem d') s) <= T ->
        within (2 * (List.length (m_nodes (bt_mesh bt)))) (ka * h) U V (look (d_mem d') s).
Proof. intros pb ic id g bt fi fo T B L U V th ze mu la PO PR. exact (quasistatic_converges pb ic id g PO bt PR fi fo T B L U V th ze mu la). Qed.
Print Assumptions C106_quasistatic.

Theorem C106_wave : forall pb ic id g bt fi fo T B L U V A c,
  posed pb ic id g ->
  construct pb = Ok bt ->
  loaded pb 1 fi fo ->
  membrane (pr_material pb) = Some c ->
  0 < mass_density (pr_material pb) ->
  0 <= T ->
  0 <= B ->
  0 <= L ->
  paced_load T L fi ->
  paced_load T L fo ->
  derives (List.length (m_nodes (bt_mesh bt))) T U V ->
  derives (List.length (m_nodes (bt_mesh bt))) T V A ->
  paced (List.length (m_nodes (bt_mesh bt))) T B V ->
  paced (List.length (m_nodes (bt_mesh bt))) T B A ->
  true_swing (bt_mesh bt) id g fi fo T (mass_density (pr_material pb)) c U V A ->
  exists ka, 0 <= ka /\
    forall (V' W : Type) h (answer : method forces -> vec -> vec -> vec -> R -> result (nat * vec)) cls (m0 : store V') (d d' : driver V' (method forces)) n out given s0 (l : list (state W)),
      0 < h ->
      answers_exactly (List.length (m_nodes (bt_mesh bt))) answer ->
      cls = DynamicGlobal \/ cls = DynamicSchur ->
      step_solver (with_step pb h) bt Wave m0 = Ok d ->
      in_stock (d_mem d) given ->
      non_decreasing 0 (requested n out) ->
      wave_solve (b_dimension (bt_body bt)) (b_count (bt_body bt)) (start_positions bt)
        (MethodModel.iterate (integrate_forces (bt_mesh bt) (bt_basic bt)) (bt_body bt) Wave cls) answer n (U 0) (V 0) None out given d = (d', s0, Ok l) ->
      forall j (s : state W), nth_error l j = Some s -> view_time (look (d_mem d') s) <= T ->
        within (List.length (m_nodes (bt_mesh bt))) (ka * h) U V (look (d_mem d') s).
Proof. intros pb ic id g bt fi fo T B L U V A c PO PR. exact (wave_converges pb ic id g PO bt PR fi fo T B L U V A c). Qed.
Print Assumptions C106_wave.

(* a body has one motion in continuous time *)
Theorem C106_motion_unique : forall pb ic id g bt fi fo T B L U V A U' V' A' th ze mu la,
  posed pb ic id g ->
  construct pb = Ok bt ->
  loaded pb 2 fi fo ->
  elastic (pr_material pb) = Some (mu, la) ->
  viscous (pr_material pb) = Some (th, ze) ->
  0 < mass_density (pr_material pb) ->
  0 <= mu ->
  0 <= la ->
  0 <= th ->
  0 <= ze ->
  0 <= T ->
  0 <= B ->
  0 <= L ->
  paced_load T L fi ->
  paced_load T L fo ->
  derives (2 * (List.length (m_nodes (bt_mesh bt)))) T U V ->
  derives (2 * (List.length (m_nodes (bt_mesh bt)))) T V A ->
  paced (2 * (List.length (m_nodes (bt_mesh bt)))) T B V ->
  paced (2 * (List.length (m_nodes (bt_mesh bt)))) T B A ->
  true_motion (bt_mesh bt) id g fi fo T (mass_density (pr_material pb)) th ze mu la U V A ->
  derives (2 * (List.length (m_nodes (bt_mesh bt)))) T U' V' ->
  derives (2 * (List.length (m_nodes (bt_mesh bt)))) T V' A' ->
  paced (2 * (List.length (m_nodes (bt_mesh bt)))) T B V' ->
  paced (2 * (List.length (m_nodes (bt_mesh bt)))) T B A' ->
  true_motion (bt_mesh bt) id g fi fo T (mass_density (pr_material pb)) th ze mu la U' V' A' ->
  veq (2 * (List.length (m_nodes (bt_mesh bt)))) (U 0) (U' 0) ->
  veq (2 * (List.length (m_nodes (bt_mesh bt)))) (V 0) (V' 0) ->
  forall t, 0 <= t <= T -> veq (2 * (List.length (m_nodes (bt_mesh bt)))) (U t) (U' t) /\ veq (2 * (List.length (m_nodes (bt_mesh bt)))) (V t) (V' t).
Proof. intros pb ic id g bt fi fo T B L U V A U' V' A' th ze mu la PO PR. exact (motion_one pb ic id g PO bt PR fi fo T B L U V A U' V' A' th ze mu la). Qed.
Print Assumptions C106_motion_unique.

Theorem C106_flow_unique : forall pb ic id g bt fi fo T B L U V U' V' th ze mu la,
  posed pb ic id g ->
  construct pb = Ok bt ->
  loaded pb 2 fi fo ->
  elastic (pr_material pb) = Some (mu, la) ->
  viscous (pr_material pb) = Some (th, ze) ->
  clamped_mesh pb id ->
  0 <= mu ->
  0 <= la ->
  0 < th ->
  0 <= ze ->
  0 <= T ->
  0 <= B ->
  0 <= L ->
  paced_load T L fi ->
  paced_load T L fo ->
  derives (2 * (List.length (m_nodes (bt_mesh bt)))) T U V ->
  paced (2 * (List.length (m_nodes (bt_mesh bt)))) T B V ->
  true_flow (bt_mesh bt) id g fi fo T th ze mu la U V ->
  derives (2 * (List.length (m_nodes (bt_mesh bt)))) T U' V' ->
  paced (2 * (List.length (m_nodes (bt_mesh bt)))) T B V' ->
  true_flow (bt_mesh bt) id g fi fo T th ze mu la U' V' ->
  veq (2 * (List.length (m_nodes (bt_mesh bt)))) (U 0) (U' 0) ->
  forall t, 0 < t <= T -> veq (2 * (List.length (m_nodes (bt_mesh bt)))) (U t) (U' t) /\ veq (2 * (List.length (m_nodes (bt_mesh bt)))) (V t) (V' t).
Proof. intros pb ic id g bt fi fo T B L U V U' V' th ze mu la PO PR. exact (flow_one pb ic id g PO bt PR fi fo T B L U V U' V' th ze mu la). Qed.
Print Assumptions C106_flow_unique.

Theorem C106_swing_unique : forall pb ic id g bt fi fo T B L U V A U' V' A' c,
  posed pb ic id g ->
  construct pb = Ok bt ->
  loaded pb 1 fi fo ->
  membrane (pr_material pb) = Some c ->
  0 < mass_density (pr_material pb) ->
  0 <= T ->
  0 <= B ->
  0 <= L ->
  paced_load T L fi ->
  paced_load T L fo ->
  derives (List.length (m_nodes (bt_mesh bt))) T U V ->
  derives (List.length (m_nodes (bt_mesh bt))) T V A ->
  paced (List.length (m_nodes (bt_mesh bt))) T B V ->
  paced (List.length (m_nodes (bt_mesh bt))) T B A ->
  true_swing (bt_mesh bt) id g fi fo T (mass_density (pr_material pb)) c U V A ->
  derives (List.length (m_nodes (bt_mesh bt))) T U' V' ->
  derives (List.length (m_nodes (bt_mesh bt))) T V' A' ->
  paced (List.length (m_nodes (bt_mesh bt))) T B V' ->
  paced (List.length (m_nodes (bt_mesh bt))) T B A' ->
  true_swing (bt_mesh bt) id g fi fo T (mass_density (pr_material pb)) c U' V' A' ->
  veq (List.length (m_nodes (bt_mesh bt))) (U 0) (U' 0) ->
  veq (List.length (m_nodes (bt_mesh bt))) (V 0) (V' 0) ->
  forall t, 0 <= t <= T -> veq (List.length (m_nodes (bt_mesh bt))) (U t) (U' t) /\ veq (List.length (m_nodes (bt_mesh bt))) (V t) (V' t).
Proof. intros pb ic id g bt fi fo T B L U V A U' V' A' c PO PR. exact (swing_one pb ic id g PO bt PR fi fo T B L U V A U' V' A' c). Qed.
Print Assumptions C106_swing_unique.

(* the order is not higher than one: under a constant force, from rest, every displacement of the body that nothing
   holds is h / 2 * t larger than the true t^2 / 2 *)
Theorem C106_order_refuted : forall bt, construct (fall_problem (fun _ => 1)) = Ok bt ->
  forall (V' W : Type) h (answer : method forces -> vec -> vec -> vec -> R -> result (nat * vec)) cls (m0 : store V') (d d' : driver V' (method forces)) n out given (l : list (state W)),
  0 < h ->
  answers_exactly (2 * (List.length (m_nodes (bt_mesh bt)))) answer ->
  cls = DynamicGlobal \/ cls = DynamicSchur ->
  step_solver (with_step (fall_problem (fun _ => 1)) h) bt DynamicVelocity m0 = Ok d ->
  in_stock (d_mem d) given ->
  non_decreasing 0 (requested n out) ->
  dynamic_solve (b_dimension (bt_body bt)) (b_count (bt_body bt)) (start_positions bt)
        (MethodModel.iterate (integrate_forces (bt_mesh bt) (bt_basic bt)) (bt_body bt) DynamicVelocity cls) answer n (alike_all bt 0) (alike_all bt 0) out given d = (d', Ok l) ->
  forall j (s : state W) i, nth_error l j = Some s -> ((List.length (m_nodes (bt_mesh bt))) <= i < 2 * (List.length (m_nodes (bt_mesh bt))))%nat ->
    view_displacement (look (d_mem d') s) i = (view_time (look (d_mem d') s)) ^ 2 / 2 + h / 2 * view_time (look (d_mem d') s).
Proof. exact @fall_lag. Qed.
Print Assumptions C106_order_refuted.

(* --- concrete cases --- *)
(* a body that nothing holds, whose weight grows with the time: all hypotheses of C106_dynamic *)
Example C106_fall : exists bt, construct (fall_problem (fun t => t)) = Ok bt /\ posed (fall_problem (fun t => t)) (on_line 1) never (fun _ => 0) /\
  loaded (fall_problem (fun t => t)) 2 (drag (fun t => t)) calm /\ paced_load 1 2 (drag (fun t => t)) /\ paced_load 1 2 calm /\
  derives (2 * (List.length (m_nodes (bt_mesh bt)))) 1 (fun t => alike_all bt (t ^ 3 / 6)) (fun t => alike_all bt (t ^ 2 / 2)) /\
  derives (2 * (List.length (m_nodes (bt_mesh bt)))) 1 (fun t => alike_all bt (t ^ 2 / 2)) (fun t => alike_all bt t) /\
  paced (2 * (List.length (m_nodes (bt_mesh bt)))) 1 1 (fun t => alike_all bt (t ^ 2 / 2)) /\ paced (2 * (List.length (m_nodes (bt_mesh bt)))) 1 1 (fun t => alike_all bt t) /\
  true_motion (bt_mesh bt) never (fun _ => 0) (drag (fun t => t)) calm 1 2 1 2 4 3 (fun t => alike_all bt (t ^ 3 / 6)) (fun t => alike_all bt (t ^ 2 / 2)) (fun t => alike_all bt t) /\
  ~ veq (2 * (List.length (m_nodes (bt_mesh bt)))) (alike_all bt (1 ^ 3 / 6)) (fun _ => 0).
Proof.
  destruct (fall_constructs (fun t => t)) as (bt & PR). exists bt. split; [exact PR|]. split; [apply fall_posed|]. split; [apply fall_loaded|].
  split; [intros p k s t S T; unfold drag, down; destruct (k =? 1)%nat; unfold Rabs; destruct Rcase_abs; lra|].
  split; [intros p k s t S T; unfold calm; unfold Rabs; destruct Rcase_abs; lra|].
  split; [apply fall_derives; intros t _; apply cube_slope|]. split; [apply fall_derives; intros t _; apply square_slope|].
  split; [apply fall_paced; [lra|]; intros s t S T; rewrite <- Rabs_Ropp; apply Rabs_le; nra|].
  split; [apply fall_paced; [lra|]; intros s t S T; unfold Rabs; destruct Rcase_abs; lra|].
  split; [apply (fall_true (fun t => t) bt PR 1 (fun t => t ^ 2 / 2) (fun t => t ^ 3 / 6))|].
  intros H. assert (NP := fall_nodes (fun t => t) bt PR). specialize (H (List.length (m_nodes (bt_mesh bt))) ltac:(lia)). unfold alike_all, down in H. rewrite Nat.div_same in H by lia. cbn in H. lra.
Qed.
(* ... and of its runs, for every time step *)
Example C106_fall_runs : forall h, 0 < h -> exists bt d, construct (fall_problem (fun _ => 1)) = Ok bt /\
  step_solver (V:=R) (with_step (fall_problem (fun _ => 1)) h) bt DynamicVelocity no_memory = Ok d /\ exists d' (l : list (state unit)),
  dynamic_solve (b_dimension (bt_body bt)) (b_count (bt_body bt)) (start_positions bt)
    (MethodModel.iterate (integrate_forces (bt_mesh bt) (bt_basic bt)) (bt_body bt) DynamicVelocity DynamicSchur)
    (exact_answer (2 * (List.length (m_nodes (bt_mesh bt))))) 3 (alike_all bt 0) (alike_all bt 0) [1; 3]%Z [] d = (d', Ok l).
Proof.
  intros h HP. destruct (fall_constructs (fun _ => 1)) as (bt & E).
  edestruct (dynamic_total (V:=R) (W:=unit) (with_step (fall_problem (fun _ => 1)) h) _ _ _ (posed_step _ _ _ _ h (fall_posed _)) bt E
    (exact_answer (2 * (List.length (m_nodes (bt_mesh bt))))) (drag (fun _ => 1)) calm DynamicSchur 1 2 4 3 no_memory 3 [1; 3]%Z) as (d & S & H);
    [apply fall_loaded|reflexivity|reflexivity|cbn; lra|lra|lra|lra|lra|exact HP|apply exact_exactly|apply exact_definite|auto|cbn; lia|discriminate|].
  exists bt, d. split; [exact E|]. split; [exact S|]. destruct (H (alike_all bt 0) (alike_all bt 0)) as (d' & l & Q & _). exists d', l. exact Q.
Qed.
(* a body and a membrane carried by their clamped side: hypotheses of C106_quasistatic and C106_wave *)
Example C106_carried : forall w T, 0 <= T -> exists bt, construct (carried_problem w) = Ok bt /\ posed (carried_problem w) (on_line 1) (on_line 0) (fun _ => 1) /\
  loaded (carried_problem w) w calm calm /\ clamped_mesh (carried_problem w) (on_line 0) /\ paced_load T 0 calm /\
  derives (2 * (List.length (m_nodes (bt_mesh bt)))) T (fun t _ => t) (fun _ _ => 1) /\ paced (2 * (List.length (m_nodes (bt_mesh bt)))) T 0 (fun _ _ => 1) /\
  derives (List.length (m_nodes (bt_mesh bt))) T (fun _ _ => 1) (fun _ _ => 0) /\ paced (List.length (m_nodes (bt_mesh bt))) T 0 (fun _ _ => 0) /\
  true_flow (bt_mesh bt) (on_line 0) (fun _ => 1) calm calm T 1 2 4 3 (fun t _ => t) (fun _ _ => 1) /\
  true_swing (bt_mesh bt) (on_line 0) (fun _ => 1) calm calm T 2 5 (fun t _ => t) (fun _ _ => 1) (fun _ _ => 0).
Proof.
  intros w T T0. destruct (carried_constructs w) as (bt & PR). exists bt. split; [exact PR|]. split; [apply carried_posed|]. split; [apply carried_loaded|].
  split; [apply carried_clamped|].
  assert (C : forall x : R, Rabs (x - x) <= 0) by (intros x; rewrite Rminus_diag_eq, Rabs_R0 by reflexivity; lra).
  split; [intros p k s t _ _; rewrite Rmult_0_l; apply C|]. split; [intros i t _ _; apply derivable_pt_lim_id|].
  split; [intros i s t _ _ _; rewrite Rmult_0_l; apply C|]. split; [intros i t _ _; apply derivable_pt_lim_const|].
  split; [intros i s t _ _ _; rewrite Rmult_0_l; apply C|].
  split; [exact (carried_flow w bt PR T)|exact (carried_swing w bt PR T)].
Qed.
