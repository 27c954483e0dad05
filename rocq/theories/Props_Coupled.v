(* C104: runs of problems with a temperature or an electric potential. *)
From Coq Require Import Reals List Arith ZArith Bool String Lia Lra.
From Verif Require Import Common PyModel RVec LinAlg MeshModel MeshBuildModel MeshSpec NormalsModel FemModel FemSpec ForcesModel ForcesSpec
  DirichletModel DirichletSpec StatementModel StatementSpec StatementValueProofs RegistryModel RegistrySpec RegistryProofs DispatchProofs
  StateModel StateLemmas CopyProofs TimeModel TimeSpec TimeProofs RunProofs HistoryProofs SolveProofs MarchProofs MethodModel MethodProofs
  RunSpec RunStable WholeRunProofs RunTheorems
  ProblemModel ProblemSpec ProblemProofs ProblemTheorems ProblemUnique ProblemTotal ProblemDefaults ProblemFinal ProblemWitness
  CoupledMethodModel CoupledSpec CoupledProblemSpec CoupledProblemFinal CoupledResidual CoupledWitness.
Import ListNotations.
Local Open Scope string_scope.
Local Open Scope list_scope.
Local Open Scope R_scope.

(* heated bodies *)
Theorem C104_heated : forall {V W} pb ic id g bt (answer second_answer : method forces -> vec -> vec -> vec -> R -> result (nat * vec)) fi fo name cls th ze mu la ex co (m0 mm : store V) s1 s2 n u0 v0 e0 out w' (l : list (state W)),
  posed pb ic id g ->
  construct pb = Ok bt ->
  loaded pb 2 fi fo ->
  elastic (pr_material pb) = Some (mu, la) ->
  viscous (pr_material pb) = Some (th, ze) ->
  thermal (pr_material pb) = Some (ex, co) ->
  time_step_of pb <> 0 ->
  answers_exactly (2 * (List.length (m_nodes (bt_mesh bt)))) answer ->
  answers_exactly (List.length (m_nodes (bt_mesh bt))) second_answer ->
  get_by_name installed name (mro TemperatureDynamicProblem) = Ok cls ->
  coupled_solvers pb bt DynamicVelocityWithTemperature Temperature m0 = Ok (mm, s1, s2) ->
  non_decreasing 0 (requested n out) ->
  coupled_run bt true DynamicVelocityWithTemperature Temperature cls
    answer second_answer n u0 v0 e0 out mm s1 s2 = Some (w', Ok l) ->
  exists u v e,
  heated_motion (bt_mesh bt) id g (mass_density (pr_material pb)) th ze mu la ex co fi fo (time_step_of pb) u0 v0 e0 (TimeTheorems.last_step n out) u v e /\
  List.length l = List.length (requested n out) /\
  forall j q (s : state W), nth_error (requested n out) j = Some q -> nth_error l j = Some s ->
    shows_coupled (time_step_of pb) u v e (Z.to_nat q) (look (p_mem w') s) (map (StateModel.load (p_mem w')) (extra_refs (extra s))).
Proof. intros V W pb ic id g bt answer second_answer fi fo name cls th ze mu la ex co m0 mm s1 s2 n u0 v0 e0 out w' l. exact (fun PO PR => heated_final pb ic id g PO bt PR answer second_answer fi fo name cls  th ze mu la ex co m0 mm s1 s2 n u0 v0 e0 out w' l). Qed.
Print Assumptions C104_heated.

(* with the class Direct *)
Theorem C104_heated_direct : forall {V W} pb ic id g bt linsolve fi fo th ze mu la ex co (m0 mm : store V) s1 s2 n u0 v0 e0 out w' (l : list (state W)),
  posed pb ic id g ->
  construct pb = Ok bt ->
  loaded pb 2 fi fo ->
  elastic (pr_material pb) = Some (mu, la) ->
  viscous (pr_material pb) = Some (th, ze) ->
  thermal (pr_material pb) = Some (ex, co) ->
  time_step_of pb <> 0 ->
  (forall n A r x, linsolve n A r = Ok x -> solves n A r x) ->
  coupled_solvers pb bt DynamicVelocityWithTemperature Temperature m0 = Ok (mm, s1, s2) ->
  non_decreasing 0 (requested n out) ->
  coupled_run bt true DynamicVelocityWithTemperature Temperature Direct
    (direct_answer (bt_body bt) DynamicVelocityWithTemperature linsolve) (second_direct_answer (bt_body bt) Temperature linsolve) n u0 v0 e0 out mm s1 s2 = Some (w', Ok l) ->
  exists u v e,
  heated_motion (bt_mesh bt) id g (mass_density (pr_material pb)) th ze mu la ex co fi fo (time_step_of pb) u0 v0 e0 (TimeTheorems.last_step n out) u v e /\
  List.length l = List.length (requested n out) /\
  forall j q (s : state W), nth_error (requested n out) j = Some q -> nth_error l j = Some s ->
    shows_coupled (time_step_of pb) u v e (Z.to_nat q) (look (p_mem w') s) (map (StateModel.load (p_mem w')) (extra_refs (extra s))).
Proof. intros V W pb ic id g bt linsolve fi fo th ze mu la ex co m0 mm s1 s2 n u0 v0 e0 out w' l. exact (fun PO PR => heated_direct_final pb ic id g PO bt PR linsolve fi fo  th ze mu la ex co m0 mm s1 s2 n u0 v0 e0 out w' l). Qed.
Print Assumptions C104_heated_direct.

(* polarised bodies at rest *)
Theorem C104_polarised : forall {V W} pb ic id g bt (answer second_answer : method forces -> vec -> vec -> vec -> R -> result (nat * vec)) fi fo name cls es th ze mu la pz pm (m0 mm : store V) s1 s2 n u0 v0 e0 out w' (l : list (state W)),
  posed pb ic id g ->
  construct pb = Ok bt ->
  electrodes (pr_boundaries pb) es ->
  electrodes_meet (pr_nodes pb) (pr_elements pb) es ->
  loaded pb 2 fi fo ->
  elastic (pr_material pb) = Some (mu, la) ->
  viscous (pr_material pb) = Some (th, ze) ->
  piezo (pr_material pb) = Some (pz, pm) ->
  time_step_of pb <> 0 ->
  answers_exactly (2 * (List.length (m_nodes (bt_mesh bt)))) answer ->
  answers_exactly (List.length (m_nodes (bt_mesh bt))) second_answer ->
  get_by_name installed name (mro PiezoelectricQuasistaticProblem) = Ok cls ->
  coupled_solvers pb bt QuasistaticVelocityWithPiezoelectric Piezoelectric m0 = Ok (mm, s1, s2) ->
  non_decreasing 0 (requested n out) ->
  coupled_run bt false QuasistaticVelocityWithPiezoelectric Piezoelectric cls
    answer second_answer n u0 v0 e0 out mm s1 s2 = Some (w', Ok l) ->
  exists u v e,
  polarised_motion (bt_mesh bt) id g th ze mu la es pz pm fi fo (time_step_of pb) u0 v0 e0 (TimeTheorems.last_step n out) u v e /\
  List.length l = List.length (requested n out) /\
  forall j q (s : state W), nth_error (requested n out) j = Some q -> nth_error l j = Some s ->
    shows_coupled (time_step_of pb) u v e (Z.to_nat q) (look (p_mem w') s) (map (StateModel.load (p_mem w')) (extra_refs (extra s))).
Proof. intros V W pb ic id g bt answer second_answer fi fo name cls es th ze mu la pz pm m0 mm s1 s2 n u0 v0 e0 out w' l. exact (fun PO PR ES EM => polarised_final pb ic id g PO bt PR answer second_answer fi fo name cls  es ES EM th ze mu la pz pm m0 mm s1 s2 n u0 v0 e0 out w' l). Qed.
Print Assumptions C104_polarised.

(* polarised bodies in motion *)
Theorem C104_sensed : forall {V W} pb ic id g bt (answer second_answer : method forces -> vec -> vec -> vec -> R -> result (nat * vec)) fi fo name cls es th ze mu la pz pm (m0 mm : store V) s1 s2 n u0 v0 e0 out w' (l : list (state W)),
  posed pb ic id g ->
  construct pb = Ok bt ->
  electrodes (pr_boundaries pb) es ->
  electrodes_meet (pr_nodes pb) (pr_elements pb) es ->
  loaded pb 2 fi fo ->
  elastic (pr_material pb) = Some (mu, la) ->
  viscous (pr_material pb) = Some (th, ze) ->
  piezo (pr_material pb) = Some (pz, pm) ->
  time_step_of pb <> 0 ->
  answers_exactly (2 * (List.length (m_nodes (bt_mesh bt)))) answer ->
  answers_exactly (List.length (m_nodes (bt_mesh bt))) second_answer ->
  get_by_name installed name (mro PiezoelectricDynamicProblem) = Ok cls ->
  coupled_solvers pb bt DynamicVelocity Piezoelectric m0 = Ok (mm, s1, s2) ->
  non_decreasing 0 (requested n out) ->
  coupled_run bt false DynamicVelocity Piezoelectric cls
    answer second_answer n u0 v0 e0 out mm s1 s2 = Some (w', Ok l) ->
  exists u v e,
  sensed_motion (bt_mesh bt) id g (mass_density (pr_material pb)) th ze mu la es pz pm fi fo (time_step_of pb) u0 v0 e0 (TimeTheorems.last_step n out) u v e /\
  List.length l = List.length (requested n out) /\
  forall j q (s : state W), nth_error (requested n out) j = Some q -> nth_error l j = Some s ->
    shows_coupled (time_step_of pb) u v e (Z.to_nat q) (look (p_mem w') s) (map (StateModel.load (p_mem w')) (extra_refs (extra s))).
Proof. intros V W pb ic id g bt answer second_answer fi fo name cls es th ze mu la pz pm m0 mm s1 s2 n u0 v0 e0 out w' l. exact (fun PO PR ES EM => sensed_final pb ic id g PO bt PR answer second_answer fi fo name cls  es ES EM th ze mu la pz pm m0 mm s1 s2 n u0 v0 e0 out w' l). Qed.
Print Assumptions C104_sensed.

(* stable materials: the run goes on to its end *)
Theorem C104_heated_runs : forall {V W} pb ic id g bt (answer second_answer : method forces -> vec -> vec -> vec -> R -> result (nat * vec)) fi fo name cls th ze mu la ex co (m0 : store V) n,
  posed pb ic id g ->
  construct pb = Ok bt ->
  loaded pb 2 fi fo ->
  elastic (pr_material pb) = Some (mu, la) ->
  viscous (pr_material pb) = Some (th, ze) ->
  thermal (pr_material pb) = Some (ex, co) ->
  0 < mass_density (pr_material pb) ->
  0 <= mu ->
  0 <= la ->
  0 <= th ->
  0 <= ze ->
  (forall v, 0 <= sum 2 (fun k => sum 2 (fun l => co k l * (v k * v l)))) ->
  0 < time_step_of pb ->
  answers_exactly (2 * (List.length (m_nodes (bt_mesh bt)))) answer ->
  answers_exactly (List.length (m_nodes (bt_mesh bt))) second_answer ->
  answers_definite (2 * (List.length (m_nodes (bt_mesh bt)))) (2 * (List.length (m_nodes (bt_mesh bt)))) answer ->
  answers_definite (List.length (m_nodes (bt_mesh bt))) (List.length (m_nodes (bt_mesh bt))) second_answer ->
  get_by_name installed name (mro TemperatureDynamicProblem) = Ok cls ->
  n <> 0%nat ->
  exists mm s1 s2, coupled_solvers pb bt DynamicVelocityWithTemperature Temperature m0 = Ok (mm, s1, s2) /\
  forall u0 v0 e0 out, non_decreasing 0 (requested n out) -> exists w' (l : list (state W)) u v e,
    coupled_run bt true DynamicVelocityWithTemperature Temperature cls
    answer second_answer n u0 v0 e0 out mm s1 s2 = Some (w', Ok l) /\
    heated_motion (bt_mesh bt) id g (mass_density (pr_material pb)) th ze mu la ex co fi fo (time_step_of pb) u0 v0 e0 (TimeTheorems.last_step n out) u v e /\
    List.length l = List.length (requested n out) /\
    forall j q (s : state W), nth_error (requested n out) j = Some q -> nth_error l j = Some s ->
      shows_coupled (time_step_of pb) u v e (Z.to_nat q) (look (p_mem w') s) (map (StateModel.load (p_mem w')) (extra_refs (extra s))).
Proof. intros V W pb ic id g bt answer second_answer fi fo name cls th ze mu la ex co m0 n. exact (fun PO PR => heated_total pb ic id g PO bt PR answer second_answer fi fo name cls  th ze mu la ex co m0 n). Qed.
Print Assumptions C104_heated_runs.

(* the same with the class Direct *)
Theorem C104_heated_direct_runs : forall {V W} pb ic id g bt linsolve fi fo th ze mu la ex co (m0 : store V) n,
  posed pb ic id g ->
  construct pb = Ok bt ->
  loaded pb 2 fi fo ->
  elastic (pr_material pb) = Some (mu, la) ->
  viscous (pr_material pb) = Some (th, ze) ->
  thermal (pr_material pb) = Some (ex, co) ->
  0 < mass_density (pr_material pb) ->
  0 <= mu ->
  0 <= la ->
  0 <= th ->
  0 <= ze ->
  (forall v, 0 <= sum 2 (fun k => sum 2 (fun l => co k l * (v k * v l)))) ->
  0 < time_step_of pb ->
  (forall n A r x, linsolve n A r = Ok x -> solves n A r x) ->
  (forall n A r, pos_def n A -> exists x, linsolve n A r = Ok x) ->
  n <> 0%nat ->
  exists mm s1 s2, coupled_solvers pb bt DynamicVelocityWithTemperature Temperature m0 = Ok (mm, s1, s2) /\
  forall u0 v0 e0 out, non_decreasing 0 (requested n out) -> exists w' (l : list (state W)) u v e,
    coupled_run bt true DynamicVelocityWithTemperature Temperature Direct
    (direct_answer (bt_body bt) DynamicVelocityWithTemperature linsolve) (second_direct_answer (bt_body bt) Temperature linsolve) n u0 v0 e0 out mm s1 s2 = Some (w', Ok l) /\
    heated_motion (bt_mesh bt) id g (mass_density (pr_material pb)) th ze mu la ex co fi fo (time_step_of pb) u0 v0 e0 (TimeTheorems.last_step n out) u v e /\
    List.length l = List.length (requested n out) /\
    forall j q (s : state W), nth_error (requested n out) j = Some q -> nth_error l j = Some s ->
      shows_coupled (time_step_of pb) u v e (Z.to_nat q) (look (p_mem w') s) (map (StateModel.load (p_mem w')) (extra_refs (extra s))).
Proof. intros V W pb ic id g bt linsolve fi fo th ze mu la ex co m0 n. exact (fun PO PR => heated_direct_total pb ic id g PO bt PR linsolve fi fo  th ze mu la ex co m0 n). Qed.
Print Assumptions C104_heated_direct_runs.

(* clamped bodies, with electrodes that determine the potential *)
Theorem C104_polarised_runs : forall {V W} pb ic id g bt (answer second_answer : method forces -> vec -> vec -> vec -> R -> result (nat * vec)) fi fo name cls es th ze mu la pz pm c (m0 : store V) n,
  posed pb ic id g ->
  construct pb = Ok bt ->
  electrodes (pr_boundaries pb) es ->
  electrodes_meet (pr_nodes pb) (pr_elements pb) es ->
  loaded pb 2 fi fo ->
  elastic (pr_material pb) = Some (mu, la) ->
  viscous (pr_material pb) = Some (th, ze) ->
  piezo (pr_material pb) = Some (pz, pm) ->
  clamped_mesh pb id ->
  wired (pr_nodes pb) (pr_elements pb) es ->
  0 <= mu ->
  0 <= la ->
  0 < th ->
  0 <= ze ->
  0 < c ->
  (forall v, c * sum 2 (fun k => v k * v k) <= sum 2 (fun k => sum 2 (fun l => pm k l * (v k * v l)))) ->
  0 < time_step_of pb ->
  answers_exactly (2 * (List.length (m_nodes (bt_mesh bt)))) answer ->
  answers_exactly (List.length (m_nodes (bt_mesh bt))) second_answer ->
  answers_definite (2 * (List.length (m_nodes (bt_mesh bt)))) (2 * (List.length (m_nodes (bt_mesh bt)))) answer ->
  answers_definite (List.length (m_nodes (bt_mesh bt))) (List.length (m_nodes (bt_mesh bt))) second_answer ->
  get_by_name installed name (mro PiezoelectricQuasistaticProblem) = Ok cls ->
  n <> 0%nat ->
  exists mm s1 s2, coupled_solvers pb bt QuasistaticVelocityWithPiezoelectric Piezoelectric m0 = Ok (mm, s1, s2) /\
  forall u0 v0 e0 out, non_decreasing 0 (requested n out) -> exists w' (l : list (state W)) u v e,
    coupled_run bt false QuasistaticVelocityWithPiezoelectric Piezoelectric cls
    answer second_answer n u0 v0 e0 out mm s1 s2 = Some (w', Ok l) /\
    polarised_motion (bt_mesh bt) id g th ze mu la es pz pm fi fo (time_step_of pb) u0 v0 e0 (TimeTheorems.last_step n out) u v e /\
    List.length l = List.length (requested n out) /\
    forall j q (s : state W), nth_error (requested n out) j = Some q -> nth_error l j = Some s ->
      shows_coupled (time_step_of pb) u v e (Z.to_nat q) (look (p_mem w') s) (map (StateModel.load (p_mem w')) (extra_refs (extra s))).
Proof. intros V W pb ic id g bt answer second_answer fi fo name cls es th ze mu la pz pm c m0 n. exact (fun PO PR ES EM => polarised_total pb ic id g PO bt PR answer second_answer fi fo name cls  es ES EM th ze mu la pz pm c m0 n). Qed.
Print Assumptions C104_polarised_runs.

(* moving bodies need no clamp *)
Theorem C104_sensed_runs : forall {V W} pb ic id g bt (answer second_answer : method forces -> vec -> vec -> vec -> R -> result (nat * vec)) fi fo name cls es th ze mu la pz pm c (m0 : store V) n,
  posed pb ic id g ->
  construct pb = Ok bt ->
  electrodes (pr_boundaries pb) es ->
  electrodes_meet (pr_nodes pb) (pr_elements pb) es ->
  loaded pb 2 fi fo ->
  elastic (pr_material pb) = Some (mu, la) ->
  viscous (pr_material pb) = Some (th, ze) ->
  piezo (pr_material pb) = Some (pz, pm) ->
  0 < mass_density (pr_material pb) ->
  wired (pr_nodes pb) (pr_elements pb) es ->
  0 <= mu ->
  0 <= la ->
  0 <= th ->
  0 <= ze ->
  0 < c ->
  (forall v, c * sum 2 (fun k => v k * v k) <= sum 2 (fun k => sum 2 (fun l => pm k l * (v k * v l)))) ->
  0 < time_step_of pb ->
  answers_exactly (2 * (List.length (m_nodes (bt_mesh bt)))) answer ->
  answers_exactly (List.length (m_nodes (bt_mesh bt))) second_answer ->
  answers_definite (2 * (List.length (m_nodes (bt_mesh bt)))) (2 * (List.length (m_nodes (bt_mesh bt)))) answer ->
  answers_definite (List.length (m_nodes (bt_mesh bt))) (List.length (m_nodes (bt_mesh bt))) second_answer ->
  get_by_name installed name (mro PiezoelectricDynamicProblem) = Ok cls ->
  n <> 0%nat ->
  exists mm s1 s2, coupled_solvers pb bt DynamicVelocity Piezoelectric m0 = Ok (mm, s1, s2) /\
  forall u0 v0 e0 out, non_decreasing 0 (requested n out) -> exists w' (l : list (state W)) u v e,
    coupled_run bt false DynamicVelocity Piezoelectric cls
    answer second_answer n u0 v0 e0 out mm s1 s2 = Some (w', Ok l) /\
    sensed_motion (bt_mesh bt) id g (mass_density (pr_material pb)) th ze mu la es pz pm fi fo (time_step_of pb) u0 v0 e0 (TimeTheorems.last_step n out) u v e /\
    List.length l = List.length (requested n out) /\
    forall j q (s : state W), nth_error (requested n out) j = Some q -> nth_error l j = Some s ->
      shows_coupled (time_step_of pb) u v e (Z.to_nat q) (look (p_mem w') s) (map (StateModel.load (p_mem w')) (extra_refs (extra s))).
Proof. intros V W pb ic id g bt answer second_answer fi fo name cls es th ze mu la pz pm c m0 n. exact (fun PO PR ES EM => sensed_total pb ic id g PO bt PR answer second_answer fi fo name cls  es ES EM th ze mu la pz pm c m0 n). Qed.
Print Assumptions C104_sensed_runs.

(* polarised bodies in motion, with the class Direct *)
Theorem C104_sensed_direct : forall {V W} pb ic id g bt linsolve fi fo es th ze mu la pz pm (m0 mm : store V) s1 s2 n u0 v0 e0 out w' (l : list (state W)),
  posed pb ic id g ->
  construct pb = Ok bt ->
  electrodes (pr_boundaries pb) es ->
  electrodes_meet (pr_nodes pb) (pr_elements pb) es ->
  loaded pb 2 fi fo ->
  elastic (pr_material pb) = Some (mu, la) ->
  viscous (pr_material pb) = Some (th, ze) ->
  piezo (pr_material pb) = Some (pz, pm) ->
  time_step_of pb <> 0 ->
  (forall n A r x, linsolve n A r = Ok x -> solves n A r x) ->
  coupled_solvers pb bt DynamicVelocity Piezoelectric m0 = Ok (mm, s1, s2) ->
  non_decreasing 0 (requested n out) ->
  coupled_run bt false DynamicVelocity Piezoelectric Direct
    (direct_answer (bt_body bt) DynamicVelocity linsolve) (second_direct_answer (bt_body bt) Piezoelectric linsolve) n u0 v0 e0 out mm s1 s2 = Some (w', Ok l) ->
  exists u v e,
  sensed_motion (bt_mesh bt) id g (mass_density (pr_material pb)) th ze mu la es pz pm fi fo (time_step_of pb) u0 v0 e0 (TimeTheorems.last_step n out) u v e /\
  List.length l = List.length (requested n out) /\
  forall j q (s : state W), nth_error (requested n out) j = Some q -> nth_error l j = Some s ->
    shows_coupled (time_step_of pb) u v e (Z.to_nat q) (look (p_mem w') s) (map (StateModel.load (p_mem w')) (extra_refs (extra s))).
Proof. intros V W pb ic id g bt linsolve fi fo es th ze mu la pz pm m0 mm s1 s2 n u0 v0 e0 out w' l. exact (fun PO PR ES EM => sensed_direct_final pb ic id g PO bt PR linsolve fi fo  es ES EM th ze mu la pz pm m0 mm s1 s2 n u0 v0 e0 out w' l). Qed.
Print Assumptions C104_sensed_direct.

(* such runs go on to their end *)
Theorem C104_sensed_direct_runs : forall {V W} pb ic id g bt linsolve fi fo es th ze mu la pz pm c (m0 : store V) n,
  posed pb ic id g ->
  construct pb = Ok bt ->
  electrodes (pr_boundaries pb) es ->
  electrodes_meet (pr_nodes pb) (pr_elements pb) es ->
  loaded pb 2 fi fo ->
  elastic (pr_material pb) = Some (mu, la) ->
  viscous (pr_material pb) = Some (th, ze) ->
  piezo (pr_material pb) = Some (pz, pm) ->
  0 < mass_density (pr_material pb) ->
  wired (pr_nodes pb) (pr_elements pb) es ->
  0 <= mu ->
  0 <= la ->
  0 <= th ->
  0 <= ze ->
  0 < c ->
  (forall v, c * sum 2 (fun k => v k * v k) <= sum 2 (fun k => sum 2 (fun l => pm k l * (v k * v l)))) ->
  0 < time_step_of pb ->
  (forall n A r x, linsolve n A r = Ok x -> solves n A r x) ->
  (forall n A r, pos_def n A -> exists x, linsolve n A r = Ok x) ->
  n <> 0%nat ->
  exists mm s1 s2, coupled_solvers pb bt DynamicVelocity Piezoelectric m0 = Ok (mm, s1, s2) /\
  forall u0 v0 e0 out, non_decreasing 0 (requested n out) -> exists w' (l : list (state W)) u v e,
    coupled_run bt false DynamicVelocity Piezoelectric Direct
    (direct_answer (bt_body bt) DynamicVelocity linsolve) (second_direct_answer (bt_body bt) Piezoelectric linsolve) n u0 v0 e0 out mm s1 s2 = Some (w', Ok l) /\
    sensed_motion (bt_mesh bt) id g (mass_density (pr_material pb)) th ze mu la es pz pm fi fo (time_step_of pb) u0 v0 e0 (TimeTheorems.last_step n out) u v e /\
    List.length l = List.length (requested n out) /\
    forall j q (s : state W), nth_error (requested n out) j = Some q -> nth_error l j = Some s ->
      shows_coupled (time_step_of pb) u v e (Z.to_nat q) (look (p_mem w') s) (map (StateModel.load (p_mem w')) (extra_refs (extra s))).
Proof. intros V W pb ic id g bt linsolve fi fo es th ze mu la pz pm c m0 n. exact (fun PO PR ES EM => sensed_direct_total pb ic id g PO bt PR linsolve fi fo  es ES EM th ze mu la pz pm c m0 n). Qed.
Print Assumptions C104_sensed_direct_runs.

(* which equations the fields of a step solve: the second one, and the first one with the second field of
   the pass before, which differs little unless all ten passes were made *)
Theorem C104_residual : forall size nodes first second dt u0 v0 e0 n u v e,
  coupled_motion size nodes first second dt u0 v0 e0 n u v e -> forall j, (j < n)%nat ->
  second (fun c => u j c + dt * v (S j) c) (v (S j)) (e j) (e (S j)) /\
  exists before, first (INR (S j) * dt) (u j) (v j) before (v (S j)) /\
    (sum nodes (fun c => Rsqr (e (S j) c - before c)) <= (1 / 1000) ^ 2 \/
     exists x y, turns first second dt (INR (S j) * dt) (u j) (v j) (e j) 10 x y /\ v (S j) = x 10%nat /\ e (S j) = y 10%nat /\ before = y 9%nat).
Proof. intros size nodes first second dt u0 v0 e0 n u v e. exact (coupled_residual size nodes first second dt u0 v0 e0 n u v e). Qed.
Print Assumptions C104_residual.

(* a square with material, electrodes and loads that meet every hypothesis *)
Example C104_example : let pb := coupled_square in
  posed pb (on_line 1) (on_line 0) lift /\ (exists bt, construct pb = Ok bt) /\ loaded pb 2 weight pull /\
  elastic (pr_material pb) = Some (4, 3) /\ viscous (pr_material pb) = Some (1, 2) /\ thermal (pr_material pb) = Some (same (1 / 2), same 3) /\
  piezo (pr_material pb) = Some (shear_response, same 2) /\ mass_density (pr_material pb) = 2 /\ clamped_mesh pb (on_line 0) /\
  electrodes (pr_boundaries pb) square_electrodes /\ electrodes_meet (pr_nodes pb) (pr_elements pb) square_electrodes /\
  wired (pr_nodes pb) (pr_elements pb) square_electrodes /\
  (forall v, 0 <= sum 2 (fun k => sum 2 (fun l => same 3 k l * (v k * v l)))) /\
  (forall v, 2 * sum 2 (fun k => v k * v k) <= sum 2 (fun k => sum 2 (fun l => same 2 k l * (v k * v l)))) /\
  (forall v, ~ on_electrode (pr_nodes pb) (pr_elements pb) square_electrodes 3 v) /\
  get_by_name installed "schur" (mro TemperatureDynamicProblem) = Ok DynamicSchur /\
  get_by_name installed "global" (mro PiezoelectricQuasistaticProblem) = Ok QuasistaticGlobal /\
  time_step_of pb = 1 / 2.
Proof.
  repeat (split; [first [apply coupled_posed|apply coupled_constructs|apply coupled_loaded|reflexivity|apply coupled_clamped|apply coupled_electrodes
    |apply coupled_meet|apply coupled_wired
    |intros v; refine (Rle_trans _ _ _ _ (same_psd 3 v ltac:(lra))); cbn; nra|intros v; apply same_psd; lra|apply coupled_free]|]). reflexivity.
Qed.
Example C104_runs_example : forall bt, construct coupled_square = Ok bt -> let N := List.length (m_nodes (bt_mesh bt)) in
  exists mm s1 s2, coupled_solvers coupled_square bt DynamicVelocityWithTemperature Temperature no_memory = Ok (mm, s1, s2) /\
  exists w' (l : list (state unit)),
  coupled_run bt true DynamicVelocityWithTemperature Temperature DynamicSchur (exact_answer (2 * N)) (exact_answer N) 4 (fun _ => 0) (fun _ => 0) (fun i => INR i)
    [1; 4]%Z mm s1 s2 = Some (w', Ok l) /\ List.length l = 2%nat.
Proof.
  intros bt E N.
  assert (P3 : forall v, 0 <= sum 2 (fun k => sum 2 (fun l => same 3 k l * (v k * v l)))).
  { intros v. refine (Rle_trans _ _ _ _ (same_psd 3 v ltac:(lra))). cbn. nra. }
  assert (TS : 0 < time_step_of coupled_square) by (cbn; lra). assert (RM : 0 < mass_density (pr_material coupled_square)) by (cbn; lra).
  assert (Q := C104_heated_runs (V:=R) (W:=unit) coupled_square (on_line 1) (on_line 0) lift bt (exact_answer (2 * N)) (exact_answer N) weight pull "schur" DynamicSchur
    1 2 4 3 (same (1 / 2)) (same 3) no_memory 4 coupled_posed E coupled_loaded eq_refl eq_refl eq_refl RM ltac:(lra) ltac:(lra) ltac:(lra) ltac:(lra) P3 TS
    (exact_exactly _ _) (exact_exactly _ _) (exact_definite _ _) (exact_definite _ _) eq_refl ltac:(discriminate)).
  destruct Q as (mm & s1 & s2 & CS & H). exists mm, s1, s2. split; [exact CS|].
  assert (ND : non_decreasing 0 (requested 4 [1; 4]%Z)) by (cbn; repeat split; lia).
  destruct (H (fun _ => 0) (fun _ => 0) (fun i => INR i) [1; 4]%Z ND) as (w' & l & u & v & e & RU & _ & L & _).
    exists w', l. split; [exact RU|]. rewrite L. reflexivity.
Qed.
