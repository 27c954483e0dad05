(* C105: where the passes of a coupled step lead to. *)
From Coq Require Import Reals List Arith ZArith Bool String Lia Lra.
From Verif Require Import Common PyModel RVec LinAlg MeshModel MeshBuildModel MeshSpec NormalsModel FemModel FemSpec ForcesModel ForcesSpec
  DirichletModel DirichletSpec StatementModel StatementSpec StatementValueProofs RegistryModel RegistrySpec RegistryProofs DispatchProofs
  StateModel StateLemmas CopyProofs TimeModel TimeSpec TimeProofs RunProofs HistoryProofs SolveProofs MarchProofs MethodModel MethodProofs
  RunSpec RunStable WholeRunProofs RunTheorems
  ProblemModel ProblemSpec ProblemProofs ProblemTheorems ProblemUnique ProblemTotal ProblemDefaults ProblemFinal ProblemWitness
  CoupledMethodModel CoupledSpec CoupledProblemSpec CoupledProblemFinal CoupledWitness CoupledLimitSpec CoupledLimitFinal CoupledLimitTheorems CoupledLimitRuns FierceWitness CoupledLimitWitness.
Import ListNotations.
Local Open Scope string_scope.
Local Open Scope list_scope.
Local Open Scope R_scope.

(* momentum and heat can be balanced at once, in one way *)
Theorem C105_heated_step : forall pb ic id g bt fi fo th ze mu la ex co t u v e,
  posed pb ic id g ->
  construct pb = Ok bt ->
  elastic (pr_material pb) = Some (mu, la) ->
  viscous (pr_material pb) = Some (th, ze) ->
  thermal (pr_material pb) = Some (ex, co) ->
  0 < mass_density (pr_material pb) ->
  0 <= mu ->
  0 <= la ->
  0 <= th ->
  0 <= ze ->
  (forall v, 0 <= sum 2 (fun k => sum 2 (fun l => co k l * (v k * v l)))) ->
  0 < time_step_of pb ->
  exists x y, balanced (momentum_step (bt_mesh bt) id g (mass_density (pr_material pb)) th ze mu la ex fi fo (time_step_of pb)) (heat_step (bt_mesh bt) id g (mass_density (pr_material pb)) ex co (time_step_of pb)) (time_step_of pb) t u v e x y /\
  forall x' y', balanced (momentum_step (bt_mesh bt) id g (mass_density (pr_material pb)) th ze mu la ex fi fo (time_step_of pb)) (heat_step (bt_mesh bt) id g (mass_density (pr_material pb)) ex co (time_step_of pb)) (time_step_of pb) t u v e x' y' -> veq (2 * (List.length (m_nodes (bt_mesh bt)))) x x' /\ veq (List.length (m_nodes (bt_mesh bt))) y y'.
Proof. intros pb ic id g bt fi fo th ze mu la ex co t u v e. exact (fun PO PR EL VI TH => heated_balanced pb ic id g PO bt PR fi fo th ze mu la EL VI ex co TH t u v e). Qed.
Print Assumptions C105_heated_step.

(* the passes of a step approach it by the factor (ka dt / rho)^2 *)
Theorem C105_heated_passes : forall pb ic id g bt fi fo th ze mu la ex co ka t u v e r x y xs ys,
  posed pb ic id g ->
  construct pb = Ok bt ->
  elastic (pr_material pb) = Some (mu, la) ->
  viscous (pr_material pb) = Some (th, ze) ->
  thermal (pr_material pb) = Some (ex, co) ->
  0 < mass_density (pr_material pb) ->
  0 <= mu ->
  0 <= la ->
  0 <= th ->
  0 <= ze ->
  (forall v, 0 <= sum 2 (fun k => sum 2 (fun l => co k l * (v k * v l)))) ->
  0 < time_step_of pb ->
  0 <= ka ->
  expansion_bounded ex th ze mu la (time_step_of pb) ka ->
  turns (momentum_step (bt_mesh bt) id g (mass_density (pr_material pb)) th ze mu la ex fi fo (time_step_of pb)) (heat_step (bt_mesh bt) id g (mass_density (pr_material pb)) ex co (time_step_of pb)) (time_step_of pb) t u v e r x y ->
  balanced (momentum_step (bt_mesh bt) id g (mass_density (pr_material pb)) th ze mu la ex fi fo (time_step_of pb)) (heat_step (bt_mesh bt) id g (mass_density (pr_material pb)) ex co (time_step_of pb)) (time_step_of pb) t u v e xs ys ->
  forall E0, heat_energy (bt_mesh bt) (mass_density (pr_material pb)) co (time_step_of pb) (fun c => e c - ys c) E0 ->
  forall i, (i <= r)%nat ->
  (forall E, heat_energy (bt_mesh bt) (mass_density (pr_material pb)) co (time_step_of pb) (fun c => y i c - ys c) E -> E <= ((ka * (time_step_of pb) / (mass_density (pr_material pb))) ^ 2) ^ i * E0) /\
  ((i < r)%nat -> forall E, motion_energy (bt_mesh bt) (mass_density (pr_material pb)) th ze mu la (time_step_of pb) (fun c => x (S i) c - xs c) E -> E <= ka * (time_step_of pb) / (mass_density (pr_material pb)) * (((ka * (time_step_of pb) / (mass_density (pr_material pb))) ^ 2) ^ i * E0)).
Proof. intros pb ic id g bt fi fo th ze mu la ex co ka t u v e r x y xs ys. exact (fun PO PR EL VI TH => heated_settles pb ic id g PO bt PR fi fo th ze mu la EL VI ex co TH ka t u v e r x y xs ys). Qed.
Print Assumptions C105_heated_passes.

(* hence the fields after a step are near it when the expansion is weak *)
Theorem C105_heated_near : forall pb ic id g bt fi fo th ze mu la ex co ka u0 v0 e0 n u v e,
  posed pb ic id g ->
  construct pb = Ok bt ->
  elastic (pr_material pb) = Some (mu, la) ->
  viscous (pr_material pb) = Some (th, ze) ->
  thermal (pr_material pb) = Some (ex, co) ->
  0 < mass_density (pr_material pb) ->
  0 <= mu ->
  0 <= la ->
  0 <= th ->
  0 <= ze ->
  (forall v, 0 <= sum 2 (fun k => sum 2 (fun l => co k l * (v k * v l)))) ->
  0 < time_step_of pb ->
  0 <= ka ->
  ka * (time_step_of pb) <= (mass_density (pr_material pb)) ->
  expansion_bounded ex th ze mu la (time_step_of pb) ka ->
  heated_motion (bt_mesh bt) id g (mass_density (pr_material pb)) th ze mu la ex co fi fo (time_step_of pb) u0 v0 e0 n u v e ->
  forall j xs ys, (j < n)%nat -> balanced (momentum_step (bt_mesh bt) id g (mass_density (pr_material pb)) th ze mu la ex fi fo (time_step_of pb)) (heat_step (bt_mesh bt) id g (mass_density (pr_material pb)) ex co (time_step_of pb)) (time_step_of pb) (INR (S j) * time_step_of pb) (u j) (v j) (e j) xs ys ->
  forall E0, heat_energy (bt_mesh bt) (mass_density (pr_material pb)) co (time_step_of pb) (fun c => e j c - ys c) E0 ->
  (forall E, heat_energy (bt_mesh bt) (mass_density (pr_material pb)) co (time_step_of pb) (fun c => e (S j) c - ys c) E -> E <= (ka * (time_step_of pb) / (mass_density (pr_material pb))) ^ 10 * E0) /\
  (forall E, motion_energy (bt_mesh bt) (mass_density (pr_material pb)) th ze mu la (time_step_of pb) (fun c => v (S j) c - xs c) E -> E <= (ka * (time_step_of pb) / (mass_density (pr_material pb))) ^ 9 * E0).
Proof. intros pb ic id g bt fi fo th ze mu la ex co ka u0 v0 e0 n u v e. exact (fun PO PR EL VI TH => heated_near pb ic id g PO bt PR fi fo th ze mu la EL VI ex co TH ka u0 v0 e0 n u v e). Qed.
Print Assumptions C105_heated_near.

(* the motion of a heated body is determined by its initial fields *)
Theorem C105_heated_unique : forall pb ic id g bt fi fo th ze mu la ex co u0 v0 e0 n u v e u' v' e',
  posed pb ic id g ->
  construct pb = Ok bt ->
  elastic (pr_material pb) = Some (mu, la) ->
  viscous (pr_material pb) = Some (th, ze) ->
  thermal (pr_material pb) = Some (ex, co) ->
  0 < mass_density (pr_material pb) ->
  0 <= mu ->
  0 <= la ->
  0 <= th ->
  0 <= ze ->
  (forall v, 0 <= sum 2 (fun k => sum 2 (fun l => co k l * (v k * v l)))) ->
  0 < time_step_of pb ->
  heated_motion (bt_mesh bt) id g (mass_density (pr_material pb)) th ze mu la ex co fi fo (time_step_of pb) u0 v0 e0 n u v e ->
  heated_motion (bt_mesh bt) id g (mass_density (pr_material pb)) th ze mu la ex co fi fo (time_step_of pb) u0 v0 e0 n u' v' e' ->
  forall j, (j <= n)%nat -> veq (2 * (List.length (m_nodes (bt_mesh bt)))) (u j) (u' j) /\ veq (2 * (List.length (m_nodes (bt_mesh bt)))) (v j) (v' j) /\ veq (List.length (m_nodes (bt_mesh bt))) (e j) (e' j).
Proof. intros pb ic id g bt fi fo th ze mu la ex co u0 v0 e0 n u v e u' v' e'. exact (fun PO PR EL VI TH => heated_alone pb ic id g PO bt PR fi fo th ze mu la EL VI ex co TH u0 v0 e0 n u v e u' v' e'). Qed.
Print Assumptions C105_heated_unique.

(* the same of polarised bodies at rest *)
Theorem C105_polarised_step : forall pb ic id g bt fi fo th ze mu la es pz pm c t u v e,
  posed pb ic id g ->
  construct pb = Ok bt ->
  elastic (pr_material pb) = Some (mu, la) ->
  viscous (pr_material pb) = Some (th, ze) ->
  electrodes (pr_boundaries pb) es ->
  electrodes_meet (pr_nodes pb) (pr_elements pb) es ->
  piezo (pr_material pb) = Some (pz, pm) ->
  clamped_mesh pb id ->
  wired (pr_nodes pb) (pr_elements pb) es ->
  0 <= mu ->
  0 <= la ->
  0 < th ->
  0 <= ze ->
  0 < c ->
  (forall v, c * sum 2 (fun k => v k * v k) <= sum 2 (fun k => sum 2 (fun l => pm k l * (v k * v l)))) ->
  0 < time_step_of pb ->
  exists x y, balanced (creep_step (bt_mesh bt) id g th ze mu la pz fi fo (time_step_of pb)) (potential_step (bt_mesh bt) es pz pm) (time_step_of pb) t u v e x y /\
  forall x' y', balanced (creep_step (bt_mesh bt) id g th ze mu la pz fi fo (time_step_of pb)) (potential_step (bt_mesh bt) es pz pm) (time_step_of pb) t u v e x' y' -> veq (2 * (List.length (m_nodes (bt_mesh bt)))) x x' /\ veq (List.length (m_nodes (bt_mesh bt))) y y'.
Proof. intros pb ic id g bt fi fo th ze mu la es pz pm c t u v e. exact (fun PO PR EL VI ES EM PZ => polarised_balanced pb ic id g PO bt PR fi fo th ze mu la EL VI es ES EM pz pm PZ c t u v e). Qed.
Print Assumptions C105_polarised_step.

(* the passes approach it by the factor (ka dt)^2 *)
Theorem C105_polarised_passes : forall pb ic id g bt fi fo th ze mu la es pz pm ka t u v e r x y xs ys,
  posed pb ic id g ->
  construct pb = Ok bt ->
  elastic (pr_material pb) = Some (mu, la) ->
  viscous (pr_material pb) = Some (th, ze) ->
  piezo (pr_material pb) = Some (pz, pm) ->
  0 <= mu ->
  0 <= la ->
  0 <= th ->
  0 <= ze ->
  (forall v, 0 <= sum 2 (fun k => sum 2 (fun l => pm k l * (v k * v l)))) ->
  0 < time_step_of pb ->
  0 <= ka ->
  piezo_bounded pz pm th ze mu la (time_step_of pb) ka ->
  turns (creep_step (bt_mesh bt) id g th ze mu la pz fi fo (time_step_of pb)) (potential_step (bt_mesh bt) es pz pm) (time_step_of pb) t u v e r x y ->
  balanced (creep_step (bt_mesh bt) id g th ze mu la pz fi fo (time_step_of pb)) (potential_step (bt_mesh bt) es pz pm) (time_step_of pb) t u v e xs ys ->
  forall E0, potential_energy (bt_mesh bt) pm (fun c => e c - ys c) E0 ->
  forall i, (i <= r)%nat ->
  (forall E, potential_energy (bt_mesh bt) pm (fun c => y i c - ys c) E -> E <= ((ka * (time_step_of pb)) ^ 2) ^ i * E0) /\
  ((i < r)%nat -> forall E, creep_energy (bt_mesh bt) th ze mu la (time_step_of pb) (fun c => x (S i) c - xs c) E -> E <= ka * (((ka * (time_step_of pb)) ^ 2) ^ i * E0)).
Proof. intros pb ic id g bt fi fo th ze mu la es pz pm ka t u v e r x y xs ys. exact (fun PO PR EL VI PZ => polarised_settles pb ic id g PO bt PR fi fo th ze mu la EL VI es pz pm PZ ka t u v e r x y xs ys). Qed.
Print Assumptions C105_polarised_passes.

(* hence the fields after a step are near it when the response is weak *)
Theorem C105_polarised_near : forall pb ic id g bt fi fo th ze mu la es pz pm ka u0 v0 e0 n u v e,
  posed pb ic id g ->
  construct pb = Ok bt ->
  elastic (pr_material pb) = Some (mu, la) ->
  viscous (pr_material pb) = Some (th, ze) ->
  piezo (pr_material pb) = Some (pz, pm) ->
  0 <= mu ->
  0 <= la ->
  0 <= th ->
  0 <= ze ->
  (forall v, 0 <= sum 2 (fun k => sum 2 (fun l => pm k l * (v k * v l)))) ->
  0 < time_step_of pb ->
  0 <= ka ->
  ka * (time_step_of pb) <= 1 ->
  piezo_bounded pz pm th ze mu la (time_step_of pb) ka ->
  polarised_motion (bt_mesh bt) id g th ze mu la es pz pm fi fo (time_step_of pb) u0 v0 e0 n u v e ->
  forall j xs ys, (j < n)%nat -> balanced (creep_step (bt_mesh bt) id g th ze mu la pz fi fo (time_step_of pb)) (potential_step (bt_mesh bt) es pz pm) (time_step_of pb) (INR (S j) * time_step_of pb) (u j) (v j) (e j) xs ys ->
  forall E0, potential_energy (bt_mesh bt) pm (fun c => e j c - ys c) E0 ->
  (forall E, potential_energy (bt_mesh bt) pm (fun c => e (S j) c - ys c) E -> E <= (ka * (time_step_of pb)) ^ 10 * E0) /\
  (forall E, creep_energy (bt_mesh bt) th ze mu la (time_step_of pb) (fun c => v (S j) c - xs c) E -> E <= ka * (ka * (time_step_of pb)) ^ 8 * E0).
Proof. intros pb ic id g bt fi fo th ze mu la es pz pm ka u0 v0 e0 n u v e. exact (fun PO PR EL VI PZ => polarised_near pb ic id g PO bt PR fi fo th ze mu la EL VI es pz pm PZ ka u0 v0 e0 n u v e). Qed.
Print Assumptions C105_polarised_near.

(* the motion of a polarised body is determined by its initial fields *)
Theorem C105_polarised_unique : forall pb ic id g bt fi fo th ze mu la es pz pm c u0 v0 e0 n u v e u' v' e',
  posed pb ic id g ->
  construct pb = Ok bt ->
  elastic (pr_material pb) = Some (mu, la) ->
  viscous (pr_material pb) = Some (th, ze) ->
  electrodes (pr_boundaries pb) es ->
  electrodes_meet (pr_nodes pb) (pr_elements pb) es ->
  piezo (pr_material pb) = Some (pz, pm) ->
  clamped_mesh pb id ->
  wired (pr_nodes pb) (pr_elements pb) es ->
  0 <= mu ->
  0 <= la ->
  0 < th ->
  0 <= ze ->
  0 < c ->
  (forall v, c * sum 2 (fun k => v k * v k) <= sum 2 (fun k => sum 2 (fun l => pm k l * (v k * v l)))) ->
  0 < time_step_of pb ->
  polarised_motion (bt_mesh bt) id g th ze mu la es pz pm fi fo (time_step_of pb) u0 v0 e0 n u v e ->
  polarised_motion (bt_mesh bt) id g th ze mu la es pz pm fi fo (time_step_of pb) u0 v0 e0 n u' v' e' ->
  forall j, (j <= n)%nat -> veq (2 * (List.length (m_nodes (bt_mesh bt)))) (u j) (u' j) /\ veq (2 * (List.length (m_nodes (bt_mesh bt)))) (v j) (v' j) /\ veq (List.length (m_nodes (bt_mesh bt))) (e j) (e' j).
Proof. intros pb ic id g bt fi fo th ze mu la es pz pm c u0 v0 e0 n u v e u' v' e'. exact (fun PO PR EL VI ES EM PZ => polarised_alone pb ic id g PO bt PR fi fo th ze mu la EL VI es ES EM pz pm PZ c u0 v0 e0 n u v e u' v' e'). Qed.
Print Assumptions C105_polarised_unique.

(* in the dynamic problem the potential does not act back: every step is balanced *)
Theorem C105_sensed_exact : forall pb (id : P2 -> bool) g bt fi fo th ze mu la es pz pm u0 v0 e0 n u v e,
  sensed_motion (bt_mesh bt) id g (mass_density (pr_material pb)) th ze mu la es pz pm fi fo (time_step_of pb) u0 v0 e0 n u v e ->
  forall j, (j < n)%nat -> balanced (motion_step (bt_mesh bt) id g (mass_density (pr_material pb)) th ze mu la fi fo (time_step_of pb)) (potential_step (bt_mesh bt) es pz pm) (time_step_of pb) (INR (S j) * time_step_of pb) (u j) (v j) (e j) (v (S j)) (e (S j)).
Proof. intros pb id g bt fi fo th ze mu la es pz pm u0 v0 e0 n u v e. exact (sensed_exact pb id g bt fi fo th ze mu la es pz pm u0 v0 e0 n u v e). Qed.
Print Assumptions C105_sensed_exact.

(* after five equal passes *)
Theorem C105_sensed_passes : forall pb ic id g bt fi fo th ze mu la es pz pm c t u v e r x y,
  posed pb ic id g ->
  construct pb = Ok bt ->
  elastic (pr_material pb) = Some (mu, la) ->
  viscous (pr_material pb) = Some (th, ze) ->
  electrodes (pr_boundaries pb) es ->
  electrodes_meet (pr_nodes pb) (pr_elements pb) es ->
  piezo (pr_material pb) = Some (pz, pm) ->
  wired (pr_nodes pb) (pr_elements pb) es ->
  0 < mass_density (pr_material pb) ->
  0 <= mu ->
  0 <= la ->
  0 <= th ->
  0 <= ze ->
  0 < c ->
  (forall v, c * sum 2 (fun k => v k * v k) <= sum 2 (fun k => sum 2 (fun l => pm k l * (v k * v l)))) ->
  0 < time_step_of pb ->
  turns (motion_step (bt_mesh bt) id g (mass_density (pr_material pb)) th ze mu la fi fo (time_step_of pb)) (potential_step (bt_mesh bt) es pz pm) (time_step_of pb) t u v e r x y ->
  stops (2 * (List.length (m_nodes (bt_mesh bt)))) (List.length (m_nodes (bt_mesh bt))) r x y ->
  r = 5%nat.
Proof. intros pb ic id g bt fi fo th ze mu la es pz pm c t u v e r x y. exact (fun PO PR EL VI ES EM PZ => sensed_five pb ic id g PO bt PR fi fo th ze mu la EL VI es ES EM pz pm PZ c t u v e r x y). Qed.
Print Assumptions C105_sensed_passes.

(* and its motion is determined by the initial fields *)
Theorem C105_sensed_unique : forall pb ic id g bt fi fo th ze mu la es pz pm c u0 v0 e0 n u v e u' v' e',
  posed pb ic id g ->
  construct pb = Ok bt ->
  elastic (pr_material pb) = Some (mu, la) ->
  viscous (pr_material pb) = Some (th, ze) ->
  electrodes (pr_boundaries pb) es ->
  electrodes_meet (pr_nodes pb) (pr_elements pb) es ->
  piezo (pr_material pb) = Some (pz, pm) ->
  wired (pr_nodes pb) (pr_elements pb) es ->
  0 < mass_density (pr_material pb) ->
  0 <= mu ->
  0 <= la ->
  0 <= th ->
  0 <= ze ->
  0 < c ->
  (forall v, c * sum 2 (fun k => v k * v k) <= sum 2 (fun k => sum 2 (fun l => pm k l * (v k * v l)))) ->
  0 < time_step_of pb ->
  sensed_motion (bt_mesh bt) id g (mass_density (pr_material pb)) th ze mu la es pz pm fi fo (time_step_of pb) u0 v0 e0 n u v e ->
  sensed_motion (bt_mesh bt) id g (mass_density (pr_material pb)) th ze mu la es pz pm fi fo (time_step_of pb) u0 v0 e0 n u' v' e' ->
  forall j, (j <= n)%nat -> veq (2 * (List.length (m_nodes (bt_mesh bt)))) (u j) (u' j) /\ veq (2 * (List.length (m_nodes (bt_mesh bt)))) (v j) (v' j) /\ veq (List.length (m_nodes (bt_mesh bt))) (e j) (e' j).
Proof. intros pb ic id g bt fi fo th ze mu la es pz pm c u0 v0 e0 n u v e u' v' e'. exact (fun PO PR EL VI ES EM PZ => sensed_alone pb ic id g PO bt PR fi fo th ze mu la EL VI es ES EM pz pm PZ c u0 v0 e0 n u v e u' v' e'). Qed.
Print Assumptions C105_sensed_unique.

(* runs of one problem with different classes and solvers show the same fields *)
Theorem C105_heated_classes : forall {V W} pb ic id g bt (answer second_answer answer' second_answer' : method forces -> vec -> vec -> vec -> R -> result (nat * vec)) fi fo name name' cls cls' th ze mu la ex co (m0 mm m0' mm' : store V) s1 s2 s1' s2' n u0 v0 e0 out w w' (l l' : list (state W)),
  posed pb ic id g ->
  construct pb = Ok bt ->
  loaded pb 2 fi fo ->
  elastic (pr_material pb) = Some (mu, la) ->
  viscous (pr_material pb) = Some (th, ze) ->
  thermal (pr_material pb) = Some (ex, co) ->
  0 < mass_density (pr_material pb) ->
  0 <= mu ->
  0 <= la ->
  0 <= th ->
  0 <= ze ->
  (forall v, 0 <= sum 2 (fun k => sum 2 (fun l => co k l * (v k * v l)))) ->
  0 < time_step_of pb ->
  answers_exactly (2 * (List.length (m_nodes (bt_mesh bt)))) answer ->
  answers_exactly (List.length (m_nodes (bt_mesh bt))) second_answer ->
  answers_exactly (2 * (List.length (m_nodes (bt_mesh bt)))) answer' ->
  answers_exactly (List.length (m_nodes (bt_mesh bt))) second_answer' ->
  get_by_name installed name (mro TemperatureDynamicProblem) = Ok cls ->
  get_by_name installed name' (mro TemperatureDynamicProblem) = Ok cls' ->
  coupled_solvers pb bt DynamicVelocityWithTemperature Temperature m0 = Ok (mm, s1, s2) ->
  coupled_solvers pb bt DynamicVelocityWithTemperature Temperature m0' = Ok (mm', s1', s2') ->
  non_decreasing 0 (requested n out) ->
  coupled_run bt true DynamicVelocityWithTemperature Temperature cls answer second_answer n u0 v0 e0 out mm s1 s2 = Some (w, Ok l) ->
  coupled_run bt true DynamicVelocityWithTemperature Temperature cls' answer' second_answer' n u0 v0 e0 out mm' s1' s2' = Some (w', Ok l') ->
  Forall2 (fun s s' => alike (2 * (List.length (m_nodes (bt_mesh bt)))) (List.length (m_nodes (bt_mesh bt))) (look (p_mem w) s) (look (p_mem w') s')
    (map (StateModel.load (p_mem w)) (extra_refs (extra s))) (map (StateModel.load (p_mem w')) (extra_refs (extra s')))) l l'.
Proof. intros V W pb ic id g bt answer second_answer answer' second_answer' fi fo name name' cls cls' th ze mu la ex co m0 mm m0' mm' s1 s2 s1' s2' n u0 v0 e0 out w w' l l'. exact (fun PO PR => heated_alike pb ic id g PO bt PR fi fo answer second_answer answer' second_answer' name name' cls cls' th ze mu la ex co m0 mm m0' mm' s1 s2 s1' s2' n u0 v0 e0 out w w' l l'). Qed.
Print Assumptions C105_heated_classes.

(* runs of one problem with different classes and solvers show the same fields *)
Theorem C105_polarised_classes : forall {V W} pb ic id g bt (answer second_answer answer' second_answer' : method forces -> vec -> vec -> vec -> R -> result (nat * vec)) fi fo name name' cls cls' th ze mu la es pz pm c (m0 mm m0' mm' : store V) s1 s2 s1' s2' n u0 v0 e0 out w w' (l l' : list (state W)),
  posed pb ic id g ->
  construct pb = Ok bt ->
  electrodes (pr_boundaries pb) es ->
  electrodes_meet (pr_nodes pb) (pr_elements pb) es ->
  loaded pb 2 fi fo ->
  elastic (pr_material pb) = Some (mu, la) ->
  viscous (pr_material pb) = Some (th, ze) ->
  piezo (pr_material pb) = Some (pz, pm) ->
  clamped_mesh pb id ->
  wired (pr_nodes pb) (pr_elements pb) es ->
  0 <= mu ->
  0 <= la ->
  0 < th ->
  0 <= ze ->
  0 < c ->
  (forall v, c * sum 2 (fun k => v k * v k) <= sum 2 (fun k => sum 2 (fun l => pm k l * (v k * v l)))) ->
  0 < time_step_of pb ->
  answers_exactly (2 * (List.length (m_nodes (bt_mesh bt)))) answer ->
  answers_exactly (List.length (m_nodes (bt_mesh bt))) second_answer ->
  answers_exactly (2 * (List.length (m_nodes (bt_mesh bt)))) answer' ->
  answers_exactly (List.length (m_nodes (bt_mesh bt))) second_answer' ->
  get_by_name installed name (mro PiezoelectricQuasistaticProblem) = Ok cls ->
  get_by_name installed name' (mro PiezoelectricQuasistaticProblem) = Ok cls' ->
  coupled_solvers pb bt QuasistaticVelocityWithPiezoelectric Piezoelectric m0 = Ok (mm, s1, s2) ->
  coupled_solvers pb bt QuasistaticVelocityWithPiezoelectric Piezoelectric m0' = Ok (mm', s1', s2') ->
  non_decreasing 0 (requested n out) ->
  coupled_run bt false QuasistaticVelocityWithPiezoelectric Piezoelectric cls answer second_answer n u0 v0 e0 out mm s1 s2 = Some (w, Ok l) ->
  coupled_run bt false QuasistaticVelocityWithPiezoelectric Piezoelectric cls' answer' second_answer' n u0 v0 e0 out mm' s1' s2' = Some (w', Ok l') ->
  Forall2 (fun s s' => alike (2 * (List.length (m_nodes (bt_mesh bt)))) (List.length (m_nodes (bt_mesh bt))) (look (p_mem w) s) (look (p_mem w') s')
    (map (StateModel.load (p_mem w)) (extra_refs (extra s))) (map (StateModel.load (p_mem w')) (extra_refs (extra s')))) l l'.
Proof. intros V W pb ic id g bt answer second_answer answer' second_answer' fi fo name name' cls cls' th ze mu la es pz pm c m0 mm m0' mm' s1 s2 s1' s2' n u0 v0 e0 out w w' l l'. exact (fun PO PR ES EM => polarised_alike pb ic id g PO bt PR fi fo answer second_answer answer' second_answer' name name' cls cls' th ze mu la es ES EM pz pm c m0 mm m0' mm' s1 s2 s1' s2' n u0 v0 e0 out w w' l l'). Qed.
Print Assumptions C105_polarised_classes.

(* runs of one problem with different classes and solvers show the same fields *)
Theorem C105_sensed_classes : forall {V W} pb ic id g bt (answer second_answer answer' second_answer' : method forces -> vec -> vec -> vec -> R -> result (nat * vec)) fi fo name name' cls cls' th ze mu la es pz pm c (m0 mm m0' mm' : store V) s1 s2 s1' s2' n u0 v0 e0 out w w' (l l' : list (state W)),
  posed pb ic id g ->
  construct pb = Ok bt ->
  electrodes (pr_boundaries pb) es ->
  electrodes_meet (pr_nodes pb) (pr_elements pb) es ->
  loaded pb 2 fi fo ->
  elastic (pr_material pb) = Some (mu, la) ->
  viscous (pr_material pb) = Some (th, ze) ->
  piezo (pr_material pb) = Some (pz, pm) ->
  wired (pr_nodes pb) (pr_elements pb) es ->
  0 < mass_density (pr_material pb) ->
  0 <= mu ->
  0 <= la ->
  0 <= th ->
  0 <= ze ->
  0 < c ->
  (forall v, c * sum 2 (fun k => v k * v k) <= sum 2 (fun k => sum 2 (fun l => pm k l * (v k * v l)))) ->
  0 < time_step_of pb ->
  answers_exactly (2 * (List.length (m_nodes (bt_mesh bt)))) answer ->
  answers_exactly (List.length (m_nodes (bt_mesh bt))) second_answer ->
  answers_exactly (2 * (List.length (m_nodes (bt_mesh bt)))) answer' ->
  answers_exactly (List.length (m_nodes (bt_mesh bt))) second_answer' ->
  get_by_name installed name (mro PiezoelectricDynamicProblem) = Ok cls ->
  get_by_name installed name' (mro PiezoelectricDynamicProblem) = Ok cls' ->
  coupled_solvers pb bt DynamicVelocity Piezoelectric m0 = Ok (mm, s1, s2) ->
  coupled_solvers pb bt DynamicVelocity Piezoelectric m0' = Ok (mm', s1', s2') ->
  non_decreasing 0 (requested n out) ->
  coupled_run bt false DynamicVelocity Piezoelectric cls answer second_answer n u0 v0 e0 out mm s1 s2 = Some (w, Ok l) ->
  coupled_run bt false DynamicVelocity Piezoelectric cls' answer' second_answer' n u0 v0 e0 out mm' s1' s2' = Some (w', Ok l') ->
  Forall2 (fun s s' => alike (2 * (List.length (m_nodes (bt_mesh bt)))) (List.length (m_nodes (bt_mesh bt))) (look (p_mem w) s) (look (p_mem w') s')
    (map (StateModel.load (p_mem w)) (extra_refs (extra s))) (map (StateModel.load (p_mem w')) (extra_refs (extra s')))) l l'.
Proof. intros V W pb ic id g bt answer second_answer answer' second_answer' fi fo name name' cls cls' th ze mu la es pz pm c m0 mm m0' mm' s1 s2 s1' s2' n u0 v0 e0 out w w' l l'. exact (fun PO PR ES EM => sensed_alike pb ic id g PO bt PR fi fo answer second_answer answer' second_answer' name name' cls cls' th ze mu la es ES EM pz pm c m0 mm m0' mm' s1 s2 s1' s2' n u0 v0 e0 out w w' l l'). Qed.
Print Assumptions C105_sensed_classes.

(* isotropic expansion is bounded by the stresses *)
Theorem C105_isotropic : forall a th ze mu la dt, 0 <= th -> 0 <= mu -> 0 < dt -> 0 < th + ze + dt * (mu + la) ->
  expansion_bounded (same a) th ze mu la dt (a ^ 2 / (th + ze + dt * (mu + la))).
Proof. intros a th ze mu la dt. exact (isotropic_bounded a th ze mu la dt). Qed.
Print Assumptions C105_isotropic.

(* no bound, no convergence: a triangle without loads and with a temperature of 1 at its free node.
   One step is made with ten passes and returned with the temperature 943718.5; balanced would be 0.1 *)
Theorem C105_strong_refuted : forall bt, construct fierce = Ok bt ->
  let N := List.length (m_nodes (bt_mesh bt)) in
  (exists mm s1 s2 w' (s : state unit) y,
    coupled_solvers fierce bt DynamicVelocityWithTemperature Temperature no_memory = Ok (mm, s1, s2) /\
    coupled_run bt true DynamicVelocityWithTemperature Temperature DynamicSchur (exact_answer (2 * N)) (exact_answer N) 1 still still hat
      [1]%Z mm s1 s2 = Some (w', Ok [s]) /\
    map (StateModel.load (p_mem w')) (extra_refs (extra s)) = [y] /\ y 0%nat = 943718.5) /\
  (exists xs ys, balanced (momentum_step (bt_mesh bt) (on_line 0) (fun _ => 0) 12 (1 / 4) (1 / 2) (1 / 4) (1 / 2) (same 24) nothing nothing 1)
    (heat_step (bt_mesh bt) (on_line 0) (fun _ => 0) 12 (same 24) (same 2) 1) 1 (INR 1 * 1) still still hat xs ys /\ ys 0%nat = 1 / 10).
Proof. exact strong_refuted. Qed.
Print Assumptions C105_strong_refuted.

(* the square of C104 meets the hypotheses *)
Example C105_example : let pb := coupled_square in
  posed pb (on_line 1) (on_line 0) lift /\ (exists bt, construct pb = Ok bt) /\ elastic (pr_material pb) = Some (4, 3) /\
  viscous (pr_material pb) = Some (1, 2) /\ thermal (pr_material pb) = Some (same (1 / 2), same 3) /\
  piezo (pr_material pb) = Some (shear_response, same 2) /\ clamped_mesh pb (on_line 0) /\ electrodes (pr_boundaries pb) square_electrodes /\
  electrodes_meet (pr_nodes pb) (pr_elements pb) square_electrodes /\ wired (pr_nodes pb) (pr_elements pb) square_electrodes /\
  expansion_bounded (same (1 / 2)) 1 2 4 3 (1 / 2) (1 / 26) /\ piezo_bounded shear_response (same 2) 1 2 4 3 (1 / 2) (1 / 32) /\
  1 / 26 * time_step_of pb < mass_density (pr_material pb) /\ 1 / 32 * time_step_of pb < 1.
Proof.
  cbv zeta. repeat (split; [first [apply coupled_posed|apply coupled_constructs|reflexivity|apply coupled_clamped|apply coupled_electrodes|apply coupled_meet|apply coupled_wired
    |exact square_expansion|exact square_response|cbn; lra]|]). cbn. lra.
Qed.
Example C105_motion_example : forall bt, construct coupled_square = Ok bt ->
  exists u v e, heated_motion (bt_mesh bt) (on_line 0) lift 2 1 2 4 3 (same (1 / 2)) (same 3) weight pull (1 / 2) still still (fun i => INR i) 4 u v e.
Proof. exact square_motion. Qed.
