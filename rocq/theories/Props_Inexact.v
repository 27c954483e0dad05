(* C110: runs with step solvers that are accurate to a tolerance only. *)
From Coq Require Import Reals List Arith ZArith Bool String Lia Lra.
From Verif Require Import Common PyModel RVec LinAlg MeshModel MeshBuildModel MeshSpec NormalsModel
  FemModel FemSpec ForcesModel StatementModel StatementSpec StateModel RegistryModel
  TimeModel TimeSpec OptimisationModel MethodModel RunSpec RunProofs HistoryProofs ProblemModel ProblemSpec ProblemTotal ProblemFinal ProblemWitness
  ConvergenceSpec ConvergenceFinal ConvergenceWitness InexactSpec InexactFinal InexactWitness.
Import ListNotations.
Local Open Scope list_scope.
Local Open Scope R_scope.

(* a run with such a solver is an exact run under additional forces at the nodes, none larger than the tolerance;
   the prescribed values hold exactly *)
Theorem C110_dynamic : forall (V W : Type) pb ic id g bt fi fo (raw : method forces -> vec -> vec -> vec -> R -> result (nat * vec)) tol cls th ze mu la (m0 : store V) (d d' : driver V (method forces)) n u0 v0 out given (l : list (state W)),
  posed pb ic id g ->
  construct pb = Ok bt ->
  loaded pb 2 fi fo ->
  elastic (pr_material pb) = Some (mu, la) ->
  viscous (pr_material pb) = Some (th, ze) ->
  time_step_of pb <> 0 ->
  answers_within (2 * (List.length (m_nodes (bt_mesh bt)))) tol raw ->
  cls = DynamicGlobal \/ cls = DynamicSchur ->
  step_solver pb bt DynamicVelocity m0 = Ok d ->
  in_stock (d_mem d) given ->
  non_decreasing 0 (requested n out) ->
  dynamic_solve (b_dimension (bt_body bt)) (b_count (bt_body bt)) (start_positions bt)
      (MethodModel.iterate (integrate_forces (bt_mesh bt) (bt_basic bt)) (bt_body bt) DynamicVelocity cls) (finished (bt_body bt) DynamicVelocity raw) n u0 v0 out given d = (d', Ok l) ->
  exists u v, motion (time_step_of pb) (takes (bt_mesh bt) id 2 g)
      (fun t a w y => exists r, slight (2 * (List.length (m_nodes (bt_mesh bt)))) tol r /\ moves_pushed (bt_mesh bt) id r (mass_density (pr_material pb)) th ze mu la (fun p => fi p t) (fun p => fo p t) a w y)
      u0 v0 (TimeTheorems.last_step n out) u v /\
    List.length l = List.length (requested n out) /\
    forall j q (s : state W), nth_error (requested n out) j = Some q -> nth_error l j = Some s ->
      shows (time_step_of pb) u v (Z.to_nat q) (look (d_mem d') s).
Proof.
  intros V W pb ic id g bt fi fo raw tol cls th ze mu la m0 d d' n u0 v0 out given l PO PR.
  exact (dynamic_inexact pb ic id g PO bt PR fi fo raw tol cls th ze mu la m0 d d' n u0 v0 out given l).
Qed.
Print Assumptions C110_dynamic.

Theorem C110_quasistatic : forall (V W : Type) pb ic id g bt fi fo (raw : method forces -> vec -> vec -> vec -> R -> result (nat * vec)) tol cls th ze mu la (m0 : store V) (d d' : driver V (method forces)) n u0 v0 out given (l : list (state W)),
  posed pb ic id g ->
  construct pb = Ok bt ->
  loaded pb 2 fi fo ->
  elastic (pr_material pb) = Some (mu, la) ->
  viscous (pr_material pb) = Some (th, ze) ->
  time_step_of pb <> 0 ->
  answers_within (2 * (List.length (m_nodes (bt_mesh bt)))) tol raw ->
  cls = QuasistaticGlobal \/ cls = QuasistaticSchur ->
  step_solver pb bt QuasistaticVelocity m0 = Ok d ->
  in_stock (d_mem d) given ->
  non_decreasing 0 (requested n out) ->
  dynamic_solve (b_dimension (bt_body bt)) (b_count (bt_body bt)) (start_positions bt)
      (MethodModel.iterate (integrate_forces (bt_mesh bt) (bt_basic bt)) (bt_body bt) QuasistaticVelocity cls) (finished (bt_body bt) QuasistaticVelocity raw) n u0 v0 out given d = (d', Ok l) ->
  exists u v, motion (time_step_of pb) (takes (bt_mesh bt) id 2 g)
      (fun t _ w y => exists r, slight (2 * (List.length (m_nodes (bt_mesh bt)))) tol r /\ flows_pushed (bt_mesh bt) id r th ze mu la (fun p => fi p t) (fun p => fo p t) w y)
      u0 v0 (TimeTheorems.last_step n out) u v /\
    List.length l = List.length (requested n out) /\
    forall j q (s : state W), nth_error (requested n out) j = Some q -> nth_error l j = Some s ->
      shows (time_step_of pb) u v (Z.to_nat q) (look (d_mem d') s).
Proof.
  intros V W pb ic id g bt fi fo raw tol cls th ze mu la m0 d d' n u0 v0 out given l PO PR.
  exact (quasistatic_inexact pb ic id g PO bt PR fi fo raw tol cls th ze mu la m0 d d' n u0 v0 out given l).
Qed.
Print Assumptions C110_quasistatic.

Theorem C110_wave : forall (V W : Type) pb ic id g bt fi fo (raw : method forces -> vec -> vec -> vec -> R -> result (nat * vec)) tol cls c (m0 : store V) (d d' : driver V (method forces)) n u0 v0 out given s0 (l : list (state W)),
  posed pb ic id g ->
  construct pb = Ok bt ->
  loaded pb 1 fi fo ->
  membrane (pr_material pb) = Some c ->
  time_step_of pb <> 0 ->
  answers_within (List.length (m_nodes (bt_mesh bt))) tol raw ->
  cls = DynamicGlobal \/ cls = DynamicSchur ->
  step_solver pb bt Wave m0 = Ok d ->
  in_stock (d_mem d) given ->
  non_decreasing 0 (requested n out) ->
  wave_solve (b_dimension (bt_body bt)) (b_count (bt_body bt)) (start_positions bt)
      (MethodModel.iterate (integrate_forces (bt_mesh bt) (bt_basic bt)) (bt_body bt) Wave cls) (finished (bt_body bt) Wave raw) n u0 v0 None out given d = (d', s0, Ok l) ->
  exists u v, motion (time_step_of pb) (takes (bt_mesh bt) id 1 g)
      (fun t a _ y => exists r, slight (List.length (m_nodes (bt_mesh bt))) tol r /\ swings_pushed (bt_mesh bt) id r (mass_density (pr_material pb)) c (fun p => fi p t) (fun p => fo p t) a y)
      u0 v0 (TimeTheorems.last_step n out) u v /\
    List.length l = List.length (requested n out) /\
    forall j q (s : state W), nth_error (requested n out) j = Some q -> nth_error l j = Some s ->
      shows (time_step_of pb) u v (Z.to_nat q) (look (d_mem d') s).
Proof.
  intros V W pb ic id g bt fi fo raw tol cls c m0 d d' n u0 v0 out given s0 l PO PR.
  exact (wave_inexact pb ic id g PO bt PR fi fo raw tol cls c m0 d d' n u0 v0 out given s0 l).
Qed.
Print Assumptions C110_wave.

Theorem C110_static : forall (V W : Type) pb ic id g bt density fi fo (raw : method forces -> vec -> vec -> vec -> R -> result (nat * vec)) tol cls mu la (m0 : store V) (d d' : driver V (method forces)) given u0 (s : state W),
  posed pb ic id g ->
  prepared pb bt density ->
  loaded pb 2 fi fo ->
  elastic (pr_material pb) = Some (mu, la) ->
  answers_within (2 * (List.length (m_nodes (bt_mesh bt)))) tol raw ->
  (forall i, iterate_variables cls i = None) ->
  step_solver pb bt StaticDisplacement m0 = Ok d ->
  in_stock (d_mem d) given ->
  static_solve (b_dimension (bt_body bt)) (b_count (bt_body bt)) (start_positions bt)
      (MethodModel.iterate (integrate_forces (bt_mesh bt) (bt_basic bt)) (bt_body bt) StaticDisplacement cls) (finished (bt_body bt) StaticDisplacement raw) u0 given d = (d', Ok s) ->
  takes (bt_mesh bt) id 2 g (view_displacement (look (d_mem d') s)) /\ exists r, slight (2 * (List.length (m_nodes (bt_mesh bt)))) tol r /\
    balances_pushed (bt_mesh bt) id r density mu la (fun p => fi p 0) (fun p => fo p 0) (view_displacement (look (d_mem d') s)).
Proof.
  intros V W pb ic id g bt density fi fo raw tol cls mu la m0 d d' given u0 s PO PR.
  exact (static_inexact pb ic id g PO bt density PR fi fo raw tol cls mu la m0 d d' given u0 s).
Qed.
Print Assumptions C110_static.

(* such runs go through whenever the solver answers the systems with definite matrices *)
Theorem C110_dynamic_total : forall (V W : Type) pb ic id g bt fi fo (raw : method forces -> vec -> vec -> vec -> R -> result (nat * vec)) cls th ze mu la (m0 : store V) n out,
  posed pb ic id g ->
  construct pb = Ok bt ->
  loaded pb 2 fi fo ->
  elastic (pr_material pb) = Some (mu, la) ->
  viscous (pr_material pb) = Some (th, ze) ->
  0 < mass_density (pr_material pb) ->
  0 <= mu ->
  0 <= la ->
  0 <= th ->
  0 <= ze ->
  0 < time_step_of pb ->
  answers_definite (2 * (List.length (m_nodes (bt_mesh bt)))) (2 * (List.length (m_nodes (bt_mesh bt)))) raw ->
  cls = DynamicGlobal \/ cls = DynamicSchur ->
  non_decreasing 0 (requested n out) ->
  n <> O ->
  exists d : driver V (method forces), step_solver pb bt DynamicVelocity m0 = Ok d /\ forall u0 v0, exists d' (l : list (state W)),
    dynamic_solve (b_dimension (bt_body bt)) (b_count (bt_body bt)) (start_positions bt)
      (MethodModel.iterate (integrate_forces (bt_mesh bt) (bt_basic bt)) (bt_body bt) DynamicVelocity cls) (finished (bt_body bt) DynamicVelocity raw) n u0 v0 out [] d = (d', Ok l).
Proof.
  intros V W pb ic id g bt fi fo raw cls th ze mu la m0 n out PO PR.
  exact (dynamic_inexact_total pb ic id g PO bt PR fi fo raw cls th ze mu la m0 n out).
Qed.
Print Assumptions C110_dynamic_total.

Theorem C110_quasistatic_total : forall (V W : Type) pb ic id g bt fi fo (raw : method forces -> vec -> vec -> vec -> R -> result (nat * vec)) cls th ze mu la (m0 : store V) n out,
  posed pb ic id g ->
  construct pb = Ok bt ->
  loaded pb 2 fi fo ->
  elastic (pr_material pb) = Some (mu, la) ->
  viscous (pr_material pb) = Some (th, ze) ->
  clamped_mesh pb id ->
  0 <= mu ->
  0 <= la ->
  0 < th ->
  0 <= ze ->
  0 < time_step_of pb ->
  answers_definite (2 * (List.length (m_nodes (bt_mesh bt)))) (2 * (List.length (m_nodes (bt_mesh bt)))) raw ->
  cls = QuasistaticGlobal \/ cls = QuasistaticSchur ->
  non_decreasing 0 (requested n out) ->
  n <> O ->
  exists d : driver V (method forces), step_solver pb bt QuasistaticVelocity m0 = Ok d /\ forall u0 v0, exists d' (l : list (state W)),
    dynamic_solve (b_dimension (bt_body bt)) (b_count (bt_body bt)) (start_positions bt)
      (MethodModel.iterate (integrate_forces (bt_mesh bt) (bt_basic bt)) (bt_body bt) QuasistaticVelocity cls) (finished (bt_body bt) QuasistaticVelocity raw) n u0 v0 out [] d = (d', Ok l).
Proof.
  intros V W pb ic id g bt fi fo raw cls th ze mu la m0 n out PO PR.
  exact (quasistatic_inexact_total pb ic id g PO bt PR fi fo raw cls th ze mu la m0 n out).
Qed.
Print Assumptions C110_quasistatic_total.

Theorem C110_wave_total : forall (V W : Type) pb ic id g bt fi fo (raw : method forces -> vec -> vec -> vec -> R -> result (nat * vec)) cls c (m0 : store V) n out,
  posed pb ic id g ->
  construct pb = Ok bt ->
  loaded pb 1 fi fo ->
  membrane (pr_material pb) = Some c ->
  0 < mass_density (pr_material pb) ->
  0 < time_step_of pb ->
  answers_definite (List.length (m_nodes (bt_mesh bt))) (2 * (List.length (m_nodes (bt_mesh bt)))) raw ->
  cls = DynamicGlobal \/ cls = DynamicSchur ->
  non_decreasing 0 (requested n out) ->
  n <> O ->
  exists d : driver V (method forces), step_solver pb bt Wave m0 = Ok d /\ forall u0 v0, exists d' s0 (l : list (state W)),
    wave_solve (b_dimension (bt_body bt)) (b_count (bt_body bt)) (start_positions bt)
      (MethodModel.iterate (integrate_forces (bt_mesh bt) (bt_basic bt)) (bt_body bt) Wave cls) (finished (bt_body bt) Wave raw) n u0 v0 None out [] d = (d', s0, Ok l).
Proof.
  intros V W pb ic id g bt fi fo raw cls c m0 n out PO PR.
  exact (wave_inexact_total pb ic id g PO bt PR fi fo raw cls c m0 n out).
Qed.
Print Assumptions C110_wave_total.

Theorem C110_static_total : forall (V W : Type) pb ic id g bt fi fo (raw : method forces -> vec -> vec -> vec -> R -> result (nat * vec)) cls mu la (m0 : store V),
  posed pb ic id g ->
  construct pb = Ok bt ->
  loaded pb 2 fi fo ->
  elastic (pr_material pb) = Some (mu, la) ->
  0 < mu ->
  0 <= la ->
  clamped_mesh pb id ->
  answers_definite (2 * (List.length (m_nodes (bt_mesh bt)))) (2 * (List.length (m_nodes (bt_mesh bt)))) raw ->
  (forall i, iterate_variables cls i = None) ->
  exists d : driver V (method forces), step_solver pb bt StaticDisplacement m0 = Ok d /\ forall u0, exists d' (s : state W),
    static_solve (b_dimension (bt_body bt)) (b_count (bt_body bt)) (start_positions bt)
      (MethodModel.iterate (integrate_forces (bt_mesh bt) (bt_basic bt)) (bt_body bt) StaticDisplacement cls) (finished (bt_body bt) StaticDisplacement raw) u0 [] d = (d', Ok s).
Proof.
  intros V W pb ic id g bt fi fo raw cls mu la m0 PO PR.
  exact (static_inexact_total pb ic id g PO bt PR fi fo raw cls mu la m0).
Qed.
Print Assumptions C110_static_total.

(* two runs of the same length in time, one exact, differ by at most ka * tol; ka depends neither on the time step nor
   on the tolerance, the number of steps or the loads *)
Theorem C110_dynamic_alike : forall pb ic id g bt fi fo T th ze mu la,
  posed pb ic id g ->
  construct pb = Ok bt ->
  0 <= T ->
  loaded pb 2 fi fo ->
  elastic (pr_material pb) = Some (mu, la) ->
  viscous (pr_material pb) = Some (th, ze) ->
  0 < mass_density (pr_material pb) ->
  0 <= mu ->
  0 <= la ->
  0 <= th ->
  0 <= ze ->
  exists ka, 0 <= ka /\
    forall (V W V' W' : Type) h tol (raw answer : method forces -> vec -> vec -> vec -> R -> result (nat * vec)) cls cls' (m0 : store V) (m0' : store V') (d e : driver V (method forces)) (d' e' : driver V' (method forces))
        u0 v0 n out given given' (l : list (state W)) (l' : list (state W')),
    0 < h ->
    0 <= tol ->
    answers_within (2 * (List.length (m_nodes (bt_mesh bt)))) tol raw ->
    answers_exactly (2 * (List.length (m_nodes (bt_mesh bt)))) answer ->
    cls = DynamicGlobal \/ cls = DynamicSchur ->
    cls' = DynamicGlobal \/ cls' = DynamicSchur ->
    step_solver (with_step pb h) bt DynamicVelocity m0 = Ok d ->
    in_stock (d_mem d) given ->
    step_solver (with_step pb h) bt DynamicVelocity m0' = Ok d' ->
    in_stock (d_mem d') given' ->
    non_decreasing 0 (requested n out) ->
    dynamic_solve (b_dimension (bt_body bt)) (b_count (bt_body bt)) (start_positions bt)
      (MethodModel.iterate (integrate_forces (bt_mesh bt) (bt_basic bt)) (bt_body bt) DynamicVelocity cls) (finished (bt_body bt) DynamicVelocity raw) n u0 v0 out given d = (e, Ok l) ->
    dynamic_solve (b_dimension (bt_body bt)) (b_count (bt_body bt)) (start_positions bt)
      (MethodModel.iterate (integrate_forces (bt_mesh bt) (bt_basic bt)) (bt_body bt) DynamicVelocity cls') answer n u0 v0 out given' d' = (e', Ok l') ->
    forall j (s : state W) (s' : state W'), nth_error l j = Some s -> nth_error l' j = Some s' -> view_time (look (d_mem e) s) <= T ->
      alike (2 * (List.length (m_nodes (bt_mesh bt)))) (ka * tol) (look (d_mem e) s) (look (d_mem e') s').
Proof.
  intros pb ic id g bt fi fo T th ze mu la PO PR T0. exact (dynamic_alike pb ic id g PO bt PR fi fo T T0 th ze mu la).
Qed.
Print Assumptions C110_dynamic_alike.

Theorem C110_quasistatic_alike : forall pb ic id g bt fi fo T th ze mu la,
  posed pb ic id g ->
  construct pb = Ok bt ->
  0 <= T ->
  loaded pb 2 fi fo ->
  elastic (pr_material pb) = Some (mu, la) ->
  viscous (pr_material pb) = Some (th, ze) ->
  clamped_mesh pb id ->
  0 <= mu ->
  0 <= la ->
  0 < th ->
  0 <= ze ->
  exists ka, 0 <= ka /\
    forall (V W V' W' : Type) h tol (raw answer : method forces -> vec -> vec -> vec -> R -> result (nat * vec)) cls cls' (m0 : store V) (m0' : store V') (d e : driver V (method forces)) (d' e' : driver V' (method forces))
        u0 v0 n out given given' (l : list (state W)) (l' : list (state W')),
    0 < h ->
    0 <= tol ->
    answers_within (2 * (List.length (m_nodes (bt_mesh bt)))) tol raw ->
    answers_exactly (2 * (List.length (m_nodes (bt_mesh bt)))) answer ->
    cls = QuasistaticGlobal \/ cls = QuasistaticSchur ->
    cls' = QuasistaticGlobal \/ cls' = QuasistaticSchur ->
    step_solver (with_step pb h) bt QuasistaticVelocity m0 = Ok d ->
    in_stock (d_mem d) given ->
    step_solver (with_step pb h) bt QuasistaticVelocity m0' = Ok d' ->
    in_stock (d_mem d') given' ->
    non_decreasing 0 (requested n out) ->
    dynamic_solve (b_dimension (bt_body bt)) (b_count (bt_body bt)) (start_positions bt)
      (MethodModel.iterate (integrate_forces (bt_mesh bt) (bt_basic bt)) (bt_body bt) QuasistaticVelocity cls) (finished (bt_body bt) QuasistaticVelocity raw) n u0 v0 out given d = (e, Ok l) ->
    dynamic_solve (b_dimension (bt_body bt)) (b_count (bt_body bt)) (start_positions bt)
      (MethodModel.iterate (integrate_forces (bt_mesh bt) (bt_basic bt)) (bt_body bt) QuasistaticVelocity cls') answer n u0 v0 out given' d' = (e', Ok l') ->
    forall j (s : state W) (s' : state W'), nth_error l j = Some s -> nth_error l' j = Some s' -> view_time (look (d_mem e) s) <= T ->
      alike (2 * (List.length (m_nodes (bt_mesh bt)))) (ka * tol) (look (d_mem e) s) (look (d_mem e') s').
Proof.
  intros pb ic id g bt fi fo T th ze mu la PO PR T0. exact (quasistatic_alike pb ic id g PO bt PR fi fo T T0 th ze mu la).
Qed.
Print Assumptions C110_quasistatic_alike.

Theorem C110_wave_alike : forall pb ic id g bt fi fo T c,
  posed pb ic id g ->
  construct pb = Ok bt ->
  0 <= T ->
  loaded pb 1 fi fo ->
  membrane (pr_material pb) = Some c ->
  0 < mass_density (pr_material pb) ->
  exists ka, 0 <= ka /\
    forall (V W V' W' : Type) h tol (raw answer : method forces -> vec -> vec -> vec -> R -> result (nat * vec)) cls cls' (m0 : store V) (m0' : store V') (d e : driver V (method forces)) (d' e' : driver V' (method forces))
        u0 v0 n out given given' s0 s0' (l : list (state W)) (l' : list (state W')),
    0 < h ->
    0 <= tol ->
    answers_within (List.length (m_nodes (bt_mesh bt))) tol raw ->
    answers_exactly (List.length (m_nodes (bt_mesh bt))) answer ->
    cls = DynamicGlobal \/ cls = DynamicSchur ->
    cls' = DynamicGlobal \/ cls' = DynamicSchur ->
    step_solver (with_step pb h) bt Wave m0 = Ok d ->
    in_stock (d_mem d) given ->
    step_solver (with_step pb h) bt Wave m0' = Ok d' ->
    in_stock (d_mem d') given' ->
    non_decreasing 0 (requested n out) ->
    wave_solve (b_dimension (bt_body bt)) (b_count (bt_body bt)) (start_positions bt)
      (MethodModel.iterate (integrate_forces (bt_mesh bt) (bt_basic bt)) (bt_body bt) Wave cls) (finished (bt_body bt) Wave raw) n u0 v0 None out given d = (e, s0, Ok l) ->
    wave_solve (b_dimension (bt_body bt)) (b_count (bt_body bt)) (start_positions bt)
      (MethodModel.iterate (integrate_forces (bt_mesh bt) (bt_basic bt)) (bt_body bt) Wave cls') answer n u0 v0 None out given' d' = (e', s0', Ok l') ->
    forall j (s : state W) (s' : state W'), nth_error l j = Some s -> nth_error l' j = Some s' -> view_time (look (d_mem e) s) <= T ->
      alike (List.length (m_nodes (bt_mesh bt))) (ka * tol) (look (d_mem e) s) (look (d_mem e') s').
Proof.
  intros pb ic id g bt fi fo T c PO PR T0. exact (wave_alike pb ic id g PO bt PR fi fo T T0 c).
Qed.
Print Assumptions C110_wave_alike.

(* every state of a run differs from every equilibrium by at most ka * tol *)
Theorem C110_static_near : forall pb ic id g bt density fi fo mu la,
  posed pb ic id g ->
  prepared pb bt density ->
  loaded pb 2 fi fo ->
  elastic (pr_material pb) = Some (mu, la) ->
  0 < mu ->
  0 <= la ->
  positive_density density ->
  clamped_mesh pb id ->
  exists ka, 0 <= ka /\
    forall (V W : Type) tol (raw : method forces -> vec -> vec -> vec -> R -> result (nat * vec)) cls (m0 : store V) (d d' : driver V (method forces)) given u0 (s : state W) u,
    0 <= tol ->
    answers_within (2 * (List.length (m_nodes (bt_mesh bt)))) tol raw ->
    (forall i, iterate_variables cls i = None) ->
    step_solver pb bt StaticDisplacement m0 = Ok d ->
    in_stock (d_mem d) given ->
    static_solve (b_dimension (bt_body bt)) (b_count (bt_body bt)) (start_positions bt)
      (MethodModel.iterate (integrate_forces (bt_mesh bt) (bt_basic bt)) (bt_body bt) StaticDisplacement cls) (finished (bt_body bt) StaticDisplacement raw) u0 given d = (d', Ok s) ->
    takes (bt_mesh bt) id 2 g u ->
    balances coord2 zero2 (bt_mesh bt) density id mu la (fun p => fi p 0) (fun p => fo p 0) u ->
    forall i, (i < 2 * (List.length (m_nodes (bt_mesh bt))))%nat -> Rabs (view_displacement (look (d_mem d') s) i - u i) <= ka * tol.
Proof.
  intros pb ic id g bt density fi fo mu la PO PR. exact (static_near pb ic id g PO bt density PR fi fo mu la).
Qed.
Print Assumptions C110_static_near.

(* against the motion in continuous time: one factor for the time step and the tolerance together *)
Theorem C110_dynamic_near : forall pb ic id g bt fi fo T B L U V A th ze mu la,
  posed pb ic id g ->
  construct pb = Ok bt ->
  0 <= T ->
  loaded pb 2 fi fo ->
  elastic (pr_material pb) = Some (mu, la) ->
  viscous (pr_material pb) = Some (th, ze) ->
  0 < mass_density (pr_material pb) ->
  0 <= mu ->
  0 <= la ->
  0 <= th ->
  0 <= ze ->
  0 <= B ->
  0 <= L ->
  paced_load T L fi ->
  paced_load T L fo ->
  derives (2 * (List.length (m_nodes (bt_mesh bt)))) T U V ->
  derives (2 * (List.length (m_nodes (bt_mesh bt)))) T V A ->
  paced (2 * (List.length (m_nodes (bt_mesh bt)))) T B V ->
  paced (2 * (List.length (m_nodes (bt_mesh bt)))) T B A ->
  true_motion (bt_mesh bt) id g fi fo T (mass_density (pr_material pb)) th ze mu la U V A ->
  exists ka, 0 <= ka /\
    forall (V' W : Type) h tol (raw : method forces -> vec -> vec -> vec -> R -> result (nat * vec)) cls (m0 : store V') (d d' : driver V' (method forces)) n out given (l : list (state W)),
    0 < h ->
    0 <= tol ->
    answers_within (2 * (List.length (m_nodes (bt_mesh bt)))) tol raw ->
    cls = DynamicGlobal \/ cls = DynamicSchur ->
    step_solver (with_step pb h) bt DynamicVelocity m0 = Ok d ->
    in_stock (d_mem d) given ->
    non_decreasing 0 (requested n out) ->
    dynamic_solve (b_dimension (bt_body bt)) (b_count (bt_body bt)) (start_positions bt)
      (MethodModel.iterate (integrate_forces (bt_mesh bt) (bt_basic bt)) (bt_body bt) DynamicVelocity cls) (finished (bt_body bt) DynamicVelocity raw) n (U 0) (V 0) out given d = (d', Ok l) ->
    forall j (s : state W), nth_error l j = Some s -> view_time (look (d_mem d') s) <= T -> within (2 * (List.length (m_nodes (bt_mesh bt)))) (ka * (h + tol)) U V (look (d_mem d') s).
Proof.
  intros pb ic id g bt fi fo T B L U V A th ze mu la PO PR T0. exact (dynamic_near pb ic id g PO bt PR fi fo T T0 B L U V A th ze mu la).
Qed.
Print Assumptions C110_dynamic_near.

Theorem C110_quasistatic_near : forall pb ic id g bt fi fo T B L U V th ze mu la,
  posed pb ic id g ->
  construct pb = Ok bt ->
  0 <= T ->
  loaded pb 2 fi fo ->
  elastic (pr_material pb) = Some (mu, la) ->
  viscous (pr_material pb) = Some (th, ze) ->
  clamped_mesh pb id ->
  0 <= mu ->
  0 <= la ->
  0 < th ->
  0 <= ze ->
  0 <= B ->
  0 <= L ->
  paced_load T L fi ->
  paced_load T L fo ->
  derives (2 * (List.length (m_nodes (bt_mesh bt)))) T U V ->
  paced (2 * (List.length (m_nodes (bt_mesh bt)))) T B V ->
  true_flow (bt_mesh bt) id g fi fo T th ze mu la U V ->
  exists ka, 0 <= ka /\
    forall (V' W : Type) h tol (raw : method forces -> vec -> vec -> vec -> R -> result (nat * vec)) cls v0 (m0 : store V') (d d' : driver V' (method forces)) n out given (l : list (state W)),
    0 < h ->
    0 <= tol ->
    answers_within (2 * (List.length (m_nodes (bt_mesh bt)))) tol raw ->
    cls = QuasistaticGlobal \/ cls = QuasistaticSchur ->
    step_solver (with_step pb h) bt QuasistaticVelocity m0 = Ok d ->
    in_stock (d_mem d) given ->
    non_decreasing 0 (requested n out) ->
    dynamic_solve (b_dimension (bt_body bt)) (b_count (bt_body bt)) (start_positions bt)
      (MethodModel.iterate (integrate_forces (bt_mesh bt) (bt_basic bt)) (bt_body bt) QuasistaticVelocity cls) (finished (bt_body bt) QuasistaticVelocity raw) n (U 0) v0 out given d = (d', Ok l) ->
    forall j (s : state W), nth_error l j = Some s -> 0 < view_time (look (d_mem d') s) <= T -> within (2 * (List.length (m_nodes (bt_mesh bt)))) (ka * (h + tol)) U V (look (d_mem d') s).
Proof.
  intros pb ic id g bt fi fo T B L U V th ze mu la PO PR T0. exact (quasistatic_near pb ic id g PO bt PR fi fo T T0 B L U V th ze mu la).
Qed.
Print Assumptions C110_quasistatic_near.

Theorem C110_wave_near : forall pb ic id g bt fi fo T B L U V A c,
  posed pb ic id g ->
  construct pb = Ok bt ->
  0 <= T ->
  loaded pb 1 fi fo ->
  membrane (pr_material pb) = Some c ->
  0 < mass_density (pr_material pb) ->
  0 <= B ->
  0 <= L ->
  paced_load T L fi ->
  paced_load T L fo ->
  derives (List.length (m_nodes (bt_mesh bt))) T U V ->
  derives (List.length (m_nodes (bt_mesh bt))) T V A ->
  paced (List.length (m_nodes (bt_mesh bt))) T B V ->
  paced (List.length (m_nodes (bt_mesh bt))) T B A ->
  true_swing (bt_mesh bt) id g fi fo T (mass_density (pr_material pb)) c U V A ->
  exists ka, 0 <= ka /\
    forall (V' W : Type) h tol (raw : method forces -> vec -> vec -> vec -> R -> result (nat * vec)) cls (m0 : store V') (d d' : driver V' (method forces)) n out given s0 (l : list (state W)),
    0 < h ->
    0 <= tol ->
    answers_within (List.length (m_nodes (bt_mesh bt))) tol raw ->
    cls = DynamicGlobal \/ cls = DynamicSchur ->
    step_solver (with_step pb h) bt Wave m0 = Ok d ->
    in_stock (d_mem d) given ->
    non_decreasing 0 (requested n out) ->
    wave_solve (b_dimension (bt_body bt)) (b_count (bt_body bt)) (start_positions bt)
      (MethodModel.iterate (integrate_forces (bt_mesh bt) (bt_basic bt)) (bt_body bt) Wave cls) (finished (bt_body bt) Wave raw) n (U 0) (V 0) None out given d = (d', s0, Ok l) ->
    forall j (s : state W), nth_error l j = Some s -> view_time (look (d_mem d') s) <= T -> within (List.length (m_nodes (bt_mesh bt))) (ka * (h + tol)) U V (look (d_mem d') s).
Proof.
  intros pb ic id g bt fi fo T B L U V A c PO PR T0. exact (wave_near pb ic id g PO bt PR fi fo T T0 B L U V A c).
Qed.
Print Assumptions C110_wave_near.

(* a solver with residuals of exactly tol in all rows: within tol, not exact, answers definite systems *)
Example C110_off : forall F size full tol, 0 <= tol -> answers_within size tol (@off_answer F tol full) /\ answers_definite size full (@off_answer F tol full).
Proof. intros F size full tol T. split; [apply off_within; exact T|apply off_definite]. Qed.
Example C110_off_inexact : forall F tol full (i : method F) guess v u dt len z, off_answer tol full i guess v u dt = Ok (len, z) ->
  forall a, (a < v_len (m_rhs i))%nat -> mv (v_len (m_rhs i)) (load_m (hp (m_world i)) (sm_data (m_lhs i))) z a - load_v (hp (m_world i)) (m_rhs i) a = tol.
Proof. exact @off_residual. Qed.
(* its runs of the falling body, for every time step: hypotheses of C110_dynamic, C110_dynamic_alike; of C110_dynamic_near
   with C106_fall *)
Example C110_fall : forall h tol, 0 < h -> 0 <= tol -> exists bt d, construct (fall_problem (fun _ => 1)) = Ok bt /\
  step_solver (V:=R) (with_step (fall_problem (fun _ => 1)) h) bt DynamicVelocity no_memory = Ok d /\
  answers_within (2 * (List.length (m_nodes (bt_mesh bt)))) tol (@off_answer forces tol (2 * (List.length (m_nodes (bt_mesh bt))))) /\
  exists d' (l : list (state unit)),
  dynamic_solve (b_dimension (bt_body bt)) (b_count (bt_body bt)) (start_positions bt)
    (MethodModel.iterate (integrate_forces (bt_mesh bt) (bt_basic bt)) (bt_body bt) DynamicVelocity DynamicSchur)
    (finished (bt_body bt) DynamicVelocity (off_answer tol (2 * (List.length (m_nodes (bt_mesh bt)))))) 3 (alike_all bt 0) (alike_all bt 0) [1; 3]%Z [] d = (d', Ok l).
Proof.
  intros h tol HP TP. destruct (fall_constructs (fun _ => 1)) as (bt & E).
  edestruct (dynamic_inexact_total (V:=R) (W:=unit) (with_step (fall_problem (fun _ => 1)) h) _ _ _ (posed_step _ _ _ _ h (fall_posed _)) bt E (drag (fun _ => 1)) calm
    (off_answer tol (2 * (List.length (m_nodes (bt_mesh bt))))) DynamicSchur 1 2 4 3 no_memory 3 [1; 3]%Z) as (d & S & H);
    [apply fall_loaded|reflexivity|reflexivity|cbn; lra|lra|lra|lra|lra|exact HP|apply off_definite|auto|cbn; lia|discriminate|].
  exists bt, d. split; [exact E|]. split; [exact S|]. split; [apply off_within; exact TP|]. destruct (H (alike_all bt 0) (alike_all bt 0)) as (d' & l & Q). exists d', l. exact Q.
Qed.
(* the body and the membrane carried by their clamped side: hypotheses of C110_quasistatic and C110_wave *)
Example C110_carried : forall h tol, 0 < h -> 0 <= tol -> exists bt d, construct (carried_problem 2) = Ok bt /\
  step_solver (V:=R) (with_step (carried_problem 2) h) bt QuasistaticVelocity no_memory = Ok d /\
  answers_within (2 * (List.length (m_nodes (bt_mesh bt)))) tol (@off_answer forces tol (2 * (List.length (m_nodes (bt_mesh bt))))) /\
  exists d' (l : list (state unit)),
  dynamic_solve (b_dimension (bt_body bt)) (b_count (bt_body bt)) (start_positions bt)
    (MethodModel.iterate (integrate_forces (bt_mesh bt) (bt_basic bt)) (bt_body bt) QuasistaticVelocity QuasistaticSchur)
    (finished (bt_body bt) QuasistaticVelocity (off_answer tol (2 * (List.length (m_nodes (bt_mesh bt)))))) 3 (fun _ => 0) (fun _ => 1) [1; 3]%Z [] d = (d', Ok l).
Proof.
  intros h tol HP TP. destruct (carried_constructs 2) as (bt & E).
  edestruct (quasistatic_inexact_total (V:=R) (W:=unit) (with_step (carried_problem 2) h) _ _ _ (posed_step _ _ _ _ h (carried_posed 2)) bt E calm calm
    (off_answer tol (2 * (List.length (m_nodes (bt_mesh bt))))) QuasistaticSchur 1 2 4 3 no_memory 3 [1; 3]%Z) as (d & S & H);
    [apply carried_loaded|reflexivity|reflexivity|exact (carried_clamped 2)|lra|lra|lra|lra|exact HP|apply off_definite|auto|cbn; lia|discriminate|].
  exists bt, d. split; [exact E|]. split; [exact S|]. split; [apply off_within; exact TP|]. destruct (H (fun _ => 0) (fun _ => 1)) as (d' & l & Q). exists d', l. exact Q.
Qed.
Example C110_membrane : forall h tol, 0 < h -> 0 <= tol -> exists bt d, construct (carried_problem 1) = Ok bt /\
  step_solver (V:=R) (with_step (carried_problem 1) h) bt Wave no_memory = Ok d /\
  answers_within (List.length (m_nodes (bt_mesh bt))) tol (@off_answer forces tol (2 * (List.length (m_nodes (bt_mesh bt))))) /\
  exists d' s0 (l : list (state unit)),
  wave_solve (b_dimension (bt_body bt)) (b_count (bt_body bt)) (start_positions bt)
    (MethodModel.iterate (integrate_forces (bt_mesh bt) (bt_basic bt)) (bt_body bt) Wave DynamicGlobal)
    (finished (bt_body bt) Wave (off_answer tol (2 * (List.length (m_nodes (bt_mesh bt)))))) 3 (fun _ => 0) (fun _ => 1) None [1; 3]%Z [] d = (d', s0, Ok l).
Proof.
  intros h tol HP TP. destruct (carried_constructs 1) as (bt & E).
  edestruct (wave_inexact_total (V:=R) (W:=unit) (with_step (carried_problem 1) h) _ _ _ (posed_step _ _ _ _ h (carried_posed 1)) bt E calm calm
    (off_answer tol (2 * (List.length (m_nodes (bt_mesh bt))))) DynamicGlobal 5 no_memory 3 [1; 3]%Z) as (d & S & H);
    [apply carried_loaded|reflexivity|cbn; lra|exact HP|apply off_definite|auto|cbn; lia|discriminate|].
  exists bt, d. split; [exact E|]. split; [exact S|]. split; [apply off_within; exact TP|]. destruct (H (fun _ => 0) (fun _ => 1)) as (d' & s0 & l & Q). exists d', s0, l. exact Q.
Qed.
(* the loaded square of C87 with lifted side: hypotheses of C110_static and C110_static_near *)
Example C110_square : forall tol, 0 <= tol -> exists bt d, construct (square 2) = Ok bt /\ prepared (square 2) bt None /\ positive_density None /\ clamped_mesh (square 2) (on_line 0) /\
  step_solver (V:=R) (square 2) bt StaticDisplacement no_memory = Ok d /\
  answers_within (2 * (List.length (m_nodes (bt_mesh bt)))) tol (@off_answer forces tol (2 * (List.length (m_nodes (bt_mesh bt))))) /\
  exists d' (s : state unit),
  static_solve (b_dimension (bt_body bt)) (b_count (bt_body bt)) (start_positions bt)
    (MethodModel.iterate (integrate_forces (bt_mesh bt) (bt_basic bt)) (bt_body bt) StaticDisplacement StaticSchur)
    (finished (bt_body bt) StaticDisplacement (off_answer tol (2 * (List.length (m_nodes (bt_mesh bt)))))) (fun _ => 0) [] d = (d', Ok s).
Proof.
  intros tol TP. destruct (square_constructs 2 given_weight square_heat) as (bt & E).
  edestruct (static_inexact_total (V:=R) (W:=unit) (square 2) _ _ _ (square_posed 2 given_weight square_heat) bt E weight pull
    (off_answer tol (2 * (List.length (m_nodes (bt_mesh bt))))) StaticSchur 4 3 no_memory) as (d & S & H);
    [apply square_loaded|reflexivity|lra|lra|apply square_clamped|apply off_definite|reflexivity|].
  exists bt, d. split; [exact E|]. split; [apply constructed; exact E|]. split; [exact Logic.I|]. split; [apply square_clamped|]. split; [exact S|].
  split; [apply off_within; exact TP|]. destruct (H (fun _ => 0)) as (d' & s & Q). exists d', s. exact Q.
Qed.
