(* C87, C88: from the problem that a user poses to the states that its solver returns. *)
From Coq Require Import Reals List Arith ZArith Bool String Lia Lra.
From Verif Require Import Common PyModel RVec LinAlg MeshModel MeshBuildModel MeshSpec NormalsModel FemModel FemSpec ForcesModel ForcesSpec
  DirichletModel DirichletSpec StatementModel StatementSpec StatementValueProofs RegistryModel StateModel StateLemmas CopyProofs
  TimeModel TimeSpec TimeProofs RunProofs HistoryProofs SolveProofs MarchProofs MethodModel MethodProofs RunSpec RunStable WholeRunProofs RunTheorems
  ProblemModel ProblemSpec ProblemProofs ProblemTheorems ProblemUnique ProblemTotal ProblemDefaults ProblemFinal ProblemWitness ProblemConst.
Import ListNotations.
Local Open Scope string_scope.
Local Open Scope list_scope.
Local Open Scope R_scope.

(* --------------------------------------------------------- what a run computes *)

(* static problems: the displacement has the prescribed values and balances the loads *)
Theorem C87_static : forall {V W} pb ic id g bt density (answer : method forces -> vec -> vec -> vec -> R -> result (nat * vec)) fi fo cls mu la (m0 : store V) (d d' : driver V (method forces)) given u0 (s : state W),
  posed pb ic id g ->
  prepared pb bt density ->
  loaded pb 2 fi fo ->
  elastic (pr_material pb) = Some (mu, la) ->
  answers_exactly (2 * (List.length (m_nodes (bt_mesh bt)))) answer ->
  (forall g, iterate_variables cls g = None) ->
  step_solver pb bt StaticDisplacement m0 = Ok d ->
  in_stock (d_mem d) given ->
  static_solve (b_dimension (bt_body bt)) (b_count (bt_body bt)) (start_positions bt)
    (MethodModel.iterate (integrate_forces (bt_mesh bt) (bt_basic bt)) (bt_body bt) StaticDisplacement cls) answer u0 given d = (d', Ok s) ->
  takes (bt_mesh bt) id 2 g (view_displacement (look (d_mem d') s)) /\
  balances coord2 zero2 (bt_mesh bt) density id mu la (fun p => fi p 0) (fun p => fo p 0) (view_displacement (look (d_mem d') s)).
Proof. intros V W pb ic id g bt density answer fi fo cls mu la m0 d d' given u0 s. exact (fun PO PR => static_final pb ic id g PO bt density PR answer fi fo cls mu la m0 d d' given u0 s). Qed.
Print Assumptions C87_static.

Theorem C87_static_direct : forall {V W} pb ic id g bt density linsolve fi fo cls mu la (m0 : store V) (d d' : driver V (method forces)) given u0 (s : state W),
  posed pb ic id g ->
  prepared pb bt density ->
  loaded pb 2 fi fo ->
  elastic (pr_material pb) = Some (mu, la) ->
  (forall n A r x, linsolve n A r = Ok x -> solves n A r x) ->
  (forall g, iterate_variables cls g = None) ->
  step_solver pb bt StaticDisplacement m0 = Ok d ->
  in_stock (d_mem d) given ->
  static_solve (b_dimension (bt_body bt)) (b_count (bt_body bt)) (start_positions bt)
    (MethodModel.iterate (integrate_forces (bt_mesh bt) (bt_basic bt)) (bt_body bt) StaticDisplacement cls) (direct_answer (bt_body bt) StaticDisplacement linsolve) u0 given d = (d', Ok s) ->
  takes (bt_mesh bt) id 2 g (view_displacement (look (d_mem d') s)) /\
  balances coord2 zero2 (bt_mesh bt) density id mu la (fun p => fi p 0) (fun p => fo p 0) (view_displacement (look (d_mem d') s)).
Proof. intros V W pb ic id g bt density linsolve fi fo cls mu la m0 d d' given u0 s. exact (fun PO PR => static_direct_final pb ic id g PO bt density PR fi fo linsolve cls mu la m0 d d' given u0 s). Qed.
Print Assumptions C87_static_direct.

(* Poisson problems *)
Theorem C87_poisson : forall {V W} pb ic id g bt density (answer : method forces -> vec -> vec -> vec -> R -> result (nat * vec)) fi fo cls c (m0 : store V) (d d' : driver V (method forces)) (s : state W),
  posed pb ic id g ->
  prepared pb bt density ->
  heated pb fi fo ->
  membrane (pr_material pb) = Some c ->
  answers_exactly (List.length (m_nodes (bt_mesh bt))) answer ->
  (forall g, iterate_variables cls g = None) ->
  step_solver pb bt StaticPoisson m0 = Ok d ->
  poisson_solve (start_positions bt)
    (MethodModel.iterate (integrate_forces (bt_mesh bt) (bt_basic bt)) (bt_body bt) StaticPoisson cls) answer d = (d', Ok s) ->
  exists cell, extra s = Thermal cell /\ takes (bt_mesh bt) id 1 g (StateModel.load (d_mem d') cell) /\
    rests coord2 zero2 (bt_mesh bt) density id c (fun p => fi p 0) (fun p => fo p 0) (StateModel.load (d_mem d') cell).
Proof. intros V W pb ic id g bt density answer fi fo cls c m0 d d' s. exact (fun PO PR => poisson_final pb ic id g PO bt density PR answer fi fo cls c m0 d d' s). Qed.
Print Assumptions C87_poisson.

(* the motions of time-dependent problems: at every step the velocity has the prescribed values and
   inertia, stresses and loads balance; the state number j of the answer shows the step requested *)
Theorem C87_dynamic : forall {V W} pb ic id g bt (answer : method forces -> vec -> vec -> vec -> R -> result (nat * vec)) fi fo cls th ze mu la (m0 : store V) (d d' : driver V (method forces)) n u0 v0 out given (l : list (state W)),
  posed pb ic id g ->
  construct pb = Ok bt ->
  loaded pb 2 fi fo ->
  elastic (pr_material pb) = Some (mu, la) ->
  viscous (pr_material pb) = Some (th, ze) ->
  time_step_of pb <> 0 ->
  answers_exactly (2 * (List.length (m_nodes (bt_mesh bt)))) answer ->
  cls = DynamicGlobal \/ cls = DynamicSchur ->
  step_solver pb bt DynamicVelocity m0 = Ok d ->
  in_stock (d_mem d) given ->
  non_decreasing 0 (requested n out) ->
  dynamic_solve (b_dimension (bt_body bt)) (b_count (bt_body bt)) (start_positions bt)
    (MethodModel.iterate (integrate_forces (bt_mesh bt) (bt_basic bt)) (bt_body bt) DynamicVelocity cls) answer n u0 v0 out given d = (d', Ok l) ->
  exists u v, motion (time_step_of pb) (takes (bt_mesh bt) id 2 g)
      (fun t a w y => moves coord2 zero2 (bt_mesh bt) id (mass_density (pr_material pb)) th ze mu la (fun p => fi p t) (fun p => fo p t) a w y)
      u0 v0 (TimeTheorems.last_step n out) u v /\
    List.length l = List.length (requested n out) /\
    forall j q (s : state W), nth_error (requested n out) j = Some q -> nth_error l j = Some s ->
      shows (time_step_of pb) u v (Z.to_nat q) (look (d_mem d') s).
Proof. intros V W pb ic id g bt answer fi fo cls th ze mu la m0 d d' n u0 v0 out given l. exact (fun PO PR => dynamic_final pb ic id g PO bt PR answer fi fo cls th ze mu la m0 d d' n u0 v0 out given l). Qed.
Print Assumptions C87_dynamic.

Theorem C87_quasistatic : forall {V W} pb ic id g bt (answer : method forces -> vec -> vec -> vec -> R -> result (nat * vec)) fi fo cls th ze mu la (m0 : store V) (d d' : driver V (method forces)) n u0 v0 out given (l : list (state W)),
  posed pb ic id g ->
  construct pb = Ok bt ->
  loaded pb 2 fi fo ->
  elastic (pr_material pb) = Some (mu, la) ->
  viscous (pr_material pb) = Some (th, ze) ->
  time_step_of pb <> 0 ->
  answers_exactly (2 * (List.length (m_nodes (bt_mesh bt)))) answer ->
  cls = QuasistaticGlobal \/ cls = QuasistaticSchur ->
  step_solver pb bt QuasistaticVelocity m0 = Ok d ->
  in_stock (d_mem d) given ->
  non_decreasing 0 (requested n out) ->
  dynamic_solve (b_dimension (bt_body bt)) (b_count (bt_body bt)) (start_positions bt)
    (MethodModel.iterate (integrate_forces (bt_mesh bt) (bt_basic bt)) (bt_body bt) QuasistaticVelocity cls) answer n u0 v0 out given d = (d', Ok l) ->
  exists u v, motion (time_step_of pb) (takes (bt_mesh bt) id 2 g)
      (fun t a w y => flows coord2 zero2 (bt_mesh bt) id th ze mu la (fun p => fi p t) (fun p => fo p t) w y)
      u0 v0 (TimeTheorems.last_step n out) u v /\
    List.length l = List.length (requested n out) /\
    forall j q (s : state W), nth_error (requested n out) j = Some q -> nth_error l j = Some s ->
      shows (time_step_of pb) u v (Z.to_nat q) (look (d_mem d') s).
Proof. intros V W pb ic id g bt answer fi fo cls th ze mu la m0 d d' n u0 v0 out given l. exact (fun PO PR => quasistatic_final pb ic id g PO bt PR answer fi fo cls th ze mu la m0 d d' n u0 v0 out given l). Qed.
Print Assumptions C87_quasistatic.

Theorem C87_wave : forall {V W} pb ic id g bt (answer : method forces -> vec -> vec -> vec -> R -> result (nat * vec)) fi fo cls c (m0 : store V) (d d' : driver V (method forces)) n u0 v0 out given s0 (l : list (state W)),
  posed pb ic id g ->
  construct pb = Ok bt ->
  loaded pb 1 fi fo ->
  membrane (pr_material pb) = Some c ->
  time_step_of pb <> 0 ->
  answers_exactly (List.length (m_nodes (bt_mesh bt))) answer ->
  cls = DynamicGlobal \/ cls = DynamicSchur ->
  step_solver pb bt Wave m0 = Ok d ->
  in_stock (d_mem d) given ->
  non_decreasing 0 (requested n out) ->
  wave_solve (b_dimension (bt_body bt)) (b_count (bt_body bt)) (start_positions bt)
    (MethodModel.iterate (integrate_forces (bt_mesh bt) (bt_basic bt)) (bt_body bt) Wave cls) answer n u0 v0 None out given d = (d', s0, Ok l) ->
  exists u v, motion (time_step_of pb) (takes (bt_mesh bt) id 1 g)
      (fun t a w y => swings coord2 zero2 (bt_mesh bt) id (mass_density (pr_material pb)) c (fun p => fi p t) (fun p => fo p t) a y)
      u0 v0 (TimeTheorems.last_step n out) u v /\
    List.length l = List.length (requested n out) /\
    forall j q (s : state W), nth_error (requested n out) j = Some q -> nth_error l j = Some s ->
      shows (time_step_of pb) u v (Z.to_nat q) (look (d_mem d') s).
Proof. intros V W pb ic id g bt answer fi fo cls c m0 d d' n u0 v0 out given s0 l. exact (fun PO PR => wave_final pb ic id g PO bt PR answer fi fo cls c m0 d d' n u0 v0 out given s0 l). Qed.
Print Assumptions C87_wave.

(* materials with memory: here the displacement has the prescribed values, the absement accumulates it *)
Theorem C87_relaxation : forall {V W} pb ic id g bt (answer : method forces -> vec -> vec -> vec -> R -> result (nat * vec)) fi fo mu la f (C : R -> tensor) (m0 : store V) (d d' : driver V (method forces)) n b0 u0 out given (l : list (state W)),
  posed pb ic id g ->
  construct pb = Ok bt ->
  loaded pb 2 fi fo ->
  elastic (pr_material pb) = Some (mu, la) ->
  pr_relaxation pb = Some f ->
  (forall t, f (Some t) = Ok (C t)) ->
  time_step_of pb <> 0 ->
  answers_exactly (2 * (List.length (m_nodes (bt_mesh bt)))) answer ->
  step_solver pb bt QuasistaticRelaxation m0 = Ok d ->
  in_stock (d_mem d) given ->
  non_decreasing 0 (requested n out) ->
  relaxation_solve (b_dimension (bt_body bt)) (b_count (bt_body bt)) (start_positions bt)
    (MethodModel.iterate (integrate_forces (bt_mesh bt) (bt_basic bt)) (bt_body bt) QuasistaticRelaxation RelaxedSchur) answer n b0 u0 out given d = (d', Ok l) ->
  exists ab u, motion (time_step_of pb) (takes (bt_mesh bt) id 2 g)
      (fun t a w y => creeps coord2 zero2 (bt_mesh bt) id mu la (C t) (fun p => fi p t) (fun p => fo p t) y w)
      b0 u0 (TimeTheorems.last_step n out) ab u /\
    List.length l = List.length (requested n out) /\
    forall j q (s : state W), nth_error (requested n out) j = Some q -> nth_error l j = Some s ->
      shows_creep (time_step_of pb) ab u (Z.to_nat q) (look (d_mem d') s).
Proof. intros V W pb ic id g bt answer fi fo mu la f C m0 d d' n b0 u0 out given l. exact (fun PO PR => relaxation_final pb ic id g PO bt PR answer fi fo mu la f C m0 d d' n b0 u0 out given l). Qed.
Print Assumptions C87_relaxation.

(* the work of a uniform volume load is exact ... *)
Theorem C87_uniform : forall e f c, cross_mean 2 e f (fun _ => c) = c * ((f (nth 0 e 0%nat) + f (nth 1 e 0%nat) + f (nth 2 e 0%nat)) / 3) /\
  cross_mean 2 e f (fun _ => c) = mean_product 2 (fun k => f (nth k e 0%nat)) (fun _ => c).
Proof. exact uniform_exact. Qed.
Print Assumptions C87_uniform.

(* ... the work of a load that varies over the element is not *)
Theorem C87_varying_refuted : exists e f h,
  cross_mean 2 e f h <> mean_product 2 (fun k => f (nth k e 0%nat)) (fun k => h (nth k e 0%nat)).
Proof. exact varying_inexact. Qed.
Print Assumptions C87_varying_refuted.

(* a problem that keeps the default forces has no step solver: the constructor raises *)
Theorem C87_default_refuted : forall {V} pb ic id g bt density k (m0 : store V),
  posed pb ic id g -> prepared pb bt density -> pr_elements pb <> [] -> pr_inner pb = default_forces -> asks_force k ->
  exists e, step_solver pb bt k m0 = Err e.
Proof. intros V pb ic id g bt density k m0 PO PR NE. exact (default_blocked pb ic id g PO bt density PR NE k m0). Qed.
Print Assumptions C87_default_refuted.

Theorem C87_default_static : forall {V} pb ic id g bt density mu la (m0 : store V),
  posed pb ic id g -> prepared pb bt density -> pr_elements pb <> [] -> pr_inner pb = default_forces ->
  elastic (pr_material pb) = Some (mu, la) -> step_solver pb bt StaticDisplacement m0 = Err TypeError.
Proof. intros V pb ic id g bt density mu la m0 PO PR NE. exact (default_static pb ic id g PO bt density PR NE mu la m0). Qed.
Print Assumptions C87_default_static.

(* a Poisson problem that keeps the default temperatures: the right-hand side is twice as long as
   the matrix *)
Theorem C87_heat_refuted : forall {V} pb ic id g bt density c (m0 : store V),
  posed pb ic id g -> prepared pb bt density -> pr_elements pb <> [] -> membrane (pr_material pb) = Some c ->
  pr_heat pb = Some (fst default_temperature, snd default_temperature, snd default_temperature) ->
  exists d, step_solver pb bt StaticPoisson m0 = Ok d /\
    let i := inner (d_sv d) in let N := List.length (m_nodes (bt_mesh bt)) in
    v_len (m_rhs i) = (2 * N)%nat /\ m_rows (sm_data (m_lhs i)) = N /\ m_cols (sm_data (m_lhs i)) = N /\ (N <> 2 * N)%nat.
Proof. intros V pb ic id g bt density c m0 PO PR NE. exact (default_poisson pb ic id g PO bt density PR NE c m0). Qed.
Print Assumptions C87_heat_refuted.

(* ------------------------------------------------------------- runs go through *)

Theorem C88_construct : forall pb ic id g, posed pb ic id g -> pr_elements pb <> [] -> complete_names pb -> separate ic id ->
  exists bt, construct pb = Ok bt.
Proof. exact construct_total. Qed.
Print Assumptions C88_construct.

Theorem C88_update : forall pb ic id g bt density w rho, posed pb ic id g -> pr_elements pb <> [] -> prepared pb bt density -> used bt w ->
  exists bt', update_density pb (with_world bt w) rho = Ok bt' /\ prepared pb bt' (Some rho).
Proof. intros pb ic id g bt density w rho PO. exact (update_total pb ic id g PO bt density w rho). Qed.
Print Assumptions C88_update.

(* a clamped static problem has one solution, and its solver finds it *)
Theorem C88_static : forall {V W} pb ic id g bt density (answer : method forces -> vec -> vec -> vec -> R -> result (nat * vec)) fi fo cls mu la (m0 : store V),
  posed pb ic id g ->
  prepared pb bt density ->
  loaded pb 2 fi fo ->
  elastic (pr_material pb) = Some (mu, la) ->
  0 < mu ->
  0 <= la ->
  positive_density density ->
  clamped_mesh pb id ->
  answers_exactly (2 * (List.length (m_nodes (bt_mesh bt)))) answer ->
  answers_definite (2 * (List.length (m_nodes (bt_mesh bt)))) (2 * (List.length (m_nodes (bt_mesh bt)))) answer ->
  (forall g, iterate_variables cls g = None) ->
  exists d : driver V (method forces), step_solver pb bt StaticDisplacement m0 = Ok d /\ forall u0, exists d' (s : state W),
      static_solve (b_dimension (bt_body bt)) (b_count (bt_body bt)) (start_positions bt)
    (MethodModel.iterate (integrate_forces (bt_mesh bt) (bt_basic bt)) (bt_body bt) StaticDisplacement cls) answer u0 [] d = (d', Ok s) /\
      takes (bt_mesh bt) id 2 g (view_displacement (look (d_mem d') s)) /\
  balances coord2 zero2 (bt_mesh bt) density id mu la (fun p => fi p 0) (fun p => fo p 0) (view_displacement (look (d_mem d') s)) /\
      forall u, takes (bt_mesh bt) id 2 g u /\ balances coord2 zero2 (bt_mesh bt) density id mu la (fun p => fi p 0) (fun p => fo p 0) u ->
        veq (2 * (List.length (m_nodes (bt_mesh bt)))) u (view_displacement (look (d_mem d') s)).
Proof. intros V W pb ic id g bt density answer fi fo cls mu la m0. exact (fun PO PR => static_total pb ic id g PO bt density PR answer fi fo cls mu la m0). Qed.
Print Assumptions C88_static.

Theorem C88_static_direct : forall {V W} pb ic id g bt density linsolve fi fo cls mu la (m0 : store V),
  posed pb ic id g ->
  prepared pb bt density ->
  loaded pb 2 fi fo ->
  elastic (pr_material pb) = Some (mu, la) ->
  0 < mu ->
  0 <= la ->
  positive_density density ->
  clamped_mesh pb id ->
  (forall n A r x, linsolve n A r = Ok x -> solves n A r x) ->
  (forall n A r, pos_def n A -> exists x, linsolve n A r = Ok x) ->
  (forall g, iterate_variables cls g = None) ->
  exists d : driver V (method forces), step_solver pb bt StaticDisplacement m0 = Ok d /\ forall u0, exists d' (s : state W),
      static_solve (b_dimension (bt_body bt)) (b_count (bt_body bt)) (start_positions bt)
    (MethodModel.iterate (integrate_forces (bt_mesh bt) (bt_basic bt)) (bt_body bt) StaticDisplacement cls) (direct_answer (bt_body bt) StaticDisplacement linsolve) u0 [] d = (d', Ok s) /\
      takes (bt_mesh bt) id 2 g (view_displacement (look (d_mem d') s)) /\
  balances coord2 zero2 (bt_mesh bt) density id mu la (fun p => fi p 0) (fun p => fo p 0) (view_displacement (look (d_mem d') s)) /\
      forall u, takes (bt_mesh bt) id 2 g u /\ balances coord2 zero2 (bt_mesh bt) density id mu la (fun p => fi p 0) (fun p => fo p 0) u ->
        veq (2 * (List.length (m_nodes (bt_mesh bt)))) u (view_displacement (look (d_mem d') s)).
Proof. intros V W pb ic id g bt density linsolve fi fo cls mu la m0. exact (fun PO PR => static_direct_total pb ic id g PO bt density PR fi fo linsolve cls mu la m0). Qed.
Print Assumptions C88_static_direct.

Theorem C88_poisson : forall {V W} pb ic id g bt density (answer : method forces -> vec -> vec -> vec -> R -> result (nat * vec)) fi fo cls c full (m0 : store V),
  posed pb ic id g ->
  prepared pb bt density ->
  heated pb fi fo ->
  membrane (pr_material pb) = Some c ->
  c <> 0 ->
  positive_density density ->
  grounded_mesh pb id ->
  answers_exactly (List.length (m_nodes (bt_mesh bt))) answer ->
  answers_definite (List.length (m_nodes (bt_mesh bt))) full answer ->
  (forall g, iterate_variables cls g = None) ->
  exists d : driver V (method forces), step_solver pb bt StaticPoisson m0 = Ok d /\ exists d' (s : state W) cell,
      poisson_solve (start_positions bt)
        (MethodModel.iterate (integrate_forces (bt_mesh bt) (bt_basic bt)) (bt_body bt) StaticPoisson cls) answer d = (d', Ok s) /\ extra s = Thermal cell /\
      takes (bt_mesh bt) id 1 g (StateModel.load (d_mem d') cell) /\
      rests coord2 zero2 (bt_mesh bt) density id c (fun p => fi p 0) (fun p => fo p 0) (StateModel.load (d_mem d') cell) /\
      forall u, takes (bt_mesh bt) id 1 g u /\ rests coord2 zero2 (bt_mesh bt) density id c (fun p => fi p 0) (fun p => fo p 0) u ->
        veq (List.length (m_nodes (bt_mesh bt))) u (StateModel.load (d_mem d') cell).
Proof. intros V W pb ic id g bt density answer fi fo cls c full m0. exact (fun PO PR => poisson_total pb ic id g PO bt density PR answer fi fo cls c full m0). Qed.
Print Assumptions C88_poisson.

(* every run of a time-dependent problem goes through and shows the only motion *)
Theorem C88_dynamic : forall {V W} pb ic id g bt (answer : method forces -> vec -> vec -> vec -> R -> result (nat * vec)) fi fo cls th ze mu la (m0 : store V) n out,
  posed pb ic id g ->
  construct pb = Ok bt ->
  loaded pb 2 fi fo ->
  elastic (pr_material pb) = Some (mu, la) ->
  viscous (pr_material pb) = Some (th, ze) ->
  0 < mass_density (pr_material pb) ->
  0 <= mu ->
  0 <= la ->
  0 <= th ->
  0 <= ze ->
  0 < time_step_of pb ->
  answers_exactly (2 * (List.length (m_nodes (bt_mesh bt)))) answer ->
  answers_definite (2 * (List.length (m_nodes (bt_mesh bt)))) (2 * (List.length (m_nodes (bt_mesh bt)))) answer ->
  cls = DynamicGlobal \/ cls = DynamicSchur ->
  non_decreasing 0 (requested n out) ->
  n <> 0%nat ->
  exists d : driver V (method forces), step_solver pb bt DynamicVelocity m0 = Ok d /\ forall u0 v0, exists d' (l : list (state W)),
      dynamic_solve (b_dimension (bt_body bt)) (b_count (bt_body bt)) (start_positions bt)
    (MethodModel.iterate (integrate_forces (bt_mesh bt) (bt_basic bt)) (bt_body bt) DynamicVelocity cls) answer n u0 v0 out [] d = (d', Ok l) /\
    exists u v, motion (time_step_of pb) (takes (bt_mesh bt) id 2 g)
      (fun t a w y => moves coord2 zero2 (bt_mesh bt) id (mass_density (pr_material pb)) th ze mu la (fun p => fi p t) (fun p => fo p t) a w y)
      u0 v0 (TimeTheorems.last_step n out) u v /\
    (List.length l = List.length (requested n out) /\
    forall j q (s : state W), nth_error (requested n out) j = Some q -> nth_error l j = Some s ->
      shows (time_step_of pb) u v (Z.to_nat q) (look (d_mem d') s)) /\
      (forall u' v', motion (time_step_of pb) (takes (bt_mesh bt) id 2 g)
      (fun t a w y => moves coord2 zero2 (bt_mesh bt) id (mass_density (pr_material pb)) th ze mu la (fun p => fi p t) (fun p => fo p t) a w y)
      u0 v0 (TimeTheorems.last_step n out) u' v' ->
        forall j, (j <= TimeTheorems.last_step n out)%nat -> veq (2 * (List.length (m_nodes (bt_mesh bt)))) (u' j) (u j) /\ veq (2 * (List.length (m_nodes (bt_mesh bt)))) (v' j) (v j)).
Proof. intros V W pb ic id g bt answer fi fo cls th ze mu la m0 n out. exact (fun PO PR => dynamic_total pb ic id g PO bt PR answer fi fo cls th ze mu la m0 n out). Qed.
Print Assumptions C88_dynamic.

Theorem C88_quasistatic : forall {V W} pb ic id g bt (answer : method forces -> vec -> vec -> vec -> R -> result (nat * vec)) fi fo cls th ze mu la (m0 : store V) n out,
  posed pb ic id g ->
  construct pb = Ok bt ->
  loaded pb 2 fi fo ->
  elastic (pr_material pb) = Some (mu, la) ->
  viscous (pr_material pb) = Some (th, ze) ->
  clamped_mesh pb id ->
  0 <= mu ->
  0 <= la ->
  0 < th ->
  0 <= ze ->
  0 < time_step_of pb ->
  answers_exactly (2 * (List.length (m_nodes (bt_mesh bt)))) answer ->
  answers_definite (2 * (List.length (m_nodes (bt_mesh bt)))) (2 * (List.length (m_nodes (bt_mesh bt)))) answer ->
  cls = QuasistaticGlobal \/ cls = QuasistaticSchur ->
  non_decreasing 0 (requested n out) ->
  n <> 0%nat ->
  exists d : driver V (method forces), step_solver pb bt QuasistaticVelocity m0 = Ok d /\ forall u0 v0, exists d' (l : list (state W)),
      dynamic_solve (b_dimension (bt_body bt)) (b_count (bt_body bt)) (start_positions bt)
    (MethodModel.iterate (integrate_forces (bt_mesh bt) (bt_basic bt)) (bt_body bt) QuasistaticVelocity cls) answer n u0 v0 out [] d = (d', Ok l) /\
    exists u v, motion (time_step_of pb) (takes (bt_mesh bt) id 2 g)
      (fun t a w y => flows coord2 zero2 (bt_mesh bt) id th ze mu la (fun p => fi p t) (fun p => fo p t) w y)
      u0 v0 (TimeTheorems.last_step n out) u v /\
    (List.length l = List.length (requested n out) /\
    forall j q (s : state W), nth_error (requested n out) j = Some q -> nth_error l j = Some s ->
      shows (time_step_of pb) u v (Z.to_nat q) (look (d_mem d') s)) /\
      (forall u' v', motion (time_step_of pb) (takes (bt_mesh bt) id 2 g)
      (fun t a w y => flows coord2 zero2 (bt_mesh bt) id th ze mu la (fun p => fi p t) (fun p => fo p t) w y)
      u0 v0 (TimeTheorems.last_step n out) u' v' ->
        forall j, (j <= TimeTheorems.last_step n out)%nat -> veq (2 * (List.length (m_nodes (bt_mesh bt)))) (u' j) (u j) /\ veq (2 * (List.length (m_nodes (bt_mesh bt)))) (v' j) (v j)).
Proof. intros V W pb ic id g bt answer fi fo cls th ze mu la m0 n out. exact (fun PO PR => quasistatic_total pb ic id g PO bt PR answer fi fo cls th ze mu la m0 n out). Qed.
Print Assumptions C88_quasistatic.

Theorem C88_wave : forall {V W} pb ic id g bt (answer : method forces -> vec -> vec -> vec -> R -> result (nat * vec)) fi fo cls c (m0 : store V) n out,
  posed pb ic id g ->
  construct pb = Ok bt ->
  loaded pb 1 fi fo ->
  membrane (pr_material pb) = Some c ->
  0 < mass_density (pr_material pb) ->
  0 < time_step_of pb ->
  answers_exactly (List.length (m_nodes (bt_mesh bt))) answer ->
  answers_definite (List.length (m_nodes (bt_mesh bt))) (2 * (List.length (m_nodes (bt_mesh bt)))) answer ->
  cls = DynamicGlobal \/ cls = DynamicSchur ->
  non_decreasing 0 (requested n out) ->
  n <> 0%nat ->
  exists d : driver V (method forces), step_solver pb bt Wave m0 = Ok d /\ forall u0 v0, exists d' s0 (l : list (state W)),
      wave_solve (b_dimension (bt_body bt)) (b_count (bt_body bt)) (start_positions bt)
    (MethodModel.iterate (integrate_forces (bt_mesh bt) (bt_basic bt)) (bt_body bt) Wave cls) answer n u0 v0 None out [] d = (d', s0, Ok l) /\
    exists u v, motion (time_step_of pb) (takes (bt_mesh bt) id 1 g)
      (fun t a w y => swings coord2 zero2 (bt_mesh bt) id (mass_density (pr_material pb)) c (fun p => fi p t) (fun p => fo p t) a y)
      u0 v0 (TimeTheorems.last_step n out) u v /\
    (List.length l = List.length (requested n out) /\
    forall j q (s : state W), nth_error (requested n out) j = Some q -> nth_error l j = Some s ->
      shows (time_step_of pb) u v (Z.to_nat q) (look (d_mem d') s)) /\
      (forall u' v', motion (time_step_of pb) (takes (bt_mesh bt) id 1 g)
      (fun t a w y => swings coord2 zero2 (bt_mesh bt) id (mass_density (pr_material pb)) c (fun p => fi p t) (fun p => fo p t) a y)
      u0 v0 (TimeTheorems.last_step n out) u' v' ->
        forall j, (j <= TimeTheorems.last_step n out)%nat -> veq (List.length (m_nodes (bt_mesh bt))) (u' j) (u j) /\ veq (List.length (m_nodes (bt_mesh bt))) (v' j) (v j)).
Proof. intros V W pb ic id g bt answer fi fo cls c m0 n out. exact (fun PO PR => wave_total pb ic id g PO bt PR answer fi fo cls c m0 n out). Qed.
Print Assumptions C88_wave.

Theorem C88_relaxation : forall {V W} pb ic id g bt (answer : method forces -> vec -> vec -> vec -> R -> result (nat * vec)) fi fo mu la f (C : R -> tensor) (m0 : store V) n out,
  posed pb ic id g ->
  construct pb = Ok bt ->
  loaded pb 2 fi fo ->
  elastic (pr_material pb) = Some (mu, la) ->
  0 < mu ->
  0 <= la ->
  clamped_mesh pb id ->
  pr_relaxation pb = Some f ->
  (forall t, f (Some t) = Ok (C t)) ->
  (forall t G, 0 <= memory_density (C t) G G) ->
  0 < time_step_of pb ->
  answers_exactly (2 * (List.length (m_nodes (bt_mesh bt)))) answer ->
  answers_definite (2 * (List.length (m_nodes (bt_mesh bt)))) (2 * (List.length (m_nodes (bt_mesh bt)))) answer ->
  non_decreasing 0 (requested n out) ->
  n <> 0%nat ->
  exists d : driver V (method forces), step_solver pb bt QuasistaticRelaxation m0 = Ok d /\ forall b0 u0, exists d' (l : list (state W)),
      relaxation_solve (b_dimension (bt_body bt)) (b_count (bt_body bt)) (start_positions bt)
    (MethodModel.iterate (integrate_forces (bt_mesh bt) (bt_basic bt)) (bt_body bt) QuasistaticRelaxation RelaxedSchur) answer n b0 u0 out [] d = (d', Ok l) /\
    exists ab u, motion (time_step_of pb) (takes (bt_mesh bt) id 2 g)
      (fun t a w y => creeps coord2 zero2 (bt_mesh bt) id mu la (C t) (fun p => fi p t) (fun p => fo p t) y w)
      b0 u0 (TimeTheorems.last_step n out) ab u /\
      (forall u' v', motion (time_step_of pb) (takes (bt_mesh bt) id 2 g)
      (fun t a w y => creeps coord2 zero2 (bt_mesh bt) id mu la (C t) (fun p => fi p t) (fun p => fo p t) y w)
      b0 u0 (TimeTheorems.last_step n out) u' v' ->
        forall j, (j <= TimeTheorems.last_step n out)%nat -> veq (2 * (List.length (m_nodes (bt_mesh bt)))) (u' j) (ab j) /\ veq (2 * (List.length (m_nodes (bt_mesh bt)))) (v' j) (u j)) /\
      (List.length l = List.length (requested n out) /\
    forall j q (s : state W), nth_error (requested n out) j = Some q -> nth_error l j = Some s ->
      shows_creep (time_step_of pb) ab u (Z.to_nat q) (look (d_mem d') s)).
Proof. intros V W pb ic id g bt answer fi fo mu la f C m0 n out. exact (fun PO PR => relaxation_total pb ic id g PO bt PR answer fi fo mu la f C m0 n out). Qed.
Print Assumptions C88_relaxation.

Theorem C88_direct_definite : forall pb ic id g bt density k linsolve,
  posed pb ic id g ->
  prepared pb bt density ->
  k <> Piezoelectric ->
  (forall n A r, pos_def n A -> exists x, linsolve n A r = Ok x) ->
  answers_definite (F:=forces) (unknowns (bt_body bt) k) (2 * (List.length (m_nodes (bt_mesh bt)))) (direct_answer (bt_body bt) k linsolve).
Proof. intros pb ic id g bt density k linsolve. exact (fun PO PR => direct_definite pb ic id g PO bt density PR k linsolve). Qed.
Print Assumptions C88_direct_definite.

(* -------------------------------------------------------------------- examples *)

(* a square, clamped on the left, contact on the right, with loads and time step *)
Example C87_posed : forall width inner heat, posed (square_problem width inner heat) (on_line 1) (on_line 0) lift.
Proof. exact square_posed. Qed.
Example C87_loads : loaded (square 2) 2 weight pull /\ loaded (square 1) 1 weight pull /\ heated (square 2) weight pull /\
  weight (1, 0) 1 1%nat <> 0 /\ pull (1, 1) 0 0%nat <> 0.
Proof. repeat split; try apply square_loaded; try apply square_heated; unfold weight, pull; cbn; lra. Qed.
Example C87_material : forall w, elastic (pr_material (square w)) = Some (4, 3) /\ viscous (pr_material (square w)) = Some (1, 2) /\
  membrane (pr_material (square w)) = Some 5 /\ 0 < time_step_of (square w) /\ 0 < mass_density (pr_material (square w)).
Proof. intros w. unfold time_step_of. cbn. repeat split; lra. Qed.
Example C87_exact : forall F size full, answers_exactly size (@exact_answer F full) /\ answers_definite size full (@exact_answer F full).
Proof. intros. split; [apply exact_exactly|apply exact_definite]. Qed.
Example C87_classes : forall g, iterate_variables Direct g = None /\ iterate_variables StaticGlobal g = None /\ iterate_variables StaticSchur g = None.
Proof. intros g. repeat split. Qed.
Example C87_steps : non_decreasing 0 (requested 3 [1; 3]%Z).
Proof. cbn. lia. Qed.
(* whole runs on the square: hypotheses and conclusions of C87 *)
Example C87_static_example : exists bt d d' (s : state unit), prepared (square 2) bt None /\ step_solver (V:=R) (square 2) bt StaticDisplacement no_memory = Ok d /\
  static_solve (b_dimension (bt_body bt)) (b_count (bt_body bt)) (start_positions bt)
    (MethodModel.iterate (integrate_forces (bt_mesh bt) (bt_basic bt)) (bt_body bt) StaticDisplacement StaticGlobal)
    (exact_answer (2 * List.length (m_nodes (bt_mesh bt)))) (fun _ => 0) [] d = (d', Ok s).
Proof.
  destruct (square_constructs 2 given_weight square_heat) as (bt & E).
  edestruct (static_total (V:=R) (W:=unit) (square 2) _ _ _ (square_posed _ _ _) bt None (constructed _ _ E)
    (exact_answer (2 * List.length (m_nodes (bt_mesh bt)))) weight pull StaticGlobal 4 3 no_memory) as (d & S & H);
    [apply square_loaded|reflexivity|lra|lra|exact Logic.I|apply square_clamped|apply exact_exactly|apply exact_definite|reflexivity|].
  destruct (H (fun _ => 0)) as (d' & s & Q & _). exists bt, d, d', s. split; [apply constructed; exact E|]. split; [exact S|exact Q].
Qed.
Example C87_direct_example : exists bt d d' (s : state unit), prepared (square 2) bt None /\ step_solver (V:=R) (square 2) bt StaticDisplacement no_memory = Ok d /\
  static_solve (b_dimension (bt_body bt)) (b_count (bt_body bt)) (start_positions bt)
    (MethodModel.iterate (integrate_forces (bt_mesh bt) (bt_basic bt)) (bt_body bt) StaticDisplacement Direct)
    (direct_answer (bt_body bt) StaticDisplacement elimination_solver) (fun _ => 0) [] d = (d', Ok s).
Proof.
  destruct (square_constructs 2 given_weight square_heat) as (bt & E).
  edestruct (static_direct_total (V:=R) (W:=unit) (square 2) _ _ _ (square_posed _ _ _) bt None (constructed _ _ E)
    weight pull elimination_solver Direct 4 3 no_memory) as (d & S & H);
    [apply square_loaded|reflexivity|lra|lra|exact Logic.I|apply square_clamped|apply elimination_sound|apply elimination_works|reflexivity|].
  destruct (H (fun _ => 0)) as (d' & s & Q & _). exists bt, d, d', s. split; [apply constructed; exact E|]. split; [exact S|exact Q].
Qed.
Example C87_poisson_example : exists bt d d' (s : state unit), prepared (square 2) bt None /\ step_solver (V:=R) (square 2) bt StaticPoisson no_memory = Ok d /\
  poisson_solve (start_positions bt)
    (MethodModel.iterate (integrate_forces (bt_mesh bt) (bt_basic bt)) (bt_body bt) StaticPoisson StaticGlobal)
    (exact_answer 4) d = (d', Ok s).
Proof.
  destruct (square_constructs 2 given_weight square_heat) as (bt & E).
  edestruct (poisson_total (V:=R) (W:=unit) (square 2) _ _ _ (square_posed _ _ _) bt None (constructed _ _ E)
    (exact_answer 4) weight pull StaticGlobal 5 4%nat no_memory) as (d & S & d' & s & cell & H & _);
    [apply square_heated|reflexivity|lra|exact Logic.I|apply square_grounded|apply exact_exactly|apply exact_definite|reflexivity|].
  exists bt, d, d', s. split; [apply constructed; exact E|]. split; [exact S|exact H].
Qed.
Example C87_dynamic_example : exists bt d, construct (square 2) = Ok bt /\ step_solver (V:=R) (square 2) bt DynamicVelocity no_memory = Ok d /\
  forall u0 v0, exists d' (l : list (state unit)),
  dynamic_solve (b_dimension (bt_body bt)) (b_count (bt_body bt)) (start_positions bt)
    (MethodModel.iterate (integrate_forces (bt_mesh bt) (bt_basic bt)) (bt_body bt) DynamicVelocity DynamicSchur)
    (exact_answer (2 * List.length (m_nodes (bt_mesh bt)))) 3 u0 v0 [1; 3]%Z [] d = (d', Ok l).
Proof.
  destruct (square_constructs 2 given_weight square_heat) as (bt & E).
  destruct (C87_material 2) as (EL & VI & _ & DT & RH).
  edestruct (dynamic_total (V:=R) (W:=unit) (square 2) _ _ _ (square_posed _ _ _) bt E
    (exact_answer (2 * List.length (m_nodes (bt_mesh bt)))) weight pull DynamicSchur 1 2 4 3 no_memory 3 [1; 3]%Z) as (d & S & H);
    [apply square_loaded|reflexivity|reflexivity|exact RH|lra|lra|lra|lra|exact DT|apply exact_exactly|apply exact_definite|auto|exact C87_steps|discriminate|].
  exists bt, d. split; [exact E|]. split; [exact S|]. intros u0 v0. destruct (H u0 v0) as (d' & l & Q & _). exists d', l. exact Q.
Qed.
Example C87_quasistatic_example : exists bt d, construct (square 2) = Ok bt /\ step_solver (V:=R) (square 2) bt QuasistaticVelocity no_memory = Ok d /\
  forall u0 v0, exists d' (l : list (state unit)),
  dynamic_solve (b_dimension (bt_body bt)) (b_count (bt_body bt)) (start_positions bt)
    (MethodModel.iterate (integrate_forces (bt_mesh bt) (bt_basic bt)) (bt_body bt) QuasistaticVelocity QuasistaticGlobal)
    (exact_answer (2 * List.length (m_nodes (bt_mesh bt)))) 3 u0 v0 [1; 3]%Z [] d = (d', Ok l).
Proof.
  destruct (square_constructs 2 given_weight square_heat) as (bt & E).
  destruct (C87_material 2) as (EL & VI & _ & DT & RH).
  edestruct (quasistatic_total (V:=R) (W:=unit) (square 2) _ _ _ (square_posed _ _ _) bt E
    (exact_answer (2 * List.length (m_nodes (bt_mesh bt)))) weight pull QuasistaticGlobal 1 2 4 3 no_memory 3 [1; 3]%Z) as (d & S & H);
    [apply square_loaded|reflexivity|reflexivity|apply square_clamped|lra|lra|lra|lra|exact DT|apply exact_exactly|apply exact_definite|auto|exact C87_steps|discriminate|].
  exists bt, d. split; [exact E|]. split; [exact S|]. intros u0 v0. destruct (H u0 v0) as (d' & l & Q & _). exists d', l. exact Q.
Qed.
Example C87_wave_example : exists bt d, construct (square 1) = Ok bt /\ step_solver (V:=R) (square 1) bt Wave no_memory = Ok d /\
  forall u0 v0, exists d' s0 (l : list (state unit)),
  wave_solve (b_dimension (bt_body bt)) (b_count (bt_body bt)) (start_positions bt)
    (MethodModel.iterate (integrate_forces (bt_mesh bt) (bt_basic bt)) (bt_body bt) Wave DynamicGlobal)
    (exact_answer (2 * List.length (m_nodes (bt_mesh bt)))) 3 u0 v0 None [1; 3]%Z [] d = (d', s0, Ok l).
Proof.
  destruct (square_constructs 1 given_weight square_heat) as (bt & E).
  destruct (C87_material 1) as (EL & VI & _ & DT & RH).
  edestruct (wave_total (V:=R) (W:=unit) (square 1) _ _ _ (square_posed _ _ _) bt E
    (exact_answer (2 * List.length (m_nodes (bt_mesh bt)))) weight pull DynamicGlobal 5 no_memory 3 [1; 3]%Z) as (d & S & H);
    [apply square_loaded|reflexivity|exact RH|exact DT|apply exact_exactly|apply exact_definite|auto|exact C87_steps|discriminate|].
  exists bt, d. split; [exact E|]. split; [exact S|]. intros u0 v0. destruct (H u0 v0) as (d' & s0 & l & Q & _). exists d', s0, l. exact Q.
Qed.
Example C88_memory : forall t : R, forall G, 0 <= memory_density square_memory G G.
Proof. intros t G. unfold memory_density, square_memory. cbn. nra. Qed.
Example C87_relaxation_example : exists bt d, construct (square 2) = Ok bt /\ step_solver (V:=R) (square 2) bt QuasistaticRelaxation no_memory = Ok d /\
  forall b0 u0, exists d' (l : list (state unit)),
  relaxation_solve (b_dimension (bt_body bt)) (b_count (bt_body bt)) (start_positions bt)
    (MethodModel.iterate (integrate_forces (bt_mesh bt) (bt_basic bt)) (bt_body bt) QuasistaticRelaxation RelaxedSchur)
    (exact_answer (2 * List.length (m_nodes (bt_mesh bt)))) 3 b0 u0 [1; 3]%Z [] d = (d', Ok l).
Proof.
  destruct (square_constructs 2 given_weight square_heat) as (bt & E).
  destruct (C87_material 2) as (EL & VI & _ & DT & RH).
  edestruct (relaxation_total (V:=R) (W:=unit) (square 2) _ _ _ (square_posed _ _ _) bt E
    (exact_answer (2 * List.length (m_nodes (bt_mesh bt)))) weight pull 4 3 (fun _ => Ok square_memory) (fun _ => square_memory) no_memory 3 [1; 3]%Z) as (d & S & H);
    [apply square_loaded|reflexivity|lra|lra|apply square_clamped|reflexivity|reflexivity|exact C88_memory|exact DT|apply exact_exactly|apply exact_definite|exact C87_steps|discriminate|].
  exists bt, d. split; [exact E|]. split; [exact S|]. intros u0 v0. destruct (H u0 v0) as (d' & l & Q & _). exists d', l. exact Q.
Qed.
(* a square that keeps the defaults *)
Example C87_default_example : exists bt, construct (square_problem 2 default_forces (Some (fst default_temperature, snd default_temperature, snd default_temperature))) = Ok bt /\
  step_solver (V:=R) (square_problem 2 default_forces (Some (fst default_temperature, snd default_temperature, snd default_temperature))) bt StaticDisplacement no_memory = Err TypeError.
Proof.
  destruct (square_constructs 2 default_forces (Some (fst default_temperature, snd default_temperature, snd default_temperature))) as (bt & E). exists bt. split; [exact E|].
  apply (default_static _ _ _ _ (square_posed _ _ _) bt None (constructed _ _ E) ltac:(discriminate) 4 3); reflexivity.
Qed.
Example C87_asks : asks_force DynamicVelocity /\ asks_force Wave.
Proof. split; exact Logic.I. Qed.
(* hypotheses of C88 *)
Example C88_square : forall width inner heat, complete_names (square_problem width inner heat) /\ separate (on_line 1) (on_line 0) /\
  clamped_mesh (square_problem width inner heat) (on_line 0) /\ grounded_mesh (square_problem width inner heat) (on_line 0).
Proof. intros. split; [apply square_names|]. split; [apply square_separate|]. split; [apply square_clamped|apply square_grounded]. Qed.
Example C88_update_example : exists bt bt', construct (square 2) = Ok bt /\ update_density (square 2) bt (fun k => 1 + INR k) = Ok bt' /\
  prepared (square 2) bt' (Some (fun k => 1 + INR k)) /\ positive_density (Some (fun k => 1 + INR k)).
Proof.
  destruct (square_constructs 2 given_weight square_heat) as (bt & E).
  destruct (update_total (square 2) _ _ _ (square_posed _ _ _) bt None (bt_world bt) (fun k => 1 + INR k)) as (bt' & U & P);
    [discriminate|apply constructed; exact E| |].
  { split; [exists [], []; rewrite !app_nil_r; split; reflexivity|]. split; apply never. }
  exists bt, bt'. split; [exact E|]. split; [destruct bt; exact U|]. split; [exact P|].
  intros k. pose proof (pos_INR k). lra.
Qed.
