(* C79, C81, C82: whole runs, from the constructor of the solver to the returned states. *)
From Coq Require Import Reals List Arith ZArith Bool String.
From Verif Require Import Common PyModel RVec LinAlg MeshModel MeshBuildModel MeshSpec DofModel DofSpec
  DirichletModel DirichletSpec DirichletProofs
  StatementModel StatementSpec StatementProofs StatementValueProofs StatementLawProofs StatementEnergyProofs StatementExamples
  RegistryModel RegistrySpec RegistryProofs DispatchProofs StateModel TimeModel TimeSpec StateLemmas CopyProofs TimeProofs
  RunProofs HistoryProofs SolveProofs MarchProofs TimeTheorems TimeCorollaries MethodModel MethodProofs RunSpec WholeRunProofs
  FemModel FemSpec FemPipelineProofs FemFinalProofs RunTheorems RunTotal RunMeshProofs RunWitness RunExamples RunStable RunUnique FemExamples.
Import ListNotations.
Local Open Scope string_scope.
Local Open Scope list_scope.
Local Open Scope R_scope.

(* ------------------------------------------------------------------ C81 *)

(* the constructor brings the solver into the state of an update at time 0 *)
Theorem C81_setup : forall F integrate b k p loads relaxations (forceful heated : F -> Prop),
  keeps_force integrate b k loads forceful -> keeps_heat integrate b p heated ->
  forall conds, conditions b k = Ok conds -> well_shaped (unknowns b k) conds ->
  forall w x dt, equipped b k p relaxations forceful heated w -> can_step k dt ->
  exists i, setup integrate b k w x dt = Ok i /\ updated integrate b k p loads relaxations forceful heated conds x dt 0 i.
Proof. exact @setup_updated. Qed.
Print Assumptions C81_setup.

(* every class found for a problem, except Direct and the global method of relaxation, renews the
   statement from the current arrays *)
Theorem C81_renews : forall F (integrate : F -> R -> F * result (nat * vec)) b p name c k,
  get_by_name installed name (mro p) = Ok c -> statement_kind p k -> c <> RelaxedGlobal ->
  (forall g, iterate_variables c g <> None) -> renews integrate b k c.
Proof. exact @library_renews. Qed.
Print Assumptions C81_renews.

(* dynamic runs: every state returned shows a motion that obeys the law at every step *)
Theorem C81_dynamic : forall V W F integrate b k p loads relaxations (forceful heated : F -> Prop) conds c answer nodes,
  (* the sources answer with the loads; the conditions have the right sizes and do not contradict *)
  keeps_force integrate b k loads forceful -> keeps_heat integrate b p heated ->
  conditions b k = Ok conds -> well_shaped (unknowns b k) conds -> consistent (prescribed conds) ->
  (* the solver answers with solutions of the system it holds *)
  solves_held integrate b k p loads relaxations forceful heated conds answer ->
  renews integrate b k c ->
  forall n u0 v0 out given d d' l, fit d -> in_stock (d_mem d) given ->
  non_decreasing 0 (requested n out) -> current_time (d_sv d) = 0 ->
  equipped b k p relaxations forceful heated (m_world (inner (d_sv d))) -> can_step k (dt_of d) ->
  @dynamic_solve V W (method F) (b_dimension b) (b_count b) nodes (iterate integrate b k c) answer n u0 v0 out given d = (d', Ok l) ->
  exists u v, governed (unknowns b k) (prescribed conds)
      (run_law k p loads relaxations (held_vec d b_vector) (held_vec d t_vector) (held_vec d p_vector) (dt_of d))
      (dt_of d) u0 v0 (last_step n out) u v /\
    List.length l = List.length (requested n out) /\
    forall j q (s : state W), nth_error (requested n out) j = Some q -> nth_error l j = Some s ->
      shows (dt_of d) u v (Z.to_nat q) (@look V W (d_mem d') s).
Proof. exact @dynamic_governed. Qed.
Print Assumptions C81_dynamic.

Theorem C81_wave : forall V W F integrate b k p loads relaxations (forceful heated : F -> Prop) conds c answer nodes,
  (* the sources answer with the loads; the conditions have the right sizes and do not contradict *)
  keeps_force integrate b k loads forceful -> keeps_heat integrate b p heated ->
  conditions b k = Ok conds -> well_shaped (unknowns b k) conds -> consistent (prescribed conds) ->
  (* the solver answers with solutions of the system it holds *)
  solves_held integrate b k p loads relaxations forceful heated conds answer ->
  renews integrate b k c ->
  forall n u0 v0 out given d d' s0 l, fit d -> in_stock (d_mem d) given ->
  non_decreasing 0 (requested n out) ->
  equipped b k p relaxations forceful heated (m_world (inner (d_sv d))) -> can_step k (dt_of d) ->
  @wave_solve V W (method F) (b_dimension b) (b_count b) nodes (iterate integrate b k c) answer n u0 v0 None out given d = (d', s0, Ok l) ->
  exists u v, governed (unknowns b k) (prescribed conds)
      (run_law k p loads relaxations (held_vec d b_vector) (held_vec d t_vector) (held_vec d p_vector) (dt_of d))
      (dt_of d) u0 v0 (last_step n out) u v /\
    List.length l = List.length (requested n out) /\
    forall j q (s : state W), nth_error (requested n out) j = Some q -> nth_error l j = Some s ->
      shows (dt_of d) u v (Z.to_nat q) (@look V W (d_mem d') s).
Proof. exact @wave_governed. Qed.
Print Assumptions C81_wave.

Theorem C81_relaxation : forall V W F integrate b k p loads relaxations (forceful heated : F -> Prop) conds c answer nodes,
  (* the sources answer with the loads; the conditions have the right sizes and do not contradict *)
  keeps_force integrate b k loads forceful -> keeps_heat integrate b p heated ->
  conditions b k = Ok conds -> well_shaped (unknowns b k) conds -> consistent (prescribed conds) ->
  (* the solver answers with solutions of the system it holds *)
  solves_held integrate b k p loads relaxations forceful heated conds answer ->
  renews integrate b k c ->
  forall n b0 u0 out given d d' l, fit d -> in_stock (d_mem d) given ->
  non_decreasing 0 (requested n out) -> current_time (d_sv d) = 0 ->
  equipped b k p relaxations forceful heated (m_world (inner (d_sv d))) -> can_step k (dt_of d) ->
  @relaxation_solve V W (method F) (b_dimension b) (b_count b) nodes (iterate integrate b k c) answer n b0 u0 out given d = (d', Ok l) ->
  exists ab u, governed (unknowns b k) (prescribed conds)
      (creep_law k p loads relaxations (held_vec d v_vector) (held_vec d t_vector) (held_vec d p_vector) (dt_of d))
      (dt_of d) b0 u0 (last_step n out) ab u /\
    List.length l = List.length (requested n out) /\
    forall j q (s : state W), nth_error (requested n out) j = Some q -> nth_error l j = Some s ->
      shows_creep (dt_of d) ab u (Z.to_nat q) (@look V W (d_mem d') s).
Proof. exact @relaxation_governed. Qed.
Print Assumptions C81_relaxation.

(* the static driver: the displacement returned balances the loads of time 0 *)
Theorem C81_static : forall V W F integrate b k p loads relaxations (forceful heated : F -> Prop) conds c answer nodes,
  (* the sources answer with the loads; the conditions have the right sizes and do not contradict *)
  keeps_force integrate b k loads forceful -> keeps_heat integrate b p heated ->
  conditions b k = Ok conds -> well_shaped (unknowns b k) conds -> consistent (prescribed conds) ->
  (* the solver answers with solutions of the system it holds *)
  solves_held integrate b k p loads relaxations forceful heated conds answer ->
  forall u0 given d d' (s : state W) x0 t0, k = StaticDisplacement -> fit d -> in_stock (d_mem d) given ->
  updated integrate b k p loads relaxations forceful heated conds x0 (dt_of d) t0 (inner (d_sv d)) ->
  renews integrate b k c \/ (forall g, iterate_variables c g = None) ->
  @static_solve V W (method F) (b_dimension b) (b_count b) nodes (iterate integrate b k c) answer u0 given d = (d', Ok s) ->
  obeys (unknowns b k) (prescribed conds)
    (fun y i => mv (ph_n p) (stiffness p) y i = loads 0 i) (view_displacement (@look V W (d_mem d') s)).
Proof. exact @static_obeys. Qed.
Print Assumptions C81_static.

(* Direct with a sound linear solver meets the contract used above *)
Theorem C81_direct : forall F integrate b k p loads relaxations (forceful heated : F -> Prop) conds linsolve,
  (forall n A r x, linsolve n A r = Ok x -> solves n A r x) ->
  conditions b k = Ok conds -> well_shaped (unknowns b k) conds ->
  solves_held integrate b k p loads relaxations forceful heated conds (direct_answer b k linsolve).
Proof. exact @direct_solves. Qed.
Print Assumptions C81_direct.

(* runs go through when no update and no answer fails *)
Theorem C81_runs : forall V W I dimension nodes_count nodes iterate answer (P : I -> Prop) dt,
  (forall i x t, P i -> exists i', iterate i x dt t = Ok i' /\ P i') ->
  (forall i g v u, P i -> exists y, answer i g v u dt = Ok ((dimension * nodes_count)%nat, y)) ->
  forall n u0 v0 out d, fit d -> non_decreasing 0 (requested n out) -> n <> 0%nat ->
  P (inner (d_sv d)) -> dt_of d = dt ->
  exists d' l, @dynamic_solve V W I dimension nodes_count nodes iterate answer n u0 v0 out [] d = (d', Ok l).
Proof. exact @dynamic_runs. Qed.
Print Assumptions C81_runs.

(* with stable statements and a linear solver for positive definite matrices nothing fails *)
Theorem C81_stable_runs : forall V W F integrate b k p loads relaxations (forceful heated : F -> Prop) conds c nodes linsolve,
  keeps_force integrate b k loads forceful -> keeps_heat integrate b p heated ->
  conditions b k = Ok conds -> well_shaped (unknowns b k) conds -> (1 <= b_dimension b)%nat ->
  renews integrate b k c ->
  (forall n A r, pos_def n A -> exists x, linsolve n A r = Ok x) ->
  (forall x dt t, stable_kind (moment k p loads relaxations x dt t) conds k) ->
  forall n u0 v0 out d x0 t0, fit d -> non_decreasing 0 (requested n out) -> n <> 0%nat ->
  0 < dt_of d -> updated integrate b k p loads relaxations forceful heated conds x0 (dt_of d) t0 (inner (d_sv d)) ->
  exists d' l, @dynamic_solve V W (method F) (b_dimension b) (b_count b) nodes (iterate integrate b k c) (direct_answer b k linsolve)
    n u0 v0 out [] d = (d', Ok l).
Proof. exact @dynamic_stable_runs. Qed.
Print Assumptions C81_stable_runs.

Theorem C81_stable_wave : forall V W F integrate b k p loads relaxations (forceful heated : F -> Prop) conds c nodes linsolve,
  keeps_force integrate b k loads forceful -> keeps_heat integrate b p heated ->
  conditions b k = Ok conds -> well_shaped (unknowns b k) conds -> (1 <= b_dimension b)%nat ->
  renews integrate b k c ->
  (forall n A r, pos_def n A -> exists x, linsolve n A r = Ok x) ->
  (forall x dt t, stable_kind (moment k p loads relaxations x dt t) conds k) ->
  forall n u0 v0 out d x0 t0, fit d -> non_decreasing 0 (requested n out) -> n <> 0%nat ->
  0 < dt_of d -> updated integrate b k p loads relaxations forceful heated conds x0 (dt_of d) t0 (inner (d_sv d)) ->
  exists d' s l, @wave_solve V W (method F) (b_dimension b) (b_count b) nodes (iterate integrate b k c) (direct_answer b k linsolve)
    n u0 v0 None out [] d = (d', s, Ok l).
Proof. exact @wave_stable_runs. Qed.
Print Assumptions C81_stable_wave.

Theorem C81_stable_relaxation : forall V W F integrate b k p loads relaxations (forceful heated : F -> Prop) conds c nodes linsolve,
  keeps_force integrate b k loads forceful -> keeps_heat integrate b p heated ->
  conditions b k = Ok conds -> well_shaped (unknowns b k) conds -> (1 <= b_dimension b)%nat ->
  renews integrate b k c ->
  (forall n A r, pos_def n A -> exists x, linsolve n A r = Ok x) ->
  (forall x dt t, stable_kind (moment k p loads relaxations x dt t) conds k) ->
  forall n b0 u0 out d x0 t0, fit d -> non_decreasing 0 (requested n out) -> n <> 0%nat ->
  0 < dt_of d -> updated integrate b k p loads relaxations forceful heated conds x0 (dt_of d) t0 (inner (d_sv d)) ->
  exists d' l, @relaxation_solve V W (method F) (b_dimension b) (b_count b) nodes (iterate integrate b k c) (direct_answer b k linsolve)
    n b0 u0 out [] d = (d', Ok l).
Proof. exact @relaxation_stable_runs. Qed.
Print Assumptions C81_stable_relaxation.

(* a linear solver as used above: elimination, followed by a check of the answer *)
Theorem C81_elimination : (forall n A r x, elimination_solver n A r = Ok x -> solves n A r x) /\
  (forall n A r, pos_def n A -> exists x, elimination_solver n A r = Ok x).
Proof. exact (conj elimination_sound elimination_works). Qed.
Print Assumptions C81_elimination.

(* the answer of a run does not depend on the solver, nor on anything else left open here *)
Theorem C81_unique : forall V W V' W' F F' integrate integrate' b b' p relaxations relaxations' loads
  (forceful heated : F -> Prop) (forceful' heated' : F' -> Prop) conds c c' answer answer' nodes nodes',
  let k := DynamicVelocity in
  consistent (prescribed conds) ->
  keeps_force integrate b k loads forceful -> keeps_force integrate' b' k loads forceful' ->
  keeps_heat integrate b p heated -> keeps_heat integrate' b' p heated' ->
  conditions b k = Ok conds -> conditions b' k = Ok conds -> well_shaped (ph_n p) conds ->
  renews integrate b k c -> renews integrate' b' k c' ->
  solves_held integrate b k p loads relaxations forceful heated conds answer ->
  solves_held integrate' b' k p loads relaxations' forceful' heated' conds answer' ->
  definite_free (ph_n p) conds (mass p) -> pos_semidef (ph_n p) (damping p) -> pos_semidef (ph_n p) (stiffness p) ->
  forall n u0 v0 out given given' d d' e e' l l',
  fit d -> in_stock (d_mem d) given -> fit e -> in_stock (d_mem e) given' ->
  non_decreasing 0 (requested n out) -> current_time (d_sv d) = 0 -> current_time (d_sv e) = 0 ->
  equipped b k p relaxations forceful heated (m_world (inner (d_sv d))) ->
  equipped b' k p relaxations' forceful' heated' (m_world (inner (d_sv e))) ->
  0 < dt_of d -> dt_of e = dt_of d ->
  @dynamic_solve V W (method F) (b_dimension b) (b_count b) nodes (iterate integrate b k c) answer n u0 v0 out given d = (d', Ok l) ->
  @dynamic_solve V' W' (method F') (b_dimension b') (b_count b') nodes' (iterate integrate' b' k c') answer' n u0 v0 out given' e = (e', Ok l') ->
  forall j s s', nth_error l j = Some s -> nth_error l' j = Some s' ->
  view_time (look (d_mem d') s) = view_time (look (d_mem e') s') /\
  veq (ph_n p) (view_displacement (look (d_mem d') s)) (view_displacement (look (d_mem e') s')) /\
  veq (ph_n p) (view_velocity (look (d_mem d') s)) (view_velocity (look (d_mem e') s')).
Proof. exact @dynamic_run_unique. Qed.
Print Assumptions C81_unique.

(* all the hypotheses hold together, and the runs return *)
Example C81_facts : forall f k,
  keeps_force constant_source (spring_body f) k (spring_loads f) (given_force (spring f) k) /\
  keeps_heat constant_source (spring_body f) (spring f) (given_heat (spring f)) /\
  conditions (spring_body f) k = Ok [] /\ well_shaped (unknowns (spring_body f) k) [] /\ consistent (prescribed []) /\
  solves_held constant_source (spring_body f) k (spring f) (spring_loads f) (fun _ => memory (spring f))
    (given_force (spring f) k) (given_heat (spring f)) [] (direct_answer (spring_body f) k diagonal_solver).
Proof. exact spring_facts. Qed.
Example C81_fit : forall i, fit (point_driver i) /\ current_time (d_sv (point_driver i)) = 0 /\ dt_of (point_driver i) = 1 /\
  in_stock (d_mem (point_driver i)) [] /\ non_decreasing 0 (requested 3 [1; 3]%Z).
Proof. exact spring_fit. Qed.
Example C81_dynamic_example : forall f, exists i d l, well_begun f DynamicVelocity i /\
  @dynamic_solve R unit (method (nat * vec)) 2 1 (fun _ => 0)
    (iterate constant_source (spring_body f) DynamicVelocity DynamicGlobal)
    (direct_answer (spring_body f) DynamicVelocity diagonal_solver)
    3 (fun _ => 2) (fun _ => 1) [1; 3]%Z [] (point_driver i) = (d, Ok l).
Proof. exact spring_dynamic. Qed.
Example C81_dynamic_renews : forall f, renews constant_source (spring_body f) DynamicVelocity DynamicGlobal.
Proof. exact dynamic_renews. Qed.
Example C81_wave_example : forall f, exists i d s l, well_begun f Wave i /\
  @wave_solve R unit (method (nat * vec)) 2 1 (fun _ => 0)
    (iterate constant_source (spring_body f) Wave DynamicSchur)
    (direct_answer (spring_body f) Wave diagonal_solver)
    3 (fun _ => 2) (fun _ => 1) None [1; 3]%Z [] (point_driver i) = (d, s, Ok l).
Proof. exact spring_wave. Qed.
Example C81_wave_renews : forall f, renews constant_source (spring_body f) Wave DynamicSchur.
Proof. exact wave_renews. Qed.
Example C81_relaxation_example : forall f, exists i d l, well_begun f QuasistaticRelaxation i /\
  @relaxation_solve R unit (method (nat * vec)) 2 1 (fun _ => 0)
    (iterate constant_source (spring_body f) QuasistaticRelaxation RelaxedSchur)
    (direct_answer (spring_body f) QuasistaticRelaxation diagonal_solver)
    3 (fun _ => 2) (fun _ => 1) [1; 3]%Z [] (point_driver i) = (d, Ok l).
Proof. exact spring_relaxation. Qed.
Example C81_relaxation_renews : forall f, renews constant_source (spring_body f) QuasistaticRelaxation RelaxedSchur.
Proof. exact relaxation_renews. Qed.
Example C81_static_example : forall f, exists i d s, well_begun f StaticDisplacement i /\
  @static_solve R unit (method (nat * vec)) 2 1 (fun _ => 0)
    (iterate constant_source (spring_body f) StaticDisplacement Direct)
    (direct_answer (spring_body f) StaticDisplacement diagonal_solver)
    (fun _ => 2) [] (point_driver i) = (d, Ok s).
Proof. exact spring_static. Qed.

(* ------------------------------------------------------------------ C79 *)

(* Full claim of C79: with Direct as well, every step obeys the law with the current fields. It is
   false: Direct.iterate does nothing, so every step solves the system made by the constructor. *)
Theorem C79_direct_refuted : ~ (forall (V W F : Type) integrate b k p loads relaxations (forceful heated : F -> Prop) conds linsolve nodes
    n u0 v0 out w d d' (l : list (state W)),
  keeps_force integrate b k loads forceful -> keeps_heat integrate b p heated ->
  conditions b k = Ok conds -> well_shaped (unknowns b k) conds -> consistent (prescribed conds) ->
  (forall n A r x, linsolve n A r = Ok x -> solves n A r x) ->
  fit d -> non_decreasing 0 (requested n out) -> current_time (d_sv d) = 0 ->
  equipped b k p relaxations forceful heated w -> setup integrate b k w no_vectors (dt_of d) = Ok (inner (d_sv d)) ->
  can_step k (dt_of d) ->
  @dynamic_solve V W (method F) (b_dimension b) (b_count b) nodes (iterate integrate b k Direct) (direct_answer b k linsolve)
    n u0 v0 out [] d = (d', Ok l) ->
  exists u v, governed (unknowns b k) (prescribed conds)
      (run_law k p loads relaxations (held_vec d b_vector) (held_vec d t_vector) (held_vec d p_vector) (dt_of d))
      (dt_of d) u0 v0 (last_step n out) u v /\
    forall j q (s : state W), nth_error (requested n out) j = Some q -> nth_error l j = Some s ->
      shows (dt_of d) u v (Z.to_nat q) (look (d_mem d') s)).
Proof. exact point_direct_refuted. Qed.
Print Assumptions C79_direct_refuted.

(* what such runs do instead: every step obeys the law of the constructor's arrays and time *)
Theorem C79_dynamic_never_renewed : forall V W F integrate b k p loads relaxations (forceful heated : F -> Prop) conds c answer nodes,
  conditions b k = Ok conds -> well_shaped (unknowns b k) conds -> consistent (prescribed conds) ->
  solves_held integrate b k p loads relaxations forceful heated conds answer ->
  forall n u0 v0 out given d d' l x0 t0, (forall g, iterate_variables c g = None) ->
  fit d -> in_stock (d_mem d) given ->
  non_decreasing 0 (requested n out) -> current_time (d_sv d) = 0 ->
  updated integrate b k p loads relaxations forceful heated conds x0 (dt_of d) t0 (inner (d_sv d)) ->
  @dynamic_solve V W (method F) (b_dimension b) (b_count b) nodes (iterate integrate b k c) answer n u0 v0 out given d = (d', Ok l) ->
  exists u v, governed (unknowns b k) (prescribed conds)
      (fun _ _ _ => law_of (moment k p loads relaxations x0 (dt_of d) t0) k) (dt_of d) u0 v0 (last_step n out) u v /\
    List.length l = List.length (requested n out) /\
    forall j q (s : state W), nth_error (requested n out) j = Some q -> nth_error l j = Some s ->
      shows (dt_of d) u v (Z.to_nat q) (@look V W (d_mem d') s).
Proof. exact @dynamic_never_renewed. Qed.
Print Assumptions C79_dynamic_never_renewed.

Theorem C79_wave_never_renewed : forall V W F integrate b k p loads relaxations (forceful heated : F -> Prop) conds c answer nodes,
  conditions b k = Ok conds -> well_shaped (unknowns b k) conds -> consistent (prescribed conds) ->
  solves_held integrate b k p loads relaxations forceful heated conds answer ->
  forall n u0 v0 out given d d' s0 l x0 t0, (forall g, iterate_variables c g = None) ->
  fit d -> in_stock (d_mem d) given ->
  non_decreasing 0 (requested n out) ->
  updated integrate b k p loads relaxations forceful heated conds x0 (dt_of d) t0 (inner (d_sv d)) ->
  @wave_solve V W (method F) (b_dimension b) (b_count b) nodes (iterate integrate b k c) answer n u0 v0 None out given d = (d', s0, Ok l) ->
  exists u v, governed (unknowns b k) (prescribed conds)
      (fun _ _ _ => law_of (moment k p loads relaxations x0 (dt_of d) t0) k) (dt_of d) u0 v0 (last_step n out) u v /\
    List.length l = List.length (requested n out) /\
    forall j q (s : state W), nth_error (requested n out) j = Some q -> nth_error l j = Some s ->
      shows (dt_of d) u v (Z.to_nat q) (@look V W (d_mem d') s).
Proof. exact @wave_never_renewed. Qed.
Print Assumptions C79_wave_never_renewed.

(* with Direct the velocity is the same after every step *)
Theorem C79_same_velocity : forall F (integrate : F -> R -> F * result (nat * vec)) b k linsolve vb vt vp dt t0 s0 n inn u v,
  velocity_history (iterate integrate b k Direct) (direct_answer b k linsolve) (b_dimension b * b_count b) vb vt vp dt t0 s0 n inn u v ->
  forall j, (j < n)%nat -> v (S j) = v 1%nat.
Proof. exact @direct_same. Qed.
Print Assumptions C79_same_velocity.

Example C79_example : exists i d l,
  setup constant_source point_body DynamicVelocity (laid_out mass_point DynamicVelocity) no_vectors 1 = Ok i /\
  point_updated DynamicVelocity no_vectors 1 0 i /\
  @dynamic_solve R unit (method (nat * vec)) 2 1 (fun _ => 0) (iterate constant_source point_body DynamicVelocity Direct)
    (direct_answer point_body DynamicVelocity diagonal_solver) 1 (fun _ => 0) (fun _ => 1) [] [] (point_driver i) = (d, Ok l).
Proof. exact point_direct_run. Qed.
Example C79_direct_idle : forall g, iterate_variables Direct g = None.
Proof. reflexivity. Qed.

(* ------------------------------------------------------------------ C82 *)

(* the work done: energy plus dissipation never exceed the earlier energy plus the work of the loads *)
Theorem C82_work : forall n conds, well_shaped n conds -> homogeneous conds -> forall M C E,
  symmetric n M -> symmetric n E -> pos_semidef n M -> pos_semidef n E -> forall dt, 0 < dt -> forall (loads : R -> vec) (law : vec -> vec -> R -> vec -> nat -> Prop),
  (forall u v t x i, law u v t x i ->
    mv n M (fun j => (x j - v j) / dt) i + mv n C x i + mv n E (fun j => u j + dt * x j) i = loads t i) ->
  forall u0 v0 m u v, governed n (prescribed conds) law dt u0 v0 m u v ->
  forall j q, (j <= q <= m)%nat ->
  energy n M E (u q) (v q) + dt * sum (q - j) (fun i => qform n C (v (S (j + i))))
  <= energy n M E (u j) (v j) + dt * sum (q - j) (fun i => dot n (v (S (j + i))) (loads (INR (j + i) * dt))).
Proof. exact governed_work. Qed.
Print Assumptions C82_work.

(* without loads the energy of the returned states decreases *)
Theorem C82_dynamic : forall V W F integrate b p relaxations loads (forceful heated : F -> Prop) conds c answer nodes,
  homogeneous conds -> (forall t i, loads t i = 0) ->
  forall n u0 v0 out given d d' l, let k := DynamicVelocity in
  keeps_force integrate b k loads forceful -> keeps_heat integrate b p heated ->
  conditions b k = Ok conds -> well_shaped (unknowns b k) conds -> renews integrate b k c ->
  solves_held integrate b k p loads relaxations forceful heated conds answer ->
  symmetric (ph_n p) (mass p) -> pos_semidef (ph_n p) (mass p) ->
  symmetric (ph_n p) (stiffness p) -> pos_semidef (ph_n p) (stiffness p) -> pos_semidef (ph_n p) (damping p) ->
  fit d -> in_stock (d_mem d) given -> non_decreasing 0 (requested n out) -> current_time (d_sv d) = 0 ->
  equipped b k p relaxations forceful heated (m_world (inner (d_sv d))) -> 0 < dt_of d ->
  @dynamic_solve V W (method F) (b_dimension b) (b_count b) nodes (iterate integrate b k c) answer n u0 v0 out given d = (d', Ok l) ->
  let total w := kinetic_and_elastic (ph_n p) (mass p) (stiffness p) w in
  (forall j (s : state W), nth_error l j = Some s ->
     total (look (d_mem d') s) <= energy (ph_n p) (mass p) (stiffness p) u0 v0) /\
  (forall i j (s s' : state W), (i <= j)%nat -> nth_error l i = Some s -> nth_error l j = Some s' ->
     total (look (d_mem d') s') <= total (look (d_mem d') s)).
Proof. exact @dynamic_run_decay. Qed.
Print Assumptions C82_dynamic.

Theorem C82_wave : forall V W F integrate b p relaxations loads (forceful heated : F -> Prop) conds c answer nodes,
  homogeneous conds -> (forall t i, loads t i = 0) ->
  forall n u0 v0 out given d d' s0 l, let k := Wave in
  keeps_force integrate b k loads forceful -> keeps_heat integrate b p heated ->
  conditions b k = Ok conds -> well_shaped (unknowns b k) conds -> renews integrate b k c ->
  solves_held integrate b k p loads relaxations forceful heated conds answer ->
  symmetric (ph_N p) (mass p) -> pos_semidef (ph_N p) (mass p) ->
  symmetric (ph_N p) (laplace p) -> pos_semidef (ph_N p) (laplace p) ->
  fit d -> in_stock (d_mem d) given -> non_decreasing 0 (requested n out) ->
  equipped b k p relaxations forceful heated (m_world (inner (d_sv d))) -> 0 < dt_of d ->
  @wave_solve V W (method F) (b_dimension b) (b_count b) nodes (iterate integrate b k c) answer n u0 v0 None out given d = (d', s0, Ok l) ->
  let total w := kinetic_and_elastic (ph_N p) (mass p) (laplace p) w in
  (forall j (s : state W), nth_error l j = Some s ->
     total (look (d_mem d') s) <= energy (ph_N p) (mass p) (laplace p) u0 v0) /\
  (forall i j (s s' : state W), (i <= j)%nat -> nth_error l i = Some s -> nth_error l j = Some s' ->
     total (look (d_mem d') s') <= total (look (d_mem d') s)).
Proof. exact @wave_run_decay. Qed.
Print Assumptions C82_wave.

(* with the operators assembled on a plane mesh no form has to be assumed *)
Theorem C82_dynamic_2d : forall V W F integrate b p relaxations loads (forceful heated : F -> Prop) conds c answer nodes,
  homogeneous conds -> (forall t i, loads t i = 0) ->
  forall N points els mp density ops, triangles N points els ->
  reinitialize_matrices N points els mp density = Ok ops ->
  (forall i, (i < N)%nat -> referenced els i) -> 0 < mass_density mp -> nonneg_density density ->
  mass p = acceleration_operator ops ->
  forall th ze mu la n u0 v0 out given d d' l, let k := DynamicVelocity in
  viscous mp = Some (th, ze) -> 0 <= th -> 0 <= ze -> elastic mp = Some (mu, la) -> 0 <= mu -> 0 <= la ->
  ph_n p = (2 * N)%nat -> viscosity ops = Some (damping p) -> elasticity ops = Some (stiffness p) ->
  keeps_force integrate b k loads forceful -> keeps_heat integrate b p heated ->
  conditions b k = Ok conds -> well_shaped (unknowns b k) conds -> renews integrate b k c ->
  solves_held integrate b k p loads relaxations forceful heated conds answer ->
  fit d -> in_stock (d_mem d) given -> non_decreasing 0 (requested n out) -> current_time (d_sv d) = 0 ->
  equipped b k p relaxations forceful heated (m_world (inner (d_sv d))) -> 0 < dt_of d ->
  @dynamic_solve V W (method F) (b_dimension b) (b_count b) nodes (iterate integrate b k c) answer n u0 v0 out given d = (d', Ok l) ->
  let total w := kinetic_and_elastic (ph_n p) (mass p) (stiffness p) w in
  (forall j (s : state W), nth_error l j = Some s ->
     total (look (d_mem d') s) <= energy (ph_n p) (mass p) (stiffness p) u0 v0) /\
  (forall i j (s s' : state W), (i <= j)%nat -> nth_error l i = Some s -> nth_error l j = Some s' ->
     total (look (d_mem d') s') <= total (look (d_mem d') s)).
Proof. exact @dynamic_run_decay_2d. Qed.
Print Assumptions C82_dynamic_2d.

Theorem C82_wave_2d : forall V W F integrate b p relaxations loads (forceful heated : F -> Prop) conds c answer nodes,
  homogeneous conds -> (forall t i, loads t i = 0) ->
  forall N points els mp density ops, triangles N points els ->
  reinitialize_matrices N points els mp density = Ok ops ->
  (forall i, (i < N)%nat -> referenced els i) -> 0 < mass_density mp -> nonneg_density density ->
  mass p = acceleration_operator ops ->
  forall s n u0 v0 out given d d' s0 l, let k := Wave in
  membrane mp = Some s -> ph_N p = N -> poisson_operator ops = Some (laplace p) ->
  keeps_force integrate b k loads forceful -> keeps_heat integrate b p heated ->
  conditions b k = Ok conds -> well_shaped (unknowns b k) conds -> renews integrate b k c ->
  solves_held integrate b k p loads relaxations forceful heated conds answer ->
  fit d -> in_stock (d_mem d) given -> non_decreasing 0 (requested n out) ->
  equipped b k p relaxations forceful heated (m_world (inner (d_sv d))) -> 0 < dt_of d ->
  @wave_solve V W (method F) (b_dimension b) (b_count b) nodes (iterate integrate b k c) answer n u0 v0 None out given d = (d', s0, Ok l) ->
  let total w := kinetic_and_elastic (ph_N p) (mass p) (laplace p) w in
  (forall j (s : state W), nth_error l j = Some s ->
     total (look (d_mem d') s) <= energy (ph_N p) (mass p) (laplace p) u0 v0) /\
  (forall i j (s s' : state W), (i <= j)%nat -> nth_error l i = Some s -> nth_error l j = Some s' ->
     total (look (d_mem d') s') <= total (look (d_mem d') s)).
Proof. exact @wave_run_decay_2d. Qed.
Print Assumptions C82_wave_2d.

(* the runs of C81_dynamic_example and C81_wave_example with f = 0 meet the hypotheses *)
Example C82_example : (forall t i, spring_loads 0 t i = 0) /\ homogeneous [] /\
  symmetric (ph_n (spring 0)) (mass (spring 0)) /\ pos_semidef (ph_n (spring 0)) (mass (spring 0)) /\
  stiffness (spring 0) = mass (spring 0) /\ laplace (spring 0) = mass (spring 0) /\
  pos_semidef (ph_n (spring 0)) (damping (spring 0)).
Proof. exact spring_energy_facts. Qed.

(* and on a mesh of two triangles: the operators of C82_dynamic_2d and C82_wave_2d, and runs *)
Example C82_mesh_example : exists ops p,
  triangles 4 quad_nodes quad_els /\ (forall i, (i < 4)%nat -> referenced quad_els i) /\ nonneg_density None /\
  reinitialize_matrices 4 quad_nodes quad_els quad_material None = Ok ops /\
  ph_N p = 4%nat /\ ph_n p = 8%nat /\ mass p = acceleration_operator ops /\ viscosity ops = Some (damping p) /\
  elasticity ops = Some (stiffness p) /\ poisson_operator ops = Some (laplace p) /\ (forall i, StatementSpec.load p i = 0).
Proof. exact quad_physics. Qed.
Example C82_mesh_stable : forall ops p,
  reinitialize_matrices 4 quad_nodes quad_els quad_material None = Ok ops -> ph_N p = 4%nat -> ph_n p = 8%nat ->
  mass p = acceleration_operator ops -> viscosity ops = Some (damping p) -> elasticity ops = Some (stiffness p) ->
  poisson_operator ops = Some (laplace p) -> forall k x dt t, k = DynamicVelocity \/ k = Wave ->
  stable_kind (moment k p (fun _ => StatementSpec.load p) (fun _ => memory p) x dt t) [] k.
Proof. exact quad_stable. Qed.
Example C82_mesh_run : forall ops p,
  reinitialize_matrices 4 quad_nodes quad_els quad_material None = Ok ops -> ph_N p = 4%nat -> ph_n p = 8%nat ->
  mass p = acceleration_operator ops -> viscosity ops = Some (damping p) -> elasticity ops = Some (stiffness p) ->
  poisson_operator ops = Some (laplace p) -> forall u0 v0, exists i d l,
  equipped (laid_out_body p []) DynamicVelocity p (fun _ => memory p) (given_force p DynamicVelocity) (given_heat p) (m_world i) /\
  @dynamic_solve R unit (method (nat * vec)) 2 4 (fun _ => 0)
    (iterate constant_source (laid_out_body p []) DynamicVelocity DynamicGlobal)
    (direct_answer (laid_out_body p []) DynamicVelocity elimination_solver) 3 u0 v0 [1; 3]%Z [] (point_driver i) = (d, Ok l).
Proof. exact quad_dynamic. Qed.
Example C82_mesh_wave_run : forall ops p,
  reinitialize_matrices 4 quad_nodes quad_els quad_material None = Ok ops -> ph_N p = 4%nat -> ph_n p = 8%nat ->
  mass p = acceleration_operator ops -> viscosity ops = Some (damping p) -> elasticity ops = Some (stiffness p) ->
  poisson_operator ops = Some (laplace p) -> forall u0 v0, exists i d s l,
  equipped (laid_out_body p []) Wave p (fun _ => memory p) (given_force p Wave) (given_heat p) (m_world i) /\
  @wave_solve R unit (method (nat * vec)) 2 4 (fun _ => 0)
    (iterate constant_source (laid_out_body p []) Wave DynamicSchur)
    (direct_answer (laid_out_body p []) Wave elimination_solver) 3 u0 v0 None [1; 3]%Z [] (point_driver i) = (d, s, Ok l).
Proof. exact quad_wave. Qed.
