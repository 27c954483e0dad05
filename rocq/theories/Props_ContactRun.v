(* C85: whole runs with contact, from the constructor of the solver to the returned states. *)
From Coq Require Import Reals List Arith ZArith Bool String Lia Lra.
From Verif Require Import Common PyModel RVec LinAlg ForcesSpec ContactModel ContactSpec ContactCostProofs ContactWitness ConstrainedSpec ConstrainedProofs
  ConstrainedWitness DofModel DofSpec DirichletModel DirichletSpec DirichletProofs SchurModel SchurSpec
  StatementModel StatementSpec StatementProofs StatementValueProofs StatementLawProofs StatementEnergyProofs StatementExamples
  StateModel TimeModel TimeSpec StateLemmas CopyProofs TimeProofs
  RegistryModel RunProofs HistoryProofs SolveProofs MarchProofs TimeTheorems TimeCorollaries MethodModel MethodProofs RunSpec WholeRunProofs RunTheorems RunTotal
  RunWitness OptimisationModel OptimisationProofs ContactRunSpec ContactRunProofs ContactRunTheorems ContactRunWitness.
Import ListNotations.
Local Open Scope list_scope.
Local Open Scope R_scope.

(* the forces that a step leaves to contact: inertia, viscosity and elasticity less the loads *)
Theorem C85_forces : forall k p loads relaxations dt vb vt vp, velocity_kind k -> forall u v t x i,
  run_forces k p loads relaxations vb vt vp dt u v t x i =
    mv (ph_n p) (inertia k p) (fun j => (x j - v j) / dt) i + mv (ph_n p) (damping p) x i
    + mv (ph_n p) (stiffness p) (fun j => u j + dt * x j) i - run_loads k p loads vt vp t i.
Proof. intros k p loads relaxations dt vb vt vp VK. exact (run_forces_form k p loads relaxations dt vb vt vp VK). Qed.
Print Assumptions C85_forces.

(* every step of a run of the global solver solves the variational inequality of contact with the
   fields before it *)
Theorem C85_global : forall V W F integrate b k p loads relaxations (forceful heated : F -> Prop) conds mesh law minimise name maxiter c nodes dt,
  contact_setting integrate b k p loads forceful heated conds mesh law dt ->
  (forall m, reliable (minimise (route_of name) m)) -> faces_apart b mesh conds ->
  forall n u0 v0 out given (d d' : driver V (method F)) l w x0, velocity_kind k -> renews integrate b k c ->
  fit d -> in_stock (d_mem d) given -> non_decreasing 0 (requested n out) -> current_time (d_sv d) = 0 -> dt_of d = dt ->
  equipped b k p relaxations forceful heated w -> setup integrate b k w x0 dt = Ok (inner (d_sv d)) ->
  @dynamic_solve V W (method F) (b_dimension b) (b_count b) nodes (MethodModel.iterate integrate b k c)
    (global_answer b k mesh law minimise name maxiter) n u0 v0 out given d = (d', Ok l) ->
  exists u v,
    contact_governed (2 * b_count b) (prescribed conds)
      (run_forces k p loads relaxations (held_vec d b_vector) (held_vec d t_vector) (held_vec d p_vector) dt)
      (run_contact b mesh law dt) dt u0 v0 (last_step n out) u v /\
    List.length l = List.length (requested n out) /\
    forall j q (s : state W), nth_error (requested n out) j = Some q -> nth_error l j = Some s ->
      shows dt u v (Z.to_nat q) (look (d_mem d') s).
Proof.
  intros V W F integrate b k p loads relaxations forceful heated conds mesh law minimise name maxiter c nodes dt HS HR AP.
  exact (global_run integrate b k p loads relaxations forceful heated conds mesh law minimise name maxiter c nodes dt HS HR AP).
Qed.
Print Assumptions C85_global.

(* ... and of the Schur solver, also with prescribed corners of contact faces if the initial
   velocity has the prescribed values *)
Theorem C85_schur : forall V W F integrate b k p loads relaxations (forceful heated : F -> Prop) conds mesh law minimise name maxiter c nodes dt,
  contact_setting integrate b k p loads forceful heated conds mesh law dt ->
  (forall m, reliable (minimise (route_of name) m)) -> forall inv, inverts inv ->
  faces_split b mesh conds -> (mesh_contact_count mesh <= b_count b)%nat ->
  forall n u0 v0 out given (d d' : driver V (schur_method F)) l w x0, velocity_kind k -> renews integrate b k c -> schur_class c ->
  admissible (prescribed conds) v0 \/ faces_apart b mesh conds ->
  fit d -> in_stock (d_mem d) given -> non_decreasing 0 (requested n out) -> current_time (d_sv d) = 0 -> dt_of d = dt ->
  equipped b k p relaxations forceful heated w -> schur_setup integrate b k mesh inv w x0 dt = Ok (inner (d_sv d)) ->
  @dynamic_solve V W (schur_method F) (b_dimension b) (b_count b) nodes (schur_iterate integrate b k mesh c)
    (schur_answer b k mesh law minimise name maxiter false) n u0 v0 out given d = (d', Ok l) ->
  exists u v,
    contact_governed (2 * b_count b) (prescribed conds)
      (run_forces k p loads relaxations (held_vec d b_vector) (held_vec d t_vector) (held_vec d p_vector) dt)
      (run_contact b mesh law dt) dt u0 v0 (last_step n out) u v /\
    List.length l = List.length (requested n out) /\
    forall j q (s : state W), nth_error (requested n out) j = Some q -> nth_error l j = Some s ->
      shows dt u v (Z.to_nat q) (look (d_mem d') s).
Proof.
  intros V W F integrate b k p loads relaxations forceful heated conds mesh law minimise name maxiter c nodes dt HS HR inv HI SP CN.
  exact (schur_run integrate b k p loads relaxations forceful heated conds mesh law minimise name maxiter c nodes dt HS HR inv HI SP CN).
Qed.
Print Assumptions C85_schur.

(* the static drivers *)
Theorem C85_global_static : forall V W F integrate b k p loads relaxations (forceful heated : F -> Prop) conds mesh law minimise name maxiter c nodes dt,
  contact_setting integrate b k p loads forceful heated conds mesh law dt ->
  (forall m, reliable (minimise (route_of name) m)) -> faces_apart b mesh conds ->
  forall u0 given (d d' : driver V (method F)) s w x0, k = StaticDisplacement ->
  renews integrate b k c \/ (forall g, iterate_variables c g = None) ->
  fit d -> in_stock (d_mem d) given -> dt_of d = dt ->
  equipped b k p relaxations forceful heated w -> setup integrate b k w x0 dt = Ok (inner (d_sv d)) ->
  @static_solve V W (method F) (b_dimension b) (b_count b) nodes (MethodModel.iterate integrate b k c)
    (global_answer b k mesh law minimise name maxiter) u0 given d = (d', Ok s) ->
  contact_inequality (2 * b_count b) (prescribed conds) (fun x i => mv (ph_n p) (stiffness p) x i - loads 0 i)
    (run_contact b mesh law dt u0) (view_displacement (look (d_mem d') s)).
Proof.
  intros V W F integrate b k p loads relaxations forceful heated conds mesh law minimise name maxiter c nodes dt HS HR AP.
  exact (global_static integrate b k p loads relaxations forceful heated conds mesh law minimise name maxiter c nodes dt HS HR AP).
Qed.
Print Assumptions C85_global_static.

Theorem C85_schur_static : forall V W F integrate b k p loads relaxations (forceful heated : F -> Prop) conds mesh law minimise name maxiter c nodes dt,
  contact_setting integrate b k p loads forceful heated conds mesh law dt ->
  (forall m, reliable (minimise (route_of name) m)) -> forall inv, inverts inv ->
  faces_split b mesh conds -> (mesh_contact_count mesh <= b_count b)%nat ->
  forall u0 given (d d' : driver V (schur_method F)) s w x0, k = StaticDisplacement -> c = StaticSchur ->
  admissible (prescribed conds) (held_vec d v_vector) \/ faces_apart b mesh conds ->
  fit d -> in_stock (d_mem d) given -> dt_of d = dt ->
  equipped b k p relaxations forceful heated w -> schur_setup integrate b k mesh inv w x0 dt = Ok (inner (d_sv d)) ->
  @static_solve V W (schur_method F) (b_dimension b) (b_count b) nodes (schur_iterate integrate b k mesh c)
    (schur_answer b k mesh law minimise name maxiter false) u0 given d = (d', Ok s) ->
  contact_inequality (2 * b_count b) (prescribed conds) (fun x i => mv (ph_n p) (stiffness p) x i - loads 0 i)
    (run_contact b mesh law dt u0) (view_displacement (look (d_mem d') s)).
Proof.
  intros V W F integrate b k p loads relaxations forceful heated conds mesh law minimise name maxiter c nodes dt HS HR inv HI SP CN.
  exact (schur_static integrate b k p loads relaxations forceful heated conds mesh law minimise name maxiter c nodes dt HS HR inv HI SP CN).
Qed.
Print Assumptions C85_schur_static.

(* runs never raise if no contact face touches a prescribed dof *)
Theorem C85_global_runs : forall V W F integrate b k p loads relaxations (forceful heated : F -> Prop) conds mesh law minimise name maxiter c nodes dt,
  contact_setting integrate b k p loads forceful heated conds mesh law dt ->
  (forall m, reliable (minimise (route_of name) m)) -> faces_apart b mesh conds ->
  forall n u0 v0 out (d : driver V (method F)) w x0, velocity_kind k -> renews integrate b k c ->
  fit d -> non_decreasing 0 (requested n out) -> n <> 0%nat -> dt_of d = dt ->
  equipped b k p relaxations forceful heated w -> setup integrate b k w x0 dt = Ok (inner (d_sv d)) ->
  exists d' l, @dynamic_solve V W (method F) (b_dimension b) (b_count b) nodes (MethodModel.iterate integrate b k c)
    (global_answer b k mesh law minimise name maxiter) n u0 v0 out [] d = (d', Ok l).
Proof.
  intros V W F integrate b k p loads relaxations forceful heated conds mesh law minimise name maxiter c nodes dt HS HR AP.
  exact (global_total integrate b k p loads relaxations forceful heated conds mesh law minimise name maxiter c nodes dt HS HR AP).
Qed.
Print Assumptions C85_global_runs.

Theorem C85_schur_runs : forall V W F integrate b k p loads relaxations (forceful heated : F -> Prop) conds mesh law minimise name maxiter c nodes dt,
  contact_setting integrate b k p loads forceful heated conds mesh law dt ->
  (forall m, reliable (minimise (route_of name) m)) -> forall inv, inverts inv ->
  faces_split b mesh conds -> (mesh_contact_count mesh <= b_count b)%nat ->
  forall n u0 v0 out (d : driver V (schur_method F)) w x0, velocity_kind k -> renews integrate b k c -> schur_class c ->
  faces_apart b mesh conds ->
  fit d -> non_decreasing 0 (requested n out) -> n <> 0%nat -> dt_of d = dt ->
  equipped b k p relaxations forceful heated w -> schur_setup integrate b k mesh inv w x0 dt = Ok (inner (d_sv d)) ->
  exists d' l, @dynamic_solve V W (schur_method F) (b_dimension b) (b_count b) nodes (schur_iterate integrate b k mesh c)
    (schur_answer b k mesh law minimise name maxiter false) n u0 v0 out [] d = (d', Ok l).
Proof.
  intros V W F integrate b k p loads relaxations forceful heated conds mesh law minimise name maxiter c nodes dt HS HR inv HI SP CN.
  exact (schur_total integrate b k p loads relaxations forceful heated conds mesh law minimise name maxiter c nodes dt HS HR inv HI SP CN).
Qed.
Print Assumptions C85_schur_runs.

(* the global and the Schur solver return the same motion, whatever the optimisers, start values of
   the memory and numbers of iterations *)
Theorem C85_same : forall V W V' W' F integrate b k p loads relaxations (forceful heated : F -> Prop) conds mesh law
    minimise minimise' name name' maxiter maxiter' c c' nodes nodes' inv dt,
  contact_setting integrate b k p loads forceful heated conds mesh law dt ->
  (forall m, reliable (minimise (route_of name) m)) -> (forall m, reliable (minimise' (route_of name') m)) -> inverts inv ->
  faces_apart b mesh conds -> faces_split b mesh conds -> (mesh_contact_count mesh <= b_count b)%nat ->
  forall n u0 v0 out given given' (d d' : driver V (method F)) (e e' : driver V' (schur_method F)) l l' w w' x x',
  velocity_kind k -> renews integrate b k c -> renews integrate b k c' -> schur_class c' ->
  non_decreasing 0 (requested n out) ->
  fit d -> in_stock (d_mem d) given -> current_time (d_sv d) = 0 -> dt_of d = dt ->
  fit e -> in_stock (d_mem e) given' -> current_time (d_sv e) = 0 -> dt_of e = dt ->
  held_vec d t_vector = held_vec e t_vector -> held_vec d p_vector = held_vec e p_vector ->
  equipped b k p relaxations forceful heated w -> setup integrate b k w x dt = Ok (inner (d_sv d)) ->
  equipped b k p relaxations forceful heated w' -> schur_setup integrate b k mesh inv w' x' dt = Ok (inner (d_sv e)) ->
  @dynamic_solve V W (method F) (b_dimension b) (b_count b) nodes (MethodModel.iterate integrate b k c)
    (global_answer b k mesh law minimise name maxiter) n u0 v0 out given d = (d', Ok l) ->
  @dynamic_solve V' W' (schur_method F) (b_dimension b) (b_count b) nodes' (schur_iterate integrate b k mesh c')
    (schur_answer b k mesh law minimise' name' maxiter' false) n u0 v0 out given' e = (e', Ok l') ->
  forall j s s', nth_error l j = Some s -> nth_error l' j = Some s' ->
  view_time (look (d_mem d') s) = view_time (look (d_mem e') s') /\
  veq (2 * b_count b) (view_displacement (look (d_mem d') s)) (view_displacement (look (d_mem e') s')) /\
  veq (2 * b_count b) (view_velocity (look (d_mem d') s)) (view_velocity (look (d_mem e') s')).
Proof.
  intros V W V' W' F integrate b k p loads relaxations forceful heated conds mesh law minimise minimise' name name' maxiter maxiter' c c' nodes nodes' inv dt
    HS HG HR HI AP SP CN.
  exact (same_run integrate b k p loads relaxations forceful heated conds mesh law minimise minimise' name name' maxiter maxiter' c c' nodes nodes' inv dt
    HS HG HR HI AP SP CN).
Qed.
Print Assumptions C85_same.

(* work and energy of a motion in contact: the kinetic and elastic energy, the loss by viscosity and
   the cost of contact are covered by the work of the loads *)
Theorem C85_work : forall b k p loads relaxations conds mesh law dt vb vt vp,
  velocity_kind k -> ph_n p = (2 * b_count b)%nat -> 0 < dt ->
  symmetric (2 * b_count b) (mass p) -> symmetric (2 * b_count b) (stiffness p) ->
  pos_semidef (2 * b_count b) (mass p) -> pos_semidef (2 * b_count b) (stiffness p) -> homogeneous conds ->
  let n := (2 * b_count b)%nat in let M := inertia k p in let J := run_contact b mesh law dt in
  forall u0 v0 m u v,
  contact_governed n (prescribed conds) (run_forces k p loads relaxations vb vt vp dt) J dt u0 v0 m u v ->
  forall j q, (j <= q <= m)%nat ->
  energy n M (stiffness p) (u q) (v q) + dt * sum (q - j) (fun i => qform n (damping p) (v (S (j + i))))
    + dt * sum (q - j) (fun i => J (u (j + i)%nat) (v (S (j + i))) - J (u (j + i)%nat) (fun _ => 0))
  <= energy n M (stiffness p) (u j) (v j)
    + dt * sum (q - j) (fun i => dot n (v (S (j + i))) (run_loads k p loads vt vp (INR (j + i) * dt))).
Proof.
  intros b k p loads relaxations conds mesh law dt vb vt vp VK HN Hdt SM SE PM PE H0.
  exact (run_work b k p loads relaxations conds mesh law dt vb vt vp VK HN Hdt SM SE PM PE H0).
Qed.
Print Assumptions C85_work.

(* without loads and with a law that is least at rest the energy never grows *)
Theorem C85_decay : forall b k p loads relaxations conds mesh law dt vb vt vp,
  velocity_kind k -> ph_n p = (2 * b_count b)%nat -> 0 < dt ->
  symmetric (2 * b_count b) (mass p) -> symmetric (2 * b_count b) (stiffness p) ->
  pos_semidef (2 * b_count b) (mass p) -> pos_semidef (2 * b_count b) (stiffness p) -> homogeneous conds ->
  forall u0 v0 m u v, pos_semidef (2 * b_count b) (damping p) ->
  contact_governed (2 * b_count b) (prescribed conds) (run_forces k p loads relaxations vb vt vp dt)
    (run_contact b mesh law dt) dt u0 v0 m u v ->
  (forall t i, (i < 2 * b_count b)%nat -> run_loads k p loads vt vp t i = 0) -> resisting_law law dt ->
  forall j q, (j <= q <= m)%nat ->
  energy (2 * b_count b) (inertia k p) (stiffness p) (u q) (v q) <= energy (2 * b_count b) (inertia k p) (stiffness p) (u j) (v j).
Proof.
  intros b k p loads relaxations conds mesh law dt vb vt vp VK HN Hdt SM SE PM PE H0.
  exact (run_decay b k p loads relaxations conds mesh law dt vb vt vp VK HN Hdt SM SE PM PE H0).
Qed.
Print Assumptions C85_decay.

(* the inequalities determine the motion *)
Theorem C85_unique : forall b k p loads relaxations conds mesh law dt vb vt vp,
  velocity_kind k -> ph_n p = (2 * b_count b)%nat -> 0 < dt ->
  forall u0 v0 m u v u' v', stable_kind p conds k -> faces_ok 2 (b_count b) (mesh_faces mesh) ->
  let motion := contact_governed (2 * b_count b) (prescribed conds) (run_forces k p loads relaxations vb vt vp dt)
    (run_contact b mesh law dt) dt u0 v0 m in
  motion u v -> motion u' v' ->
  forall j, (j <= m)%nat -> veq (2 * b_count b) (u j) (u' j) /\ veq (2 * b_count b) (v j) (v' j).
Proof.
  intros b k p loads relaxations conds mesh law dt vb vt vp VK HN Hdt.
  exact (run_unique b k p loads relaxations conds mesh law dt vb vt vp VK HN Hdt).
Qed.
Print Assumptions C85_unique.

(* ------------------------------------------------------------------ a triangle on a soft ground *)

Example C85_setting : forall f v k dt, plane_kind k -> forward k dt ->
  contact_setting constant_source (wedge_body f v) k (wedge f) (wedge_loads f)
    (given_force (wedge f) k) (given_heat (wedge f)) (roof v) wedge_mesh stiff_law dt.
Proof. exact wedge_setting. Qed.
Example C85_faces : forall f v, faces_apart (wedge_body f v) wedge_mesh (roof v) /\ faces_split (wedge_body f v) wedge_mesh (roof v) /\
  (mesh_contact_count wedge_mesh <= b_count (wedge_body f v))%nat /\ mesh_faces wedge_mesh <> [] /\ exists d w, prescribed (roof v) d w.
Proof.
  intros f v. split; [exact (wedge_apart f v)|]. split; [exact (proj1 (wedge_split f v))|]. split; [exact (proj2 (wedge_split f v))|].
  split; [discriminate|]. exact (proj1 (proj2 (proj2 (proj2 (roof_facts v))))).
Qed.
Example C85_reliable : exists find, reliable find.
Proof. exact minimiser. Qed.
Example C85_renews : forall f v, renews constant_source (wedge_body f v) DynamicVelocity DynamicGlobal /\
  renews constant_source (wedge_body f v) DynamicVelocity DynamicSchur.
Proof. exact wedge_renews. Qed.
Example C85_equipped : forall f v k, equipped (wedge_body f v) k (wedge f) (fun _ => memory (wedge f)) (given_force (wedge f) k)
  (given_heat (wedge f)) (laid_out (wedge f) k).
Proof. exact wedge_equipped. Qed.
Example C85_driver : forall I dt (i : I), fit (rest_driver dt i) /\ current_time (d_sv (rest_driver dt i)) = 0 /\ dt_of (rest_driver dt i) = dt /\
  non_decreasing 0 (requested 3 [1; 3]%Z).
Proof. intros I dt i. split; [apply rest_fit|]. repeat split; cbn; lia. Qed.
(* runs of both solvers and the motions they have *)
Example C85_global_example : forall minimise name maxiter f v dt u0 v0, (forall m, reliable (minimise (route_of name) m)) -> 0 < dt ->
  exists i d l, setup constant_source (wedge_body f v) DynamicVelocity (laid_out (wedge f) DynamicVelocity) no_vectors dt = Ok i /\
  @dynamic_solve R unit _ 2 3 (fun _ => 0) (MethodModel.iterate constant_source (wedge_body f v) DynamicVelocity DynamicGlobal)
    (global_answer (F := nat * vec) (wedge_body f v) DynamicVelocity wedge_mesh stiff_law minimise name maxiter)
    3 u0 v0 [1; 3]%Z [] (rest_driver dt i) = (d, Ok l).
Proof. intros minimise name maxiter f v dt u0 v0 HR Hdt. exact (wedge_global minimise name maxiter HR f v dt Hdt u0 v0). Qed.
Example C85_schur_example : forall minimise name maxiter inv f v dt u0 v0, (forall m, reliable (minimise (route_of name) m)) -> inverts inv -> 0 < dt ->
  exists i d l, schur_setup constant_source (wedge_body f v) DynamicVelocity wedge_mesh inv (laid_out (wedge f) DynamicVelocity) no_vectors dt = Ok i /\
  @dynamic_solve R unit _ 2 3 (fun _ => 0) (schur_iterate constant_source (wedge_body f v) DynamicVelocity wedge_mesh DynamicSchur)
    (schur_answer (F := nat * vec) (wedge_body f v) DynamicVelocity wedge_mesh stiff_law minimise name maxiter false)
    3 u0 v0 [1; 3]%Z [] (rest_driver dt i) = (d, Ok l).
Proof. intros minimise name maxiter inv f v dt u0 v0 HR HI Hdt. exact (wedge_schur minimise name maxiter HR inv HI f v dt Hdt u0 v0). Qed.
Example C85_global_static_example : forall minimise name maxiter f v dt u0, (forall m, reliable (minimise (route_of name) m)) ->
  exists i d s, setup constant_source (wedge_body f v) StaticDisplacement (laid_out (wedge f) StaticDisplacement) no_vectors dt = Ok i /\
  @static_solve R unit _ 2 3 (fun _ => 0) (MethodModel.iterate constant_source (wedge_body f v) StaticDisplacement StaticGlobal)
    (global_answer (F := nat * vec) (wedge_body f v) StaticDisplacement wedge_mesh stiff_law minimise name maxiter)
    u0 [] (rest_driver dt i) = (d, Ok s).
Proof. intros minimise name maxiter f v dt u0 HR. exact (wedge_global_static minimise name maxiter HR f v dt u0). Qed.
Example C85_schur_static_example : forall minimise name maxiter inv f v dt u0, (forall m, reliable (minimise (route_of name) m)) -> inverts inv ->
  exists i d s, schur_setup constant_source (wedge_body f v) StaticDisplacement wedge_mesh inv (laid_out (wedge f) StaticDisplacement) no_vectors dt = Ok i /\
  @static_solve R unit _ 2 3 (fun _ => 0) (schur_iterate constant_source (wedge_body f v) StaticDisplacement wedge_mesh StaticSchur)
    (schur_answer (F := nat * vec) (wedge_body f v) StaticDisplacement wedge_mesh stiff_law minimise name maxiter false)
    u0 [] (rest_driver dt i) = (d, Ok s).
Proof. intros minimise name maxiter inv f v dt u0 HR HI. exact (wedge_schur_static minimise name maxiter HR inv HI f v dt u0). Qed.
(* starting values with the prescribed ones *)
Example C85_admissible : forall v, admissible (prescribed (roof v)) (fun d => if (d =? 5)%nat then v else 0).
Proof. intros v d w H. apply roof_prescribed in H. destruct H as [[-> ->]|[-> ->]]; reflexivity. Qed.
Example C85_rest : forall I dt (i : I), admissible (prescribed (roof 0)) (held_vec (rest_driver dt i) v_vector).
Proof. intros I dt i d w H. apply roof_prescribed in H. destruct H as [[-> ->]|[-> ->]]; reflexivity. Qed.
(* the hypotheses on the energy *)
Example C85_energy_facts : forall f, symmetric 6 (mass (wedge f)) /\ symmetric 6 (stiffness (wedge f)) /\
  pos_semidef 6 (mass (wedge f)) /\ pos_semidef 6 (stiffness (wedge f)) /\ pos_semidef 6 (damping (wedge f)) /\
  homogeneous (roof 0) /\ ph_n (wedge f) = (2 * b_count (wedge_body f 0))%nat.
Proof.
  intros f. repeat split; try apply delta_pos; try apply delta_semidef.
  intros d w H. apply roof_prescribed in H. destruct H as [[_ ->]|[_ ->]]; reflexivity.
Qed.
Example C85_law : forall dt, resisting_law stiff_law dt.
Proof. intros dt. apply slope_law_resists. lra. Qed.
Example C85_no_loads : forall t i, run_loads DynamicVelocity (wedge (fun _ => 0)) (wedge_loads (fun _ => 0)) (fun _ => 0) (fun _ => 0) t i = 0.
Proof. intros t i. unfold run_loads, wedge_loads. ring. Qed.
