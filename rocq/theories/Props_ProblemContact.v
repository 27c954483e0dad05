(* C89: from a posed problem with contact to the states that its solvers return. *)
From Coq Require Import Reals List Arith ZArith Bool String Lia Lra.
From Verif Require Import Common PyModel RVec LinAlg MeshModel MeshBuildModel MeshSpec NormalsModel NormalsSpec FemModel FemSpec ForcesModel ForcesSpec
  DirichletModel DirichletSpec ContactModel ContactSpec ContactCostProofs ConstrainedSpec ConstrainedWitness SchurModel SchurSpec StatementModel StatementSpec StatementValueProofs
  RegistryModel StateModel StateLemmas CopyProofs TimeModel TimeSpec TimeProofs RunProofs HistoryProofs SolveProofs MarchProofs MethodModel MethodProofs
  RunSpec OptimisationModel OptimisationProofs ContactRunSpec ContactRunWitness
  ProblemModel ProblemSpec ProblemProofs ProblemUnique ProblemWitness ProblemContactModel ProblemContactSpec ProblemContactTheorems ProblemContactFinal ProblemContactSingular ProblemContactWitness.
Import ListNotations.
Local Open Scope string_scope.
Local Open Scope list_scope.
Local Open Scope R_scope.

(* --------------------------------------------------------- what a run computes *)

(* motions with contact, global optimisation: at every step the velocity has the prescribed values and the
   works of inertia, stresses, loads and contact satisfy the variational inequality *)
Theorem C89_global : forall {V W} pb ic id g fi fo k th ze mu la law bt density minimise name maxiter (m0 : store V) (d d' : driver V (method forces)) n u0 v0 out given (l : list (state W)),
  contact_posed pb ic id g fi fo k th ze mu la law ->
  prepared pb bt density ->
  positive_density density ->
  (forall m, reliable (minimise (route_of name) m)) ->
  velocity_kind k ->
  step_solver pb bt k m0 = Ok d ->
  in_stock (d_mem d) given ->
  non_decreasing 0 (requested n out) ->
  global_motion bt k law minimise name maxiter n u0 v0 out given d = (d', Ok l) ->
  exists u v, posed_motion pb bt density id g fi fo k th ze mu la law u0 v0 (TimeTheorems.last_step n out) u v /\
    List.length l = List.length (requested n out) /\
    forall j q (s : state W), nth_error (requested n out) j = Some q -> nth_error l j = Some s ->
      shows (time_step_of pb) u v (Z.to_nat q) (look (d_mem d') s).
Proof. intros V W pb ic id g fi fo k th ze mu la law bt density minimise name maxiter m0 d d' n u0 v0 out given l CP PR PD HM. exact (global_final pb ic id g fi fo k th ze mu la law CP bt density PR PD minimise name maxiter HM m0 d d' n u0 v0 out given l). Qed.
Print Assumptions C89_global.

(* the same for the Schur complement method *)
Theorem C89_schur : forall {V W} pb ic id g fi fo k th ze mu la law bt density minimise name maxiter inv (m0 : store V) (d d' : driver V (schur_method forces)) n u0 v0 out given (l : list (state W)),
  contact_posed pb ic id g fi fo k th ze mu la law ->
  prepared pb bt density ->
  positive_density density ->
  (forall m, reliable (minimise (route_of name) m)) ->
  inverts inv ->
  velocity_kind k ->
  schur_step_solver pb bt k inv m0 = Ok d ->
  in_stock (d_mem d) given ->
  non_decreasing 0 (requested n out) ->
  schur_motion bt k law minimise name maxiter n u0 v0 out given d = (d', Ok l) ->
  exists u v, posed_motion pb bt density id g fi fo k th ze mu la law u0 v0 (TimeTheorems.last_step n out) u v /\
    List.length l = List.length (requested n out) /\
    forall j q (s : state W), nth_error (requested n out) j = Some q -> nth_error l j = Some s ->
      shows (time_step_of pb) u v (Z.to_nat q) (look (d_mem d') s).
Proof. intros V W pb ic id g fi fo k th ze mu la law bt density minimise name maxiter inv m0 d d' n u0 v0 out given l CP PR PD HM HI. exact (schur_final pb ic id g fi fo k th ze mu la law CP bt density PR PD minimise name maxiter HM inv HI m0 d d' n u0 v0 out given l). Qed.
Print Assumptions C89_schur.

(* static problems *)
Theorem C89_global_rest : forall {V W} pb ic id g fi fo k th ze mu la law bt density minimise name maxiter (m0 : store V) (d d' : driver V (method forces)) u0 given (s : state W),
  contact_posed pb ic id g fi fo k th ze mu la law ->
  prepared pb bt density ->
  positive_density density ->
  (forall m, reliable (minimise (route_of name) m)) ->
  k = StaticDisplacement ->
  step_solver pb bt k m0 = Ok d ->
  in_stock (d_mem d) given ->
  global_rest bt k law minimise name maxiter u0 given d = (d', Ok s) ->
  posed_rest pb bt density id g fi fo mu la law u0 (view_displacement (look (d_mem d') s)).
Proof. intros V W pb ic id g fi fo k th ze mu la law bt density minimise name maxiter m0 d d' u0 given s CP PR PD HM. exact (global_rest_final pb ic id g fi fo k th ze mu la law CP bt density PR PD minimise name maxiter HM m0 d d' u0 given s). Qed.
Print Assumptions C89_global_rest.

Theorem C89_schur_rest : forall {V W} pb ic id g fi fo k th ze mu la law bt density minimise name maxiter inv (m0 : store V) (d d' : driver V (schur_method forces)) u0 given (s : state W),
  contact_posed pb ic id g fi fo k th ze mu la law ->
  prepared pb bt density ->
  positive_density density ->
  (forall m, reliable (minimise (route_of name) m)) ->
  inverts inv ->
  k = StaticDisplacement ->
  schur_step_solver pb bt k inv m0 = Ok d ->
  in_stock (d_mem d) given ->
  schur_rest bt k law minimise name maxiter u0 given d = (d', Ok s) ->
  posed_rest pb bt density id g fi fo mu la law u0 (view_displacement (look (d_mem d') s)).
Proof. intros V W pb ic id g fi fo k th ze mu la law bt density minimise name maxiter inv m0 d d' u0 given s CP PR PD HM HI. exact (schur_rest_final pb ic id g fi fo k th ze mu la law CP bt density PR PD minimise name maxiter HM inv HI m0 d d' u0 given s). Qed.
Print Assumptions C89_schur_rest.

(* --------------------------------------------------------- runs do not fail *)

Theorem C89_global_total : forall {V W} pb ic id g fi fo k th ze mu la law bt density minimise name maxiter n out,
  contact_posed pb ic id g fi fo k th ze mu la law ->
  prepared pb bt density ->
  positive_density density ->
  (forall m, reliable (minimise (route_of name) m)) ->
  velocity_kind k ->
  non_decreasing 0 (requested n out) ->
  n <> 0%nat ->
  forall m0, exists d : driver V (method forces), step_solver pb bt k m0 = Ok d /\ forall u0 v0, exists d' (l : list (state W)),
  global_motion bt k law minimise name maxiter n u0 v0 out [] d = (d', Ok l).
Proof. intros V W pb ic id g fi fo k th ze mu la law bt density minimise name maxiter n out CP PR PD HM. exact (global_goes_final pb ic id g fi fo k th ze mu la law CP bt density PR PD minimise name maxiter HM n out). Qed.
Print Assumptions C89_global_total.

Theorem C89_schur_total : forall {V W} pb ic id g fi fo k th ze mu la law bt density minimise name maxiter inv n out,
  contact_posed pb ic id g fi fo k th ze mu la law ->
  prepared pb bt density ->
  positive_density density ->
  (forall m, reliable (minimise (route_of name) m)) ->
  inverts inv ->
  velocity_kind k ->
  non_decreasing 0 (requested n out) ->
  n <> 0%nat ->
  forall m0, exists d : driver V (schur_method forces), schur_step_solver pb bt k inv m0 = Ok d /\ forall u0 v0, exists d' (l : list (state W)),
  schur_motion bt k law minimise name maxiter n u0 v0 out [] d = (d', Ok l).
Proof. intros V W pb ic id g fi fo k th ze mu la law bt density minimise name maxiter inv n out CP PR PD HM HI. exact (schur_goes_final pb ic id g fi fo k th ze mu la law CP bt density PR PD minimise name maxiter HM inv HI n out). Qed.
Print Assumptions C89_schur_total.

Theorem C89_global_rest_total : forall {V W} pb ic id g fi fo k th ze mu la law bt density minimise name maxiter,
  contact_posed pb ic id g fi fo k th ze mu la law ->
  prepared pb bt density ->
  positive_density density ->
  (forall m, reliable (minimise (route_of name) m)) ->
  k = StaticDisplacement ->
  forall m0, exists d : driver V (method forces), step_solver pb bt k m0 = Ok d /\ forall u0, exists d' (s : state W),
  global_rest bt k law minimise name maxiter u0 [] d = (d', Ok s).
Proof. intros V W pb ic id g fi fo k th ze mu la law bt density minimise name maxiter CP PR PD HM. exact (global_rest_goes pb ic id g fi fo k th ze mu la law CP bt density PR PD minimise name maxiter HM). Qed.
Print Assumptions C89_global_rest_total.

Theorem C89_schur_rest_total : forall {V W} pb ic id g fi fo k th ze mu la law bt density minimise name maxiter inv,
  contact_posed pb ic id g fi fo k th ze mu la law ->
  prepared pb bt density ->
  positive_density density ->
  (forall m, reliable (minimise (route_of name) m)) ->
  inverts inv ->
  k = StaticDisplacement ->
  forall m0, exists d : driver V (schur_method forces), schur_step_solver pb bt k inv m0 = Ok d /\ forall u0, exists d' (s : state W),
  schur_rest bt k law minimise name maxiter u0 [] d = (d', Ok s).
Proof. intros V W pb ic id g fi fo k th ze mu la law bt density minimise name maxiter inv CP PR PD HM HI. exact (schur_rest_goes pb ic id g fi fo k th ze mu la law CP bt density PR PD minimise name maxiter HM inv HI). Qed.
Print Assumptions C89_schur_rest_total.

(* --------------------------------------------------------- one solution, whatever the solver *)

Theorem C89_unique : forall pb ic id g fi fo k th ze mu la law bt density u0 v0 n u v u' v',
  contact_posed pb ic id g fi fo k th ze mu la law ->
  prepared pb bt density ->
  positive_density density ->
  velocity_kind k ->
  posed_motion pb bt density id g fi fo k th ze mu la law u0 v0 n u v ->
  posed_motion pb bt density id g fi fo k th ze mu la law u0 v0 n u' v' ->
  forall j, (j <= n)%nat ->
  veq (2 * List.length (m_nodes (bt_mesh bt))) (u j) (u' j) /\ veq (2 * List.length (m_nodes (bt_mesh bt))) (v j) (v' j).
Proof. intros pb ic id g fi fo k th ze mu la law bt density u0 v0 n u v u' v' CP PR PD. exact (contact_motion_unique pb ic id g fi fo k th ze mu la law CP bt density PR PD u0 v0 n u v u' v'). Qed.
Print Assumptions C89_unique.

Theorem C89_unique_rest : forall pb ic id g fi fo k th ze mu la law bt density u0 u u',
  contact_posed pb ic id g fi fo k th ze mu la law ->
  prepared pb bt density ->
  positive_density density ->
  k = StaticDisplacement ->
  posed_rest pb bt density id g fi fo mu la law u0 u ->
  posed_rest pb bt density id g fi fo mu la law u0 u' ->
  veq (2 * List.length (m_nodes (bt_mesh bt))) u u'.
Proof. intros pb ic id g fi fo k th ze mu la law bt density u0 u u' CP PR PD. exact (contact_static_unique pb ic id g fi fo k th ze mu la law CP bt density PR PD _ u u'). Qed.
Print Assumptions C89_unique_rest.

(* both methods, with whatever minimisers, return the same states *)
Theorem C89_same : forall {V W V' W'} pb ic id g fi fo k th ze mu la law bt density minimise minimise' name name' maxiter maxiter' inv (m0 : store V) (m0' : store V')
    (d1 d1' : driver V (method forces)) (d2 d2' : driver V' (schur_method forces)) n u0 v0 out given given' (l1 : list (state W)) (l2 : list (state W')),
  contact_posed pb ic id g fi fo k th ze mu la law ->
  prepared pb bt density ->
  positive_density density ->
  (forall m, reliable (minimise (route_of name) m)) ->
  (forall m, reliable (minimise' (route_of name') m)) ->
  inverts inv ->
  velocity_kind k ->
  step_solver pb bt k m0 = Ok d1 ->
  schur_step_solver pb bt k inv m0' = Ok d2 ->
  in_stock (d_mem d1) given ->
  in_stock (d_mem d2) given' ->
  non_decreasing 0 (requested n out) ->
  global_motion bt k law minimise name maxiter n u0 v0 out given d1 = (d1', Ok l1) ->
  schur_motion bt k law minimise' name' maxiter' n u0 v0 out given' d2 = (d2', Ok l2) ->
  List.length l1 = List.length l2 /\
  forall j (s1 : state W) (s2 : state W'), nth_error l1 j = Some s1 -> nth_error l2 j = Some s2 ->
    let w1 := look (d_mem d1') s1 in let w2 := look (d_mem d2') s2 in
    view_time w1 = view_time w2 /\
    veq (2 * List.length (m_nodes (bt_mesh bt))) (view_displacement w1) (view_displacement w2) /\
    veq (2 * List.length (m_nodes (bt_mesh bt))) (view_velocity w1) (view_velocity w2).
Proof. intros V W V' W' pb ic id g fi fo k th ze mu la law bt density minimise minimise' name name' maxiter maxiter' inv m0 m0' d1 d1' d2 d2' n u0 v0 out given given' l1 l2 CP PR PD HM HM' HI. exact (same_final pb ic id g fi fo k th ze mu la law CP bt density PR PD minimise minimise' name name' maxiter maxiter' HM HM' inv HI m0 m0' d1 d1' d2 d2' n u0 v0 out given given' l1 l2). Qed.
Print Assumptions C89_same.

Theorem C89_same_rest : forall {V W V' W'} pb ic id g fi fo k th ze mu la law bt density minimise minimise' name name' maxiter maxiter' inv (m0 : store V) (m0' : store V')
    (d1 d1' : driver V (method forces)) (d2 d2' : driver V' (schur_method forces)) u0 given given' (s1 : state W) (s2 : state W'),
  contact_posed pb ic id g fi fo k th ze mu la law ->
  prepared pb bt density ->
  positive_density density ->
  (forall m, reliable (minimise (route_of name) m)) ->
  (forall m, reliable (minimise' (route_of name') m)) ->
  inverts inv ->
  k = StaticDisplacement ->
  step_solver pb bt k m0 = Ok d1 ->
  schur_step_solver pb bt k inv m0' = Ok d2 ->
  in_stock (d_mem d1) given ->
  in_stock (d_mem d2) given' ->
  global_rest bt k law minimise name maxiter u0 given d1 = (d1', Ok s1) ->
  schur_rest bt k law minimise' name' maxiter' u0 given' d2 = (d2', Ok s2) ->
  veq (2 * List.length (m_nodes (bt_mesh bt))) (view_displacement (look (d_mem d1') s1)) (view_displacement (look (d_mem d2') s2)).
Proof. intros V W V' W' pb ic id g fi fo k th ze mu la law bt density minimise minimise' name name' maxiter maxiter' inv m0 m0' d1 d1' d2 d2' u0 given given' s1 s2 CP PR PD HM HM' HI. exact (same_rest_final pb ic id g fi fo k th ze mu la law CP bt density PR PD minimise minimise' name name' maxiter maxiter' HM HM' inv HI m0 m0' d1 d1' d2 d2' u0 given given' s1 s2). Qed.
Print Assumptions C89_same_rest.

(* --------------------------------------------------------- energy *)

(* energy and what viscosity and contact use up are covered by the work of the loads *)
Theorem C89_work : forall pb ic id g fi fo k th ze mu la law bt density u0 v0 n u v (Gu Gv : nat -> nat -> list nat -> vec),
  contact_posed pb ic id g fi fo k th ze mu la law ->
  prepared pb bt density ->
  positive_density density ->
  velocity_kind k ->
  (forall q, id q = true -> g q = 0) ->
  posed_motion pb bt density id g fi fo k th ze mu la law u0 v0 n u v ->
  (forall j, (j <= n)%nat -> gradients coord2 zero2 (bt_mesh bt) (u j) (Gu j) /\ gradients coord2 zero2 (bt_mesh bt) (v j) (Gv j)) ->
  forall j q, (j <= q <= n)%nat ->
  kinetic coord2 zero2 (bt_mesh bt) k (mass_density (pr_material pb)) (v q) + stored coord2 zero2 (bt_mesh bt) density mu la (Gu q)
    + time_step_of pb * sum (q - j) (fun i => stress_work coord2 zero2 (bt_mesh bt) density th ze (Gv (S (j + i))) (Gv (S (j + i))))
    + time_step_of pb * sum (q - j) (fun i => body_cost pb bt law (u (j + i)%nat) (v (S (j + i))) - body_cost pb bt law (u (j + i)%nat) (fun _ => 0))
  <= kinetic coord2 zero2 (bt_mesh bt) k (mass_density (pr_material pb)) (v j) + stored coord2 zero2 (bt_mesh bt) density mu la (Gu j)
    + time_step_of pb * sum (q - j) (fun i => load_work coord2 zero2 (bt_mesh bt) 2
        (fun p => fi p (INR (j + i) * time_step_of pb)) (fun p => fo p (INR (j + i) * time_step_of pb)) (v (S (j + i)))).
Proof. intros pb ic id g fi fo k th ze mu la law bt density u0 v0 n u v Gu Gv CP PR PD. exact (contact_motion_work pb ic id g fi fo k th ze mu la law CP bt density PR PD u0 v0 n u v Gu Gv). Qed.
Print Assumptions C89_work.

(* without loads, and with a contact that does not push, energy never grows *)
Theorem C89_decay : forall pb ic id g fi fo k th ze mu la law bt density u0 v0 n u v (Gu : nat -> nat -> list nat -> vec),
  contact_posed pb ic id g fi fo k th ze mu la law ->
  prepared pb bt density ->
  positive_density density ->
  velocity_kind k ->
  (forall q, id q = true -> g q = 0) ->
  (forall q t c, fi q t c = 0 /\ fo q t c = 0) ->
  resisting_law law (time_step_of pb) ->
  posed_motion pb bt density id g fi fo k th ze mu la law u0 v0 n u v ->
  (forall j, (j <= n)%nat -> gradients coord2 zero2 (bt_mesh bt) (u j) (Gu j)) ->
  forall j q, (j <= q <= n)%nat ->
  kinetic coord2 zero2 (bt_mesh bt) k (mass_density (pr_material pb)) (v q) + stored coord2 zero2 (bt_mesh bt) density mu la (Gu q)
  <= kinetic coord2 zero2 (bt_mesh bt) k (mass_density (pr_material pb)) (v j) + stored coord2 zero2 (bt_mesh bt) density mu la (Gu j).
Proof. intros pb ic id g fi fo k th ze mu la law bt density u0 v0 n u v Gu CP PR PD. exact (contact_motion_decay pb ic id g fi fo k th ze mu la law CP bt density PR PD u0 v0 n u v Gu). Qed.
Print Assumptions C89_decay.

(* --------------------------------------------------------- normals and classes *)

(* every contact face has a normal *)
Theorem C89_normals : forall pb ic id g bt density,
  posed pb ic id g ->
  separate ic id ->
  prepared pb bt density ->
  List.length (contact_normals (bt_mesh bt) (bt_normals bt)) = List.length (faces_of (bt_mesh bt) "contact").
Proof. intros pb ic id g bt density. exact (contact_has_normals pb ic id g bt density). Qed.
Print Assumptions C89_normals.

(* if the contact faces are the first boundary faces, the normals in the cost of contact are their outer
   unit normals; C07_contact_normals_refuted shows that the condition is needed *)
Theorem C89_outward : forall pb ic id g bt density,
  posed pb ic id g ->
  separate ic id ->
  prepared pb bt density ->
  (forall f e, boundary_face 3 (m_elements (bt_mesh bt)) f -> boundary_face 3 (m_elements (bt_mesh bt)) e ->
     face_holds mean2 (m_nodes (bt_mesh bt)) ic f -> ~ face_holds mean2 (m_nodes (bt_mesh bt)) ic e -> lex_lt f e) ->
  forall i f a b oi o, nth_error (faces_of (bt_mesh bt) "contact") i = Some f -> picks f (m_nodes (bt_mesh bt)) [a; b] ->
  opposing (m_elements (bt_mesh bt)) f oi -> nth_error (m_nodes (bt_mesh bt)) oi = Some o -> side2 a b o <> 0 ->
  outward2 a b o (nth i (contact_normals (bt_mesh bt) (bt_normals bt)) zero2).
Proof. intros pb ic id g bt density. exact (contact_outward pb ic id g bt density). Qed.
Print Assumptions C89_outward.

(* the solvers of the runs above are those registered under the names "global" and "schur" *)
Theorem C89_classes : forall p k,
  statement_of (mro p) = Ok (Some k) ->
  k = StaticDisplacement \/ k = QuasistaticVelocity \/ k = DynamicVelocity ->
  forall name,
    (get_by_name installed name (mro p) = Ok (global_class k) <-> lower name = "global" \/ lower name = "global optimization") /\
    (get_by_name installed name (mro p) = Ok (schur_class_of k) <->
     lower name = "schur" \/ lower name = "schur complement" \/ lower name = "schur complement method").
Proof. exact classes_registered. Qed.
Print Assumptions C89_classes.

(* a free block that cannot be inverted: creating the Schur solver raises the very error of the inversion *)
Theorem C89_singular : forall {V} pb ic id g fi fo k th ze mu la law bt density inv e (m0 : store V),
  contact_posed pb ic id g fi fo k th ze mu la law ->
  prepared pb bt density ->
  positive_density density ->
  (forall n A, inv n A = Err e) ->
  schur_step_solver pb bt k inv m0 = Err e.
Proof. intros V pb ic id g fi fo k th ze mu la law bt density inv e m0 CP PR PD HE. exact (solver_singular V pb ic id g fi fo k th ze mu la law bt density inv e CP PR PD HE m0). Qed.
Print Assumptions C89_singular.

(* --------------------------------------------------------- examples *)

Example C89_posed : forall fi fo h k, k = StaticDisplacement \/ k = QuasistaticVelocity \/ k = DynamicVelocity ->
  contact_posed (bench fi fo h) (on_line 1) (on_line 0) h fi fo k 1 2 4 3 stiff_law.
Proof. exact bench_posed. Qed.
Example C89_prepared : forall fi fo h, exists bt, prepared (bench fi fo h) bt None /\ positive_density None.
Proof. intros fi fo h. destruct (bench_constructs fi fo h) as (bt & E). exists bt. split; [apply constructed; exact E|exact I]. Qed.
Example C89_reliable : exists find, reliable find.
Proof. exact minimiser. Qed.
Example C89_steps : non_decreasing 0 (requested 3 [1; 3]%Z).
Proof. cbn. lia. Qed.
(* runs of both solvers *)
Example C89_run : forall minimise name maxiter inv k, (forall m, reliable (minimise (route_of name) m)) -> inverts inv ->
  k = QuasistaticVelocity \/ k = DynamicVelocity ->
  exists bt d e, prepared (bench weight pull lift) bt None /\ step_solver (bench weight pull lift) bt k no_memory = Ok d /\
  schur_step_solver (bench weight pull lift) bt k inv no_memory = Ok e /\ forall u0 v0,
  (exists d' (l : list (state unit)), global_motion bt k stiff_law minimise name maxiter 3 u0 v0 [1; 3]%Z [] d = (d', Ok l)) /\
  (exists e' (l : list (state unit)), schur_motion bt k stiff_law minimise name maxiter 3 u0 v0 [1; 3]%Z [] e = (e', Ok l)).
Proof.
  intros minimise name maxiter inv k HM HI K. destruct (bench_constructs weight pull lift) as (bt & E). apply constructed in E.
  assert (VK : velocity_kind k) by (destruct K as [->| ->]; exact I).
  destruct (C89_global_total (V := R) (W := unit) _ _ _ _ _ _ k _ _ _ _ _ bt None minimise name maxiter 3 [1; 3]%Z (bench_posed weight pull lift k (or_intror K)) E I HM
    VK C89_steps ltac:(discriminate) no_memory) as (d & S & G).
  destruct (C89_schur_total (V := R) (W := unit) _ _ _ _ _ _ k _ _ _ _ _ bt None minimise name maxiter inv 3 [1; 3]%Z (bench_posed weight pull lift k (or_intror K)) E I HM
    HI VK C89_steps ltac:(discriminate) no_memory) as (e & S' & G').
  exists bt, d, e. split; [exact E|]. split; [exact S|]. split; [exact S'|]. intros u0 v0. split; [apply G|apply G'].
Qed.
Example C89_run_rest : forall minimise name maxiter inv, (forall m, reliable (minimise (route_of name) m)) -> inverts inv ->
  exists bt d e, prepared (bench weight pull lift) bt None /\ step_solver (bench weight pull lift) bt StaticDisplacement no_memory = Ok d /\
  schur_step_solver (bench weight pull lift) bt StaticDisplacement inv no_memory = Ok e /\ forall u0,
  (exists d' (s : state unit), global_rest bt StaticDisplacement stiff_law minimise name maxiter u0 [] d = (d', Ok s)) /\
  (exists e' (s : state unit), schur_rest bt StaticDisplacement stiff_law minimise name maxiter u0 [] e = (e', Ok s)).
Proof.
  intros minimise name maxiter inv HM HI. destruct (bench_constructs weight pull lift) as (bt & E). apply constructed in E.
  destruct (C89_global_rest_total (V := R) (W := unit) _ _ _ _ _ _ _ _ _ _ _ _ bt None minimise name maxiter (bench_posed weight pull lift _ (or_introl eq_refl)) E I HM
    eq_refl no_memory) as (d & S & G).
  destruct (C89_schur_rest_total (V := R) (W := unit) _ _ _ _ _ _ _ _ _ _ _ _ bt None minimise name maxiter inv (bench_posed weight pull lift _ (or_introl eq_refl)) E I HM
    HI eq_refl no_memory) as (e & S' & G').
  exists bt, d, e. split; [exact E|]. split; [exact S|]. split; [exact S'|]. intros u0. split; [apply G|apply G'].
Qed.
(* an inversion that refuses every block *)
Example C89_refused : exists bt, prepared (bench weight pull lift) bt None /\
  schur_step_solver (V := R) (bench weight pull lift) bt QuasistaticVelocity (fun _ _ => Err ValueError) no_memory = Err ValueError.
Proof.
  destruct (bench_constructs weight pull lift) as (bt & E). apply constructed in E. exists bt. split; [exact E|].
  exact (C89_singular _ _ _ _ _ _ _ _ _ _ _ _ bt None _ _ no_memory (bench_posed weight pull lift QuasistaticVelocity (or_intror (or_introl eq_refl))) E I (fun _ _ => eq_refl)).
Qed.
(* a motion without loads, and the law *)
Example C89_motion : exists bt u v (Gu Gv : nat -> nat -> list nat -> vec), prepared (bench (fun _ _ _ => 0) (fun _ _ _ => 0) (fun _ => 0)) bt None /\
  posed_motion (bench (fun _ _ _ => 0) (fun _ _ _ => 0) (fun _ => 0)) bt None (on_line 0) (fun _ => 0) (fun _ _ _ => 0) (fun _ _ _ => 0)
    DynamicVelocity 1 2 4 3 stiff_law (fun _ => 0) (fun i => INR i) 3 u v /\
  (forall j, (j <= 3)%nat -> gradients coord2 zero2 (bt_mesh bt) (u j) (Gu j) /\ gradients coord2 zero2 (bt_mesh bt) (v j) (Gv j)) /\
  resisting_law stiff_law (1 / 2).
Proof. exact bench_motion. Qed.
(* the contact face of the square is the first of its boundary *)
Example C89_outward_example : forall fi fo h, exists bt, prepared (bench fi fo h) bt None /\ posed (bench fi fo h) (on_line 1) (on_line 0) h /\
  separate (on_line 1) (on_line 0) /\
  (forall f e, boundary_face 3 (m_elements (bt_mesh bt)) f -> boundary_face 3 (m_elements (bt_mesh bt)) e ->
     face_holds mean2 (m_nodes (bt_mesh bt)) (on_line 1) f -> ~ face_holds mean2 (m_nodes (bt_mesh bt)) (on_line 1) e -> lex_lt f e) /\
  nth_error (faces_of (bt_mesh bt) "contact") 0 = Some [0; 1]%nat /\ picks [0; 1]%nat (m_nodes (bt_mesh bt)) [(1, 0); (1, 1)] /\
  opposing (m_elements (bt_mesh bt)) [0; 1]%nat 3 /\ nth_error (m_nodes (bt_mesh bt)) 3 = Some (0, 1) /\ side2 (1, 0) (1, 1) (0, 1) <> 0.
Proof.
  intros fi fo h. destruct (bench_constructs fi fo h) as (bt & E). exists bt. apply constructed in E. split; [exact E|].
  pose proof (bench_is fi fo h bt None E) as ->. split; [exact (bench_well fi fo h)|]. split; [exact square_separate|].
  split; [exact (bench_first h)|exact (bench_face h)].
Qed.
Example C89_class_example : statement_of (mro StaticDisplacementProblem) = Ok (Some StaticDisplacement) /\
  statement_of (mro QuasistaticDisplacementProblem) = Ok (Some QuasistaticVelocity) /\ statement_of (mro DynamicDisplacementProblem) = Ok (Some DynamicVelocity).
Proof. repeat split. Qed.
