(* C87, C88 for bodies prepared from a problem. *)
From Coq Require Import Reals List Arith ZArith Bool String Permutation Lia Lra FunctionalExtensionality.
From Verif Require Import Common PyModel RVec LinAlg MeshModel MeshBuildModel MeshSpec ListLemmas MeshBuildProofs MeshTotalProofs NormalsModel NormalsProofs
  DofModel DofSpec DirichletModel DirichletSpec DirichletProofs DirichletMeshProofs
  FemModel FemSpec FemAssemblyProofs FemFormProofs FemBasicProofs FemMeshProofs FemBuildProofs FemOperatorProofs FemPipelineProofs FemFinalProofs FemKornProofs
  ForcesModel ForcesSpec ForcesProofs ForcesLoadProofs
  StatementModel StatementSpec StatementProofs StatementValueProofs StatementLawProofs StatementCacheProofs
  RegistryModel StateModel StateLemmas CopyProofs TimeModel TimeSpec TimeProofs RunProofs HistoryProofs SolveProofs MarchProofs MethodModel MethodProofs
  RunSpec WholeRunProofs RunTheorems RunTotal StatementMeshProofs CrossBuiltProofs ProblemModel ProblemSpec ProblemProofs ProblemReady ProblemTheorems ProblemUnique ProblemTotal.
Import ListNotations.
Local Open Scope string_scope.
Local Open Scope list_scope.
Local Open Scope R_scope.

Definition nodes_of (bt : built) : nat := List.length (m_nodes (bt_mesh bt)).
Definition loads_of (bt : built) := integrate_forces (bt_mesh bt) (bt_basic bt).

Section Final.
  Context {V W : Type}.
  Variables (pb : problem) (ic id : P2 -> bool) (g : P2 -> R).
  Hypothesis PO : posed pb ic id g.
  Variables (bt : built) (density : option (nat -> R)).
  Hypothesis PR : prepared pb bt density.
  Notation N := (nodes_of bt).
  Notation b := (bt_body bt).
  Notation m := (bt_mesh bt).
  Notation dt := (time_step_of pb).
  Notation rho := (mass_density (pr_material pb)).
  Variable answer : method forces -> vec -> vec -> vec -> R -> result (nat * vec).
  Variables fi fo : P2 -> R -> vec.
  Notation goes k c := (MethodModel.iterate (loads_of bt) b k c).
  Notation driver := (driver V (method forces)).

  Lemma static_final cls mu la (m0 : store V) (d d' : driver) given u0 (s : state W) :
    loaded pb 2 fi fo -> elastic (pr_material pb) = Some (mu, la) -> answers_exactly (2 * N) answer ->
    (forall g, iterate_variables cls g = None) ->
    step_solver pb bt StaticDisplacement m0 = Ok d -> in_stock (d_mem d) given ->
    static_solve (b_dimension b) (b_count b) (start_positions bt) (goes StaticDisplacement cls) answer u0 given d = (d', Ok s) ->
    takes m id 2 g (view_displacement (look (d_mem d') s)) /\
    balances coord2 zero2 m density id mu la (fun p => fi p 0) (fun p => fo p 0) (view_displacement (look (d_mem d') s)).
  Proof.
    intros LD EL SA ID. destruct (prepared_ready pb ic id g PO bt density PR) as (ops & RD).
    apply (static_posed pb ic id g PO bt density ops RD answer cls fi fo mu la); auto.
    apply exact_sound. unfold unknowns. destruct (body_is pb bt density ops RD) as (D & C & _). rewrite D, C. exact SA.
  Qed.

  Lemma static_direct_final linsolve cls mu la (m0 : store V) (d d' : driver) given u0 (s : state W) :
    loaded pb 2 fi fo -> elastic (pr_material pb) = Some (mu, la) ->
    (forall n A r x, linsolve n A r = Ok x -> solves n A r x) ->
    (forall g, iterate_variables cls g = None) ->
    step_solver pb bt StaticDisplacement m0 = Ok d -> in_stock (d_mem d) given ->
    static_solve (b_dimension b) (b_count b) (start_positions bt) (goes StaticDisplacement cls)
      (direct_answer b StaticDisplacement linsolve) u0 given d = (d', Ok s) ->
    takes m id 2 g (view_displacement (look (d_mem d') s)) /\
    balances coord2 zero2 m density id mu la (fun p => fi p 0) (fun p => fo p 0) (view_displacement (look (d_mem d') s)).
  Proof.
    intros LD EL SA ID. destruct (prepared_ready pb ic id g PO bt density PR) as (ops & RD).
    apply (static_posed pb ic id g PO bt density ops RD (direct_answer b StaticDisplacement linsolve) cls fi fo mu la); auto.
    apply direct_sound. exact SA.
  Qed.

  Lemma poisson_final cls c (m0 : store V) (d d' : driver) (s : state W) :
    heated pb fi fo -> membrane (pr_material pb) = Some c -> answers_exactly N answer ->
    (forall g, iterate_variables cls g = None) ->
    step_solver pb bt StaticPoisson m0 = Ok d ->
    poisson_solve (start_positions bt) (goes StaticPoisson cls) answer d = (d', Ok s) ->
    exists cell, extra s = Thermal cell /\
    takes m id 1 g (StateModel.load (d_mem d') cell) /\
    rests coord2 zero2 m density id c (fun p => fi p 0) (fun p => fo p 0) (StateModel.load (d_mem d') cell).
  Proof.
    intros LD EL SA ID. destruct (prepared_ready pb ic id g PO bt density PR) as (ops & RD).
    eapply (poisson_posed pb ic id g PO bt density ops RD answer cls fi fo c); auto.
    apply exact_sound. unfold unknowns. destruct (body_is pb bt density ops RD) as (D & C & _). rewrite C. exact SA.
  Qed.

  Lemma direct_definite k linsolve : k <> Piezoelectric -> (forall n A r, pos_def n A -> exists x, linsolve n A r = Ok x) ->
    answers_definite (F:=forces) (unknowns b k) (2 * N) (direct_answer b k linsolve).
  Proof.
    intros K LW i guess v u t LEN PD. destruct (prepared_ready pb ic id g PO bt density PR) as (ops & RD).
    destruct (body_is pb bt density ops RD) as (D & C & M).
    unfold direct_answer, direct_solve_impl. rewrite LEN.
    destruct (LW _ _ (load_v (hp (m_world i)) (m_rhs i)) PD) as (y & Y). rewrite Y. cbn [bind].
    destruct (fixed_conds pb ic id g PO bt density ops RD (dimension_in k 2)) as (conds & MC & _).
    assert (X : b_conditions b (dimension_in k (b_dimension b)) (dirichlet_cond_name k) = Ok conds).
    { rewrite D, M. destruct k; try exact MC. contradiction. }
    assert (B : (unknowns b k <= b_dimension b * b_count b)%nat) by (unfold unknowns; rewrite D; destruct k; lia).
    assert (E : (b_dimension b * b_count b = 2 * N)%nat) by (rewrite D, C; reflexivity).
    destruct (Nat.ltb_spec (unknowns b k) (b_dimension b * b_count b)); cbn [bind]; rewrite X; cbn [bind]; [rewrite E; eauto|].
    replace (unknowns b k) with (2 * N)%nat by lia. eauto.
  Qed.

  (* a clamped static problem has one solution, and the run finds it *)
  Lemma static_total cls mu la (m0 : store V) : 
    loaded pb 2 fi fo -> elastic (pr_material pb) = Some (mu, la) -> 0 < mu -> 0 <= la -> positive_density density -> clamped_mesh pb id ->
    answers_exactly (2 * N) answer -> answers_definite (2 * N) (2 * N) answer -> (forall g, iterate_variables cls g = None) ->
    exists d : driver, step_solver pb bt StaticDisplacement m0 = Ok d /\ forall u0, exists d' (s : state W),
      static_solve (b_dimension b) (b_count b) (start_positions bt) (goes StaticDisplacement cls) answer u0 [] d = (d', Ok s) /\
      takes m id 2 g (view_displacement (look (d_mem d') s)) /\
      balances coord2 zero2 m density id mu la (fun p => fi p 0) (fun p => fo p 0) (view_displacement (look (d_mem d') s)) /\
      forall u, takes m id 2 g u /\ balances coord2 zero2 m density id mu la (fun p => fi p 0) (fun p => fo p 0) u ->
        veq (2 * N) u (view_displacement (look (d_mem d') s)).
  Proof.
    intros LD EL M L PD HU AE AD ID. destruct (prepared_ready pb ic id g PO bt density PR) as (ops & RD).
    destruct (static_goes (V:=V) (W:=W) pb ic id g PO bt density ops RD fi fo answer cls PD mu la m0 LD EL M L HU AD ID) as (d & HS & HR).
    exists d. split; [exact HS|]. intros u0. destruct (HR u0) as (d' & s & R). exists d', s. split; [exact R|].
    destruct (static_final cls mu la m0 d d' [] u0 s LD EL AE ID HS ltac:(constructor) R) as (T & B).
    split; [exact T|]. split; [exact B|].
    intros u (TU & BU). exact (static_unique pb ic id g PO bt density ops RD PD HU mu la _ _ u _ EL M L TU BU T B).
  Qed.
  Lemma static_direct_total linsolve cls mu la (m0 : store V) :
    loaded pb 2 fi fo -> elastic (pr_material pb) = Some (mu, la) -> 0 < mu -> 0 <= la -> positive_density density -> clamped_mesh pb id ->
    (forall n A r x, linsolve n A r = Ok x -> solves n A r x) -> (forall n A r, pos_def n A -> exists x, linsolve n A r = Ok x) ->
    (forall g, iterate_variables cls g = None) ->
    exists d : driver, step_solver pb bt StaticDisplacement m0 = Ok d /\ forall u0, exists d' (s : state W),
      static_solve (b_dimension b) (b_count b) (start_positions bt) (goes StaticDisplacement cls)
        (direct_answer b StaticDisplacement linsolve) u0 [] d = (d', Ok s) /\
      takes m id 2 g (view_displacement (look (d_mem d') s)) /\
      balances coord2 zero2 m density id mu la (fun p => fi p 0) (fun p => fo p 0) (view_displacement (look (d_mem d') s)) /\
      forall u, takes m id 2 g u /\ balances coord2 zero2 m density id mu la (fun p => fi p 0) (fun p => fo p 0) u ->
        veq (2 * N) u (view_displacement (look (d_mem d') s)).
  Proof.
    intros LD EL M L PD HU LS LW ID. destruct (prepared_ready pb ic id g PO bt density PR) as (ops & RD).
    assert (AD := direct_definite StaticDisplacement linsolve ltac:(discriminate) LW).
    unfold unknowns in AD at 1. destruct (body_is pb bt density ops RD) as (D & C & _). rewrite D, C in AD.
    destruct (static_goes (V:=V) (W:=W) pb ic id g PO bt density ops RD fi fo _ cls PD mu la m0 LD EL M L HU AD ID) as (d & HS & HR).
    exists d. split; [exact HS|]. intros u0. destruct (HR u0) as (d' & s & R). exists d', s. split; [exact R|].
    destruct (static_direct_final linsolve cls mu la m0 d d' [] u0 s LD EL LS ID HS ltac:(constructor) R) as (T & B).
    split; [exact T|]. split; [exact B|].
    intros u (TU & BU). exact (static_unique pb ic id g PO bt density ops RD PD HU mu la _ _ u _ EL M L TU BU T B).
  Qed.

  Lemma poisson_total cls c full (m0 : store V) :
    heated pb fi fo -> membrane (pr_material pb) = Some c -> c <> 0 -> positive_density density -> grounded_mesh pb id ->
    answers_exactly N answer -> answers_definite N full answer -> (forall g, iterate_variables cls g = None) ->
    exists d : driver, step_solver pb bt StaticPoisson m0 = Ok d /\ exists d' (s : state W) cell,
      poisson_solve (start_positions bt) (goes StaticPoisson cls) answer d = (d', Ok s) /\ extra s = Thermal cell /\
      takes m id 1 g (StateModel.load (d_mem d') cell) /\
      rests coord2 zero2 m density id c (fun p => fi p 0) (fun p => fo p 0) (StateModel.load (d_mem d') cell) /\
      forall u, takes m id 1 g u /\ rests coord2 zero2 m density id c (fun p => fi p 0) (fun p => fo p 0) u ->
        veq N u (StateModel.load (d_mem d') cell).
  Proof.
    intros LD EL M PD HU AE AD ID. destruct (prepared_ready pb ic id g PO bt density PR) as (ops & RD).
    destruct (poisson_goes (V:=V) (W:=W) pb ic id g PO bt density ops RD fi fo answer cls PD c full m0 LD EL M HU AD ID) as (d & HS & d' & s & R).
    exists d. split; [exact HS|].
    destruct (poisson_final cls c m0 d d' s LD EL AE ID HS R) as (cell & X & T & B). exists d', s, cell. split; [exact R|]. split; [exact X|].
    split; [exact T|]. split; [exact B|].
    intros u (TU & BU). exact (poisson_unique pb ic id g PO bt density ops RD PD c _ _ u _ HU EL M TU BU T B).
  Qed.
End Final.

Section Moving.
  Context {V W : Type}.
  Variables (pb : problem) (ic id : P2 -> bool) (g : P2 -> R).
  Hypothesis PO : posed pb ic id g.
  Variable bt : built.
  Hypothesis PR : construct pb = Ok bt.
  Notation N := (nodes_of bt).
  Notation b := (bt_body bt).
  Notation m := (bt_mesh bt).
  Notation dt := (time_step_of pb).
  Notation rho := (mass_density (pr_material pb)).
  Variable answer : method forces -> vec -> vec -> vec -> R -> result (nat * vec).
  Variables fi fo : P2 -> R -> vec.
  Notation goes k c := (MethodModel.iterate (loads_of bt) b k c).
  Notation driver := (driver V (method forces)).
  Notation shown u v d' n out l := (List.length l = List.length (requested n out) /\
      forall j q (s : state W), nth_error (requested n out) j = Some q -> nth_error l j = Some s ->
        shows dt u v (Z.to_nat q) (look (d_mem d') s)).

  Lemma built_ready : exists ops, ready pb bt None ops /\ w_tensor (bt_world bt) = None.
  Proof.
    destruct (prepared_ready pb ic id g PO bt None (constructed pb bt PR)) as (ops & RD). exists ops. split; [exact RD|].
    unfold construct in PR. destruct (mesh_init2 _ _ _) as [[m1 ns]|]; [|discriminate]. cbn [bind] in PR.
    destruct (reinitialize _ _ _ _) as [[[B b1] h]|]; [|discriminate]. cbn [bind] in PR. injection PR as <-. reflexivity.
  Qed.

  Definition euler_dynamic th ze mu la := fun t a w y => moves coord2 zero2 m id rho th ze mu la (fun p => fi p t) (fun p => fo p t) a w y.
  Definition euler_quasistatic th ze mu la := fun t (a : vec) w y => flows coord2 zero2 m id th ze mu la (fun p => fi p t) (fun p => fo p t) w y.
  Definition euler_wave c := fun t a (w : vec) y => swings coord2 zero2 m id rho c (fun p => fi p t) (fun p => fo p t) a y.
  Definition euler_creep mu la (C : R -> tensor) := fun t (a : vec) w y => creeps coord2 zero2 m id mu la (C t) (fun p => fi p t) (fun p => fo p t) y w.

  Lemma dynamic_final cls th ze mu la (m0 : store V) (d d' : driver) n u0 v0 out given (l : list (state W)) :
    loaded pb 2 fi fo -> elastic (pr_material pb) = Some (mu, la) -> viscous (pr_material pb) = Some (th, ze) -> dt <> 0 ->
    answers_exactly (2 * N) answer -> cls = DynamicGlobal \/ cls = DynamicSchur ->
    step_solver pb bt DynamicVelocity m0 = Ok d -> in_stock (d_mem d) given -> non_decreasing 0 (requested n out) ->
    dynamic_solve (b_dimension b) (b_count b) (start_positions bt) (goes DynamicVelocity cls) answer n u0 v0 out given d = (d', Ok l) ->
    exists u v, motion dt (takes m id 2 g) (euler_dynamic th ze mu la) u0 v0 (TimeTheorems.last_step n out) u v /\ shown u v d' n out l.
  Proof.
    intros LD EL VI CS SA CL. destruct built_ready as (ops & RD & _).
    eapply (dynamic_posed pb ic id g PO bt None ops RD answer cls fi fo CS th ze mu la); auto.
    - apply exact_sound. unfold unknowns. destruct (body_is pb bt None ops RD) as (D & C & _). rewrite D, C. exact SA.
    - destruct CL as [-> | ->]; intros g0; eexists; split; reflexivity.
  Qed.
  Lemma quasistatic_final cls th ze mu la (m0 : store V) (d d' : driver) n u0 v0 out given (l : list (state W)) :
    loaded pb 2 fi fo -> elastic (pr_material pb) = Some (mu, la) -> viscous (pr_material pb) = Some (th, ze) -> dt <> 0 ->
    answers_exactly (2 * N) answer -> cls = QuasistaticGlobal \/ cls = QuasistaticSchur ->
    step_solver pb bt QuasistaticVelocity m0 = Ok d -> in_stock (d_mem d) given -> non_decreasing 0 (requested n out) ->
    dynamic_solve (b_dimension b) (b_count b) (start_positions bt) (goes QuasistaticVelocity cls) answer n u0 v0 out given d = (d', Ok l) ->
    exists u v, motion dt (takes m id 2 g) (euler_quasistatic th ze mu la) u0 v0 (TimeTheorems.last_step n out) u v /\ shown u v d' n out l.
  Proof.
    intros LD EL VI CS SA CL. destruct built_ready as (ops & RD & _).
    eapply (quasistatic_posed pb ic id g PO bt None ops RD answer cls fi fo CS th ze mu la); auto.
    - apply exact_sound. unfold unknowns. destruct (body_is pb bt None ops RD) as (D & C & _). rewrite D, C. exact SA.
    - destruct CL as [-> | ->]; intros g0; eexists; split; reflexivity.
  Qed.
  Lemma wave_final cls c (m0 : store V) (d d' : driver) n u0 v0 out given s0 (l : list (state W)) :
    loaded pb 1 fi fo -> membrane (pr_material pb) = Some c -> dt <> 0 ->
    answers_exactly N answer -> cls = DynamicGlobal \/ cls = DynamicSchur ->
    step_solver pb bt Wave m0 = Ok d -> in_stock (d_mem d) given -> non_decreasing 0 (requested n out) ->
    wave_solve (b_dimension b) (b_count b) (start_positions bt) (goes Wave cls) answer n u0 v0 None out given d = (d', s0, Ok l) ->
    exists u v, motion dt (takes m id 1 g) (euler_wave c) u0 v0 (TimeTheorems.last_step n out) u v /\ shown u v d' n out l.
  Proof.
    intros LD EL CS SA CL. destruct built_ready as (ops & RD & _).
    eapply (wave_posed pb ic id g PO bt None ops RD answer cls fi fo CS c); auto.
    - apply exact_sound. unfold unknowns. destruct (body_is pb bt None ops RD) as (D & C & _). rewrite C. exact SA.
    - destruct CL as [-> | ->]; intros g0; eexists; split; reflexivity.
  Qed.
  Lemma relaxation_final mu la f C (m0 : store V) (d d' : driver) n b0 u0 out given (l : list (state W)) :
    loaded pb 2 fi fo -> elastic (pr_material pb) = Some (mu, la) -> pr_relaxation pb = Some f -> (forall t, f (Some t) = Ok (C t)) -> dt <> 0 ->
    answers_exactly (2 * N) answer ->
    step_solver pb bt QuasistaticRelaxation m0 = Ok d -> in_stock (d_mem d) given -> non_decreasing 0 (requested n out) ->
    relaxation_solve (b_dimension b) (b_count b) (start_positions bt) (goes QuasistaticRelaxation RelaxedSchur) answer n b0 u0 out given d = (d', Ok l) ->
    exists ab u, motion dt (takes m id 2 g) (euler_creep mu la C) b0 u0 (TimeTheorems.last_step n out) ab u /\
      List.length l = List.length (requested n out) /\
      forall j q (s : state W), nth_error (requested n out) j = Some q -> nth_error l j = Some s ->
        shows_creep dt ab u (Z.to_nat q) (look (d_mem d') s).
  Proof.
    intros LD EL RF RC CS SA. destruct built_ready as (ops & RD & TN).
    eapply (relaxation_posed pb ic id g PO bt None ops RD answer RelaxedSchur fi fo CS mu la f C); auto.
    - apply exact_sound. unfold unknowns. destruct (body_is pb bt None ops RD) as (D & CC & _). rewrite D, CC. exact SA.
    - intros g0; eexists; split; reflexivity.
  Qed.

  (* runs of stable problems go through and find the only motion *)
  Notation only fixes step u0 v0 k u v := (forall u' v', motion dt fixes step u0 v0 k u' v' ->
    forall j, (j <= k)%nat -> veq (2 * N) (u' j) (u j) /\ veq (2 * N) (v' j) (v j)).

  Lemma dynamic_total cls th ze mu la (m0 : store V) n out :
    loaded pb 2 fi fo -> elastic (pr_material pb) = Some (mu, la) -> viscous (pr_material pb) = Some (th, ze) ->
    0 < rho -> 0 <= mu -> 0 <= la -> 0 <= th -> 0 <= ze -> 0 < dt ->
    answers_exactly (2 * N) answer -> answers_definite (2 * N) (2 * N) answer -> cls = DynamicGlobal \/ cls = DynamicSchur ->
    non_decreasing 0 (requested n out) -> n <> 0%nat ->
    exists d : driver, step_solver pb bt DynamicVelocity m0 = Ok d /\ forall u0 v0, exists d' (l : list (state W)),
      dynamic_solve (b_dimension b) (b_count b) (start_positions bt) (goes DynamicVelocity cls) answer n u0 v0 out [] d = (d', Ok l) /\
      exists u v, motion dt (takes m id 2 g) (euler_dynamic th ze mu la) u0 v0 (TimeTheorems.last_step n out) u v /\ shown u v d' n out l /\
        only (takes m id 2 g) (euler_dynamic th ze mu la) u0 v0 (TimeTheorems.last_step n out) u v.
  Proof.
    intros LD EL VI RM M L T Z Hdt AE AD CL ND NZ. destruct built_ready as (ops & RD & _).
    assert (RN : renews (loads_of bt) b DynamicVelocity cls) by (destruct CL as [-> | ->]; intros g0; eexists; split; reflexivity).
    destruct (dynamic_goes (V:=V) (W:=W) pb ic id g PO bt None ops RD fi fo answer cls Logic.I th ze mu la m0 n out LD EL VI RM M L T Z Hdt AD RN ND NZ) as (d & HS & HR).
    exists d. split; [exact HS|]. intros u0 v0. destruct (HR u0 v0) as (d' & l & R). exists d', l. split; [exact R|].
    destruct (dynamic_final cls th ze mu la m0 d d' n u0 v0 out [] l LD EL VI ltac:(lra) AE CL HS ltac:(constructor) ND R) as (u & v & MO & SH).
    exists u, v. split; [exact MO|]. split; [exact SH|]. intros u' v' MO'.
    apply (motion_unique id g bt dt 2 _ u0 v0 _ u' v' u v (dynamic_settled pb ic id g PO bt None ops RD Logic.I dt Hdt eq_refl th ze mu la
      (fun t p => fi p t) (fun t p => fo p t) EL VI RM M L T Z) MO' MO).
  Qed.
  Lemma quasistatic_total cls th ze mu la (m0 : store V) n out :
    loaded pb 2 fi fo -> elastic (pr_material pb) = Some (mu, la) -> viscous (pr_material pb) = Some (th, ze) ->
    clamped_mesh pb id -> 0 <= mu -> 0 <= la -> 0 < th -> 0 <= ze -> 0 < dt ->
    answers_exactly (2 * N) answer -> answers_definite (2 * N) (2 * N) answer -> cls = QuasistaticGlobal \/ cls = QuasistaticSchur ->
    non_decreasing 0 (requested n out) -> n <> 0%nat ->
    exists d : driver, step_solver pb bt QuasistaticVelocity m0 = Ok d /\ forall u0 v0, exists d' (l : list (state W)),
      dynamic_solve (b_dimension b) (b_count b) (start_positions bt) (goes QuasistaticVelocity cls) answer n u0 v0 out [] d = (d', Ok l) /\
      exists u v, motion dt (takes m id 2 g) (euler_quasistatic th ze mu la) u0 v0 (TimeTheorems.last_step n out) u v /\ shown u v d' n out l /\
        only (takes m id 2 g) (euler_quasistatic th ze mu la) u0 v0 (TimeTheorems.last_step n out) u v.
  Proof.
    intros LD EL VI HU M L T Z Hdt AE AD CL ND NZ. destruct built_ready as (ops & RD & _).
    assert (RN : renews (loads_of bt) b QuasistaticVelocity cls) by (destruct CL as [-> | ->]; intros g0; eexists; split; reflexivity).
    destruct (quasistatic_goes (V:=V) (W:=W) pb ic id g PO bt None ops RD fi fo answer cls Logic.I th ze mu la m0 n out LD EL VI HU M L T Z Hdt AD RN ND NZ) as (d & HS & HR).
    exists d. split; [exact HS|]. intros u0 v0. destruct (HR u0 v0) as (d' & l & R). exists d', l. split; [exact R|].
    destruct (quasistatic_final cls th ze mu la m0 d d' n u0 v0 out [] l LD EL VI ltac:(lra) AE CL HS ltac:(constructor) ND R) as (u & v & MO & SH).
    exists u, v. split; [exact MO|]. split; [exact SH|]. intros u' v' MO'.
    apply (motion_unique id g bt dt 2 _ u0 v0 _ u' v' u v (quasistatic_settled pb ic id g PO bt None ops RD Logic.I dt Hdt eq_refl th ze mu la
      (fun t p => fi p t) (fun t p => fo p t) HU EL VI M L T Z) MO' MO).
  Qed.
  Lemma wave_total cls c (m0 : store V) n out :
    loaded pb 1 fi fo -> membrane (pr_material pb) = Some c -> 0 < rho -> 0 < dt ->
    answers_exactly N answer -> answers_definite N (2 * N) answer -> cls = DynamicGlobal \/ cls = DynamicSchur ->
    non_decreasing 0 (requested n out) -> n <> 0%nat ->
    exists d : driver, step_solver pb bt Wave m0 = Ok d /\ forall u0 v0, exists d' s0 (l : list (state W)),
      wave_solve (b_dimension b) (b_count b) (start_positions bt) (goes Wave cls) answer n u0 v0 None out [] d = (d', s0, Ok l) /\
      exists u v, motion dt (takes m id 1 g) (euler_wave c) u0 v0 (TimeTheorems.last_step n out) u v /\ shown u v d' n out l /\
        forall u' v', motion dt (takes m id 1 g) (euler_wave c) u0 v0 (TimeTheorems.last_step n out) u' v' ->
        forall j, (j <= TimeTheorems.last_step n out)%nat -> veq N (u' j) (u j) /\ veq N (v' j) (v j).
  Proof.
    intros LD ME RM Hdt AE AD CL ND NZ. destruct built_ready as (ops & RD & _).
    assert (RN : renews (loads_of bt) b Wave cls) by (destruct CL as [-> | ->]; intros g0; eexists; split; reflexivity).
    destruct (wave_goes (V:=V) (W:=W) pb ic id g PO bt None ops RD fi fo answer cls Logic.I c m0 n out LD ME RM Hdt AD RN ND NZ) as (d & HS & HR).
    exists d. split; [exact HS|]. intros u0 v0. destruct (HR u0 v0) as (d' & s0 & l & R). exists d', s0, l. split; [exact R|].
    destruct (wave_final cls c m0 d d' n u0 v0 out [] s0 l LD ME ltac:(lra) AE CL HS ltac:(constructor) ND R) as (u & v & MO & SH).
    exists u, v. split; [exact MO|]. split; [exact SH|]. intros u' v' MO' j Hj.
    pose proof (motion_unique id g bt dt 1 _ u0 v0 _ u' v' u v (wave_settled pb ic id g PO bt None ops RD Logic.I dt Hdt eq_refl c
      (fun t p => fi p t) (fun t p => fo p t) ME RM) MO' MO j Hj) as Q. rewrite Nat.mul_1_l in Q. exact Q.
  Qed.
  Lemma relaxation_total mu la f C (m0 : store V) n out :
    loaded pb 2 fi fo -> elastic (pr_material pb) = Some (mu, la) -> 0 < mu -> 0 <= la -> clamped_mesh pb id ->
    pr_relaxation pb = Some f -> (forall t, f (Some t) = Ok (C t)) -> (forall t G, 0 <= memory_density (C t) G G) -> 0 < dt ->
    answers_exactly (2 * N) answer -> answers_definite (2 * N) (2 * N) answer ->
    non_decreasing 0 (requested n out) -> n <> 0%nat ->
    exists d : driver, step_solver pb bt QuasistaticRelaxation m0 = Ok d /\ forall b0 u0, exists d' (l : list (state W)),
      relaxation_solve (b_dimension b) (b_count b) (start_positions bt) (goes QuasistaticRelaxation RelaxedSchur) answer n b0 u0 out [] d = (d', Ok l) /\
      exists ab u, motion dt (takes m id 2 g) (euler_creep mu la C) b0 u0 (TimeTheorems.last_step n out) ab u /\
        only (takes m id 2 g) (euler_creep mu la C) b0 u0 (TimeTheorems.last_step n out) ab u /\
        List.length l = List.length (requested n out) /\
        forall j q (s : state W), nth_error (requested n out) j = Some q -> nth_error l j = Some s ->
          shows_creep dt ab u (Z.to_nat q) (look (d_mem d') s).
  Proof.
    intros LD EL M L HU RF RC PC Hdt AE AD ND NZ. destruct built_ready as (ops & RD & TN).
    assert (RN : renews (loads_of bt) b QuasistaticRelaxation RelaxedSchur) by (intros g0; eexists; split; reflexivity).
    destruct (relaxation_goes (V:=V) (W:=W) pb ic id g PO bt None ops RD fi fo answer RelaxedSchur Logic.I mu la f C m0 n out LD EL M L HU TN RF RC PC Hdt AD RN ND NZ) as (d & HS & HR).
    exists d. split; [exact HS|]. intros b0 u0. destruct (HR b0 u0) as (d' & l & R). exists d', l. split; [exact R|].
    destruct (relaxation_final mu la f C m0 d d' n b0 u0 out [] l LD EL RF RC ltac:(lra) AE HS ltac:(constructor) ND R) as (u & v & MO & SH).
    exists u, v. split; [exact MO|]. split; [|exact SH]. intros u' v' MO'.
    apply (motion_unique id g bt dt 2 _ b0 u0 _ u' v' u v (creep_settled pb ic id g PO bt None ops RD Logic.I dt Hdt eq_refl mu la C
      (fun t p => fi p t) (fun t p => fo p t) HU EL M L PC) MO' MO).
  Qed.
End Moving.
