(* Construction and runs go through when the problem is stable. *)
From Coq Require Import Reals List Arith ZArith Bool String Permutation Lia Lra FunctionalExtensionality.
From Verif Require Import Common PyModel RVec LinAlg MeshModel MeshBuildModel MeshSpec ListLemmas MeshBuildProofs MeshTotalProofs NormalsModel NormalsProofs
  DofModel DofSpec DirichletModel DirichletSpec DirichletProofs DirichletMeshProofs
  FemModel FemSpec FemAssemblyProofs FemFormProofs FemBasicProofs FemMeshProofs FemBuildProofs FemOperatorProofs FemPipelineProofs FemFinalProofs FemKornProofs
  ForcesModel ForcesSpec ForcesProofs ForcesLoadProofs
  StatementModel StatementSpec StatementProofs StatementValueProofs StatementLawProofs StatementCacheProofs
  RegistryModel StateModel StateLemmas CopyProofs TimeModel TimeSpec TimeProofs RunProofs HistoryProofs SolveProofs MarchProofs MethodModel MethodProofs
  RunSpec WholeRunProofs RunTheorems RunTotal StatementMeshProofs CrossBuiltProofs ProblemModel ProblemSpec ProblemProofs ProblemReady ProblemTheorems ProblemUnique.
Import ListNotations.
Local Open Scope string_scope.
Local Open Scope list_scope.
Local Open Scope R_scope.

Section Total.
  Variables (pb : problem) (ic id : P2 -> bool) (g : P2 -> R).
  Hypothesis PO : posed pb ic id g.

  Lemma built_nonempty m : pr_elements pb <> [] ->
    build mean2 zero2 (pr_nodes pb) (pr_elements pb) (pr_boundaries pb) = Ok m -> m_elements m <> [].
  Proof.
    intros NE HB E. pose proof PO as [HR HS HA HC HD (f & Hf & _)].
    destruct (mesh_dirichlet mean2 zero2 _ _ _ m 3 ic id HR HS HC HD HB 2 f Hf) as (C & Ne & I & D & conds & HO & _).
    destruct HO as [_ _ _ R _ _ _ _ _]. rewrite E in R. inversion R as [H|]. apply NE. symmetry. exact H.
  Qed.

  Lemma reinitialize_total m density h : m_elements m <> [] ->
    build mean2 zero2 (pr_nodes pb) (pr_elements pb) (pr_boundaries pb) = Ok m ->
    exists B b h', reinitialize pb m density h = Ok (B, b, h').
  Proof.
    intros NE HB. destruct (built_plane pb ic id g PO m HB) as ((_ & HL & _) & _).
    unfold reinitialize, get_basic_matrices, reinitialize_matrices.
    destruct (m_elements m) as [|e l]; [contradiction|]. inversion HL; subst. rewrite H1.
    change ((3 - 1 =? 2)%nat) with true. cbv iota zeta. cbn [bind].
    destruct (install _ _ _) as [h' refs]. eauto.
  Qed.

  Lemma construct_total : pr_elements pb <> [] -> complete_names pb -> separate ic id -> exists bt, construct pb = Ok bt.
  Proof.
    intros NE ON DJ. pose proof PO as [HR HS HA HC HD (f & Hf & PW)].
    destruct (build_total mean2 zero2 (pr_nodes pb) (pr_elements pb) (pr_boundaries pb)) as [m HB]; eauto.
    { intros name Hn N1 N2. destruct (ON name Hn) as [|[|X]]; [contradiction|contradiction|exact X]. }
    destruct (normals_total zero2 sub2 dot2 scale2 unoriented2 mean2 (pr_nodes pb) (pr_elements pb) (pr_boundaries pb) m 1 HR HS HB ic id HC HD)
      as (ns & EN & _).
    { intros q _ (ps & F1 & F2) (ps' & F1' & F2').
      assert (ps = ps').
      { clear -F1 F1'. revert ps' F1'. induction F1 as [|a b l l' Hab F IH]; intros ps' F1'; inversion F1'; subst; auto. f_equal; [congruence|auto]. }
      subst ps'. rewrite (DJ _ F2) in F2'. discriminate. }
    destruct (reinitialize_total m None (mkHeap [] []) (built_nonempty m NE HB) HB) as (B & b & h & E).
    unfold construct, mesh_init2, mesh_init. rewrite HB. cbn [bind]. rewrite EN. cbn [bind]. rewrite E. cbn [bind]. eauto.
  Qed.

  Lemma update_total bt density w rho : pr_elements pb <> [] -> prepared pb bt density -> used bt w ->
    exists bt', update_density pb (with_world bt w) rho = Ok bt' /\ prepared pb bt' (Some rho).
  Proof.
    intros NE PR US. destruct (prepared_ready pb ic id g PO bt density PR) as (ops & HB & _).
    destruct (reinitialize_total (bt_mesh bt) (Some rho) (hp w) (built_nonempty _ NE HB) HB) as (B & b & h & E).
    assert (X : exists bt', update_density pb (with_world bt w) rho = Ok bt').
    { unfold update_density. cbn [with_world bt_world bt_mesh]. rewrite E. cbn [bind]. eauto. }
    destruct X as (bt' & X). exists bt'. split; [exact X|]. econstructor; eauto.
  Qed.
End Total.

Section Runs.
  Variables (pb : problem) (ic id : P2 -> bool) (g : P2 -> R).
  Hypothesis PO : posed pb ic id g.
  Variables (bt : built) (density : option (nat -> R)) (ops : FemModel.operators).
  Hypothesis RD : ready pb bt density ops.
  Let m := bt_mesh bt.
  Let b := bt_body bt.
  Let N := List.length (m_nodes m).
  Let points := node_table coord2 zero2 (m_nodes m).
  Let els := m_elements m.
  Let integrate := integrate_forces m (bt_basic bt).
  Context {V W : Type}.
  Notation driver := (driver V (method forces)).

  Lemma solver_total k p loads relaxations forceful hot conds (m0 : store V) :
    keeps_force integrate b k loads forceful -> keeps_heat integrate b p hot ->
    StatementValueProofs.conditions b k = Ok conds -> well_shaped (unknowns b k) conds ->
    equipped b k p relaxations forceful hot (bt_world bt) -> can_step k (time_step_of pb) ->
    exists d : driver, step_solver pb bt k m0 = Ok d /\ d_to_do d = 1%nat.
  Proof.
    intros KF KH HC HW E S. unfold step_solver, new_solver.
    repeat match goal with |- context [let '(_, _) := alloc ?mm ?x in _] => unfold alloc at 1; cbv beta iota end.
    match goal with |- context [setup ?a1 ?a2 ?a3 ?a4 ?xx ?dd] => set (x0 := xx) end.
    destruct (MethodProofs.setup_updated integrate b k p loads relaxations forceful hot KF KH conds HC HW
      (bt_world bt) x0 (time_step_of pb) E S) as (i & SU & U).
    change (setup integrate b k (bt_world bt) x0 (time_step_of pb)) with
      (setup (integrate_forces (bt_mesh bt) (bt_basic bt)) (bt_body bt) k (bt_world bt) x0 (time_step_of pb)) in SU.
    rewrite SU. eexists. split; reflexivity.
  Qed.

  Section Kind.
  Variables (k : kind) (p : physics) (loads : R -> vec) (relaxations : R -> mat) (forceful hot : forces -> Prop) (conds : list condition).
  Hypothesis KF : keeps_force integrate b k loads forceful.
  Hypothesis KH : keeps_heat integrate b p hot.
  Hypothesis HC : StatementValueProofs.conditions b k = Ok conds.
  Hypothesis HW : well_shaped (unknowns b k) conds.
  Hypothesis ST : forall x dt t, stable_kind (moment k p loads relaxations x dt t) conds k.
  Variable answer : method forces -> vec -> vec -> vec -> R -> result (nat * vec).
  Variable full : nat.
  Hypothesis AD : answers_definite (unknowns b k) full answer.
  Notation updated := (updated integrate b k p loads relaxations forceful hot conds).

  Lemma answer_total x dt t i guess v u : 0 < dt \/ k = StaticDisplacement \/ k = StaticPoisson -> updated x dt t i ->
    exists y, answer i guess v u dt = Ok (full, y).
  Proof.
    intros Hdt (E & LEN & ML & _). apply AD; [exact LEN|].
    assert (SZ : forall dt', sized b (moment k p loads relaxations x dt' t)) by (intros dt'; destruct E as (E1 & E2 & _); split; assumption).
    assert (LD : definite_free (unknowns b k) conds (lmat (moment k p loads relaxations x dt t) k)).
    { destruct Hdt as [Hdt|Q]; [exact (lmat_definite b (moment k p loads relaxations x dt t) conds k (SZ dt) Hdt (ST x dt t))|].
      pose proof (lmat_definite b (moment k p loads relaxations x 1 t) conds k (SZ 1) Rlt_0_1 (ST x 1 t)) as D.
      destruct Q as [Q|Q]; rewrite Q in D |- *; exact D. }
    assert (PF : pos_def (unknowns b k) (lhs (final b (moment k p loads relaxations x dt t) k conds))) by (apply elimination_pos_def; assumption).
    intros z Hz. rewrite (qform_meq _ _ _ z ML). apply PF. exact Hz.
  Qed.

  Lemma iterate_kept c dt i x t : renews integrate b k c \/ (forall g, iterate_variables c g = None) -> can_step k dt -> (exists x0 t0, updated x0 dt t0 i) ->
    exists i', MethodModel.iterate integrate b k c i x dt t = Ok i' /\ exists x0 t0, updated x0 dt t0 i'.
  Proof.
    intros [RN|IN] S (x0 & t0 & U).
    - destruct U as (E & _).
      destruct (iterate_updated integrate b k p loads relaxations forceful hot KF KH conds HC HW c i x dt t RN E S) as (i' & J1 & J2). eauto.
    - exists i. split; [apply iterate_idle; exact IN|eauto].
  Qed.
  End Kind.

  Lemma runs_full : (b_dimension b * b_count b = 2 * N)%nat.
  Proof. destruct (body_is pb bt density ops RD) as (D & C & _). fold b in D, C. rewrite D, C. reflexivity. Qed.

  Variables fi fo : P2 -> R -> vec.
  Variable answer : method forces -> vec -> vec -> vec -> R -> result (nat * vec).
  Variable cls : solver_class.
  Hypothesis PD : positive_density density.
  Notation goes k := (MethodModel.iterate integrate b k cls).

  Lemma static_goes mu la (m0 : store V) : loaded pb 2 fi fo -> elastic (pr_material pb) = Some (mu, la) -> 0 < mu -> 0 <= la ->
    clamped_mesh pb id -> answers_definite (2 * N) (2 * N) answer -> (forall g, iterate_variables cls g = None) ->
    exists d : driver, step_solver pb bt StaticDisplacement m0 = Ok d /\ forall u0, exists d' (s : state W),
      static_solve (b_dimension b) (b_count b) (start_positions bt) (goes StaticDisplacement) answer u0 [] d = (d', Ok s).
  Proof.
    intros LD EL M L HU AD ID. set (k := StaticDisplacement) in *. destruct (body_is pb bt density ops RD) as (D & C & _).
    destruct (clamped_body pb ic id g PO bt density ops RD HU) as (conds0 & MC0 & HH).
    destruct (fixed_conds pb ic id g PO bt density ops RD 2) as (conds & MC & WS & CN & HP).
    rewrite MC0 in MC. injection MC as ->. fold m in MC0. rename MC0 into MC.
    destruct (fixed_size pb bt density ops RD k conds ltac:(discriminate) MC WS) as (HC & HW).
    assert (FL : (2 * N)%nat = force_length b k) by (unfold force_length, k; fold b in D, C; rewrite D, C; reflexivity).
    destruct (keeps_nodal pb ic id g PO bt density ops RD k 2 fi fo LD FL) as (KF & AF).
    destruct (never_hot bt k (physics_of N ops (fun _ => 0)) ltac:(discriminate)) as (KH & NH).
    assert (EQ := equip pb bt density ops RD k (fun _ _ _ => 0) (answers m (pr_inner pb) (pr_outer pb) 2) (fun _ => False) (fun _ => 0) (elastic_some pb ic id g PO bt density ops RD _ _ EL : furnished pb bt density ops k _ _) (fun _ => AF) NH).
    destruct (solver_total k _ _ _ (answers m (pr_inner pb) (pr_outer pb) 2) (fun _ => False) conds m0 KF KH HC HW EQ Logic.I) as (d & HS & TD).
    exists d. split; [exact HS|]. intros u0.
    destruct (solver_begun pb bt k _ _ _ (answers m (pr_inner pb) (pr_outer pb) 2) (fun _ => False) conds m0 d KF KH HC HW EQ Logic.I HS) as (Ft & CT & DT & (x0 & U) & E).
    assert (UN : unknowns b k = (2 * N)%nat) by (unfold unknowns, k; fold b in D, C; rewrite D, C; reflexivity).
    apply (static_runs _ _ _ _ _ (fun i => exists x t, updated integrate b k (physics_of N ops (fun _ => 0)) (nodal_load m (bt_basic bt) fi fo) (fun _ _ _ => 0)
       (answers m (pr_inner pb) (pr_outer pb) 2) (fun _ => False) conds x (dt_of d) t i) (dt_of d)); auto; [| |rewrite TD; discriminate|eauto].
    - intros i x t H. eapply iterate_kept; eauto. exact Logic.I.
    - intros i g0 v u (x & t & H). rewrite runs_full. rewrite <- UN in AD at 1.
      eapply answer_total; eauto.
      intros. exact (elastic_definite_free pb ic id g PO bt density ops RD PD conds mu la HH EL M L).
  Qed.

  Lemma dynamic_goes th ze mu la (m0 : store V) n out : loaded pb 2 fi fo -> elastic (pr_material pb) = Some (mu, la) -> viscous (pr_material pb) = Some (th, ze) ->
    0 < mass_density (pr_material pb) -> 0 <= mu -> 0 <= la -> 0 <= th -> 0 <= ze ->
    0 < time_step_of pb -> answers_definite (2 * N) (2 * N) answer -> renews integrate b DynamicVelocity cls ->
    non_decreasing 0 (requested n out) -> n <> 0%nat ->
    exists d : driver, step_solver pb bt DynamicVelocity m0 = Ok d /\ forall u0 v0, exists d' (l : list (state W)),
      dynamic_solve (b_dimension b) (b_count b) (start_positions bt) (goes DynamicVelocity) answer n u0 v0 out [] d = (d', Ok l).
  Proof.
    intros LD EL VI RM M L T Z TS AD RN ND NZ. set (k := DynamicVelocity) in *. destruct (body_is pb bt density ops RD) as (D & C0 & _).
    
    destruct (fixed_conds pb ic id g PO bt density ops RD 2) as (conds & MC & WS & CN & HP).
    
    destruct (fixed_size pb bt density ops RD k conds ltac:(discriminate) MC WS) as (HC & HW).
    assert (FL : (2 * N)%nat = force_length b k) by (unfold force_length, k; fold b in D, C0; rewrite ?D, C0; unfold N, m; lia).
    destruct (keeps_nodal pb ic id g PO bt density ops RD k 2 fi fo LD FL) as (KF & AF).
    destruct (never_hot bt k (physics_of N ops (fun _ => 0)) ltac:(discriminate)) as (KH & NH).
    assert (CS : can_step k (time_step_of pb)) by (unfold k, can_step; lra).
    assert (EQ := equip pb bt density ops RD k (fun _ _ _ => 0) (answers m (pr_inner pb) (pr_outer pb) 2) (fun _ => False) (fun _ => 0) (conj (viscous_some pb ic id g PO bt density ops RD _ _ VI) (elastic_some pb ic id g PO bt density ops RD _ _ EL) : furnished pb bt density ops k _ _) (fun _ => AF) NH).
    destruct (solver_total k _ _ _ (answers m (pr_inner pb) (pr_outer pb) 2) (fun _ => False) conds m0 KF KH HC HW EQ CS) as (d & HS & TD).
    exists d. split; [exact HS|]. intros u0 v0.
    destruct (solver_begun pb bt k _ _ _ (answers m (pr_inner pb) (pr_outer pb) 2) (fun _ => False) conds m0 d KF KH HC HW EQ CS HS) as (Ft & CT & DT & (x0 & U) & E).
    rewrite <- DT in *.
    assert (UN : unknowns b k = (2 * N)%nat) by (unfold unknowns, k; fold b in D, C0; rewrite ?D, C0; reflexivity).
    apply (dynamic_runs _ _ _ _ _ (fun i => exists x t, updated integrate b k (physics_of N ops (fun _ => 0)) (nodal_load m (bt_basic bt) fi fo) (fun _ _ _ => 0)
       (answers m (pr_inner pb) (pr_outer pb) 2) (fun _ => False) conds x (dt_of d) t i) (dt_of d)); auto; [| |eauto].
    - intros i x t H. eapply iterate_kept; eauto.
    - intros i gu v u (x & t & H). rewrite runs_full. rewrite <- UN in AD at 1.
      eapply answer_total; eauto.
      intros. cbn [stable_kind k moment ph_n ph_N mass damping stiffness laplace memory physics_of].
      split; [apply (mass_definite pb ic id g PO bt density ops RD conds RM)|split; [apply (viscous_psd pb ic id g PO bt density ops RD PD th ze VI T Z)|apply (elastic_psd pb ic id g PO bt density ops RD PD mu la EL M L)]].
  Qed.

  Lemma quasistatic_goes th ze mu la (m0 : store V) n out : loaded pb 2 fi fo -> elastic (pr_material pb) = Some (mu, la) -> viscous (pr_material pb) = Some (th, ze) ->
    clamped_mesh pb id -> 0 <= mu -> 0 <= la -> 0 < th -> 0 <= ze ->
    0 < time_step_of pb -> answers_definite (2 * N) (2 * N) answer -> renews integrate b QuasistaticVelocity cls ->
    non_decreasing 0 (requested n out) -> n <> 0%nat ->
    exists d : driver, step_solver pb bt QuasistaticVelocity m0 = Ok d /\ forall u0 v0, exists d' (l : list (state W)),
      dynamic_solve (b_dimension b) (b_count b) (start_positions bt) (goes QuasistaticVelocity) answer n u0 v0 out [] d = (d', Ok l).
  Proof.
    intros LD EL VI HU M L T Z TS AD RN ND NZ. set (k := QuasistaticVelocity) in *. destruct (body_is pb bt density ops RD) as (D & C0 & _).
    destruct (clamped_body pb ic id g PO bt density ops RD HU) as (conds0 & MC0 & HH).
    destruct (fixed_conds pb ic id g PO bt density ops RD 2) as (conds & MC & WS & CN & HP).
    rewrite MC0 in MC; injection MC as ->; fold m in MC0; rename MC0 into MC.
    destruct (fixed_size pb bt density ops RD k conds ltac:(discriminate) MC WS) as (HC & HW).
    assert (FL : (2 * N)%nat = force_length b k) by (unfold force_length, k; fold b in D, C0; rewrite ?D, C0; unfold N, m; lia).
    destruct (keeps_nodal pb ic id g PO bt density ops RD k 2 fi fo LD FL) as (KF & AF).
    destruct (never_hot bt k (physics_of N ops (fun _ => 0)) ltac:(discriminate)) as (KH & NH).
    assert (CS : can_step k (time_step_of pb)) by (unfold k, can_step; lra).
    assert (EQ := equip pb bt density ops RD k (fun _ _ _ => 0) (answers m (pr_inner pb) (pr_outer pb) 2) (fun _ => False) (fun _ => 0) (conj (viscous_some pb ic id g PO bt density ops RD _ _ VI) (elastic_some pb ic id g PO bt density ops RD _ _ EL) : furnished pb bt density ops k _ _) (fun _ => AF) NH).
    destruct (solver_total k _ _ _ (answers m (pr_inner pb) (pr_outer pb) 2) (fun _ => False) conds m0 KF KH HC HW EQ CS) as (d & HS & TD).
    exists d. split; [exact HS|]. intros u0 v0.
    destruct (solver_begun pb bt k _ _ _ (answers m (pr_inner pb) (pr_outer pb) 2) (fun _ => False) conds m0 d KF KH HC HW EQ CS HS) as (Ft & CT & DT & (x0 & U) & E).
    rewrite <- DT in *.
    assert (UN : unknowns b k = (2 * N)%nat) by (unfold unknowns, k; fold b in D, C0; rewrite ?D, C0; reflexivity).
    apply (dynamic_runs _ _ _ _ _ (fun i => exists x t, updated integrate b k (physics_of N ops (fun _ => 0)) (nodal_load m (bt_basic bt) fi fo) (fun _ _ _ => 0)
       (answers m (pr_inner pb) (pr_outer pb) 2) (fun _ => False) conds x (dt_of d) t i) (dt_of d)); auto; [| |eauto].
    - intros i x t H. eapply iterate_kept; eauto.
    - intros i gu v u (x & t & H). rewrite runs_full. rewrite <- UN in AD at 1.
      eapply answer_total; eauto.
      intros. cbn [stable_kind k moment ph_n ph_N mass damping stiffness laplace memory physics_of].
      split; [apply (viscous_definite_free pb ic id g PO bt density ops RD PD conds th ze HH VI T Z)|apply (elastic_psd pb ic id g PO bt density ops RD PD mu la EL M L)].
  Qed.

  Lemma wave_goes c (m0 : store V) n out : loaded pb 1 fi fo -> membrane (pr_material pb) = Some c -> 0 < mass_density (pr_material pb) ->
    0 < time_step_of pb -> answers_definite (N) (2 * N) answer -> renews integrate b Wave cls ->
    non_decreasing 0 (requested n out) -> n <> 0%nat ->
    exists d : driver, step_solver pb bt Wave m0 = Ok d /\ forall u0 v0, exists d' s0 (l : list (state W)),
      wave_solve (b_dimension b) (b_count b) (start_positions bt) (goes Wave) answer n u0 v0 None out [] d = (d', s0, Ok l).
  Proof.
    intros LD ME RM TS AD RN ND NZ. set (k := Wave) in *. destruct (body_is pb bt density ops RD) as (D & C0 & _).
    
    destruct (fixed_conds pb ic id g PO bt density ops RD 1) as (conds & MC & WS & CN & HP).
    
    destruct (fixed_size pb bt density ops RD k conds ltac:(discriminate) MC WS) as (HC & HW).
    assert (FL : (1 * N)%nat = force_length b k) by (unfold force_length, k; fold b in D, C0; rewrite ?D, C0; unfold N, m; lia).
    destruct (keeps_nodal pb ic id g PO bt density ops RD k 1 fi fo LD FL) as (KF & AF).
    destruct (never_hot bt k (physics_of N ops (fun _ => 0)) ltac:(discriminate)) as (KH & NH).
    assert (CS : can_step k (time_step_of pb)) by (unfold k, can_step; lra).
    assert (EQ := equip pb bt density ops RD k (fun _ _ _ => 0) (answers m (pr_inner pb) (pr_outer pb) 1) (fun _ => False) (fun _ => 0) (membrane_some pb ic id g PO bt density ops RD _ ME : furnished pb bt density ops k _ _) (fun _ => AF) NH).
    destruct (solver_total k _ _ _ (answers m (pr_inner pb) (pr_outer pb) 1) (fun _ => False) conds m0 KF KH HC HW EQ CS) as (d & HS & TD).
    exists d. split; [exact HS|]. intros u0 v0.
    destruct (solver_begun pb bt k _ _ _ (answers m (pr_inner pb) (pr_outer pb) 1) (fun _ => False) conds m0 d KF KH HC HW EQ CS HS) as (Ft & CT & DT & (x0 & U) & E).
    rewrite <- DT in *.
    assert (UN : unknowns b k = (N)%nat) by (unfold unknowns, k; fold b in D, C0; rewrite ?D, C0; reflexivity).
    apply (wave_runs _ _ _ _ _ (fun i => exists x t, updated integrate b k (physics_of N ops (fun _ => 0)) (nodal_load m (bt_basic bt) fi fo) (fun _ _ _ => 0)
       (answers m (pr_inner pb) (pr_outer pb) 1) (fun _ => False) conds x (dt_of d) t i) (dt_of d)); auto; [| |eauto].
    - intros i x t H. eapply iterate_kept; eauto.
    - intros i gu v u (x & t & H). rewrite runs_full. rewrite <- UN in AD at 1.
      eapply answer_total; eauto.
      intros. cbn [stable_kind k moment ph_n ph_N mass damping stiffness laplace memory physics_of].
      split; [apply (mass_definite pb ic id g PO bt density ops RD conds RM)|apply (membrane_psd pb ic id g PO bt density ops RD PD c ME)].
  Qed.

  Lemma relaxation_goes mu la f C (m0 : store V) n out : loaded pb 2 fi fo -> elastic (pr_material pb) = Some (mu, la) -> 0 < mu -> 0 <= la -> clamped_mesh pb id ->
    w_tensor (bt_world bt) = None -> pr_relaxation pb = Some f -> (forall t, f (Some t) = Ok (C t)) -> (forall t G, 0 <= memory_density (C t) G G) ->
    0 < time_step_of pb -> answers_definite (2 * N) (2 * N) answer -> renews integrate b QuasistaticRelaxation cls ->
    non_decreasing 0 (requested n out) -> n <> 0%nat ->
    exists d : driver, step_solver pb bt QuasistaticRelaxation m0 = Ok d /\ forall u0 v0, exists d' (l : list (state W)),
      relaxation_solve (b_dimension b) (b_count b) (start_positions bt) (goes QuasistaticRelaxation) answer n u0 v0 out [] d = (d', Ok l).
  Proof.
    intros LD EL M L HU TN RF RC PC TS AD RN ND NZ. set (k := QuasistaticRelaxation) in *. destruct (body_is pb bt density ops RD) as (D & C0 & _).
    destruct (clamped_body pb ic id g PO bt density ops RD HU) as (conds0 & MC0 & HH).
    set (rel := fun t => relaxation2 N (w_matrix2 points els density) (C t)).
    assert (FU : furnished pb bt density ops k rel (bt_world bt)).
    { split; [exact (elastic_some pb ic id g PO bt density ops RD _ _ EL)|]. split.
      - exists f. split; [exact RF|]. intros t. exists (C t). split; [apply RC|reflexivity].
      - intros tn Q. congruence. }
    destruct (fixed_conds pb ic id g PO bt density ops RD 2) as (conds & MC & WS & CN & HP).
    rewrite MC0 in MC; injection MC as ->; fold m in MC0; rename MC0 into MC.
    destruct (fixed_size pb bt density ops RD k conds ltac:(discriminate) MC WS) as (HC & HW).
    assert (FL : (2 * N)%nat = force_length b k) by (unfold force_length, k; fold b in D, C0; rewrite ?D, C0; unfold N, m; lia).
    destruct (keeps_nodal pb ic id g PO bt density ops RD k 2 fi fo LD FL) as (KF & AF).
    destruct (never_hot bt k (physics_of N ops (fun _ => 0)) ltac:(discriminate)) as (KH & NH).
    assert (CS : can_step k (time_step_of pb)) by (unfold k, can_step; lra).
    assert (EQ := equip pb bt density ops RD k rel (answers m (pr_inner pb) (pr_outer pb) 2) (fun _ => False) (fun _ => 0) (FU : furnished pb bt density ops k _ _) (fun _ => AF) NH).
    destruct (solver_total k _ _ _ (answers m (pr_inner pb) (pr_outer pb) 2) (fun _ => False) conds m0 KF KH HC HW EQ CS) as (d & HS & TD).
    exists d. split; [exact HS|]. intros u0 v0.
    destruct (solver_begun pb bt k _ _ _ (answers m (pr_inner pb) (pr_outer pb) 2) (fun _ => False) conds m0 d KF KH HC HW EQ CS HS) as (Ft & CT & DT & (x0 & U) & E).
    rewrite <- DT in *.
    assert (UN : unknowns b k = (2 * N)%nat) by (unfold unknowns, k; fold b in D, C0; rewrite ?D, C0; reflexivity).
    apply (relaxation_runs _ _ _ _ _ (fun i => exists x t, updated integrate b k (physics_of N ops (fun _ => 0)) (nodal_load m (bt_basic bt) fi fo) rel
       (answers m (pr_inner pb) (pr_outer pb) 2) (fun _ => False) conds x (dt_of d) t i) (dt_of d)); auto; [| |eauto].
    - intros i x t H. eapply iterate_kept; eauto.
    - intros i gu v u (x & t & H). rewrite runs_full. rewrite <- UN in AD at 1.
      eapply answer_total; eauto.
      intros. cbn [stable_kind k moment ph_n ph_N mass damping stiffness laplace memory physics_of].
      split; [apply (elastic_definite_free pb ic id g PO bt density ops RD PD conds mu la HH EL M L)|]. apply (memory_psd pb ic id g PO bt density ops RD PD). apply PC.
  Qed.

  Lemma poisson_goes c full (m0 : store V) : heated pb fi fo -> membrane (pr_material pb) = Some c -> c <> 0 ->
    grounded_mesh pb id -> answers_definite N full answer -> (forall g, iterate_variables cls g = None) ->
    exists d : driver, step_solver pb bt StaticPoisson m0 = Ok d /\ exists d' (s : state W),
      poisson_solve (start_positions bt) (goes StaticPoisson) answer d = (d', Ok s).
  Proof.
    intros (si & so & HE & Hi & Ho) ME CN0 HU AD ID. set (k := StaticPoisson) in *. destruct (body_is pb bt density ops RD) as (D & C & _).
    destruct (plane pb ic id g PO bt density ops RD) as (_ & HF & _).
    destruct (grounded_body pb ic id g PO bt density ops RD HU) as (conds0 & MC0 & HH).
    destruct (fixed_conds pb ic id g PO bt density ops RD 1) as (conds & MC & WS & CN & HP).
    rewrite MC0 in MC. injection MC as ->. fold m in MC0. rename MC0 into MC.
    destruct (fixed_size pb bt density ops RD k conds ltac:(discriminate) MC WS) as (HC & HW).
    assert (AH : answers m si so 1 (w_temperature (bt_world bt))).
    { destruct RD as (_ & _ & _ & _ & _ & AH). exact (AH _ _ _ HE). }
    set (loads := nodal_load m (bt_basic bt) fi fo).
    assert (KF : keeps_force integrate b k loads (fun _ => False)) by (intros f t []).
    assert (KH : keeps_heat integrate b (physics_of N ops (loads 0)) (answers m si so 1)).
    { intros f A. fold b in C. rewrite C. cbn [heat physics_of]. fold m. fold N. rewrite <- (Nat.mul_1_l N).
      exact (integrate_answers m (bt_basic bt) fi fo si so Hi Ho HF 1 f 0 A). }
    assert (EQ := equip pb bt density ops RD k (fun _ _ _ => 0) (fun _ => False) (answers m si so 1) (loads 0) (membrane_some pb ic id g PO bt density ops RD _ ME : furnished pb bt density ops k _ _)
      (fun F => match F with end) (fun _ => AH)).
    destruct (solver_total k _ _ _ (fun _ => False) (answers m si so 1) conds m0 KF KH HC HW EQ Logic.I) as (d & HS & TD).
    exists d. split; [exact HS|].
    destruct (solver_begun pb bt k _ _ _ (fun _ => False) (answers m si so 1) conds m0 d KF KH HC HW EQ Logic.I HS) as (Ft & CT & DT & (x0 & U) & E).
    unfold poisson_solve. destruct (new_state (start_positions bt) TemperatureState (d_mem d)) as [m1 s1] eqn:ES.
    assert (EX : exists t, extra s1 = Thermal t) by (unfold new_state in ES; injection ES as _ <-; eexists; reflexivity).
    destruct EX as [t EX]. rewrite EX. unfold call_iterate. cbn [sv mem].
    rewrite (iterate_idle integrate b k cls _ _ _ _ ID). cbn [sv mem inner with_inner].
    assert (UN : unknowns b k = N) by (unfold unknowns, k; fold b in C; rewrite C; reflexivity).
    rewrite <- UN in AD.
    match goal with |- context [answer ?a1 ?a2 ?a3 ?a4 ?a5] => assert (X : exists y, answer a1 a2 a3 a4 a5 = Ok (full, y)) end.
    { eapply (answer_total k (physics_of N ops (loads 0)) loads _ (fun _ => False) (answers m si so 1) conds HW); [|exact AD| |exact U]; [|auto].
      intros. exact (membrane_definite pb ic id g PO bt density ops RD PD conds c HH ME CN0). }
    destruct X as (y & X). rewrite X. unfold alloc, leave. eexists. eexists. reflexivity.
  Qed.
End Runs.
