(* Runs of moving bodies with a class of solvers whose iterate() does nothing. *)
From Coq Require Import Reals List Arith ZArith Bool String Permutation Lia Lra FunctionalExtensionality Classical.
From Verif Require Import Common PyModel RVec LinAlg MeshModel MeshBuildModel MeshSpec ListLemmas MeshBuildProofs NormalsModel
  DofModel DofSpec DirichletModel DirichletSpec DirichletProofs DirichletMeshProofs
  FemModel FemSpec FemAssemblyProofs FemFormProofs FemBasicProofs FemMeshProofs FemBuildProofs FemOperatorProofs FemPipelineProofs FemFinalProofs
  ForcesModel ForcesSpec ForcesProofs ForcesLoadProofs
  StatementModel StatementSpec StatementProofs StatementValueProofs StatementLawProofs StatementCacheProofs
  RegistryModel StateModel StateLemmas CopyProofs TimeModel TimeSpec TimeProofs RunProofs HistoryProofs SolveProofs MarchProofs MethodModel MethodProofs
  RunSpec WholeRunProofs RunTheorems ProblemModel ProblemSpec ProblemProofs ProblemReady ProblemTheorems StaleSpec.
Import ListNotations.
Local Open Scope string_scope.
Local Open Scope list_scope.
Local Open Scope R_scope.

Section Stale.
  Context {V W : Type}.
  Variables (pb : problem) (ic id : P2 -> bool) (g : P2 -> R).
  Hypothesis PO : posed pb ic id g.
  Variables (bt : built) (ops : FemModel.operators).
  Hypothesis RD : ready pb bt None ops.
  Notation m := (bt_mesh bt).
  Notation b := (bt_body bt).
  Notation N := (List.length (m_nodes m)).
  Notation integrate := (integrate_forces m (bt_basic bt)).
  Notation driver := (driver V (method forces)).
  Variable answer : method forces -> vec -> vec -> vec -> R -> result (nat * vec).
  Variable cls : solver_class.
  Variables fi fo : P2 -> R -> vec.
  Notation loads := (nodal_load m (bt_basic bt) fi fo).
  Notation dt := (time_step_of pb).

  (* the constructor hands over arrays of zeros *)
  Lemma solver_begun_zero k p loads relaxations forceful hot conds (m0 : store V) (d : driver) :
    keeps_force integrate b k loads forceful -> keeps_heat integrate b p hot ->
    StatementValueProofs.conditions b k = Ok conds -> well_shaped (unknowns b k) conds ->
    equipped b k p relaxations forceful hot (bt_world bt) -> can_step k dt ->
    step_solver pb bt k m0 = Ok d ->
    exists x0, updated integrate b k p loads relaxations forceful hot conds x0 (dt_of d) 0 (inner (d_sv d)) /\
      vec_u x0 = (fun _ => 0) /\ vec_v x0 = (fun _ => 0).
  Proof.
    intros KF KH HC HW E S H. unfold step_solver, new_solver in H.
    repeat match type of H with context [let '(_, _) := alloc ?mm ?x in _] => unfold alloc at 1 in H; cbv beta iota in H end.
    match type of H with context [setup ?a1 ?a2 ?a3 ?a4 ?xx ?dd] => set (x0 := xx) in H end.
    destruct (MethodProofs.setup_updated integrate b k p loads relaxations forceful hot KF KH conds HC HW
      (bt_world bt) x0 dt E S) as (i & SU & U).
    rewrite SU in H. injection H as <-. cbn [d_sv d_mem current_time inner]. exists x0. split; [exact U|].
    unfold x0. cbn [vec_u vec_v]. unfold StateModel.load. cbn [cells]. 
    split.
    - rewrite !app_nth1 by (rewrite !app_length; cbn; lia). rewrite nth_middle. reflexivity.
    - rewrite !app_nth1 by (rewrite !app_length; cbn; lia). rewrite nth_middle. reflexivity.
  Qed.

  Lemma stale_posed th ze mu la (m0 : store V) (d d' : driver) n u0 v0 out given (l : list (state W)) :
    dt <> 0 -> loaded pb 2 fi fo -> elastic (pr_material pb) = Some (mu, la) -> viscous (pr_material pb) = Some (th, ze) ->
    sound_answer bt DynamicVelocity answer -> (forall x, iterate_variables cls x = None) ->
    step_solver pb bt DynamicVelocity m0 = Ok d -> in_stock (d_mem d) given -> non_decreasing 0 (requested n out) ->
    dynamic_solve (b_dimension b) (b_count b) (start_positions bt) (MethodModel.iterate integrate b DynamicVelocity cls) answer n u0 v0 out given d = (d', Ok l) ->
    exists u v, stale_motion dt (takes m id 2 g)
        (fun t a w y => moves coord2 zero2 m id (mass_density (pr_material pb)) th ze mu la (fun p => fi p t) (fun p => fo p t) a w y)
        u0 v0 (TimeTheorems.last_step n out) u v /\
      List.length l = List.length (requested n out) /\
      forall j q (s : state W), nth_error (requested n out) j = Some q -> nth_error l j = Some s ->
        shows dt u v (Z.to_nat q) (look (d_mem d') s).
  Proof.
    intros CS LD EL VI SA RN HS GV ND H. set (k := DynamicVelocity) in *. destruct (body_is pb bt None ops RD) as (D & C & _).
    destruct (fixed_conds pb ic id g PO bt None ops RD 2) as (conds & MC & WS & CN & HP).
    destruct (fixed_size pb bt None ops RD k conds ltac:(discriminate) MC WS) as (HC & HW).
    assert (FL : (2 * N)%nat = force_length b k) by (unfold force_length, k; rewrite D, C; reflexivity).
    destruct (keeps_nodal pb ic id g PO bt None ops RD k 2 fi fo LD FL) as (KF & AF).
    destruct (never_hot bt k (physics_of N ops (fun _ => 0)) ltac:(discriminate)) as (KH & NH).
    assert (EQ := equip pb bt None ops RD k (fun _ _ _ => 0) (answers m (pr_inner pb) (pr_outer pb) 2) (fun _ => False) (fun _ => 0)
      (conj (viscous_some pb ic id g PO bt None ops RD _ _ VI) (elastic_some pb ic id g PO bt None ops RD _ _ EL) : furnished pb bt None ops k _ _) (fun _ => AF) NH).
    destruct (solver_begun pb bt k _ _ _ (answers m (pr_inner pb) (pr_outer pb) 2) (fun _ => False) conds m0 d KF KH HC HW EQ CS HS) as (Ft & CT & DT & _ & E).
    destruct (solver_begun_zero k _ _ _ (answers m (pr_inner pb) (pr_outer pb) 2) (fun _ => False) conds m0 d KF KH HC HW EQ CS HS) as (x0 & U & Zu & Zv).
    rewrite <- DT in *.
    destruct (dynamic_never_renewed integrate b k _ _ _ (answers m (pr_inner pb) (pr_outer pb) 2) (fun _ => False) conds cls answer (start_positions bt) HC HW CN
      (SA _ _ _ _ _ _ HC HW) n u0 v0 out given d d' l x0 0 RN Ft GV ND CT U H) as (u & v & (G1 & G2 & G3) & LL & SH).
    exists u, v. split; [|split; [exact LL|exact SH]]. split; [exact G1|]. split; [exact G2|].
    intros j Hj. destruct (G3 j Hj) as (G4 & O). unfold unknowns in O. rewrite D, C in O. unfold k in O. cbv iota in O.
    split; [exact G4|]. split; [exact (takes_fixed id g bt 2 conds _ _ HP O)|].
    intros y G Hh K VN HG HH HK.
    rewrite <- (mass_work pb ic id g PO bt None ops RD), <- (loads_work pb ic id g PO bt None ops RD).
    rewrite <- (viscous_work pb ic id g PO bt None ops RD th ze y (v (S j)) G Hh VI HG HH), <- (elastic_work pb ic id g PO bt None ops RD mu la y _ G K EL HG HK).
    rewrite <- !sum_plus.
    rewrite <- (free_work (2 * N) (prescribed conds) _ (fun i =>
        mv (2 * N) (acceleration_operator ops) (fun a => v (S j) a / dt_of d) i
        + mv (2 * N) (some_mat (viscosity ops)) (v (S j)) i + mv (2 * N) (some_mat (elasticity ops)) (fun a => dt_of d * v (S j) a) i)
        (loads 0) (v (S j)) y O); [| |exact (vanishes_fixed id g bt 2 conds y HP VN)].
    - apply sum_ext. intros i _. ring.
    - intros i L. unfold law_of, dynamic_law in L. cbn [moment ph_n mass damping stiffness StatementSpec.load physics_of ph_dt] in L.
      cbn in L. rewrite Zu, Zv in L. rewrite Rplus_0_r in L.
      replace (fun a => v (S j) a / dt_of d) with (fun a => (v (S j) a - 0) / dt_of d) by (apply functional_extensionality; intros a; rewrite Rminus_0_r; reflexivity).
      replace (fun a => dt_of d * v (S j) a) with (fun a => 0 + dt_of d * v (S j) a) by (apply functional_extensionality; intros a; ring).
      exact L.
  Qed.
End Stale.
