(* C108 for bodies built from a problem, and a body that falls. *)
From Coq Require Import Reals List Arith ZArith Bool String Permutation Lia Lra FunctionalExtensionality Classical.
From Verif Require Import Common PyModel RVec LinAlg MeshModel MeshBuildModel MeshSpec ListLemmas MeshBuildProofs NormalsModel
  DofModel DofSpec DirichletModel DirichletSpec DirichletProofs DirichletMeshProofs
  FemModel FemSpec FemAssemblyProofs FemFormProofs FemBasicProofs FemMeshProofs FemBuildProofs FemOperatorProofs FemPipelineProofs FemFinalProofs
  ForcesModel ForcesSpec ForcesProofs ForcesLoadProofs
  StatementModel StatementSpec StatementProofs StatementValueProofs StatementLawProofs StatementCacheProofs
  RegistryModel StateModel StateLemmas CopyProofs TimeModel TimeSpec TimeProofs RunProofs HistoryProofs SolveProofs MarchProofs MethodModel MethodProofs
  RunSpec WholeRunProofs RunTheorems RunTotal ProblemModel ProblemSpec ProblemProofs ProblemReady ProblemTheorems ProblemUnique ProblemTotal ProblemFinal ProblemWitness
  ConvergenceSpec ConvergenceFinal ConvergenceWitness StaleSpec StaleProofs.
Import ListNotations.
Local Open Scope string_scope.
Local Open Scope list_scope.
Local Open Scope R_scope.

Section Final.
  Context {V W : Type}.
  Variables (pb : problem) (ic id : P2 -> bool) (g : P2 -> R).
  Hypothesis PO : posed pb ic id g.
  Variable bt : built.
  Hypothesis PR : construct pb = Ok bt.
  Notation m := (bt_mesh bt).
  Notation b := (bt_body bt).
  Notation N := (List.length (m_nodes m)).
  Notation integrate := (integrate_forces m (bt_basic bt)).
  Notation driver := (driver V (method forces)).
  Variables fi fo : P2 -> R -> vec.
  Notation dt := (time_step_of pb).
  Notation rho := (mass_density (pr_material pb)).
  Notation law th ze mu la := (fun t a w y => moves coord2 zero2 m id rho th ze mu la (fun p => fi p t) (fun p => fo p t) a w y).

  Lemma direct_stale linsolve th ze mu la (m0 : store V) (d d' : driver) n u0 v0 out given (l : list (state W)) :
    loaded pb 2 fi fo -> elastic (pr_material pb) = Some (mu, la) -> viscous (pr_material pb) = Some (th, ze) -> dt <> 0 ->
    (forall n A r x, linsolve n A r = Ok x -> solves n A r x) ->
    step_solver pb bt DynamicVelocity m0 = Ok d -> in_stock (d_mem d) given -> non_decreasing 0 (requested n out) ->
    dynamic_solve (b_dimension b) (b_count b) (start_positions bt) (MethodModel.iterate integrate b DynamicVelocity Direct) (direct_answer b DynamicVelocity linsolve) n u0 v0 out given d = (d', Ok l) ->
    exists u v, stale_motion dt (takes m id 2 g) (law th ze mu la) u0 v0 (TimeTheorems.last_step n out) u v /\
      List.length l = List.length (requested n out) /\
      forall j q (s : state W), nth_error (requested n out) j = Some q -> nth_error l j = Some s ->
        shows dt u v (Z.to_nat q) (look (d_mem d') s).
  Proof.
    intros LD EL VI CS SA. destruct (built_ready pb ic id g PO bt PR) as (ops & RD & _).
    apply (stale_posed pb ic id g PO bt ops RD _ Direct fi fo th ze mu la m0 d d' n u0 v0 out given l CS LD EL VI); [|reflexivity].
    apply direct_sound. exact SA.
  Qed.

  Lemma direct_stale_runs linsolve th ze mu la (m0 : store V) n out :
    loaded pb 2 fi fo -> elastic (pr_material pb) = Some (mu, la) -> viscous (pr_material pb) = Some (th, ze) ->
    0 < rho -> 0 <= mu -> 0 <= la -> 0 <= th -> 0 <= ze -> 0 < dt ->
    (forall n A r, pos_def n A -> exists x, linsolve n A r = Ok x) -> non_decreasing 0 (requested n out) -> n <> 0%nat ->
    exists d : driver, step_solver pb bt DynamicVelocity m0 = Ok d /\ forall u0 v0, exists d' (l : list (state W)),
      dynamic_solve (b_dimension b) (b_count b) (start_positions bt) (MethodModel.iterate integrate b DynamicVelocity Direct) (direct_answer b DynamicVelocity linsolve) n u0 v0 out [] d = (d', Ok l).
  Proof.
    intros LD EL VI RM M L T Z TS LW ND NZ. destruct (built_ready pb ic id g PO bt PR) as (ops & RD & _).
    set (k := DynamicVelocity) in *. destruct (body_is pb bt None ops RD) as (D & C0 & _).
    assert (AD := direct_definite pb ic id g PO bt None (constructed _ _ PR) k linsolve ltac:(discriminate) LW).
    destruct (fixed_conds pb ic id g PO bt None ops RD 2) as (conds & MC & WS & CN & HP).
    destruct (fixed_size pb bt None ops RD k conds ltac:(discriminate) MC WS) as (HC & HW).
    assert (FL : (2 * N)%nat = force_length b k) by (unfold force_length, k; rewrite D, C0; reflexivity).
    destruct (keeps_nodal pb ic id g PO bt None ops RD k 2 fi fo LD FL) as (KF & AF).
    destruct (never_hot bt k (physics_of N ops (fun _ => 0)) ltac:(discriminate)) as (KH & NH).
    assert (CS : can_step k dt) by (unfold k, can_step; lra).
    assert (EQ := equip pb bt None ops RD k (fun _ _ _ => 0) (answers m (pr_inner pb) (pr_outer pb) 2) (fun _ => False) (fun _ => 0) (conj (viscous_some pb ic id g PO bt None ops RD _ _ VI) (elastic_some pb ic id g PO bt None ops RD _ _ EL) : furnished pb bt None ops k _ _) (fun _ => AF) NH).
    destruct (solver_total pb bt k _ _ _ (answers m (pr_inner pb) (pr_outer pb) 2) (fun _ => False) conds m0 KF KH HC HW EQ CS) as (d & HS & TD).
    exists d. split; [exact HS|]. intros u0 v0.
    destruct (solver_begun pb bt k _ _ _ (answers m (pr_inner pb) (pr_outer pb) 2) (fun _ => False) conds m0 d KF KH HC HW EQ CS HS) as (Ft & CT & DT & (x0 & U) & E).
    rewrite <- DT in *.
    apply (dynamic_runs _ _ _ _ _ (fun i => exists x t, updated integrate b k (physics_of N ops (fun _ => 0)) (nodal_load m (bt_basic bt) fi fo) (fun _ _ _ => 0)
       (answers m (pr_inner pb) (pr_outer pb) 2) (fun _ => False) conds x (dt_of d) t i) (dt_of d)); auto; [| |eauto].
    - intros i x t H. eapply iterate_kept; eauto.
    - intros i gu v u (x & t & H). rewrite (runs_full pb bt None ops RD).
      eapply answer_total; eauto.
      intros. cbn [stable_kind k moment ph_n ph_N mass damping stiffness laplace memory physics_of].
      split; [apply (mass_definite pb ic id g PO bt None ops RD conds RM)|split; [apply (viscous_psd pb ic id g PO bt None ops RD Logic.I th ze VI T Z)|apply (elastic_psd pb ic id g PO bt None ops RD Logic.I mu la EL M L)]].
  Qed.

  (* all velocities after the first step agree, whatever the starts *)
  Lemma stale_same th ze mu la u0 v0 n u v u0' v0' n' u' v' :
    elastic (pr_material pb) = Some (mu, la) -> viscous (pr_material pb) = Some (th, ze) -> 0 < rho -> 0 <= mu -> 0 <= la -> 0 <= th -> 0 <= ze -> 0 < dt ->
    stale_motion dt (takes m id 2 g) (law th ze mu la) u0 v0 n u v -> stale_motion dt (takes m id 2 g) (law th ze mu la) u0' v0' n' u' v' ->
    forall j j', (j < n)%nat -> (j' < n')%nat -> veq (2 * N) (v (S j)) (v' (S j')).
  Proof.
    intros EL VI RM M L T Z TS (_ & _ & H) (_ & _ & H') j j' J J'. destruct (built_ready pb ic id g PO bt PR) as (ops & RD & _).
    destruct (H j J) as (_ & T1 & L1). destruct (H' j' J') as (_ & T2 & L2).
    assert (ST := dynamic_settled pb ic id g PO bt None ops RD Logic.I dt TS eq_refl th ze mu la (fun t p => fi p t) (fun t p => fo p t) EL VI RM M L T Z).
    assert (Q : forall x : vec, (fun i => x i / dt) = (fun i => (x i - 0) / dt) /\ (fun i => dt * x i) = (fun i => 0 + dt * x i)).
    { intros x. split; apply functional_extensionality; intros i; [rewrite Rminus_0_r; reflexivity|ring]. }
    destruct (Q (v (S j))) as (Q1 & Q2). rewrite Q1, Q2 in L1. destruct (Q (v' (S j'))) as (Q3 & Q4). rewrite Q3, Q4 in L2.
    exact (ST 0 (fun _ => 0) (fun _ => 0) (fun _ => 0) (fun _ => 0) _ _ (fun _ _ => eq_refl) (fun _ _ => eq_refl) T1 T2 L1 L2).
  Qed.
End Final.

(* under a constant force the body has the velocity h at all times *)
Lemma fall_stale bt : construct (fall_problem (fun _ => 1)) = Ok bt -> forall {V' W} h linsolve (m0 : store V')
    (d d' : driver V' (method forces)) n out given (l : list (state W)),
  0 < h -> (forall n A r x, linsolve n A r = Ok x -> solves n A r x) ->
  step_solver (with_step (fall_problem (fun _ => 1)) h) bt DynamicVelocity m0 = Ok d -> in_stock (d_mem d) given -> non_decreasing 0 (requested n out) ->
  dynamic_solve (b_dimension (bt_body bt)) (b_count (bt_body bt)) (start_positions bt)
    (MethodModel.iterate (integrate_forces (bt_mesh bt) (bt_basic bt)) (bt_body bt) DynamicVelocity Direct) (direct_answer (bt_body bt) DynamicVelocity linsolve) n (alike_all bt 0) (alike_all bt 0) out given d = (d', Ok l) ->
  forall j (s : state W) i, nth_error l j = Some s -> 0 < view_time (look (d_mem d') s) -> (List.length (m_nodes (bt_mesh bt)) <= i < 2 * List.length (m_nodes (bt_mesh bt)))%nat ->
    view_velocity (look (d_mem d') s) i = h /\ view_displacement (look (d_mem d') s) i = h * view_time (look (d_mem d') s).
Proof.
  intros PR V' W h linsolve m0 d d' n out given l HP AE SS IS ND RU j s i SJ LT I.
  set (pb := fall_problem (fun _ => 1)) in *. assert (PO := posed_step pb _ _ _ h (fall_posed _)).
  destruct (direct_stale (V:=V') (W:=W) (with_step pb h) _ _ _ PO bt PR (drag (fun _ => 1)) calm linsolve 1 2 4 3 m0 d d' n _ _ out given l
    (fall_loaded _) eq_refl eq_refl (Rgt_not_eq _ _ HP) AE SS IS ND RU) as (u & v & MO & LE & SH).
  destruct (nth_error (requested n out) j) as [q|] eqn:Q; [|apply nth_error_None in Q; assert (j < List.length l)%nat by (apply nth_error_Some; congruence); lia].
  destruct (SH j q s Q SJ) as (E1 & E2 & E3). rewrite E1 in LT. rewrite E1, E2, E3. clear E1 E2 E3.
  assert (X : forall c, alike_all bt c i = c).
  { intros c. unfold alike_all, down. replace (i / List.length (m_nodes (bt_mesh bt)))%nat with 1%nat; [reflexivity|]. apply (Nat.div_unique _ _ _ (i - List.length (m_nodes (bt_mesh bt)))); lia. }
  set (ex := fun k : nat => match k with O => alike_all bt 0 | _ => alike_all bt h end).
  assert (EX : stale_motion h (takes (bt_mesh bt) never 2 (fun _ => 0))
    (fun t a w y => moves coord2 zero2 (bt_mesh bt) never 2 1 2 4 3 (fun p => drag (fun _ => 1) p t) (fun p => calm p t) a w y)
    (alike_all bt 0) (alike_all bt 0) 1 (fun j => alike_all bt (h * h * INR j)) ex).
  { split; [cbn [INR]; f_equal; ring|]. split; [reflexivity|]. intros k _. split; [|split].
    - intros x. rewrite S_INR. unfold ex, alike_all, down. destruct (x / _ =? 1)%nat; ring.
    - apply fall_takes.
    - cbn [ex]. assert (EA : (fun x => alike_all bt h x / h) = alike_all bt 1).
      { apply functional_extensionality. intros x. unfold alike_all, down. destruct (x / _ =? 1)%nat; field; lra. }
      assert (EB : (fun x => h * alike_all bt h x) = alike_all bt (h * h)).
      { apply functional_extensionality. intros x. unfold alike_all, down. destruct (x / _ =? 1)%nat; ring. }
      rewrite EA, EB. exact (fall_moves (fun _ => 1) bt PR 0 _ _). }
  assert (VS : forall k, (k < TimeTheorems.last_step n out)%nat -> v (S k) i = h).
  { intros k K. transitivity (ex 1%nat i); [|apply X].
    apply (stale_same (with_step pb h) _ _ _ PO bt PR (drag (fun _ => 1)) calm 1 2 4 3 _ _ _ u v _ _ _ _ ex eq_refl eq_refl ltac:(cbn; lra) ltac:(lra) ltac:(lra) ltac:(lra) ltac:(lra) HP MO EX k 0%nat K); lia. }
  assert (US : forall k, (k <= TimeTheorems.last_step n out)%nat -> u k i = h * (INR k * h)).
  { destruct MO as (M1 & M2 & M3). induction k as [|k IH]; intros K; [rewrite M1, X; cbn; ring|].
    destruct (M3 k ltac:(lia)) as (M4 & _). rewrite M4, IH, VS, S_INR by lia. change (time_step_of (with_step pb h)) with h. ring. }
  pose proof (requested_range n out j q ND Q) as RR. change (time_step_of (with_step pb h)) with h in *.
  destruct (Z.to_nat q) as [|k]; [cbn in LT; lra|]. split; [apply VS; lia|]. apply US. exact RR.
Qed.
