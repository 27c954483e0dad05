(* C110: runs whose step solvers leave small residuals. *)
From Coq Require Import Reals List Arith ZArith Bool String Lia Lra FunctionalExtensionality.
From Verif Require Import Common PyModel RVec LinAlg MeshModel MeshBuildModel MeshSpec NormalsModel
  DofModel DofSpec DirichletModel DirichletSpec DirichletProofs
  FemModel FemSpec ForcesModel ForcesSpec
  StatementModel StatementSpec StatementProofs StatementValueProofs StatementLawProofs
  RegistryModel RegistrySpec StateModel TimeModel TimeSpec StateLemmas TimeProofs RunProofs HistoryProofs SolveProofs MarchProofs TimeTheorems
  OptimisationModel MethodModel MethodProofs RunSpec WholeRunProofs RunTheorems
  ProblemModel ProblemSpec ProblemProofs ProblemReady ProblemTheorems InexactSpec.
Import ListNotations.
Local Open Scope string_scope.
Local Open Scope list_scope.
Local Open Scope R_scope.

(* the residuals of the free rows are those of the system before the elimination, with the prescribed values *)
Lemma elimination_residual n A b conds x k : well_shaped n conds -> consistent (prescribed conds) -> (k < n)%nat -> (forall v, ~ prescribed conds k v) ->
  let sys := apply_dirichlet conds (mkSystem A b) in
  sum n (fun i => lhs sys k i * x i) - rhs sys k = sum n (fun i => A k i * overwrite_all conds x i) - b k.
Proof.
  intros W C Hk FR. cbv zeta. assert (HF := well_shaped_sequence _ _ W).
  destruct (closed_all n A b (sequence conds) HF) as (g1 & g2 & [HL HR H1 H2]).
  rewrite <- apply_sequence in HL, HR.
  set (sys := apply_dirichlet conds (mkSystem A b)) in *. set (l := sequence conds) in *.
  assert (PK : pinned l k = false).
  { destruct (pinned l k) eqn:E; [|reflexivity]. apply (pinned_prescribed n) in E; [|exact W]. destruct E as (v & V). destruct (FR v V). }
  destruct (overwrite_consistent n conds x W C) as (O1 & O2).
  rewrite HR, PK by exact Hk.
  rewrite (sum_ext n (fun i => lhs sys k i * x i) (fun i => if pinned l i then 0 else A k i * x i)).
  2:{ intros i Hi. rewrite HL by assumption. rewrite PK. cbn [orb]. destruct (pinned l i) eqn:E; [|reflexivity].
      unfold delta. destruct (Nat.eqb_spec k i); [congruence|ring]. }
  rewrite (sum_ext n (fun i => A k i * overwrite_all conds x i) (fun i => (if pinned l i then 0 else A k i * x i) + (if pinned l i then A k i * g1 i else 0))).
  - rewrite sum_plus. ring.
  - intros i Hi. destruct (pinned l i) eqn:E.
    + assert (P := E). apply H1 in P. apply earliest_prescribed in P. rewrite (O1 _ _ P). ring.
    + rewrite O2; [ring|]. intros w V. assert (pinned l i = true) by (apply (pinned_prescribed n); [exact W|eauto]). congruence.
Qed.

(* the kinds whose right hand side holds the load *)
Definition carries_load (k : kind) : Prop :=
  match k with Wave | StaticDisplacement | QuasistaticRelaxation | QuasistaticVelocity | DynamicVelocity => True | _ => False end.

Section Near.
  Context {F : Type}.
  Variable integrate : F -> R -> F * result (nat * vec).
  Variable b : body.
  Variable k : kind.
  Variable p : physics.
  Variable loads : R -> vec.
  Variable relaxations : R -> mat.
  Variables forceful heated : F -> Prop.
  Variable conds : list condition.
  Notation moment f := (moment k p f relaxations).
  Notation updated := (updated integrate b k p loads relaxations forceful heated conds).
  Hypothesis HC : StatementValueProofs.conditions b k = Ok conds.
  Hypothesis HW : well_shaped (unknowns b k) conds.
  Hypothesis HK : consistent (prescribed conds).
  Hypothesis LK : carries_load k.

  (* an answer with the prescribed values and small residuals elsewhere *)
  Definition accepts_near (tol : R) (i : method F) (v u : vec) (dt : R) (y : vec) : Prop :=
    exists z, y = overwrite_all conds z /\ forall a, (a < unknowns b k)%nat ->
      Rabs (mv (unknowns b k) (load_m (hp (m_world i)) (sm_data (m_lhs i))) z a - load_v (hp (m_world i)) (m_rhs i) a) <= tol.

  Lemma finished_near tol raw : answers_within (unknowns b k) tol raw ->
    forall x dt t i g v u len y, updated x dt t i -> finished b k raw i g v u dt = Ok (len, y) -> accepts_near tol i v u dt y.
  Proof.
    intros A x dt t i g v u len y (_ & L & _) H. unfold finished in H. destruct (raw i g v u dt) as [[len' z]|e] eqn:E; [|discriminate].
    cbn [bind] in H. unfold written in H. unfold StatementValueProofs.conditions in HC. unfold OptimisationModel.dim in H. rewrite HC in H. cbn [bind fst snd] in H. injection H as _ <-.
    exists z. split; [reflexivity|]. exact (A _ _ _ _ _ _ _ L E).
  Qed.

  Lemma near_obeys tol x dt t i v u y : updated x dt t i -> accepts_near tol i v u dt y ->
    exists r, slight (unknowns b k) tol r /\
      obeys (unknowns b k) (prescribed conds) (law_of (moment (fun s a => loads s a + r a) x dt t) k) y.
  Proof.
    intros U (z & -> & A). destruct U as (E & _ & ML & VR & _). destruct E as (EN & En & _).
    set (r := fun a => mv (unknowns b k) (load_m (hp (m_world i)) (sm_data (m_lhs i))) z a - load_v (hp (m_world i)) (m_rhs i) a).
    exists r. split; [exact A|]. destruct (overwrite_consistent (unknowns b k) conds z HW HK) as (O1 & O2). split; [exact O1|].
    intros a Ha FR. assert (SZ : sized b (moment (fun s a => loads s a + r a) x dt t)) by (split; assumption).
    apply (row_law b _ k _ a SZ).
    assert (ER := elimination_residual (unknowns b k) (lmat (moment loads x dt t) k) (rvec b (moment loads x dt t) k) conds z a HW HK Ha FR). cbv zeta in ER.
    change (apply_dirichlet conds _) with (final b (moment loads x dt t) k conds) in ER.
    assert (RA : r a = sum (unknowns b k) (fun i0 => lmat (moment loads x dt t) k a i0 * overwrite_all conds z i0) - rvec b (moment loads x dt t) k a).
    { rewrite <- ER. unfold r, mv. rewrite (VR a Ha). f_equal. apply sum_ext. intros j Hj. rewrite (ML a j Ha Hj). reflexivity. }
    assert (E1 : forall j, lmat (moment (fun s a => loads s a + r a) x dt t) k a j = lmat (moment loads x dt t) k a j) by (intros j; destruct k; reflexivity).
    assert (E2 : rvec b (moment (fun s a => loads s a + r a) x dt t) k a = rvec b (moment loads x dt t) k a + r a).
    { clear - LK. unfold rvec, qvec, dvec. destruct k; try contradiction; cbn [MethodProofs.moment StatementSpec.load memory ph_b ph_u ph_v laplace mass stiffness damping ph_dt]; ring. }
    rewrite E2, RA. rewrite (sum_ext _ _ (fun j => lmat (moment loads x dt t) k a j * overwrite_all conds z j)); [ring|]. intros j _. rewrite E1. reflexivity.
  Qed.
End Near.

Section Body.
  Variables (pb : problem) (ic id : P2 -> bool) (g : P2 -> R).
  Hypothesis PO : posed pb ic id g.
  Variables (bt : built) (density : option (nat -> R)) (ops : FemModel.operators).
  Hypothesis RD : ready pb bt density ops.
  Notation m := (bt_mesh bt).
  Notation b := (bt_body bt).
  Notation N := (List.length (m_nodes m)).
  Notation integrate := (integrate_forces m (bt_basic bt)).
  Notation I := (method forces).
  Context {V W : Type}.
  Notation driver := (driver V I).
  Variable raw : I -> vec -> vec -> vec -> R -> result (nat * vec).
  Variable tol : R.
  Variable cls : solver_class.
  Variables fi fo : P2 -> R -> vec.
  Notation loads := (nodal_load m (bt_basic bt) fi fo).
  Notation iterate k := (MethodModel.iterate integrate b k cls).
  Notation look := (@look V W).
  Notation asks w := (answers m (pr_inner pb) (pr_outer pb) w).
  Notation physics0 := (physics_of N ops (fun _ => 0)).

  Lemma pushed_free n pin (law : vec -> nat -> Prop) (res f r x v : vec) :
    obeys n pin law x -> (forall i, law x i -> res i = f i + r i) -> (forall d y, pin d y -> v d = 0) ->
    sum n (fun i => v i * res i) = sum n (fun i => v i * f i) + push_work n r v.
  Proof.
    intros O HL HV. rewrite (free_work n pin law res (fun i => f i + r i) x v O HL HV). unfold push_work.
    rewrite <- sum_plus. apply sum_ext. intros; ring.
  Qed.

  Lemma static_pushed mu la (m0 : store V) (d d' : driver) given u0 (s : state W) :
    loaded pb 2 fi fo -> elastic (pr_material pb) = Some (mu, la) -> answers_within (2 * N) tol raw ->
    (forall g, iterate_variables cls g = None) ->
    step_solver pb bt StaticDisplacement m0 = Ok d -> in_stock (d_mem d) given ->
    static_solve (b_dimension b) (b_count b) (start_positions bt) (iterate StaticDisplacement) (finished b StaticDisplacement raw) u0 given d = (d', Ok s) ->
    takes m id 2 g (view_displacement (look (d_mem d') s)) /\ exists r, slight (2 * N) tol r /\
    balances_pushed m id r density mu la (fun p => fi p 0) (fun p => fo p 0) (view_displacement (look (d_mem d') s)).
  Proof.
    intros LD EL SA ID HS GV H. destruct (body_is pb bt density ops RD) as (D & C & _).
    destruct (fixed_conds pb ic id g PO bt density ops RD 2) as (conds & MC & WS & CN & HP).
    destruct (fixed_size pb bt density ops RD StaticDisplacement conds ltac:(discriminate) MC WS) as (HC & HW).
    assert (FL : (2 * N)%nat = force_length b StaticDisplacement) by (unfold force_length; rewrite D, C; reflexivity).
    destruct (keeps_nodal pb ic id g PO bt density ops RD StaticDisplacement 2 fi fo LD FL) as (KF & AF).
    destruct (never_hot bt StaticDisplacement physics0 ltac:(discriminate)) as (KH & NH).
    assert (EQ := equip pb bt density ops RD StaticDisplacement (fun _ _ _ => 0) (asks 2) (fun _ => False) (fun _ => 0) (elastic_some pb ic id g PO bt density ops RD _ _ EL : furnished _ _ _ _ StaticDisplacement _ _) (fun _ => AF) NH).
    destruct (solver_begun pb bt StaticDisplacement _ _ _ (asks 2) (fun _ => False) conds m0 d KF KH HC HW EQ Logic.I HS) as (Ft & CT & DT & (x0 & U) & E).
    assert (US : unknowns b StaticDisplacement = (2 * N)%nat) by (unfold unknowns; rewrite D, C; reflexivity). rewrite <- US in SA.
    destruct (static_run integrate b StaticDisplacement _ _ _ (asks 2) (fun _ => False) conds cls _ (start_positions bt) KF KH HC HW
      (accepts_near b StaticDisplacement conds tol) (finished_near _ b StaticDisplacement _ _ _ _ _ conds HC tol raw SA) u0 given d d' s eq_refl Ft GV
      (ex_intro _ x0 (ex_intro _ 0 U)) (or_intror ID) H) as (x & t & i & Ui & A).
    destruct (near_obeys _ b StaticDisplacement _ _ _ _ _ conds HC HW CN Logic.I tol x _ t i _ _ _ Ui A) as (r & SL & O). rewrite US in SL, O.
    set (u := view_displacement (look (d_mem d') s)) in *.
    split; [exact (takes_fixed id g bt 2 conds _ u HP O)|]. exists r. split; [exact SL|].
    intros v G K VN HG HK. rewrite <- (elastic_work pb ic id g PO bt density ops RD mu la v u G K EL HG HK), <- (loads_work pb ic id g PO bt density ops RD).
    apply (pushed_free (2 * N) (prescribed conds) _ _ _ r _ v O (fun i L => L)).
    exact (vanishes_fixed id g bt 2 conds v HP VN).
  Qed.

  Hypothesis CS : can_step DynamicVelocity (time_step_of pb).

  Lemma dynamic_pushed th ze mu la (m0 : store V) (d d' : driver) n u0 v0 out given (l : list (state W)) :
    density = None -> loaded pb 2 fi fo -> elastic (pr_material pb) = Some (mu, la) -> viscous (pr_material pb) = Some (th, ze) ->
    answers_within (2 * N) tol raw -> renews integrate b DynamicVelocity cls ->
    step_solver pb bt DynamicVelocity m0 = Ok d -> in_stock (d_mem d) given -> non_decreasing 0 (requested n out) ->
    dynamic_solve (b_dimension b) (b_count b) (start_positions bt) (iterate DynamicVelocity) (finished b DynamicVelocity raw) n u0 v0 out given d = (d', Ok l) ->
    exists u v, motion (time_step_of pb) (takes m id 2 g)
        (fun t a w y => exists r, slight (2 * N) tol r /\ moves_pushed m id r (mass_density (pr_material pb)) th ze mu la (fun p => fi p t) (fun p => fo p t) a w y)
        u0 v0 (TimeTheorems.last_step n out) u v /\
      List.length l = List.length (requested n out) /\
      forall j q (s : state W), nth_error (requested n out) j = Some q -> nth_error l j = Some s ->
        shows (time_step_of pb) u v (Z.to_nat q) (look (d_mem d') s).
  Proof.
    intros DN LD EL VI SA RN HS GV ND H. destruct (body_is pb bt density ops RD) as (D & C & _).
    destruct (fixed_conds pb ic id g PO bt density ops RD 2) as (conds & MC & WS & CN & HP).
    destruct (fixed_size pb bt density ops RD DynamicVelocity conds ltac:(discriminate) MC WS) as (HC & HW).
    assert (FL : (2 * N)%nat = force_length b DynamicVelocity) by (unfold force_length; rewrite D, C; reflexivity).
    destruct (keeps_nodal pb ic id g PO bt density ops RD DynamicVelocity 2 fi fo LD FL) as (KF & AF).
    destruct (never_hot bt DynamicVelocity physics0 ltac:(discriminate)) as (KH & NH).
    assert (EQ := equip pb bt density ops RD DynamicVelocity (fun _ _ _ => 0) (asks 2) (fun _ => False) (fun _ => 0)
      (conj (viscous_some pb ic id g PO bt density ops RD _ _ VI) (elastic_some pb ic id g PO bt density ops RD _ _ EL) : furnished _ _ _ _ DynamicVelocity _ _) (fun _ => AF) NH).
    destruct (solver_begun pb bt DynamicVelocity _ _ _ (asks 2) (fun _ => False) conds m0 d KF KH HC HW EQ CS HS) as (Ft & CT & DT & (x0 & U) & E).
    rewrite <- DT in *.
    assert (US : unknowns b DynamicVelocity = (2 * N)%nat) by (unfold unknowns; rewrite D, C; reflexivity). rewrite <- US in SA.
    destruct (dynamic_marches integrate b DynamicVelocity _ _ _ (asks 2) (fun _ => False) conds cls _ (start_positions bt) KF KH HC HW
      (accepts_near b DynamicVelocity conds tol) (finished_near _ b DynamicVelocity _ _ _ _ _ conds HC tol raw SA) RN n u0 v0 out given d d' l Ft GV ND CT E CS H)
      as (u & v & (G1 & G2 & G3) & LL & SH).
    exists u, v. split; [|split; [exact LL|exact SH]]. split; [exact G1|]. split; [exact G2|].
    intros j Hj. destruct (G3 j Hj) as (G4 & i & Ui & A).
    destruct (near_obeys _ b DynamicVelocity _ _ _ _ _ conds HC HW CN Logic.I tol _ _ _ i _ _ _ Ui A) as (r & SL & O). rewrite US in SL, O.
    split; [exact G4|]. split; [exact (takes_fixed id g bt 2 conds _ _ HP O)|]. exists r. split; [exact SL|].
    intros y G Hh K VN HG HH HK.
    assert (EU : u (S j) = (fun i => u j i + dt_of d * v (S j) i)) by (apply functional_extensionality; exact G4).
    rewrite <- (mass_work pb ic id g PO bt density ops RD), <- (loads_work pb ic id g PO bt density ops RD), <- DN.
    rewrite <- (viscous_work pb ic id g PO bt density ops RD th ze y (v (S j)) G Hh VI HG HH), <- (elastic_work pb ic id g PO bt density ops RD mu la y (u (S j)) G K EL HG HK).
    rewrite <- !sum_plus.
    rewrite <- (pushed_free (2 * N) (prescribed conds) _ (fun i =>
        mv (2 * N) (acceleration_operator ops) (fun a => (v (S j) a - v j a) / dt_of d) i
        + mv (2 * N) (some_mat (viscosity ops)) (v (S j)) i + mv (2 * N) (some_mat (elasticity ops)) (u (S j)) i)
        (loads (INR j * dt_of d)) r (v (S j)) y O); [| |exact (vanishes_fixed id g bt 2 conds y HP VN)].
    - apply sum_ext. intros a _. ring.
    - intros a L. unfold law_of, dynamic_law in L. cbn [moment load_moment vec_b vec_u vec_v vec_t vec_p ph_u ph_v ph_n mass damping stiffness StatementSpec.load physics_of ph_dt] in L.
      rewrite Rplus_0_r in L. rewrite EU. exact L.
  Qed.

  Lemma quasistatic_pushed th ze mu la (m0 : store V) (d d' : driver) n u0 v0 out given (l : list (state W)) :
    density = None -> loaded pb 2 fi fo -> elastic (pr_material pb) = Some (mu, la) -> viscous (pr_material pb) = Some (th, ze) ->
    answers_within (2 * N) tol raw -> renews integrate b QuasistaticVelocity cls ->
    step_solver pb bt QuasistaticVelocity m0 = Ok d -> in_stock (d_mem d) given -> non_decreasing 0 (requested n out) ->
    dynamic_solve (b_dimension b) (b_count b) (start_positions bt) (iterate QuasistaticVelocity) (finished b QuasistaticVelocity raw) n u0 v0 out given d = (d', Ok l) ->
    exists u v, motion (time_step_of pb) (takes m id 2 g)
        (fun t _ w y => exists r, slight (2 * N) tol r /\ flows_pushed m id r th ze mu la (fun p => fi p t) (fun p => fo p t) w y)
        u0 v0 (TimeTheorems.last_step n out) u v /\
      List.length l = List.length (requested n out) /\
      forall j q (s : state W), nth_error (requested n out) j = Some q -> nth_error l j = Some s ->
        shows (time_step_of pb) u v (Z.to_nat q) (look (d_mem d') s).
  Proof.
    intros DN LD EL VI SA RN HS GV ND H. destruct (body_is pb bt density ops RD) as (D & C & _).
    destruct (fixed_conds pb ic id g PO bt density ops RD 2) as (conds & MC & WS & CN & HP).
    destruct (fixed_size pb bt density ops RD QuasistaticVelocity conds ltac:(discriminate) MC WS) as (HC & HW).
    assert (FL : (2 * N)%nat = force_length b QuasistaticVelocity) by (unfold force_length; rewrite D, C; reflexivity).
    destruct (keeps_nodal pb ic id g PO bt density ops RD QuasistaticVelocity 2 fi fo LD FL) as (KF & AF).
    destruct (never_hot bt QuasistaticVelocity physics0 ltac:(discriminate)) as (KH & NH).
    assert (EQ := equip pb bt density ops RD QuasistaticVelocity (fun _ _ _ => 0) (asks 2) (fun _ => False) (fun _ => 0)
      (conj (viscous_some pb ic id g PO bt density ops RD _ _ VI) (elastic_some pb ic id g PO bt density ops RD _ _ EL) : furnished _ _ _ _ QuasistaticVelocity _ _) (fun _ => AF) NH).
    destruct (solver_begun pb bt QuasistaticVelocity _ _ _ (asks 2) (fun _ => False) conds m0 d KF KH HC HW EQ CS HS) as (Ft & CT & DT & (x0 & U) & E).
    rewrite <- DT in *.
    assert (US : unknowns b QuasistaticVelocity = (2 * N)%nat) by (unfold unknowns; rewrite D, C; reflexivity). rewrite <- US in SA.
    destruct (dynamic_marches integrate b QuasistaticVelocity _ _ _ (asks 2) (fun _ => False) conds cls _ (start_positions bt) KF KH HC HW
      (accepts_near b QuasistaticVelocity conds tol) (finished_near _ b QuasistaticVelocity _ _ _ _ _ conds HC tol raw SA) RN n u0 v0 out given d d' l Ft GV ND CT E CS H)
      as (u & v & (G1 & G2 & G3) & LL & SH).
    exists u, v. split; [|split; [exact LL|exact SH]]. split; [exact G1|]. split; [exact G2|].
    intros j Hj. destruct (G3 j Hj) as (G4 & i & Ui & A).
    destruct (near_obeys _ b QuasistaticVelocity _ _ _ _ _ conds HC HW CN Logic.I tol _ _ _ i _ _ _ Ui A) as (r & SL & O). rewrite US in SL, O.
    split; [exact G4|]. split; [exact (takes_fixed id g bt 2 conds _ _ HP O)|]. exists r. split; [exact SL|].
    intros y G Hh K VN HG HH HK.
    assert (EU : u (S j) = (fun i => u j i + dt_of d * v (S j) i)) by (apply functional_extensionality; exact G4).
    rewrite <- (loads_work pb ic id g PO bt density ops RD), <- DN.
    rewrite <- (viscous_work pb ic id g PO bt density ops RD th ze y (v (S j)) G Hh VI HG HH), <- (elastic_work pb ic id g PO bt density ops RD mu la y (u (S j)) G K EL HG HK).
    rewrite <- !sum_plus.
    rewrite <- (pushed_free (2 * N) (prescribed conds) _ (fun i =>
        mv (2 * N) (some_mat (viscosity ops)) (v (S j)) i + mv (2 * N) (some_mat (elasticity ops)) (u (S j)) i)
        (loads (INR j * dt_of d)) r (v (S j)) y O); [| |exact (vanishes_fixed id g bt 2 conds y HP VN)].
    - apply sum_ext. intros a _. ring.
    - intros a L. unfold law_of, quasistatic_law in L. cbn [moment load_moment vec_b vec_u vec_v vec_t vec_p ph_u ph_v ph_n mass damping stiffness StatementSpec.load physics_of ph_dt] in L.
      rewrite Rplus_0_r in L. rewrite EU. exact L.
  Qed.

  Lemma wave_pushed c (m0 : store V) (d d' : driver) n u0 v0 out given s0 (l : list (state W)) :
    density = None -> loaded pb 1 fi fo -> membrane (pr_material pb) = Some c ->
    answers_within N tol raw -> renews integrate b Wave cls ->
    step_solver pb bt Wave m0 = Ok d -> in_stock (d_mem d) given -> non_decreasing 0 (requested n out) ->
    wave_solve (b_dimension b) (b_count b) (start_positions bt) (iterate Wave) (finished b Wave raw) n u0 v0 None out given d = (d', s0, Ok l) ->
    exists u v, motion (time_step_of pb) (takes m id 1 g)
        (fun t a _ y => exists r, slight N tol r /\ swings_pushed m id r (mass_density (pr_material pb)) c (fun p => fi p t) (fun p => fo p t) a y)
        u0 v0 (TimeTheorems.last_step n out) u v /\
      List.length l = List.length (requested n out) /\
      forall j q (s : state W), nth_error (requested n out) j = Some q -> nth_error l j = Some s ->
        shows (time_step_of pb) u v (Z.to_nat q) (look (d_mem d') s).
  Proof.
    intros DN LD ME SA RN HS GV ND H. destruct (body_is pb bt density ops RD) as (D & C & _).
    destruct (fixed_conds pb ic id g PO bt density ops RD 1) as (conds & MC & WS & CN & HP).
    destruct (fixed_size pb bt density ops RD Wave conds ltac:(discriminate) MC WS) as (HC & HW).
    assert (FL : (1 * N)%nat = force_length b Wave) by (unfold force_length; rewrite C; lia).
    destruct (keeps_nodal pb ic id g PO bt density ops RD Wave 1 fi fo LD FL) as (KF & AF).
    destruct (never_hot bt Wave physics0 ltac:(discriminate)) as (KH & NH).
    assert (EQ := equip pb bt density ops RD Wave (fun _ _ _ => 0) (asks 1) (fun _ => False) (fun _ => 0)
      (membrane_some pb ic id g PO bt density ops RD _ ME : furnished _ _ _ _ Wave _ _) (fun _ => AF) NH).
    destruct (solver_begun pb bt Wave _ _ _ (asks 1) (fun _ => False) conds m0 d KF KH HC HW EQ CS HS) as (Ft & CT & DT & (x0 & U) & E).
    rewrite <- DT in *.
    assert (US : unknowns b Wave = N) by (unfold unknowns; rewrite C; reflexivity). rewrite <- US in SA.
    destruct (wave_marches integrate b Wave _ _ _ (asks 1) (fun _ => False) conds cls _ (start_positions bt) KF KH HC HW
      (accepts_near b Wave conds tol) (finished_near _ b Wave _ _ _ _ _ conds HC tol raw SA) RN n u0 v0 out given d d' s0 l Ft GV ND E CS H)
      as (u & v & (G1 & G2 & G3) & LL & SH).
    exists u, v. split; [|split; [exact LL|exact SH]]. split; [exact G1|]. split; [exact G2|].
    intros j Hj. destruct (G3 j Hj) as (G4 & i & Ui & A).
    destruct (near_obeys _ b Wave _ _ _ _ _ conds HC HW CN Logic.I tol _ _ _ i _ _ _ Ui A) as (r & SL & O). rewrite US in SL, O.
    assert (O1 := O). rewrite <- (Nat.mul_1_l N) in O1.
    split; [exact G4|]. split; [exact (takes_fixed id g bt 1 conds _ _ HP O1)|]. exists r. split; [exact SL|].
    intros y G K VN HG HK.
    assert (EU : u (S j) = (fun i => u j i + dt_of d * v (S j) i)) by (apply functional_extensionality; exact G4).
    rewrite <- (mass_work_scalar pb ic id g PO bt density ops RD), <- (loads_work pb ic id g PO bt density ops RD), <- DN, Nat.mul_1_l.
    rewrite <- (membrane_work pb ic id g PO bt density ops RD c y (u (S j)) G K ME HG HK).
    rewrite <- !sum_plus.
    rewrite <- (pushed_free N (prescribed conds) _ (fun i =>
        mv N (acceleration_operator ops) (fun a => (v (S j) a - v j a) / dt_of d) i + mv N (some_mat (poisson_operator ops)) (u (S j)) i)
        (loads (INR j * dt_of d)) r (v (S j)) y O); [| |exact (vanishes_fixed id g bt 1 conds y HP VN)].
    - apply sum_ext. intros a _. ring.
    - intros a L. unfold law_of, wave_law in L. cbn [moment load_moment vec_b vec_u vec_v vec_t vec_p ph_u ph_v ph_N mass laplace StatementSpec.load physics_of ph_dt] in L.
      rewrite EU. exact L.
  Qed.
End Body.
