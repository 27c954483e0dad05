(* The answers of the solvers solve the problems posed. *)
From Coq Require Import Reals List Arith ZArith Bool String Permutation Lia Lra FunctionalExtensionality Classical.
From Verif Require Import Common PyModel RVec LinAlg MeshModel MeshBuildModel MeshSpec ListLemmas MeshBuildProofs NormalsModel
  DofModel DofSpec DirichletModel DirichletSpec DirichletProofs DirichletMeshProofs
  FemModel FemSpec FemAssemblyProofs FemFormProofs FemBasicProofs FemMeshProofs FemBuildProofs FemOperatorProofs FemPipelineProofs FemFinalProofs
  ForcesModel ForcesSpec ForcesProofs ForcesLoadProofs
  StatementModel StatementSpec StatementProofs StatementValueProofs StatementLawProofs StatementCacheProofs
  RegistryModel StateModel StateLemmas CopyProofs TimeModel TimeSpec TimeProofs RunProofs HistoryProofs SolveProofs MarchProofs MethodModel MethodProofs
  RunSpec WholeRunProofs RunTheorems ProblemModel ProblemSpec ProblemProofs ProblemReady.
Import ListNotations.
Local Open Scope string_scope.
Local Open Scope list_scope.
Local Open Scope R_scope.

(* the law at the free dofs is the balance of work for fields that vanish at the others *)
Lemma free_work n pin (law : vec -> nat -> Prop) (res f x v : vec) :
  obeys n pin law x -> (forall i, law x i -> res i = f i) -> (forall d y, pin d y -> v d = 0) ->
  sum n (fun i => v i * res i) = sum n (fun i => v i * f i).
Proof.
  intros [_ H] HL HV. apply sum_ext. intros i Hi.
  destruct (classic (exists y, pin i y)) as [[y Hy]|N].
  - rewrite (HV i y Hy). ring.
  - f_equal. apply HL. apply H; [exact Hi|]. intros y Hy. apply N. eauto.
Qed.

Lemma bilinear_sum n A v u : bilinear n n A v u = sum n (fun i => v i * mv n A u i).
Proof. rewrite bilinear_dot. reflexivity. Qed.

Definition physics_of (N : nat) (ops : FemModel.operators) (heat : vec) : physics :=
  mkPhysics N (2 * N) (acceleration_operator ops) (some_mat (elasticity ops)) (some_mat (viscosity ops)) (fun _ _ => 0)
    (some_mat (poisson_operator ops)) (some_mat (thermal_conductivity ops)) (some_mat (permittivity ops))
    (some_mat (thermal_expansion ops)) (some_mat (piezoelectricity ops)) (fun _ => 0) heat
    (fun _ => 0) (fun _ => 0) (fun _ => 0) (fun _ => 0) (fun _ => 0) 0.

Section Body.
  Variables (pb : problem) (ic id : P2 -> bool) (g : P2 -> R).
  Hypothesis PO : posed pb ic id g.
  Variables (bt : built) (density : option (nat -> R)) (ops : FemModel.operators).
  Hypothesis RD : ready pb bt density ops.
  Let m := bt_mesh bt.
  Let b := bt_body bt.
  Let N := List.length (m_nodes m).
  Let points := node_table coord2 zero2 (m_nodes m).
  Let els := m_elements m.
  Let integrate := integrate_forces m (bt_basic bt).
  Notation I := (method forces).

  Lemma body_is : b_dimension b = 2%nat /\ b_count b = N /\ b_conditions b = mesh_conditions m.
  Proof. destruct RD as (_ & _ & _ & (refs & E & _) & _). unfold b. rewrite E. auto. Qed.

  Lemma plane : triangles N points els /\ faces_ok 2 N (faces_of m "neumann") /\ (forall i, (i < N)%nat -> referenced els i).
  Proof. destruct RD as (HB & _). exact (built_plane pb ic id g PO m HB). Qed.

  Lemma fixed_conds dim : exists conds, mesh_conditions m dim "dirichlet" = Ok conds /\ well_shaped (dim * N) conds /\
      consistent (prescribed conds) /\
      (forall dof v, prescribed conds dof v <->
        exists n k p, fixed_node m id n /\ (k < dim)%nat /\ nth_error (m_nodes m) n = Some p /\
          dof = (k * N + n)%nat /\ v = g p).
  Proof.
    destruct RD as (HB & _). destruct PO as [HR HS HA HC HD (f & Hf & PW)].
    exact (fixed_conditions mean2 zero2 _ _ _ m ic id HR HS HC HD HB dim f g Hf PW).
  Qed.

  Lemma fixed_size k conds : k <> Piezoelectric ->
    mesh_conditions m (dimension_in k 2) "dirichlet" = Ok conds -> well_shaped (dimension_in k 2 * N) conds ->
    StatementValueProofs.conditions b k = Ok conds /\ well_shaped (unknowns b k) conds.
  Proof.
    intros K H W. destruct body_is as (D & C & M). unfold StatementValueProofs.conditions, unknowns. rewrite D, C, M.
    split; [destruct k; try exact H; contradiction|].
    destruct k; cbn [dimension_in] in W |- *; rewrite ?Nat.mul_1_l in W; exact W.
  Qed.

  (* -------------------------------------------------------- the step solver *)

  Definition relaxed (relaxations : R -> mat) : Prop :=
    exists f, pr_relaxation pb = Some f /\
      forall t, exists tn, f (Some t) = Ok tn /\ relaxation_of m density tn = Ok (relaxations t).

  Definition furnished (k : kind) (relaxations : R -> mat) (w : StatementModel.world forces) : Prop :=
    match k with
    | StaticPoisson => poisson_operator ops <> None
    | Wave => poisson_operator ops <> None
    | StaticDisplacement => elasticity ops <> None
    | QuasistaticRelaxation => elasticity ops <> None /\ relaxed relaxations /\ relax_ok b w
    | QuasistaticVelocity => viscosity ops <> None /\ elasticity ops <> None
    | DynamicVelocity => viscosity ops <> None /\ elasticity ops <> None
    | _ => False
    end.

  Lemma equip k relaxations (forceful hot : forces -> Prop) heat :
    furnished k relaxations (bt_world bt) -> (asks_force k -> forceful (w_force (bt_world bt))) ->
    (k = StaticPoisson -> hot (w_temperature (bt_world bt))) ->
    equipped b k (physics_of N ops heat) relaxations forceful hot (bt_world bt).
  Proof.
    intros F HF HH. destruct body_is as (D & C & _).
    destruct RD as (_ & _ & _ & (refs & E & IP) & _).
    assert (O : b_ops b = refs) by (unfold b; rewrite E; reflexivity).
    assert (RL : b_relaxation b = pr_relaxation pb) by (unfold b; rewrite E; reflexivity).
    assert (RM : b_relaxation_matrix b = relaxation_of m density) by (unfold b; rewrite E; reflexivity).
    destruct IP as (P0 & P1 & P2 & _ & _ & _ & _ & P7). fold m in P0, P1, P2, P7. fold N in P0, P1, P2, P7.
    assert (Q1 : elasticity ops <> None -> has_op (hp (bt_world bt)) (o_elasticity refs) (2, 2)%nat (2 * N) (2 * N) (some_mat (elasticity ops))).
    { intros X. destruct (elasticity ops); [|contradiction]. apply P1. reflexivity. }
    assert (Q2 : viscosity ops <> None -> has_op (hp (bt_world bt)) (o_viscosity refs) (2, 2)%nat (2 * N) (2 * N) (some_mat (viscosity ops))).
    { intros X. destruct (viscosity ops); [|contradiction]. apply P2. reflexivity. }
    assert (Q7 : poisson_operator ops <> None -> has_op (hp (bt_world bt)) (o_poisson refs) (1, 1)%nat N N (some_mat (poisson_operator ops))).
    { intros X. destruct (poisson_operator ops); [|contradiction]. apply P7. reflexivity. }
    unfold equipped, MethodProofs.operators. rewrite D, C, O.
    split; [reflexivity|]. split; [reflexivity|]. split; [exact HF|]. split; [exact HH|].
    cbn [mass stiffness damping laplace physics_of].
    destruct k; cbn [furnished] in F; try contradiction; auto.
    - destruct F as (F1 & F2 & F3). split; [reflexivity|]. split.
      { intros t1 t2 H. rewrite RM. unfold relaxation_of. f_equal. apply relaxation2_entries. exact H. }
      split; [exact F3|]. split; [|auto]. destruct F2 as (f & F4 & F5). exists f. rewrite RL, RM. auto.
    - split; [apply Q2|apply Q1]; apply F.
    - split; [exact P0|]. split; [apply Q2|apply Q1]; apply F.
  Qed.

  Lemma keeps_nodal k width (fi fo : P2 -> R -> vec) : loaded pb width fi fo ->
    (width * N)%nat = force_length b k ->
    keeps_force integrate b k (nodal_load m (bt_basic bt) fi fo) (answers m (pr_inner pb) (pr_outer pb) width) /\
    answers m (pr_inner pb) (pr_outer pb) width (w_force (bt_world bt)).
  Proof.
    intros (L1 & L2 & L3) E. destruct plane as (_ & HF & _). split.
    - intros f t H. rewrite <- E.
      exact (integrate_answers m (bt_basic bt) fi fo (pr_inner pb) (pr_outer pb) L2 L3 HF width f t H).
    - destruct RD as (_ & _ & _ & _ & A & _). rewrite L1 in A. exact A.
  Qed.

  Lemma never_hot k p : k <> StaticPoisson -> keeps_heat integrate b p (fun _ => False) /\
    (k = StaticPoisson -> (fun _ : forces => False) (w_temperature (bt_world bt))).
  Proof. intros K. split; [intros f []|]. intros E. contradiction. Qed.

  Context {V W : Type}.
  Notation driver := (driver V I).

  Lemma solver_begun k p loads relaxations forceful hot conds (m0 : store V) (d : driver) :
    keeps_force integrate b k loads forceful -> keeps_heat integrate b p hot ->
    StatementValueProofs.conditions b k = Ok conds -> well_shaped (unknowns b k) conds ->
    equipped b k p relaxations forceful hot (bt_world bt) -> can_step k (time_step_of pb) ->
    step_solver pb bt k m0 = Ok d ->
    fit d /\ current_time (d_sv d) = 0 /\ dt_of d = time_step_of pb /\
    (exists x0, updated integrate b k p loads relaxations forceful hot conds x0 (dt_of d) 0 (inner (d_sv d))) /\
    equipped b k p relaxations forceful hot (m_world (inner (d_sv d))).
  Proof.
    intros KF KH HC HW E S H. unfold step_solver, new_solver in H.
    repeat match type of H with context [let '(_, _) := alloc ?mm ?x in _] => unfold alloc at 1 in H; cbv beta iota in H end.
    match type of H with context [setup ?a1 ?a2 ?a3 ?a4 ?xx ?dd] => set (x0 := xx) in H end.
    destruct (MethodProofs.setup_updated integrate b k p loads relaxations forceful hot KF KH conds HC HW
      (bt_world bt) x0 (time_step_of pb) E S) as (i & SU & U).
    change (setup integrate b k (bt_world bt) x0 (time_step_of pb)) with
      (setup (integrate_forces (bt_mesh bt) (bt_basic bt)) (bt_body bt) k (bt_world bt) x0 (time_step_of pb)) in SU.
    rewrite SU in H. injection H as <-. cbn [d_sv d_mem current_time inner].
    split; [|split; [reflexivity|split; [reflexivity|split; [exists x0; exact U|exact (proj1 U)]]]].
    unfold fit, solver_refs, room. cbn [d_sv d_mem cells b_vector u_vector v_vector t_vector p_vector].
    rewrite !app_length. cbn [List.length]. split.
    - repeat constructor; cbn [In]; lia.
    - repeat constructor; lia.
  Qed.

  (* -------------------------------------------------------- weak forms *)

  Lemma takes_fixed dim conds law y : (forall dof v, prescribed conds dof v <->
        exists n k p, fixed_node m id n /\ (k < dim)%nat /\ nth_error (m_nodes m) n = Some p /\
          dof = (k * N + n)%nat /\ v = g p) ->
    obeys (dim * N) (prescribed conds) law y -> takes m id dim g y.
  Proof. intros HP [H _] n k p Fx Hk Hp. apply H. apply HP. exists n, k, p. auto. Qed.

  Lemma vanishes_fixed dim conds v : (forall dof v, prescribed conds dof v <->
        exists n k p, fixed_node m id n /\ (k < dim)%nat /\ nth_error (m_nodes m) n = Some p /\
          dof = (k * N + n)%nat /\ v = g p) ->
    vanishes m id dim v -> forall dof y, prescribed conds dof y -> v dof = 0.
  Proof. intros HP H dof y Hy. apply HP in Hy. destruct Hy as (n & k & p & A & B & _ & -> & _). apply H; auto. Qed.

  Lemma loads_work width fi fo t v :
    sum (width * N) (fun a => v a * nodal_load m (bt_basic bt) fi fo t a)
    = load_work coord2 zero2 m width (fun p => fi p t) (fun p => fo p t) v.
  Proof.
    destruct plane as (HT & HF & _). destruct RD as (_ & HB & _).
    exact (load_power m els (bt_basic bt) fi fo HF HT eq_refl HB width t v).
  Qed.

  Lemma operators_are : ops = get_dynamics2 N (pr_material pb) (U (basic2 points els)) (FemModel.V (basic2 points els)) (w_matrix2 points els density).
  Proof. destruct RD as (_ & _ & HO & _). exact (reinit2_is _ _ _ _ _ _ (proj1 plane) HO). Qed.

  Lemma elastic_work mu la v u G H : elastic (pr_material pb) = Some (mu, la) ->
    gradients coord2 zero2 m v G -> gradients coord2 zero2 m u H ->
    sum (2 * N) (fun i => v i * mv (2 * N) (some_mat (elasticity ops)) u i)
    = stress_work coord2 zero2 m density mu la G H.
  Proof.
    intros E HG HH. destruct RD as (_ & _ & HO & _).
    assert (X : exists A, elasticity ops = Some A) by (rewrite operators_are; cbn [elasticity get_dynamics2]; rewrite E; eexists; reflexivity).
    destruct X as [A X]. rewrite X. cbn [some_mat]. rewrite <- bilinear_sum.
    exact (proj1 (elasticity2_all N points els _ density ops (proj1 plane) HO mu la A E X) v u G H HG HH).
  Qed.
  Lemma viscous_work th ze v u G H : viscous (pr_material pb) = Some (th, ze) ->
    gradients coord2 zero2 m v G -> gradients coord2 zero2 m u H ->
    sum (2 * N) (fun i => v i * mv (2 * N) (some_mat (viscosity ops)) u i)
    = stress_work coord2 zero2 m density th ze G H.
  Proof.
    intros E HG HH. destruct RD as (_ & _ & HO & _).
    assert (X : exists A, viscosity ops = Some A) by (rewrite operators_are; cbn [viscosity get_dynamics2]; rewrite E; eexists; reflexivity).
    destruct X as [A X]. rewrite X. cbn [some_mat]. rewrite <- bilinear_sum.
    exact (proj1 (viscosity2_all N points els _ density ops th ze A (proj1 plane) HO E X) v u G H HG HH).
  Qed.
  Lemma membrane_work c v u G H : membrane (pr_material pb) = Some c ->
    gradient coord2 zero2 m v G -> gradient coord2 zero2 m u H ->
    sum N (fun i => v i * mv N (some_mat (poisson_operator ops)) u i) = flux_work coord2 zero2 m density c G H.
  Proof.
    intros E HG HH. destruct RD as (_ & _ & HO & _).
    assert (X : exists A, poisson_operator ops = Some A) by (rewrite operators_are; cbn [poisson_operator get_dynamics2]; rewrite E; eexists; reflexivity).
    destruct X as [A X]. rewrite X. cbn [some_mat]. rewrite <- bilinear_sum.
    exact (poisson2_is N points els _ density ops (proj1 plane) HO c A E X v u G H HG HH).
  Qed.
  Lemma mass_work v a :
    sum (2 * N) (fun i => v i * mv (2 * N) (acceleration_operator ops) a i)
    = inertia_work coord2 zero2 m 2 (mass_density (pr_material pb)) a v.
  Proof.
    destruct RD as (_ & _ & HO & _). rewrite <- bilinear_sum.
    exact (mass2_form N points els _ density ops (proj1 plane) HO v a).
  Qed.
  (* the first block of the mass matrix *)
  Lemma mass_work_scalar v a :
    sum N (fun i => v i * mv N (acceleration_operator ops) a i)
    = inertia_work coord2 zero2 m 1 (mass_density (pr_material pb)) a v.
  Proof.
    set (pad := fun (x : vec) i => if (i <? N)%nat then x i else 0).
    assert (Z : forall (x : vec), sum (2 * N) (pad x) = sum N x).
    { intros x. replace (2 * N)%nat with (N + N)%nat by lia. rewrite sum_split. 
      rewrite (sum_0 N (fun i => pad x (N + i)%nat)), Rplus_0_r.
      2:{ intros i Hi. unfold pad. destruct (Nat.ltb_spec (N + i) N); [lia|reflexivity]. }
      apply sum_ext. intros i Hi. unfold pad. destruct (Nat.ltb_spec i N); [reflexivity|lia]. }
    rewrite <- (Z (fun i => v i * mv N (acceleration_operator ops) a i)).
    transitivity (sum (2 * N) (fun i => pad v i * mv (2 * N) (acceleration_operator ops) (pad a) i)).
    { apply sum_ext. intros i Hi. unfold pad at 1 2. destruct (i <? N)%nat; [|ring]. f_equal. unfold mv.
      rewrite <- (Z (fun j => acceleration_operator ops i j * a j)). apply sum_ext. intros j Hj. unfold pad.
      destruct (j <? N)%nat; ring. }
    rewrite mass_work. unfold inertia_work. f_equal. cbn [sum].
    destruct plane as ((HR & HL & _) & _). fold els.
    assert (NN : forall e k, In e els -> (k < 3)%nat -> (nth k e 0 < N)%nat).
    { intros e k He Hk. unfold in_range in HR. rewrite Forall_forall in HR, HL. specialize (HR e He). rewrite Forall_forall in HR. apply HR. apply nth_In. rewrite (HL e He). exact Hk. }
    assert (P0 : forall x e k, In e els -> (k < 3)%nat -> component N (pad x) 0 (nth k e 0%nat) = component N x 0 (nth k e 0%nat)).
    { intros x e k He Hk. unfold component, pad. cbn [Nat.mul Nat.add]. destruct (Nat.ltb_spec (nth k e 0%nat) N); [reflexivity|]. specialize (NN e k He Hk). lia. }
    assert (P1 : forall x e k, component N (pad x) 1 (nth k e 0%nat) = 0).
    { intros x e k. unfold component, pad. destruct (Nat.ltb_spec (1 * N + nth k e 0%nat) N); [lia|reflexivity]. }
    fold N. fold points. fold els. unfold component. cbn [sum].
    rewrite !Rplus_0_l.
    match goal with |- ?a + ?b = ?c => assert (B0 : b = 0) end.
    { unfold integral. rewrite (lsum_ext _ _ (fun _ => 0)); [apply lsum_0; auto|].
      intros e He. unfold mean_product. cbn [sum].
      pose proof (P1 v e) as Q1. pose proof (P1 a e) as Q2. unfold component in Q1, Q2. rewrite !Q1, !Q2. unfold Rdiv. ring. }
    rewrite B0, Rplus_0_r. unfold integral. apply lsum_ext. intros e He. f_equal. unfold mean_product. cbn [sum].
    pose proof (fun k => P0 v e k He) as Q1. pose proof (fun k => P0 a e k He) as Q2. unfold component in Q1, Q2. rewrite !Q1, !Q2 by lia. reflexivity.
  Qed.

  (* -------------------------------------------------------- runs *)

  Definition sound_answer (k : kind) (answer : I -> vec -> vec -> vec -> R -> result (nat * vec)) : Prop :=
    forall p loads relaxations forceful hot conds, StatementValueProofs.conditions b k = Ok conds ->
    well_shaped (unknowns b k) conds -> solves_held integrate b k p loads relaxations forceful hot conds answer.

  Lemma exact_sound k answer : answers_exactly (unknowns b k) answer -> sound_answer k answer.
  Proof.
    intros A p loads relaxations forceful hot conds _ _ x dt t i g0 v u len y (_ & L & _) H.
    exact (A _ _ _ _ _ _ _ L H).
  Qed.
  Lemma direct_sound k linsolve : (forall n A r x, linsolve n A r = Ok x -> solves n A r x) ->
    sound_answer k (direct_answer b k linsolve).
  Proof. intros A p loads relaxations forceful hot conds HC HW. apply direct_solves; assumption. Qed.

  Lemma elastic_some mu la : elastic (pr_material pb) = Some (mu, la) -> elasticity ops <> None.
  Proof. intros E. rewrite operators_are. cbn [elasticity get_dynamics2]. rewrite E. discriminate. Qed.
  Lemma viscous_some th ze : viscous (pr_material pb) = Some (th, ze) -> viscosity ops <> None.
  Proof. intros E. rewrite operators_are. cbn [viscosity get_dynamics2]. rewrite E. discriminate. Qed.
  Lemma membrane_some c : membrane (pr_material pb) = Some c -> poisson_operator ops <> None.
  Proof. intros E. rewrite operators_are. cbn [poisson_operator get_dynamics2]. rewrite E. discriminate. Qed.

  Variable answer : I -> vec -> vec -> vec -> R -> result (nat * vec).
  Variable cls : solver_class.
  Variables fi fo : P2 -> R -> vec.
  Notation loads := (nodal_load m (bt_basic bt) fi fo).
  Notation iterate k := (MethodModel.iterate integrate b k cls).
  Notation look := (@look V W).

  Lemma static_posed mu la (m0 : store V) (d d' : driver) given u0 (s : state W) :
    loaded pb 2 fi fo -> elastic (pr_material pb) = Some (mu, la) -> sound_answer StaticDisplacement answer ->
    (forall g, iterate_variables cls g = None) ->
    step_solver pb bt StaticDisplacement m0 = Ok d -> in_stock (d_mem d) given ->
    static_solve (b_dimension b) (b_count b) (start_positions bt) (iterate StaticDisplacement) answer u0 given d = (d', Ok s) ->
    takes m id 2 g (view_displacement (look (d_mem d') s)) /\
    balances coord2 zero2 m density id mu la (fun p => fi p 0) (fun p => fo p 0) (view_displacement (look (d_mem d') s)).
  Proof.
    intros LD EL SA ID HS GV H. set (k := StaticDisplacement) in *. destruct body_is as (D & C & _).
    destruct (fixed_conds 2) as (conds & MC & WS & CN & HP).
    destruct (fixed_size k conds ltac:(discriminate) MC WS) as (HC & HW).
    assert (FL : (2 * N)%nat = force_length b k) by (unfold force_length, k; rewrite D, C; reflexivity).
    destruct (keeps_nodal k 2 fi fo LD FL) as (KF & AF).
    destruct (never_hot k (physics_of N ops (fun _ => 0)) ltac:(discriminate)) as (KH & NH).
    assert (EQ := equip k (fun _ _ _ => 0) (answers m (pr_inner pb) (pr_outer pb) 2) (fun _ => False) (fun _ => 0) (elastic_some _ _ EL : furnished k _ _) (fun _ => AF) NH).
    destruct (solver_begun k _ _ _ (answers m (pr_inner pb) (pr_outer pb) 2) (fun _ => False) conds m0 d KF KH HC HW EQ Logic.I HS) as (Ft & CT & DT & (x0 & U) & E).
    assert (O := static_obeys integrate b k _ _ _ (answers m (pr_inner pb) (pr_outer pb) 2) (fun _ => False) conds cls answer (start_positions bt) KF KH HC HW CN
      (SA _ _ _ _ _ _ HC HW) u0 given d d' s x0 0 eq_refl Ft GV U (or_intror ID) H).
    set (u := view_displacement (look (d_mem d') s)) in *. unfold unknowns in O. rewrite D, C in O. unfold k in O. cbv iota in O.
    split; [exact (takes_fixed 2 conds _ u HP O)|].
    intros v G K VN HG HK. rewrite <- (elastic_work mu la v u G K EL HG HK), <- loads_work.
    apply (free_work (2 * N) (prescribed conds) _ _ _ _ v O (fun i L => L)).
    exact (vanishes_fixed 2 conds v HP VN).
  Qed.

  Hypothesis CS : can_step DynamicVelocity (time_step_of pb).

  Lemma dynamic_posed th ze mu la (m0 : store V) (d d' : driver) n u0 v0 out given (l : list (state W)) :
    density = None -> loaded pb 2 fi fo -> elastic (pr_material pb) = Some (mu, la) -> viscous (pr_material pb) = Some (th, ze) ->
    sound_answer DynamicVelocity answer -> renews integrate b DynamicVelocity cls ->
    step_solver pb bt DynamicVelocity m0 = Ok d -> in_stock (d_mem d) given -> non_decreasing 0 (requested n out) ->
    dynamic_solve (b_dimension b) (b_count b) (start_positions bt) (iterate DynamicVelocity) answer n u0 v0 out given d = (d', Ok l) ->
    exists u v, motion (time_step_of pb) (takes m id 2 g)
        (fun t a w y => moves coord2 zero2 m id (mass_density (pr_material pb)) th ze mu la (fun p => fi p t) (fun p => fo p t) a w y)
        u0 v0 (TimeTheorems.last_step n out) u v /\
      List.length l = List.length (requested n out) /\
      forall j q (s : state W), nth_error (requested n out) j = Some q -> nth_error l j = Some s ->
        shows (time_step_of pb) u v (Z.to_nat q) (look (d_mem d') s).
  Proof.
    intros DN LD EL VI SA RN HS GV ND H. set (k := DynamicVelocity) in *. destruct body_is as (D & C & _).
    destruct (fixed_conds 2) as (conds & MC & WS & CN & HP).
    destruct (fixed_size k conds ltac:(discriminate) MC WS) as (HC & HW).
    assert (FL : (2 * N)%nat = force_length b k) by (unfold force_length, k; rewrite D, C; reflexivity).
    destruct (keeps_nodal k 2 fi fo LD FL) as (KF & AF).
    destruct (never_hot k (physics_of N ops (fun _ => 0)) ltac:(discriminate)) as (KH & NH).
    assert (EQ := equip k (fun _ _ _ => 0) (answers m (pr_inner pb) (pr_outer pb) 2) (fun _ => False) (fun _ => 0) (conj (viscous_some _ _ VI) (elastic_some _ _ EL) : furnished k _ _) (fun _ => AF) NH).
    destruct (solver_begun k _ _ _ (answers m (pr_inner pb) (pr_outer pb) 2) (fun _ => False) conds m0 d KF KH HC HW EQ CS HS) as (Ft & CT & DT & (x0 & U) & E).
    rewrite <- DT in *.
    destruct (dynamic_governed integrate b k _ _ _ (answers m (pr_inner pb) (pr_outer pb) 2) (fun _ => False) conds cls answer (start_positions bt) KF KH HC HW CN
      (SA _ _ _ _ _ _ HC HW) RN n u0 v0 out given d d' l Ft GV ND CT E CS H) as (u & v & (G1 & G2 & G3) & LL & SH).
    exists u, v. split; [|split; [exact LL|exact SH]]. split; [exact G1|]. split; [exact G2|].
    intros j Hj. destruct (G3 j Hj) as (G4 & O). unfold unknowns in O. rewrite D, C in O. unfold k in O. cbv iota in O.
    split; [exact G4|]. split; [exact (takes_fixed 2 conds _ _ HP O)|].
    intros y G Hh K VN HG HH HK.
    assert (EU : u (S j) = (fun i => u j i + dt_of d * v (S j) i)) by (apply functional_extensionality; exact G4).
    rewrite <- mass_work, <- loads_work, <- DN.
    rewrite <- (viscous_work th ze y (v (S j)) G Hh VI HG HH), <- (elastic_work mu la y (u (S j)) G K EL HG HK).
    rewrite <- !sum_plus.
    rewrite <- (free_work (2 * N) (prescribed conds) _ (fun i =>
        mv (2 * N) (acceleration_operator ops) (fun a => (v (S j) a - v j a) / dt_of d) i
        + mv (2 * N) (some_mat (viscosity ops)) (v (S j)) i + mv (2 * N) (some_mat (elasticity ops)) (u (S j)) i)
        (loads (INR j * dt_of d)) (v (S j)) y O); [| |exact (vanishes_fixed 2 conds y HP VN)].
    - apply sum_ext. intros i _. ring.
    - intros i L. unfold run_law, law_of, dynamic_law in L. cbn [moment ph_n mass damping stiffness StatementSpec.load physics_of ph_dt] in L.
      rewrite Rplus_0_r in L. rewrite EU. exact L.
  Qed.

  Lemma quasistatic_posed th ze mu la (m0 : store V) (d d' : driver) n u0 v0 out given (l : list (state W)) :
    density = None -> loaded pb 2 fi fo -> elastic (pr_material pb) = Some (mu, la) -> viscous (pr_material pb) = Some (th, ze) ->
    sound_answer QuasistaticVelocity answer -> renews integrate b QuasistaticVelocity cls ->
    step_solver pb bt QuasistaticVelocity m0 = Ok d -> in_stock (d_mem d) given -> non_decreasing 0 (requested n out) ->
    dynamic_solve (b_dimension b) (b_count b) (start_positions bt) (iterate QuasistaticVelocity) answer n u0 v0 out given d = (d', Ok l) ->
    exists u v, motion (time_step_of pb) (takes m id 2 g)
        (fun t _ w y => flows coord2 zero2 m id th ze mu la (fun p => fi p t) (fun p => fo p t) w y)
        u0 v0 (TimeTheorems.last_step n out) u v /\
      List.length l = List.length (requested n out) /\
      forall j q (s : state W), nth_error (requested n out) j = Some q -> nth_error l j = Some s ->
        shows (time_step_of pb) u v (Z.to_nat q) (look (d_mem d') s).
  Proof.
    intros DN LD EL VI SA RN HS GV ND H. set (k := QuasistaticVelocity) in *. destruct body_is as (D & C & _).
    destruct (fixed_conds 2) as (conds & MC & WS & CN & HP).
    destruct (fixed_size k conds ltac:(discriminate) MC WS) as (HC & HW).
    assert (FL : (2 * N)%nat = force_length b k) by (unfold force_length, k; rewrite D, C; reflexivity).
    destruct (keeps_nodal k 2 fi fo LD FL) as (KF & AF).
    destruct (never_hot k (physics_of N ops (fun _ => 0)) ltac:(discriminate)) as (KH & NH).
    assert (EQ := equip k (fun _ _ _ => 0) (answers m (pr_inner pb) (pr_outer pb) 2) (fun _ => False) (fun _ => 0) (conj (viscous_some _ _ VI) (elastic_some _ _ EL) : furnished k _ _) (fun _ => AF) NH).
    destruct (solver_begun k _ _ _ (answers m (pr_inner pb) (pr_outer pb) 2) (fun _ => False) conds m0 d KF KH HC HW EQ CS HS) as (Ft & CT & DT & (x0 & U) & E).
    rewrite <- DT in *.
    destruct (dynamic_governed integrate b k _ _ _ (answers m (pr_inner pb) (pr_outer pb) 2) (fun _ => False) conds cls answer (start_positions bt) KF KH HC HW CN
      (SA _ _ _ _ _ _ HC HW) RN n u0 v0 out given d d' l Ft GV ND CT E CS H) as (u & v & (G1 & G2 & G3) & LL & SH).
    exists u, v. split; [|split; [exact LL|exact SH]]. split; [exact G1|]. split; [exact G2|].
    intros j Hj. destruct (G3 j Hj) as (G4 & O). unfold unknowns in O. rewrite D, C in O. unfold k in O. cbv iota in O.
    split; [exact G4|]. split; [exact (takes_fixed 2 conds _ _ HP O)|].
    intros y G Hh K VN HG HH HK.
    assert (EU : u (S j) = (fun i => u j i + dt_of d * v (S j) i)) by (apply functional_extensionality; exact G4).
    rewrite <- loads_work, <- DN.
    rewrite <- (viscous_work th ze y (v (S j)) G Hh VI HG HH), <- (elastic_work mu la y (u (S j)) G K EL HG HK).
    rewrite <- !sum_plus.
    rewrite <- (free_work (2 * N) (prescribed conds) _ (fun i =>
        mv (2 * N) (some_mat (viscosity ops)) (v (S j)) i + mv (2 * N) (some_mat (elasticity ops)) (u (S j)) i)
        (loads (INR j * dt_of d)) (v (S j)) y O); [| |exact (vanishes_fixed 2 conds y HP VN)].
    - apply sum_ext. intros i _. ring.
    - intros i L. unfold run_law, law_of, quasistatic_law in L. cbn [moment ph_n mass damping stiffness StatementSpec.load physics_of ph_dt] in L.
      rewrite Rplus_0_r in L. rewrite EU. exact L.
  Qed.

  Lemma wave_posed c (m0 : store V) (d d' : driver) n u0 v0 out given s0 (l : list (state W)) :
    density = None -> loaded pb 1 fi fo -> membrane (pr_material pb) = Some c ->
    sound_answer Wave answer -> renews integrate b Wave cls ->
    step_solver pb bt Wave m0 = Ok d -> in_stock (d_mem d) given -> non_decreasing 0 (requested n out) ->
    wave_solve (b_dimension b) (b_count b) (start_positions bt) (iterate Wave) answer n u0 v0 None out given d = (d', s0, Ok l) ->
    exists u v, motion (time_step_of pb) (takes m id 1 g)
        (fun t a _ y => swings coord2 zero2 m id (mass_density (pr_material pb)) c (fun p => fi p t) (fun p => fo p t) a y)
        u0 v0 (TimeTheorems.last_step n out) u v /\
      List.length l = List.length (requested n out) /\
      forall j q (s : state W), nth_error (requested n out) j = Some q -> nth_error l j = Some s ->
        shows (time_step_of pb) u v (Z.to_nat q) (look (d_mem d') s).
  Proof.
    intros DN LD ME SA RN HS GV ND H. set (k := Wave) in *. destruct body_is as (D & C & _).
    destruct (fixed_conds 1) as (conds & MC & WS & CN & HP).
    destruct (fixed_size k conds ltac:(discriminate) MC WS) as (HC & HW).
    assert (FL : (1 * N)%nat = force_length b k) by (unfold force_length, k; rewrite C; lia).
    destruct (keeps_nodal k 1 fi fo LD FL) as (KF & AF).
    destruct (never_hot k (physics_of N ops (fun _ => 0)) ltac:(discriminate)) as (KH & NH).
    assert (EQ := equip k (fun _ _ _ => 0) (answers m (pr_inner pb) (pr_outer pb) 1) (fun _ => False) (fun _ => 0) (membrane_some _ ME : furnished k _ _) (fun _ => AF) NH).
    destruct (solver_begun k _ _ _ (answers m (pr_inner pb) (pr_outer pb) 1) (fun _ => False) conds m0 d KF KH HC HW EQ CS HS) as (Ft & CT & DT & (x0 & U) & E).
    rewrite <- DT in *.
    destruct (wave_governed integrate b k _ _ _ (answers m (pr_inner pb) (pr_outer pb) 1) (fun _ => False) conds cls answer (start_positions bt) KF KH HC HW CN
      (SA _ _ _ _ _ _ HC HW) RN n u0 v0 out given d d' s0 l Ft GV ND E CS H) as (u & v & (G1 & G2 & G3) & LL & SH).
    exists u, v. split; [|split; [exact LL|exact SH]]. split; [exact G1|]. split; [exact G2|].
    intros j Hj. destruct (G3 j Hj) as (G4 & O). unfold unknowns in O. rewrite C in O. unfold k in O. cbv iota in O.
    rewrite <- (Nat.mul_1_l N) in O.
    split; [exact G4|]. split; [exact (takes_fixed 1 conds _ _ HP O)|].
    intros y G K VN HG HK.
    assert (EU : u (S j) = (fun i => u j i + dt_of d * v (S j) i)) by (apply functional_extensionality; exact G4).
    rewrite <- mass_work_scalar, <- loads_work, <- DN.
    rewrite <- (membrane_work c y (u (S j)) G K ME HG HK).
    rewrite <- !sum_plus. rewrite Nat.mul_1_l in O |- *.
    rewrite <- (free_work N (prescribed conds) _ (fun i =>
        mv N (acceleration_operator ops) (fun a => (v (S j) a - v j a) / dt_of d) i
        + mv N (some_mat (poisson_operator ops)) (u (S j)) i)
        (loads (INR j * dt_of d)) (v (S j)) y O); [| |exact (vanishes_fixed 1 conds y HP VN)].
    - apply sum_ext. intros i _. ring.
    - intros i L. unfold run_law, law_of, wave_law in L. cbn [moment ph_n ph_N mass laplace StatementSpec.load physics_of ph_dt] in L.
      rewrite EU. exact L.
  Qed.

  Lemma relaxation_posed mu la (f : option R -> result tensor) (C : R -> tensor) (m0 : store V) (d d' : driver) n b0 u0 out given (l : list (state W)) :
    density = None -> w_tensor (bt_world bt) = None ->
    loaded pb 2 fi fo -> elastic (pr_material pb) = Some (mu, la) -> pr_relaxation pb = Some f -> (forall t, f (Some t) = Ok (C t)) ->
    sound_answer QuasistaticRelaxation answer -> renews integrate b QuasistaticRelaxation cls ->
    step_solver pb bt QuasistaticRelaxation m0 = Ok d -> in_stock (d_mem d) given -> non_decreasing 0 (requested n out) ->
    relaxation_solve (b_dimension b) (b_count b) (start_positions bt) (iterate QuasistaticRelaxation) answer n b0 u0 out given d = (d', Ok l) ->
    exists ab u, motion (time_step_of pb) (takes m id 2 g)
        (fun t _ w y => creeps coord2 zero2 m id mu la (C t) (fun p => fi p t) (fun p => fo p t) y w)
        b0 u0 (TimeTheorems.last_step n out) ab u /\
      List.length l = List.length (requested n out) /\
      forall j q (s : state W), nth_error (requested n out) j = Some q -> nth_error l j = Some s ->
        shows_creep (time_step_of pb) ab u (Z.to_nat q) (look (d_mem d') s).
  Proof.
    intros DN TN LD EL RF RC SA RN HS GV ND H. set (k := QuasistaticRelaxation) in *. destruct body_is as (D & CC & _).
    destruct (fixed_conds 2) as (conds & MC & WS & CN & HP).
    destruct (fixed_size k conds ltac:(discriminate) MC WS) as (HC & HW).
    assert (FL : (2 * N)%nat = force_length b k) by (unfold force_length, k; rewrite D, CC; reflexivity).
    destruct (keeps_nodal k 2 fi fo LD FL) as (KF & AF).
    destruct (never_hot k (physics_of N ops (fun _ => 0)) ltac:(discriminate)) as (KH & NH).
    set (rel := fun t => relaxation2 N (w_matrix2 points els density) (C t)).
    assert (FU : furnished k rel (bt_world bt)).
    { split; [exact (elastic_some _ _ EL)|]. split.
      - exists f. split; [exact RF|]. intros t. exists (C t). split; [apply RC|reflexivity].
      - intros tn Q. congruence. }
    assert (EQ := equip k rel (answers m (pr_inner pb) (pr_outer pb) 2) (fun _ => False) (fun _ => 0) FU (fun _ => AF) NH).
    destruct (solver_begun k _ _ _ (answers m (pr_inner pb) (pr_outer pb) 2) (fun _ => False) conds m0 d KF KH HC HW EQ CS HS) as (Ft & CT & DT & (x0 & U) & E).
    rewrite <- DT in *.
    destruct (relaxation_governed integrate b k _ _ _ (answers m (pr_inner pb) (pr_outer pb) 2) (fun _ => False) conds cls answer (start_positions bt) KF KH HC HW CN
      (SA _ _ _ _ _ _ HC HW) RN n b0 u0 out given d d' l Ft GV ND CT E CS H) as (ab & u & (G1 & G2 & G3) & LL & SH).
    exists ab, u. split; [|split; [exact LL|exact SH]]. split; [exact G1|]. split; [exact G2|].
    intros j Hj. destruct (G3 j Hj) as (G4 & O). unfold unknowns in O. rewrite D, CC in O. unfold k in O. cbv iota in O.
    split; [exact G4|]. split; [exact (takes_fixed 2 conds _ _ HP O)|].
    intros y G Hh K VN HG HH HK.
    assert (EU : ab (S j) = (fun i => ab j i + dt_of d * u (S j) i)) by (apply functional_extensionality; exact G4).
    assert (MW : sum (2 * N) (fun i => y i * mv (2 * N) (rel (INR j * dt_of d)) (ab (S j)) i)
      = mesh_integral (element_area points) density els (fun e => memory_density (C (INR j * dt_of d)) (fun c => G c e) (fun c => K c e))).
    { rewrite <- bilinear_sum. exact (proj1 (relaxation_2d N points els density (C (INR j * dt_of d)) (proj1 plane)) y (ab (S j)) G K HG HK). }
    rewrite <- loads_work, <- DN.
    change (node_table coord2 zero2 (m_nodes m)) with points. change (m_elements m) with els.
    rewrite <- MW, <- (elastic_work mu la y (u (S j)) G Hh EL HG HH).
    rewrite <- !sum_plus.
    rewrite <- (free_work (2 * N) (prescribed conds) _ (fun i =>
        mv (2 * N) (some_mat (elasticity ops)) (u (S j)) i + mv (2 * N) (rel (INR j * dt_of d)) (ab (S j)) i)
        (loads (INR j * dt_of d)) (u (S j)) y O); [| |exact (vanishes_fixed 2 conds y HP VN)].
    - apply sum_ext. intros i _. ring.
    - intros i L. unfold creep_law, law_of, relaxation_law in L. cbn [moment ph_n mass memory stiffness StatementSpec.load physics_of ph_dt] in L.
      rewrite EU. exact L.
  Qed.

  (* the Poisson problem: the temperature of the state returned *)
  Lemma poisson_posed c (m0 : store V) (d d' : driver) (s : state W) :
    heated pb fi fo -> membrane (pr_material pb) = Some c ->
    sound_answer StaticPoisson answer -> (forall g, iterate_variables cls g = None) ->
    step_solver pb bt StaticPoisson m0 = Ok d ->
    poisson_solve (start_positions bt) (iterate StaticPoisson) answer d = (d', Ok s) ->
    exists cell, extra s = Thermal cell /\
    takes m id 1 g (StateModel.load (d_mem d') cell) /\
    rests coord2 zero2 m density id c (fun p => fi p 0) (fun p => fo p 0) (StateModel.load (d_mem d') cell).
  Proof.
    intros (si & so & HE & Hi & Ho) ME SA ID HS H. set (k := StaticPoisson) in *. destruct body_is as (D & C & _).
    destruct plane as (_ & HF & _).
    destruct (fixed_conds 1) as (conds & MC & WS & CN & HP).
    destruct (fixed_size k conds ltac:(discriminate) MC WS) as (HC & HW).
    assert (AH : answers m si so 1 (w_temperature (bt_world bt))).
    { destruct RD as (_ & _ & _ & _ & _ & AH). exact (AH _ _ _ HE). }
    assert (KF : keeps_force integrate b k loads (fun _ => False)) by (intros f t []).
    assert (KH : keeps_heat integrate b (physics_of N ops (loads 0)) (answers m si so 1)).
    { intros f A. rewrite C. cbn [heat physics_of]. rewrite <- (Nat.mul_1_l N).
      exact (integrate_answers m (bt_basic bt) fi fo si so Hi Ho HF 1 f 0 A). }
    assert (EQ := equip k (fun _ _ _ => 0) (fun _ => False) (answers m si so 1) (loads 0) (membrane_some _ ME : furnished k _ _)
      (fun F => match F with end) (fun _ => AH)).
    destruct (solver_begun k _ _ _ (fun _ => False) (answers m si so 1) conds m0 d KF KH HC HW EQ Logic.I HS) as (Ft & CT & DT & (x0 & U) & E).
    unfold poisson_solve in H. destruct (new_state (start_positions bt) TemperatureState (d_mem d)) as [m1 s1] eqn:ES.
    assert (EX : exists t, extra s1 = Thermal t) by (unfold new_state in ES; injection ES as _ <-; eexists; reflexivity).
    destruct EX as [t EX]. rewrite EX in H. unfold call_iterate in H. cbn [sv mem] in H.
    rewrite (iterate_idle integrate b k cls _ _ _ _ ID) in H. cbn [sv mem inner with_inner] in H.
    destruct (answer _ _ _ _ _) as [[len x]|e] eqn:EA; [|discriminate].
    unfold alloc, leave in H. cbn [mem sv st done to_do fst snd] in H. injection H as <- <-.
    apply (SA _ _ _ _ _ _ HC HW _ _ _ _ _ _ _ _ _ U) in EA.
    apply (accepted_obeys integrate b k (physics_of N ops (loads 0)) loads _ (fun _ => False) (answers m si so 1) conds HC HW CN _ _ _ _ _ U) in EA.
    eexists. split; [unfold set_extra; cbn [st]; rewrite EX; reflexivity|]. cbn [d_mem]. unfold StateModel.load. cbn [cells].
    rewrite app_nth2, Nat.sub_diag by lia. cbn [nth].
    unfold unknowns in EA. rewrite C in EA. unfold k in EA. cbv iota in EA. rewrite <- (Nat.mul_1_l N) in EA.
    split; [exact (takes_fixed 1 conds _ _ HP EA)|]. intros y G K VN HG HK.
    rewrite <- (membrane_work c y x G K ME HG HK), <- loads_work. rewrite Nat.mul_1_l in EA |- *.
    exact (free_work N (prescribed conds) _ _ _ _ y EA (fun i L => L) (vanishes_fixed 1 conds y HP VN)).
  Qed.
End Body.
