(* A body that nothing holds, under a force that is the same everywhere: it falls. *)
From Coq Require Import Reals List Arith ZArith Bool String Sorting.Sorted Lia Lra.
From Verif Require Import ListLemmas MeshBuildProofs Common PyModel RVec LinAlg MeshModel MeshBuildModel MeshSpec MeshFacesProofs NormalsModel
  FemModel FemSpec FemAssemblyProofs ForcesSpec ForcesModel DirichletSpec StatementModel StatementSpec StatementValueProofs StateModel RegistryModel
  TimeModel TimeSpec TimeProofs TimeTheorems MethodModel RunSpec RunProofs HistoryProofs SolveProofs MarchProofs
  RunStable ProblemModel ProblemSpec ProblemProofs ProblemReady ProblemTheorems ProblemUnique ProblemTotal ProblemDefaults ProblemFinal ProblemWitness
  CoupledLimitProofs ConvergenceSpec ConvergenceProofs ConvergenceFinal.
Import ListNotations.
Local Open Scope string_scope.
Local Open Scope list_scope.
Local Open Scope R_scope.

Definition never (p : P2) : bool := false.
Definition down (c : R) : vec := fun k => if (k =? 1)%nat then c else 0.
Section Fall.
  Variable a : R -> R.
  Definition drag (p : P2) (t : R) : vec := down (2 * a t).
  Definition calm (p : P2) (t : R) : vec := fun _ => 0.
  Definition fall_problem : problem :=
    mkProblem square_nodes square_elements (mkDescription [("contact", on_line 1); ("dirichlet", never)] [("dirichlet", fun l i => 0)])
      2 (fun p t => Ok (drag p t)) (fun p t => Ok (calm p t)) None (Some (1 / 2)) (mkProperties 2 (Some (4, 3)) (Some (1, 2)) None None None) None.

  Lemma fall_posed : posed fall_problem (on_line 1) never (fun _ => 0).
  Proof.
    constructor.
    - repeat constructor.
    - repeat constructor; cbn; intuition discriminate.
    - intros e [<-|[<-|[]]]; unfold det_2d, corners, node_table; cbn; lra.
    - reflexivity.
    - reflexivity.
    - eexists. split; [reflexivity|]. intros l i p H. reflexivity.
  Qed.
  Lemma fall_constructs : exists bt, construct fall_problem = Ok bt.
  Proof. apply (construct_total _ _ _ _ fall_posed); [discriminate|intros name [<-|[<-|[]]]; auto|intros p _; reflexivity]. Qed.
  Lemma fall_loaded : loaded fall_problem 2 drag calm.
  Proof. repeat split. Qed.

  Variable bt : built.
  Hypothesis PR : construct fall_problem = Ok bt.
  Notation m := (bt_mesh bt).
  Notation N := (List.length (m_nodes m)).

  (* all nodes alike *)
  Definition alike_all (c : R) : vec := fun i => down c (i / N)%nat.
  Lemma alike_component c k n : (n < N)%nat -> component N (alike_all c) k n = down c k.
  Proof. intros H. unfold component, alike_all. rewrite Nat.div_add_l by lia. rewrite Nat.div_small by exact H. rewrite Nat.add_0_r. reflexivity. Qed.

  Lemma fall_ready : exists ops, ready fall_problem bt None ops.
  Proof. destruct (built_ready _ _ _ _ fall_posed bt PR) as (ops & RD & _). eauto. Qed.
  Lemma corner e i : In e (m_elements m) -> (i < 3)%nat -> (nth i e 0 < N)%nat.
  Proof.
    intros E I. destruct fall_ready as (ops & RD). destruct (plane _ _ _ _ fall_posed bt None ops RD) as (HT & _).
    destruct HT as (HI & HL & _). rewrite Forall_forall in HL. specialize (HL e E). unfold in_range in HI. rewrite Forall_forall in HI. specialize (HI e E). rewrite Forall_forall in HI. apply HI, nth_In. change (List.length e = 3%nat) in HL. lia.
  Qed.
  Lemma alike_gradients c : gradients coord2 zero2 m (alike_all c) (fun _ _ _ => 0).
  Proof.
    intros k K e E i j I J. rewrite !alike_component by (apply corner; [exact E|lia]). rewrite sum_0 by (intros; ring). ring.
  Qed.
  Lemma fall_moves t w y : moves coord2 zero2 m never 2 1 2 4 3 (fun p => drag p t) (fun p => calm p t) (alike_all (a t)) (alike_all w) (alike_all y).
  Proof.
    intros v G H K VZ HG HH HK. destruct fall_ready as (ops & RD).
    assert (E1 := viscous_is _ _ _ _ fall_posed bt ops RD 1 2 v (alike_all w) G H eq_refl HG HH).
    rewrite <- (viscous_is _ _ _ _ fall_posed bt ops RD 1 2 v (alike_all w) G _ eq_refl HG (alike_gradients w)) in E1.
    assert (E2 := elastic_is _ _ _ _ fall_posed bt ops RD 4 3 v (alike_all y) G K eq_refl HG HK).
    rewrite <- (elastic_is _ _ _ _ fall_posed bt ops RD 4 3 v (alike_all y) G _ eq_refl HG (alike_gradients y)) in E2.
    assert (Z : forall p q, stress_work coord2 zero2 m None p q G (fun _ _ _ => 0) = 0).
    { intros p q. unfold stress_work, mesh_integral. unfold integral. apply lsum_0. intros e _. unfold elastic_density, strain, divergence.
      cbn [sum]. unfold Rdiv. ring. }
    rewrite E1, E2, !Z. unfold load_work.
    assert (SW : surface_work coord2 zero2 m 2 (fun p => calm p t) v = 0).
    { unfold surface_work. apply sum_0. intros k _. unfold face_integral. apply lsum_0. intros f _. rewrite (lsum_0 f); [unfold Rdiv; ring|]. intros n _. unfold at_nodes, calm. ring. }
    rewrite SW. unfold inertia_work, volume_work. rewrite !Rplus_0_r, <- sum_scal. apply sum_ext. intros k KL.
    unfold integral. rewrite <- lsum_scal. apply lsum_ext. intros e E.
    assert (C : forall i, (i < 3)%nat -> component N (alike_all (a t)) k (nth i e 0%nat) = down (a t) k) by (intros i I; apply alike_component, corner; assumption).
    unfold mean_product, cross_mean. cbn [sum INR]. rewrite !C by lia. unfold at_nodes, drag, down. destruct (k =? 1)%nat; field.
  Qed.
  Lemma fall_takes w : takes m never 2 (fun _ => 0) w.
  Proof. intros n k p (_ & q & _ & F). discriminate. Qed.

  (* the fall *)
  Lemma fall_true T (v u : R -> R) : true_motion m never (fun _ => 0) drag calm T 2 1 2 4 3 (fun t => alike_all (u t)) (fun t => alike_all (v t)) (fun t => alike_all (a t)).
  Proof. intros t _. split; [apply fall_takes|apply fall_moves]. Qed.
  Lemma fall_derives T (f f' : R -> R) : (forall t, 0 <= t <= T -> derivable_pt_lim f t (f' t)) ->
    derives (2 * N) T (fun t => alike_all (f t)) (fun t => alike_all (f' t)).
  Proof.
    intros D i t _ TT. unfold alike_all, down. destruct (i / N =? 1)%nat; [apply D, TT|apply derivable_pt_lim_const].
  Qed.
  Lemma fall_paced T B (f : R -> R) : 0 <= B -> (forall s t, 0 <= s <= t -> t <= T -> Rabs (f s - f t) <= B * (t - s)) ->
    paced (2 * N) T B (fun t => alike_all (f t)).
  Proof.
    intros B0 D i s t _ S1 S2. unfold alike_all, down. destruct (i / N =? 1)%nat; [apply D; assumption|]. rewrite Rminus_diag_eq, Rabs_R0 by reflexivity. apply Rmult_le_pos; lra.
  Qed.
End Fall.

(* under a constant force every displacement is late by half a step: the order of the steps is not higher than one *)
Lemma fall_lag bt : construct (fall_problem (fun _ => 1)) = Ok bt -> forall {V' W} h (answer : method forces -> vec -> vec -> vec -> R -> result (nat * vec)) cls (m0 : store V')
    (d d' : driver V' (method forces)) n out given (l : list (state W)),
  0 < h -> answers_exactly (2 * List.length (m_nodes (bt_mesh bt))) answer -> cls = DynamicGlobal \/ cls = DynamicSchur ->
  step_solver (with_step (fall_problem (fun _ => 1)) h) bt DynamicVelocity m0 = Ok d -> in_stock (d_mem d) given -> non_decreasing 0 (requested n out) ->
  dynamic_solve (b_dimension (bt_body bt)) (b_count (bt_body bt)) (start_positions bt)
    (MethodModel.iterate (integrate_forces (bt_mesh bt) (bt_basic bt)) (bt_body bt) DynamicVelocity cls) answer n (alike_all bt 0) (alike_all bt 0) out given d = (d', Ok l) ->
  forall j (s : state W) i, nth_error l j = Some s -> (List.length (m_nodes (bt_mesh bt)) <= i < 2 * List.length (m_nodes (bt_mesh bt)))%nat ->
    view_displacement (look (d_mem d') s) i = (view_time (look (d_mem d') s)) ^ 2 / 2 + h / 2 * view_time (look (d_mem d') s).
Proof.
  intros PR V' W h answer cls m0 d d' n out given l HP AE CL SS IS ND RU j s i SJ I.
  set (pb := fall_problem (fun _ => 1)) in *. assert (PO := posed_step pb _ _ _ h (fall_posed _)).
  destruct (dynamic_final (W:=W) (with_step pb h) _ _ _ PO bt PR answer (drag (fun _ => 1)) calm cls 1 2 4 3 m0 d d' n _ _ out given l
    (fall_loaded _) eq_refl eq_refl (Rgt_not_eq _ _ HP) AE CL SS IS ND RU) as (u & v & MO & LE & SH).
  destruct (nth_error (requested n out) j) as [q|] eqn:Q; [|apply nth_error_None in Q; assert (j < List.length l)%nat by (apply nth_error_Some; congruence); lia].
  destruct (SH j q s Q SJ) as (E1 & E2 & E3). rewrite E1, E2. clear E1 E2 E3.
  destruct (built_ready (with_step pb h) _ _ _ PO bt PR) as (ops & RD & _).
  assert (ST := dynamic_settled (with_step pb h) _ _ _ PO bt None ops RD Logic.I h HP eq_refl 1 2 4 3 (fun t p => drag (fun _ => 1) p t) (fun t p => calm p t) eq_refl eq_refl
    ltac:(cbn; lra) ltac:(lra) ltac:(lra) ltac:(lra) ltac:(lra)).
  assert (EX : motion h (takes (bt_mesh bt) never 2 (fun _ => 0))
    (fun t a w y => moves coord2 zero2 (bt_mesh bt) never 2 1 2 4 3 (fun p => drag (fun _ => 1) p t) (fun p => calm p t) a w y)
    (alike_all bt 0) (alike_all bt 0) (last_step n out) (fun j => alike_all bt (h * h * (INR j * (INR j + 1) / 2))) (fun j => alike_all bt (INR j * h))).
  { split; [cbn [INR]; f_equal; field|]. split; [cbn [INR]; f_equal; ring|]. intros k _. split; [|split].
    - intros x. rewrite S_INR. unfold alike_all, down. destruct (x / _ =? 1)%nat; field.
    - apply fall_takes.
    - assert (EA : (fun x => (alike_all bt (INR (S k) * h) x - alike_all bt (INR k * h) x) / h) = alike_all bt 1).
      { apply FunctionalExtensionality.functional_extensionality. intros x. rewrite S_INR. unfold alike_all, down. destruct (x / _ =? 1)%nat; field; lra. }
      rewrite EA. exact (fall_moves (fun _ => 1) bt PR (INR k * h) _ _). }
  destruct (motion_unique never (fun _ => 0) bt h 2 _ _ _ _ _ _ _ _ ST MO EX (Z.to_nat q) (requested_range n out j q ND Q)) as (EU & _).
  rewrite (EU i) by lia. cbn. unfold alike_all, down.
  assert (X : (i / List.length (m_nodes (bt_mesh bt)))%nat = 1%nat) by (symmetry; apply (Nat.div_unique _ _ _ (i - List.length (m_nodes (bt_mesh bt)))); lia).
  rewrite X. cbn. field.
Qed.

(* a body whose clamped side is carried with the velocity 1 *)
Definition carried_problem (width : nat) : problem :=
  mkProblem square_nodes square_elements (mkDescription [("contact", on_line 1); ("dirichlet", on_line 0)] [("dirichlet", fun l i => 1)])
    width (fun p t => Ok (calm p t)) (fun p t => Ok (calm p t)) None (Some (1 / 2)) (mkProperties 2 (Some (4, 3)) (Some (1, 2)) (Some 5) None None) None.
Lemma carried_posed w : posed (carried_problem w) (on_line 1) (on_line 0) (fun _ => 1).
Proof.
  constructor.
  - repeat constructor.
  - repeat constructor; cbn; intuition discriminate.
  - intros e [<-|[<-|[]]]; unfold det_2d, corners, node_table; cbn; lra.
  - reflexivity.
  - reflexivity.
  - eexists. split; [reflexivity|]. intros l i p H. reflexivity.
Qed.
Lemma carried_constructs w : exists bt, construct (carried_problem w) = Ok bt.
Proof. apply (construct_total _ _ _ _ (carried_posed w)); [discriminate|intros name [<-|[<-|[]]]; auto|exact square_separate]. Qed.
Lemma carried_loaded w : loaded (carried_problem w) w calm calm.
Proof. repeat split. Qed.
Lemma carried_clamped w : clamped_mesh (carried_problem w) (on_line 0).
Proof. exact (square_clamped w given_weight None). Qed.
Section Carried.
  Variables (w : nat) (bt : built).
  Hypothesis PR : construct (carried_problem w) = Ok bt.
  Notation m := (bt_mesh bt).
  Notation N := (List.length (m_nodes m)).
  Lemma calm_work k v t s : load_work coord2 zero2 m k (fun p => calm p t) (fun p => calm p s) v = 0.
  Proof.
    unfold load_work, volume_work, surface_work, face_integral, integral. rewrite !sum_0; [ring| |]; intros c _; apply lsum_0; intros f _.
    - rewrite (lsum_0 f); [unfold Rdiv; ring|]. intros n _. unfold at_nodes, calm. ring.
    - unfold cross_mean, at_nodes, calm. cbn [sum]. unfold Rdiv. ring.
  Qed.
  Lemma level_gradients c : gradients coord2 zero2 m (fun _ => c) (fun _ _ _ => 0).
  Proof. intros k K e E i j I J. unfold component. rewrite sum_0 by (intros; ring). ring. Qed.
  Lemma level_gradient c : gradient coord2 zero2 m (fun _ => c) (fun _ _ => 0).
  Proof. intros e E i j I J. rewrite sum_0 by (intros; ring). ring. Qed.
  Lemma carried_flow T : true_flow m (on_line 0) (fun _ => 1) calm calm T 1 2 4 3 (fun t _ => t) (fun _ _ => 1).
  Proof.
    intros t _. split; [intros n k p _ _ _; reflexivity|]. intros v G H K VZ HG HH HK.
    destruct (built_ready _ _ _ _ (carried_posed w) bt PR) as (ops & RD & _). rewrite calm_work.
    rewrite (viscous_is _ _ _ _ (carried_posed w) bt ops RD 1 2 v _ G H eq_refl HG HH), (elastic_is _ _ _ _ (carried_posed w) bt ops RD 4 3 v _ G K eq_refl HG HK).
    rewrite <- (viscous_is _ _ _ _ (carried_posed w) bt ops RD 1 2 v _ G _ eq_refl HG (level_gradients 1)), <- (elastic_is _ _ _ _ (carried_posed w) bt ops RD 4 3 v _ G _ eq_refl HG (level_gradients t)).
    assert (Z : forall p q, stress_work coord2 zero2 m None p q G (fun _ _ _ => 0) = 0).
    { intros p q. unfold stress_work, mesh_integral, integral. apply lsum_0. intros e _. unfold elastic_density, strain, divergence. cbn [sum]. unfold Rdiv. ring. }
    rewrite !Z. ring.
  Qed.
  Lemma carried_swing T : true_swing m (on_line 0) (fun _ => 1) calm calm T 2 5 (fun t _ => t) (fun _ _ => 1) (fun _ _ => 0).
  Proof.
    intros t _. split; [intros n k p _ _ _; reflexivity|]. intros v G K VZ HG HK.
    destruct (built_ready _ _ _ _ (carried_posed w) bt PR) as (ops & RD & _). rewrite calm_work.
    rewrite (swing_is _ _ _ _ (carried_posed w) bt ops RD 5 v _ G K eq_refl HG HK), <- (swing_is _ _ _ _ (carried_posed w) bt ops RD 5 v _ G _ eq_refl HG (level_gradient t)).
    assert (Z : flux_work coord2 zero2 m None 5 G (fun _ _ => 0) = 0).
    { unfold flux_work, mesh_integral, integral. apply lsum_0. intros e _. cbn [sum]. ring. }
    rewrite Z. unfold inertia_work, integral. rewrite sum_0; [ring|]. intros c _. apply lsum_0. intros e _. unfold mean_product, component. cbn [sum]. unfold Rdiv. ring.
  Qed.
End Carried.
Lemma fall_nodes a bt : construct (fall_problem a) = Ok bt -> (0 < List.length (m_nodes (bt_mesh bt)))%nat.
Proof.
  intros PR. destruct (fall_ready a bt PR) as (ops & (HB & _)). pose proof (fall_posed a) as [HR HS HA HC HD (f & Hf & PW)].
  destruct (mesh_node_order P2 vec mean2 zero2 _ _ _ _ 3 _ _ HR HS HC HD HB) as (C & Ne & I & D & [U A K R _ _ _ _ _]).
  rewrite <- (Forall2_length' _ _ _ K).
  assert (Z : In 0%nat (C ++ Ne ++ I ++ D)) by (apply A; exists [0; 1; 3]%nat; cbn; auto).
  destruct (C ++ Ne ++ I ++ D); [destruct Z|cbn; lia].
Qed.
Lemma square_slope t : derivable_pt_lim (fun t => t ^ 2 / 2) t t.
Proof.
  assert (H := derivable_pt_lim_scal _ (/ 2) t _ (derivable_pt_lim_pow t 2)). intros eps EP. destruct (H eps EP) as (de & HD). exists de. intros x XN XL.
  specialize (HD x XN XL). unfold mult_real_fct in HD. cbn [INR Nat.pred] in HD.
  replace (((t + x) ^ 2 / 2 - t ^ 2 / 2) / x - t) with ((/ 2 * (t + x) ^ 2 - / 2 * t ^ 2) / x - / 2 * ((1 + 1) * t ^ 1)) by (field; exact XN). exact HD.
Qed.
Lemma cube_slope t : derivable_pt_lim (fun t => t ^ 3 / 6) t (t ^ 2 / 2).
Proof.
  assert (H := derivable_pt_lim_scal _ (/ 6) t _ (derivable_pt_lim_pow t 3)). intros eps EP. destruct (H eps EP) as (de & HD). exists de. intros x XN XL.
  specialize (HD x XN XL). unfold mult_real_fct in HD. cbn [INR Nat.pred] in HD.
  replace (((t + x) ^ 3 / 6 - t ^ 3 / 6) / x - t ^ 2 / 2) with ((/ 6 * (t + x) ^ 3 - / 6 * t ^ 3) / x - / 6 * ((1 + 1 + 1) * t ^ 2)) by (field; exact XN). exact HD.
Qed.
