(* C106: the runs of a posed problem against its motion in continuous time. *)
From Coq Require Import Reals List Arith ZArith Bool String Lia Lra.
From Verif Require Import Common PyModel RVec LinAlg MeshModel MeshBuildModel MeshSpec NormalsModel
  DofModel DofSpec DirichletModel DirichletSpec DirichletProofs
  FemModel FemSpec FemAssemblyProofs FemFormProofs FemBasicProofs FemMeshProofs FemPipelineProofs ForcesModel ForcesSpec
  StatementModel StatementSpec StatementProofs StatementValueProofs StatementLawProofs
  RegistryModel StateModel StateLemmas TimeModel TimeSpec TimeProofs MethodModel RunSpec
  ProblemModel ProblemSpec ProblemProofs ProblemReady ProblemTheorems ProblemUnique ProblemFinal ProblemContactProofs
  FemFinalProofs AlternationProofs CoupledLimitProofs EulerProofs ConvergenceSpec.
Import ListNotations.
Local Open Scope string_scope.
Local Open Scope list_scope.
Local Open Scope R_scope.

Section Converge.
  Variables (pb : problem) (ic id : P2 -> bool) (g : P2 -> R).
  Hypothesis PO : posed pb ic id g.
  Variables (bt : built) (ops : FemModel.operators).
  Hypothesis RD : ready pb bt None ops.
  Notation m := (bt_mesh bt).
  Notation N := (List.length (m_nodes m)).
  Notation rho := (mass_density (pr_material pb)).
  Variables fi fo : P2 -> R -> vec.
  Notation loads := (nodal_load m (bt_basic bt) fi fo).
  Notation Ma := (acceleration_operator ops).
  Notation Vi := (some_mat (viscosity ops)).
  Notation El := (some_mat (elasticity ops)).
  Notation Po := (some_mat (poisson_operator ops)).
  Notation no := (fun _ _ : nat => 0).
  Variable T : R.

  Lemma array_paced L (f : P2 -> R -> vec) s t b k : paced_load T L f -> 0 <= s <= t -> t <= T -> 0 <= L ->
    Rabs (array_of (map (fun p => f p s) (m_nodes m)) b k - array_of (map (fun p => f p t) (m_nodes m)) b k) <= L * (t - s).
  Proof.
    intros PL S1 S2 L0. unfold array_of. destruct (nth_error (m_nodes m) b) as [p|] eqn:E.
    - rewrite !(nth_error_nth _ _ _ (map_nth_error _ _ _ E)). apply PL; assumption.
    - apply nth_error_None in E. rewrite !nth_overflow by (rewrite map_length; exact E). rewrite Rminus_diag_eq, Rabs_R0 by reflexivity. apply Rmult_le_pos; lra.
  Qed.
  (* the change of the nodal loads *)
  Definition load_weight (a : nat) : R := sum N (fun b => Rabs (volume_at_nodes (bt_basic bt) (a mod N)%nat b)) + Rabs (surfaces m (a mod N)%nat).
  Lemma load_paced L s t a : paced_load T L fi -> paced_load T L fo -> 0 <= s <= t -> t <= T -> 0 <= L ->
    Rabs (loads s a - loads t a) <= load_weight a * (L * (t - s)).
  Proof.
    intros PI PO' S1 S2 L0. unfold nodal_load, load_weight. set (k := (a / N)%nat). set (r := (a mod N)%nat).
    set (fs := array_of (map (fun p => fi p s) (m_nodes m))). set (ft := array_of (map (fun p => fi p t) (m_nodes m))).
    set (gs := array_of (map (fun p => fo p s) (m_nodes m))). set (gt := array_of (map (fun p => fo p t) (m_nodes m))).
    replace (sum N (fun b => volume_at_nodes (bt_basic bt) r b * fs b k) + surfaces m r * gs r k - (sum N (fun b => volume_at_nodes (bt_basic bt) r b * ft b k) + surfaces m r * gt r k))
      with (sum N (fun b => volume_at_nodes (bt_basic bt) r b * (fs b k - ft b k)) + surfaces m r * (gs r k - gt r k)).
    2:{ rewrite (sum_ext N (fun b => volume_at_nodes (bt_basic bt) r b * (fs b k - ft b k)) (fun b => volume_at_nodes (bt_basic bt) r b * fs b k - volume_at_nodes (bt_basic bt) r b * ft b k)) by (intros; ring).
        rewrite sum_minus. ring. }
    apply (Rle_trans _ _ _ (Rabs_triang _ _)). rewrite Rmult_plus_distr_r. apply Rplus_le_compat.
    - assert (AB : forall n f, Rabs (sum n f) <= sum n (fun i => Rabs (f i))).
      { induction n as [|n IH]; intros f; cbn; [rewrite Rabs_R0; lra|]. apply (Rle_trans _ _ _ (Rabs_triang _ _)). specialize (IH f). lra. }
      apply (Rle_trans _ _ _ (AB _ _)). rewrite <- sum_scal_r. apply sum_le. intros b _. rewrite Rabs_mult. apply Rmult_le_compat_l; [apply Rabs_pos|]. apply array_paced; assumption.
    - rewrite Rabs_mult. apply Rmult_le_compat_l; [apply Rabs_pos|]. apply array_paced; assumption.
  Qed.
  Lemma weight_nonneg a : 0 <= load_weight a.
  Proof. apply Rplus_le_le_0_compat; [apply sum_nonneg; intros; apply Rabs_pos|apply Rabs_pos]. Qed.
  Lemma work_paced n L : 0 <= L -> paced_load T L fi -> paced_load T L fo ->
    exists L', 0 <= L' /\ forall s t z w, 0 <= s <= t -> t <= T -> 0 <= w -> (forall i, (i < n)%nat -> Rabs (z i) <= w) ->
      dot n z (loads s) - dot n z (loads t) <= L' * (t - s) * w.
  Proof.
    intros L0 PI PF. exists (sum n load_weight * L). split; [apply Rmult_le_pos; [apply sum_nonneg; intros; apply weight_nonneg|exact L0]|].
    intros s t z w S1 S2 W Z. rewrite <- dot_minus_r. unfold dot.
    replace (sum n load_weight * L * (t - s) * w) with (sum n load_weight * (w * (L * (t - s)))) by ring. rewrite <- sum_scal_r. apply sum_le. intros i I.
    apply (Rle_trans _ (Rabs (z i * (loads s i - loads t i)))); [apply RRle_abs|]. rewrite Rabs_mult.
    apply (Rle_trans _ (w * (load_weight i * (L * (t - s))))); [|lra].
    apply Rmult_le_compat; [apply Rabs_pos|apply Rabs_pos|apply Z, I|apply load_paced; assumption].
  Qed.

  Lemma swing_is c v u G H : membrane (pr_material pb) = Some c -> gradient coord2 zero2 m v G -> gradient coord2 zero2 m u H ->
    flux_work coord2 zero2 m None c G H = bilinear N N Po v u.
  Proof. intros E HG HH. rewrite (membrane_form pb ic id g PO bt None ops RD c v u G H E HG HH), bilinear_sum. reflexivity. Qed.
  Lemma swing_symmetric c : membrane (pr_material pb) = Some c -> symmetric N Po.
  Proof.
    intros E. apply bilinear_symmetric. intros y x. destruct (grad pb ic id g PO bt ops RD x) as (G & HG). destruct (grad pb ic id g PO bt ops RD y) as (H & HH).
    rewrite <- (swing_is c y x H G E HH HG), <- (swing_is c x y G H E HG HH). unfold flux_work, mesh_integral. apply lsum_ext. intros e _. f_equal. f_equal. apply sum_ext. intros; ring.
  Qed.
  Lemma mass1_symmetric : symmetric N Ma.
  Proof.
    assert (S2 := ProblemContactProofs.mass_symmetric pb ic id g PO bt None ops RD). intros i j I J. apply S2; lia.
  Qed.
  Lemma loads1_dot t z : dot N z (loads t) = load_work coord2 zero2 m 1 (fun p => fi p t) (fun p => fo p t) z.
  Proof. rewrite <- (loads_work pb ic id g PO bt None ops RD 1 fi fo t z), Nat.mul_1_l. reflexivity. Qed.

  (* motions as equations *)
  Notation given := (fixed_dof id g bt).
  Notation F2 := (fun t z => dot (2 * N) z (loads t)).
  Notation F1 := (fun t z => dot N z (loads t)).

  Section Plane.
  Variables (th ze mu la : R).
  Hypothesis EL : elastic (pr_material pb) = Some (mu, la).
  Hypothesis VI : viscous (pr_material pb) = Some (th, ze).

  Lemma moves_weak t a w y : moves coord2 zero2 m id rho th ze mu la (fun p => fi p t) (fun p => fo p t) a w y ->
    forall z, free (given 2) z -> bilinear (2 * N) (2 * N) Ma z a + bilinear (2 * N) (2 * N) Vi z w + bilinear (2 * N) (2 * N) El z y = F2 t z.
  Proof.
    intros MV z Z. destruct (grads pb ic id g PO bt ops RD z) as (G & HG). destruct (grads pb ic id g PO bt ops RD w) as (H & HH). destruct (grads pb ic id g PO bt ops RD y) as (K & HK).
    apply (vanishes_dof id g bt) in Z. assert (E := MV z G H K Z HG HH HK).
    rewrite (mass_is pb ic id g PO bt ops RD), (viscous_is pb ic id g PO bt ops RD th ze z w G H VI HG HH), (elastic_is pb ic id g PO bt ops RD mu la z y G K EL HG HK) in E.
    rewrite E. symmetry. apply (loads_dot pb ic id g PO bt ops RD fi fo t z).
  Qed.
  Lemma flows_weak t w y : flows coord2 zero2 m id th ze mu la (fun p => fi p t) (fun p => fo p t) w y ->
    forall z, free (given 2) z -> bilinear (2 * N) (2 * N) Vi z w + bilinear (2 * N) (2 * N) El z y = F2 t z.
  Proof.
    intros MV z Z. destruct (grads pb ic id g PO bt ops RD z) as (G & HG). destruct (grads pb ic id g PO bt ops RD w) as (H & HH). destruct (grads pb ic id g PO bt ops RD y) as (K & HK).
    apply (vanishes_dof id g bt) in Z. assert (E := MV z G H K Z HG HH HK).
    rewrite (viscous_is pb ic id g PO bt ops RD th ze z w G H VI HG HH), (elastic_is pb ic id g PO bt ops RD mu la z y G K EL HG HK) in E.
    rewrite E. symmetry. apply (loads_dot pb ic id g PO bt ops RD fi fo t z).
  Qed.

  Lemma motion_stepped dt u0 v0 k u v : motion dt (takes m id 2 g)
      (fun t a w y => moves coord2 zero2 m id rho th ze mu la (fun p => fi p t) (fun p => fo p t) a w y) u0 v0 k u v ->
    stepped (2 * N) Ma Vi El (given 2) F2 dt u v k.
  Proof.
    intros (_ & _ & H) j J. destruct (H j J) as (H1 & H2 & H3). split; [exact H1|]. split; [apply (takes_dof id g bt 2); exact H2|]. exact (moves_weak _ _ _ _ H3).
  Qed.
  Lemma flow_stepped dt u0 v0 k u v : motion dt (takes m id 2 g)
      (fun t a w y => flows coord2 zero2 m id th ze mu la (fun p => fi p t) (fun p => fo p t) w y) u0 v0 k u v ->
    stepped (2 * N) no Vi El (given 2) F2 dt u v k.
  Proof.
    intros (_ & _ & H) j J. destruct (H j J) as (H1 & H2 & H3). split; [exact H1|]. split; [apply (takes_dof id g bt 2); exact H2|].
    intros z Z. rewrite <- (flows_weak _ _ _ H3 z Z). unfold bilinear at 1. rewrite sum_0; [ring|]. intros i _. apply sum_0. intros; ring.
  Qed.

  Hypothesis MU : 0 <= mu.
  Hypothesis LA : 0 <= la.
  Hypothesis TH : 0 <= th.
  Hypothesis ZE : 0 <= ze.
  Hypothesis T0 : 0 <= T.
  Variables (B L : R).
  Hypothesis B0 : 0 <= B.
  Hypothesis L0 : 0 <= L.
  Hypothesis PI : paced_load T L fi.
  Hypothesis PF : paced_load T L fo.
  Variables U V A : R -> vec.

  Lemma motion_rate : 0 < rho -> derives (2 * N) T U V -> derives (2 * N) T V A -> paced (2 * N) T B V -> paced (2 * N) T B A ->
    true_motion m id g fi fo T rho th ze mu la U V A ->
    exists ka, 0 <= ka /\ forall dt u0 v0 k u v, 0 < dt -> motion dt (takes m id 2 g)
        (fun t a w y => moves coord2 zero2 m id rho th ze mu la (fun p => fi p t) (fun p => fo p t) a w y) u0 v0 k u v ->
      veq (2 * N) u0 (U 0) -> veq (2 * N) v0 (V 0) -> forall j i, (j <= k)%nat -> INR j * dt <= T -> (i < 2 * N)%nat ->
      Rabs (u j i - U (INR j * dt) i) <= ka * dt /\ Rabs (v j i - V (INR j * dt) i) <= ka * dt.
  Proof.
    intros RM DU DV LV LAC TM.
    assert (SM := ProblemContactProofs.mass_symmetric pb ic id g PO bt None ops RD). assert (SK := elastic_symmetric pb ic id g PO bt None ops RD mu la EL).
    assert (PK := elastic_psd pb ic id g PO bt None ops RD I mu la EL MU LA). assert (PC := viscous_psd pb ic id g PO bt None ops RD I th ze VI TH ZE).
    destruct (fixed_conds pb ic id g PO bt None ops RD 2) as (conds & MC & _).
    assert (FD := definite_dof pb ic id g PO bt ops RD 2 conds Ma MC (proj1 (mass_definite pb ic id g PO bt None ops RD conds RM))).
    assert (PM : pos_semidef (2 * N) Ma).
    { apply pos_def_semidef. destruct RD as (_ & _ & HO & _). destruct (plane pb ic id g PO bt None ops RD) as (HT & _ & HR). exact (proj2 (mass_block_2d _ _ _ _ None ops HT HO HR RM)). }
    destruct (component_bound (2 * N) Ma SM PM (given 2) (fun i v => fixed_dof_range id g bt 2 i v) FD) as (c & C0 & CB).
    destruct (work_paced (2 * N) L L0 PI PF) as (L' & L1 & LW).
    destruct (dynamic_rate (2 * N) Ma Vi El (given 2) T U V A F2 SM SK PM PC PK) with (B := B) (L := L') (c := c) as (ka & K0 & HK); auto.
    - intros t i x TT. exact (proj1 (takes_dof id g bt 2 (V t)) (proj1 (TM t TT)) i x).
    - intros t z TT. exact (moves_weak t _ _ _ (proj2 (TM t TT)) z).
    - exists ka. split; [exact K0|]. intros dt u0 v0 k u v DT MO U0 V0. assert (ST := motion_stepped dt u0 v0 k u v MO). destruct MO as (<- & <- & _).
      exact (HK dt u v k DT ST U0 V0).
  Qed.

  Lemma flow_rate : clamped_mesh pb id -> 0 < th -> derives (2 * N) T U V -> paced (2 * N) T B V ->
    true_flow m id g fi fo T th ze mu la U V ->
    exists ka, 0 <= ka /\ forall dt u0 v0 k u v, 0 < dt -> motion dt (takes m id 2 g)
        (fun t a w y => flows coord2 zero2 m id th ze mu la (fun p => fi p t) (fun p => fo p t) w y) u0 v0 k u v ->
      veq (2 * N) u0 (U 0) -> forall j i, (j <= k)%nat -> INR j * dt <= T -> (i < 2 * N)%nat ->
      Rabs (u j i - U (INR j * dt) i) <= ka * dt /\ ((0 < j)%nat -> Rabs (v j i - V (INR j * dt) i) <= ka * dt).
  Proof.
    intros HU TP DU LV TM.
    assert (SC := viscous_symmetric pb ic id g PO bt None ops RD). assert (SK := elastic_symmetric pb ic id g PO bt None ops RD mu la EL).
    assert (PK := elastic_psd pb ic id g PO bt None ops RD I mu la EL MU LA). assert (PC := viscous_psd pb ic id g PO bt None ops RD I th ze VI TH ZE).
    destruct (clamped_body pb ic id g PO bt None ops RD HU) as (conds & MC & HH).
    assert (FD := definite_dof pb ic id g PO bt ops RD 2 conds Vi MC (viscous_definite_free pb ic id g PO bt None ops RD I conds th ze HH VI TP ZE)).
    destruct (component_bound (2 * N) Vi SC PC (given 2) (fun i v => fixed_dof_range id g bt 2 i v) FD) as (c & C0 & CB).
    destruct (work_paced (2 * N) L L0 PI PF) as (L' & L1 & LW).
    assert (Z : forall n x y, bilinear n n no x y = 0) by (intros n x y; unfold bilinear; apply sum_0; intros i _; apply sum_0; intros; ring).
    destruct (quasistatic_rate (2 * N) no Vi El (given 2) T U V (fun _ _ => 0) F2 SK PC PK) with (B := B) (L := L') (c := c) as (ka & K0 & HK); auto.
    - intros t i x TT. exact (proj1 (takes_dof id g bt 2 (V t)) (proj1 (TM t TT)) i x).
    - intros t z TT ZZ. rewrite Z, Rplus_0_l. exact (flows_weak t _ _ (proj2 (TM t TT)) z ZZ).
    - exists ka. split; [exact K0|]. intros dt u0 v0 k u v DT MO U0. assert (ST := flow_stepped dt u0 v0 k u v MO). destruct MO as (<- & _ & _).
      exact (HK dt u v k DT ST U0).
  Qed.
  End Plane.

  Lemma swing_rate c0 B L U V A : membrane (pr_material pb) = Some c0 -> 0 <= T -> 0 <= B -> 0 <= L -> paced_load T L fi -> paced_load T L fo ->
    0 < rho -> derives N T U V -> derives N T V A -> paced N T B V -> paced N T B A ->
    true_swing m id g fi fo T rho c0 U V A ->
    exists ka, 0 <= ka /\ forall dt u0 v0 k u v, 0 < dt -> motion dt (takes m id 1 g)
        (fun t a w y => swings coord2 zero2 m id rho c0 (fun p => fi p t) (fun p => fo p t) a y) u0 v0 k u v ->
      veq N u0 (U 0) -> veq N v0 (V 0) -> forall j i, (j <= k)%nat -> INR j * dt <= T -> (i < N)%nat ->
      Rabs (u j i - U (INR j * dt) i) <= ka * dt /\ Rabs (v j i - V (INR j * dt) i) <= ka * dt.
  Proof.
    intros ME T0 B0 L0 PI PF RM DU DV LV LAC TM. assert (SM := mass1_symmetric). assert (SK := swing_symmetric c0 ME).
    assert (PK := membrane_psd pb ic id g PO bt None ops RD I c0 ME).
    destruct (fixed_conds pb ic id g PO bt None ops RD 1) as (conds & MC & _).
    assert (FD0 := proj2 (mass_definite pb ic id g PO bt None ops RD conds RM)).
    assert (FD : free_definite N Ma (given 1)).
    { rewrite <- (Nat.mul_1_l N) in FD0 |- *. exact (definite_dof pb ic id g PO bt ops RD 1 conds Ma MC FD0). }
    assert (PM : pos_semidef N Ma).
    { apply pos_def_semidef. destruct RD as (_ & _ & HO & _). destruct (plane pb ic id g PO bt None ops RD) as (HT & _ & HR).
      apply (pos_def_block (2 * N)); [lia|]. exact (proj2 (mass_block_2d _ _ _ _ None ops HT HO HR RM)). }
    assert (RG : forall i v, given 1 i v -> (i < N)%nat) by (intros i v X; apply (fixed_dof_range id g bt 1) in X; lia).
    destruct (component_bound N Ma SM PM (given 1) RG FD) as (c & C0 & CB).
    destruct (work_paced N L L0 PI PF) as (L' & L1 & LW).
    assert (Z : forall x y, bilinear N N no x y = 0) by (intros x y; unfold bilinear; apply sum_0; intros i _; apply sum_0; intros; ring).
    assert (PC : pos_semidef N no) by (intros x; rewrite <- bilinear_q, Z; lra).
    assert (WK : forall t a y, swings coord2 zero2 m id rho c0 (fun p => fi p t) (fun p => fo p t) a y -> forall w z, free (given 1) z ->
      bilinear N N Ma z a + bilinear N N no z w + bilinear N N Po z y = F1 t z).
    { intros t a y SW w z ZZ. destruct (grad pb ic id g PO bt ops RD z) as (G & HG). destruct (grad pb ic id g PO bt ops RD y) as (K & HK).
      apply (vanishes_dof id g bt) in ZZ. assert (E := SW z G K ZZ HG HK).
      rewrite (mass1_is pb ic id g PO bt ops RD), (swing_is c0 z y G K ME HG HK) in E. rewrite Z, loads1_dot, <- E. ring. }
    destruct (dynamic_rate N Ma no Po (given 1) T U V A F1 SM SK PM PC PK) with (B := B) (L := L') (c := c) as (ka & K0 & HK); auto.
    - intros t i x TT. exact (proj1 (takes_dof id g bt 1 (V t)) (proj1 (TM t TT)) i x).
    - intros t z TT. exact (WK t _ _ (proj2 (TM t TT)) (V t) z).
    - exists ka. split; [exact K0|]. intros dt u0 v0 k u v DT MO U0 V0.
      assert (ST : stepped N Ma no Po (given 1) F1 dt u v k).
      { destruct MO as (_ & _ & H). intros j J. destruct (H j J) as (H1 & H2 & H3). split; [exact H1|]. split; [apply (takes_dof id g bt 1); exact H2|]. intros z. apply WK. exact H3. }
      destruct MO as (<- & <- & _). exact (HK dt u v k DT ST U0 V0).
  Qed.
End Converge.
