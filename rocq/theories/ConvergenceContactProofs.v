(* C107: the runs of a posed problem with contact against its motion in continuous time. *)
From Coq Require Import Reals List Arith ZArith Bool String Lia Lra FunctionalExtensionality.
From Verif Require Import Common PyModel RVec LinAlg MeshModel MeshBuildModel MeshSpec NormalsModel
  DofModel DofSpec DirichletModel DirichletSpec DirichletProofs
  FemModel FemSpec FemAssemblyProofs FemFormProofs FemBasicProofs FemMeshProofs FemPipelineProofs ForcesModel ForcesSpec
  ContactModel ContactSpec ContactCostProofs ConstrainedSpec
  StatementModel StatementSpec StatementProofs StatementValueProofs StatementLawProofs
  RegistryModel StateModel StateLemmas TimeModel TimeSpec TimeProofs MethodModel RunSpec ContactRunSpec
  ProblemModel ProblemSpec ProblemProofs ProblemReady ProblemTheorems ProblemUnique ProblemFinal
  ProblemContactModel ProblemContactSpec ProblemContactProofs ProblemContactTheorems
  FemFinalProofs AlternationProofs CoupledLimitProofs EulerProofs EulerContactProofs ConvergenceSpec ConvergenceProofs ConvergenceContactSpec.
Import ListNotations.
Local Open Scope string_scope.
Local Open Scope list_scope.
Local Open Scope R_scope.

(* ------------------------------------------------------------ costs of contact *)

Lemma density_local law h n v v' s s' : (forall k, (k < 2)%nat -> v k = v' k) -> (forall k, (k < 2)%nat -> s k = s' k) ->
  law_density law h n v s = law_density law h n v' s'.
Proof.
  intros V S. unfold law_density, density, across, along, inner_product. cbn [sum map].
  rewrite (V 0%nat), (V 1%nat), (S 0%nat), (S 1%nat) by lia. reflexivity.
Qed.

Lemma mean_top N e s s' k : List.length e = 2%nat -> Forall (fun a => (a < N)%nat) e -> (k < 2)%nat ->
  Rabs (mean_at e (nodal N s) k - mean_at e (nodal N s') k) <= top (2 * N) (minus s s').
Proof.
  intros L F K. destruct e as [|a [|b [|]]]; try discriminate. inversion F as [|? ? A F']; subst. inversion F' as [|? ? Bb _]; subst.
  unfold mean_at, nodal. cbn [lsum List.length INR].
  replace ((s (k * N + a)%nat + (s (k * N + b)%nat + 0)) / (1 + 1) - (s' (k * N + a)%nat + (s' (k * N + b)%nat + 0)) / (1 + 1))
    with (/ 2 * minus s s' (k * N + a)%nat + / 2 * minus s s' (k * N + b)%nat) by (unfold minus; field).
  apply (Rle_trans _ _ _ (Rabs_triang _ _)). rewrite !Rabs_mult, (Rabs_right (/ 2)) by lra.
  assert (X := top_ge (2 * N) (minus s s') (k * N + a) ltac:(nia)). assert (Y := top_ge (2 * N) (minus s s') (k * N + b) ltac:(nia)). lra.
Qed.

Section Cost.
  Variables (m : @MeshData P2 vec) (law : contact_law) (normals : list P2).
  Notation N := (List.length (m_nodes m)).
  Notation points := (node_table coord2 zero2 (m_nodes m)).
  Notation cost := (contact_cost coord2 zero2 m law normals).

  Lemma tame_cost : tame law -> faces_ok 2 N (faces_of m "contact") ->
    exists lam, 0 <= lam /\ forall h, 0 < h -> forall s s' v w,
    cost h s v - cost h s w + cost 0 s' w - cost 0 s' v <= lam * (top (2 * N) (minus s s') + h) * top (2 * N) (minus w v).
  Proof.
    intros TM FO. set (faces := faces_of m "contact") in *.
    destruct (finite_choice (fun ei lam => 0 <= lam /\ forall h s s' v w, 0 < h ->
      (law_density law h (coord2 (nth ei normals zero2)) v s - law_density law h (coord2 (nth ei normals zero2)) w s)
        - (law_density law 0 (coord2 (nth ei normals zero2)) v s' - law_density law 0 (coord2 (nth ei normals zero2)) w s')
      <= lam * (sized2 (fun i => s i - s' i) + h) * sized2 (fun i => v i - w i)) (List.length faces) (fun ei => TM _)) as (lm & HL).
    set (wt := fun ei => face_measure 2 points (nth ei faces []) / 3). exists (sum (List.length faces) (fun ei => wt ei * (12 * lm ei))).
    assert (W0 : forall ei, 0 <= wt ei) by (intros ei; unfold wt; assert (X := measure_nonneg points (nth ei faces [])); lra).
    split; [apply sum_nonneg; intros ei Hi; apply Rmult_le_pos; [apply W0|]; assert (X := proj1 (HL ei ltac:(lia))); lra|].
    intros h HP s s' v w. unfold contact_cost, contact_energy, boundary_sum. fold faces. cbv zeta.
    set (ts := top (2 * N) (minus s s')). set (tv := top (2 * N) (minus w v)). assert (TS : 0 <= ts) by apply top_nonneg. assert (TV : 0 <= tv) by apply top_nonneg.
    assert (FOUR : forall n (a b c d : nat -> R), sum n a - sum n b + sum n c - sum n d = sum n (fun i => a i - b i + c i - d i)).
    { intros n a b c d. rewrite (sum_minus n (fun i => a i - b i + c i) d), (sum_plus n (fun i => a i - b i) c), sum_minus. reflexivity. }
    rewrite FOUR, Rmult_assoc, <- sum_scal_r. apply sum_le. intros ei Hi.
    set (e := nth ei faces []). change (face_measure 2 points e / 3) with (wt ei).
    assert (FE : List.length e = 2%nat /\ Forall (fun a => (a < N)%nat) e).
    { unfold faces_ok in FO. rewrite Forall_forall in FO. destruct (FO e (nth_In _ _ Hi)) as (X & _ & Y). auto. }
    destruct FE as (LE & FE). destruct (HL ei ltac:(lia)) as (L0 & HD). set (nn := coord2 (nth ei normals zero2)) in *.
    set (dd := fun h x y => law_density law h nn x y).
    change (density (normal_bound law) (potential_normal_direction law) (tangential_bound law) (potential_tangential_direction law)) with (law_density law).
    (* one sample *)
    assert (ONE : forall x y, (forall k, (k < 2)%nat -> Rabs (x k - y k) <= tv) ->
      dd h x (mean_at e (nodal N s)) - dd h y (mean_at e (nodal N s)) + dd 0 y (mean_at e (nodal N s')) - dd 0 x (mean_at e (nodal N s')) <= 4 * lm ei * ((ts + h) * tv)).
    { intros x y XY. assert (Q := HD h (mean_at e (nodal N s)) (mean_at e (nodal N s')) x y HP). fold (dd h x (mean_at e (nodal N s))) in Q.
      unfold dd in *. apply (Rle_trans _ (lm ei * (sized2 (fun i => mean_at e (nodal N s) i - mean_at e (nodal N s') i) + h) * sized2 (fun i => x i - y i))); [lra|].
      assert (S1 : sized2 (fun i => mean_at e (nodal N s) i - mean_at e (nodal N s') i) <= 2 * ts).
      { unfold sized2. assert (X := mean_top N e s s' 0 LE FE ltac:(lia)). assert (Y := mean_top N e s s' 1 LE FE ltac:(lia)). unfold ts. lra. }
      assert (S2 : sized2 (fun i => x i - y i) <= 2 * tv) by (unfold sized2; assert (X := XY 0%nat ltac:(lia)); assert (Y := XY 1%nat ltac:(lia)); lra).
      assert (S3 : 0 <= sized2 (fun i => x i - y i)) by (unfold sized2; apply Rplus_le_le_0_compat; apply Rabs_pos).
      apply (Rle_trans _ (lm ei * (2 * (ts + h)) * sized2 (fun i => x i - y i))).
      - apply Rmult_le_compat_r; [exact S3|]. apply Rmult_le_compat_l; lra.
      - replace (4 * lm ei * ((ts + h) * tv)) with (lm ei * (2 * (ts + h)) * (2 * tv)) by ring. apply Rmult_le_compat_l; [apply Rmult_le_pos; lra|exact S2]. }
    destruct e as [|a [|b [|]]] eqn:EE; try discriminate. inversion FE as [|? ? FA FE']; subst. inversion FE' as [|? ? FB _]; subst.
    unfold samples. cbn [lsum map]. rewrite <- EE in *.
    assert (Q1 := ONE (mean_at e (nodal N v)) (mean_at e (nodal N w))).
    assert (Q2 := ONE (nodal N v a) (nodal N w a)). assert (Q3 := ONE (nodal N v b) (nodal N w b)). unfold dd in *.
    assert (SY : forall i, Rabs (v i - w i) = Rabs (minus w v i)) by (intros i; unfold minus; apply Rabs_minus_sym).
    specialize (Q2 ltac:(intros k K; unfold nodal; rewrite SY; apply top_ge; nia)). specialize (Q3 ltac:(intros k K; unfold nodal; rewrite SY; apply top_ge; nia)).
    specialize (Q1 ltac:(intros k K; rewrite Rabs_minus_sym; apply mean_top; assumption)).
    replace (wt ei * (12 * lm ei) * ((ts + h) * tv)) with (wt ei * (3 * (4 * lm ei * ((ts + h) * tv)))) by ring.
    match goal with |- wt ei * ?a - wt ei * ?b + wt ei * ?c - wt ei * ?d <= _ => replace (wt ei * a - wt ei * b + wt ei * c - wt ei * d) with (wt ei * (a - b + c - d)) by ring end.
    apply Rmult_le_compat_l; [apply W0|]. lra.
  Qed.
End Cost.

Section Converge.
  Variables (pb : problem) (ic id : P2 -> bool) (g : P2 -> R).
  Hypothesis PO : posed pb ic id g.
  Variables (bt : built) (ops : FemModel.operators).
  Hypothesis RD : ready pb bt None ops.
  Notation m := (bt_mesh bt).
  Notation N := (List.length (m_nodes m)).
  Notation rho := (mass_density (pr_material pb)).
  Variables fi fo : P2 -> R -> vec.
  Notation loads := (nodal_load m (bt_basic bt) fi fo).
  Notation Ma := (acceleration_operator ops).
  Notation Vi := (some_mat (viscosity ops)).
  Notation El := (some_mat (elasticity ops)).
  Notation no := (fun _ _ : nat => 0).
  Notation given := (fixed_dof id g bt 2).
  Notation F2 := (fun t z => dot (2 * N) z (loads t)).
  Variables (th ze mu la : R).
  Hypothesis EL : elastic (pr_material pb) = Some (mu, la).
  Hypothesis VI : viscous (pr_material pb) = Some (th, ze).
  Variable law : contact_law.
  Notation cost := (contact_cost coord2 zero2 m law (contact_normals m (bt_normals bt))).

  Lemma slides_weak t J a w y : slides coord2 zero2 m None id g rho th ze mu la (fun p => fi p t) (fun p => fo p t) J a w y ->
    admits given w /\ forall v, admits given v -> F2 t (minus v w) <= bilinear (2 * N) (2 * N) Ma (minus v w) a + bilinear (2 * N) (2 * N) Vi (minus v w) w
      + bilinear (2 * N) (2 * N) El (minus v w) y + J v - J w.
  Proof.
    intros (TW & MV). split; [exact (proj1 (takes_dof id g bt 2 w) TW)|]. intros v AV.
    destruct (grads pb ic id g PO bt ops RD (minus v w)) as (G & HG). destruct (grads pb ic id g PO bt ops RD w) as (H & HH). destruct (grads pb ic id g PO bt ops RD y) as (K & HK).
    assert (E := MV v G H K (proj2 (takes_dof id g bt 2 v) AV) HG HH HK). change (fun i => v i - w i) with (minus v w) in E.
    rewrite (mass_is pb ic id g PO bt ops RD), (viscous_is pb ic id g PO bt ops RD th ze _ w G H VI HG HH), (elastic_is pb ic id g PO bt ops RD mu la _ y G K EL HG HK) in E.
    rewrite (loads_dot pb ic id g PO bt ops RD fi fo t). lra.
  Qed.
  Lemma zero_form x y : bilinear (2 * N) (2 * N) no x y = 0.
  Proof. unfold bilinear; apply sum_0; intros i _; apply sum_0; intros; ring. Qed.
  Lemma drags_weak t J a w y : drags coord2 zero2 m None id g th ze mu la (fun p => fi p t) (fun p => fo p t) J w y ->
    admits given w /\ forall v, admits given v -> F2 t (minus v w) <= bilinear (2 * N) (2 * N) no (minus v w) a + bilinear (2 * N) (2 * N) Vi (minus v w) w
      + bilinear (2 * N) (2 * N) El (minus v w) y + J v - J w.
  Proof.
    intros (TW & MV). split; [exact (proj1 (takes_dof id g bt 2 w) TW)|]. intros v AV. rewrite zero_form.
    destruct (grads pb ic id g PO bt ops RD (minus v w)) as (G & HG). destruct (grads pb ic id g PO bt ops RD w) as (H & HH). destruct (grads pb ic id g PO bt ops RD y) as (K & HK).
    assert (E := MV v G H K (proj2 (takes_dof id g bt 2 v) AV) HG HH HK). change (fun i => v i - w i) with (minus v w) in E.
    rewrite (viscous_is pb ic id g PO bt ops RD th ze _ w G H VI HG HH), (elastic_is pb ic id g PO bt ops RD mu la _ y G K EL HG HK) in E.
    rewrite (loads_dot pb ic id g PO bt ops RD fi fo t). lra.
  Qed.

  Variable T : R.
  Hypothesis MU : 0 <= mu.
  Hypothesis LA : 0 <= la.
  Hypothesis TH : 0 <= th.
  Hypothesis ZE : 0 <= ze.
  Hypothesis T0 : 0 <= T.
  Variables (B L : R).
  Hypothesis B0 : 0 <= B.
  Hypothesis L0 : 0 <= L.
  Hypothesis PI : paced_load T L fi.
  Hypothesis PF : paced_load T L fo.
  Hypothesis TA : tame law.
  Variables U V A : R -> vec.
  Hypothesis DU : derives (2 * N) T U V.
  Hypothesis LU : paced (2 * N) T B U.
  Hypothesis LV : paced (2 * N) T B V.

  Notation steps k dt := (contact_motion dt (cost dt) (contact_step coord2 zero2 m None id g rho th ze mu la fi fo k)).

  Lemma odd_work t z : F2 t (fun i => - z i) = - F2 t z.
  Proof. unfold dot. rewrite <- sum_opp. apply sum_ext. intros; ring. Qed.
  Lemma cost_close : exists lam, 0 <= lam /\ forall dt, 0 < dt -> close (2 * N) (cost 0) lam (cost dt) dt.
  Proof.
    destruct (tame_cost m law (contact_normals m (bt_normals bt)) TA) as (lam & LM & H); [|exists lam; split; [exact LM|exact H]].
    assert (X := contact_faces_ok pb ic id g PO bt None ops RD). destruct (body_is pb bt None ops RD) as (_ & CB & _). rewrite CB in X. exact X.
  Qed.

  Lemma slide_converges : 0 < rho -> derives (2 * N) T V A -> paced (2 * N) T B A ->
    true_contact pb bt id g fi fo DynamicVelocity th ze mu la law T U V A ->
    exists ka, 0 <= ka /\ forall dt u0 v0 k u v, 0 < dt -> steps DynamicVelocity dt u0 v0 k u v ->
      veq (2 * N) u0 (U 0) -> veq (2 * N) v0 (V 0) -> forall j i, (j <= k)%nat -> INR j * dt <= T -> (i < 2 * N)%nat ->
      Rabs (u j i - U (INR j * dt) i) <= ka * dt /\ Rabs (v j i - V (INR j * dt) i) <= ka * dt.
  Proof.
    intros RM DV LAC TM.
    assert (SM := ProblemContactProofs.mass_symmetric pb ic id g PO bt None ops RD). assert (SK := elastic_symmetric pb ic id g PO bt None ops RD mu la EL).
    assert (PK := elastic_psd pb ic id g PO bt None ops RD I mu la EL MU LA). assert (PC := viscous_psd pb ic id g PO bt None ops RD I th ze VI TH ZE).
    destruct (fixed_conds pb ic id g PO bt None ops RD 2) as (conds & MC & _).
    assert (FD := definite_dof pb ic id g PO bt ops RD 2 conds Ma MC (proj1 (mass_definite pb ic id g PO bt None ops RD conds RM))).
    assert (PM : pos_semidef (2 * N) Ma).
    { apply pos_def_semidef. destruct RD as (_ & _ & HO & _). destruct (plane pb ic id g PO bt None ops RD) as (HT & _ & HR). exact (proj2 (mass_block_2d _ _ _ _ None ops HT HO HR RM)). }
    destruct (component_bound (2 * N) Ma SM PM given (fun i v => fixed_dof_range id g bt 2 i v) FD) as (c & C0 & CB).
    destruct (work_paced bt fi fo T (2 * N) L L0 PI PF) as (L' & L1 & LW). destruct cost_close as (lam & LM & CL).
    destruct (slide_rate (2 * N) Ma Vi El given T U V A F2 (cost 0) SM SK PM PC PK odd_work) with (lam := lam) (B := B) (L := L') (c := c) as (ka & K0 & HK); auto.
    - intros t TT. exact (proj1 (slides_weak t _ _ _ _ (TM t TT))).
    - intros t w TT AW. exact (proj2 (slides_weak t _ _ _ _ (TM t TT)) w AW).
    - exists ka. split; [exact K0|]. intros dt u0 v0 k u v DT MO U0 V0.
      assert (ST : slid (2 * N) Ma Vi El given F2 (cost dt) dt u v k).
      { destruct MO as (_ & _ & H). intros j J. destruct (H j J) as (H1 & H2). split; [exact H1|]. exact (slides_weak _ _ _ _ _ H2). }
      destruct MO as (<- & <- & _). exact (HK (cost dt) dt u v k (CL dt DT) DT ST U0 V0).
  Qed.

  Lemma drag_converges : clamped_mesh pb id -> 0 < th ->
    true_contact pb bt id g fi fo QuasistaticVelocity th ze mu la law T U V A ->
    exists ka, 0 <= ka /\ forall dt u0 v0 k u v, 0 < dt -> steps QuasistaticVelocity dt u0 v0 k u v ->
      veq (2 * N) u0 (U 0) -> forall j i, (j <= k)%nat -> INR j * dt <= T -> (i < 2 * N)%nat ->
      Rabs (u j i - U (INR j * dt) i) <= ka * dt /\ ((0 < j)%nat -> Rabs (v j i - V (INR j * dt) i) <= ka * dt).
  Proof.
    intros HU TP TM.
    assert (SC := viscous_symmetric pb ic id g PO bt None ops RD). assert (SK := elastic_symmetric pb ic id g PO bt None ops RD mu la EL).
    assert (PK := elastic_psd pb ic id g PO bt None ops RD I mu la EL MU LA). assert (PC := viscous_psd pb ic id g PO bt None ops RD I th ze VI TH ZE).
    destruct (clamped_body pb ic id g PO bt None ops RD HU) as (conds & MC & HH).
    assert (FD := definite_dof pb ic id g PO bt ops RD 2 conds Vi MC (viscous_definite_free pb ic id g PO bt None ops RD I conds th ze HH VI TP ZE)).
    destruct (component_bound (2 * N) Vi SC PC given (fun i v => fixed_dof_range id g bt 2 i v) FD) as (c & C0 & CB).
    destruct (work_paced bt fi fo T (2 * N) L L0 PI PF) as (L' & L1 & LW). destruct cost_close as (lam & LM & CL).
    destruct (drag_rate (2 * N) no Vi El given T U V A F2 (cost 0) SK PC PK odd_work) with (lam := lam) (B := B) (L := L') (c := c) as (ka & K0 & HK); auto.
    - intros t TT. exact (proj1 (drags_weak t _ (A t) _ _ (TM t TT))).
    - intros t w TT AW. exact (proj2 (drags_weak t _ (A t) _ _ (TM t TT)) w AW).
    - exists ka. split; [exact K0|]. intros dt u0 v0 k u v DT MO U0.
      assert (ST : slid (2 * N) no Vi El given F2 (cost dt) dt u v k).
      { destruct MO as (_ & _ & H). intros j J. destruct (H j J) as (H1 & H2). split; [exact H1|]. exact (drags_weak _ _ _ _ _ H2). }
      destruct MO as (<- & _ & _). exact (HK (cost dt) dt u v k (CL dt DT) DT ST U0).
  Qed.
End Converge.
