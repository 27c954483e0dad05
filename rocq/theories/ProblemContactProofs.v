(* The solvers of a posed problem with contact meet the hypotheses of the theorems on runs with
   contact, and the inequalities of these are those of the problem. *)
From Coq Require Import Reals List Arith ZArith Bool String Permutation Sorted Lia Lra FunctionalExtensionality Classical.
From Verif Require Import Common PyModel RVec LinAlg MeshModel MeshBuildModel MeshSpec ListLemmas MeshRemoveProofs MeshReorderProofs MeshFacesProofs MeshOrderProofs MeshBuildProofs MeshTotalProofs NormalsModel NormalsProofs
  DofModel DofSpec DirichletModel DirichletSpec DirichletProofs DirichletMeshProofs
  FemModel FemSpec FemAssemblyProofs FemFormProofs FemBasicProofs FemMeshProofs FemBuildProofs FemOperatorProofs FemPipelineProofs FemFinalProofs FemKornProofs
  ForcesModel ForcesSpec ForcesProofs ForcesLoadProofs
  ContactModel ContactSpec ContactCostProofs ConstrainedSpec SchurModel SchurSpec
  StatementModel StatementSpec StatementProofs StatementValueProofs StatementLawProofs StatementCacheProofs
  RegistryModel StateModel StateLemmas CopyProofs TimeModel TimeSpec TimeProofs RunProofs HistoryProofs SolveProofs MarchProofs TimeTheorems MethodModel MethodProofs
  RunSpec WholeRunProofs RunTheorems RunTotal StatementMeshProofs CrossBuiltProofs
  OptimisationModel OptimisationProofs ContactRunSpec ContactRunProofs ContactRunTheorems
  ProblemModel ProblemSpec ProblemProofs ProblemReady ProblemTheorems ProblemUnique ProblemTotal ProblemContactModel ProblemContactSpec.
Import ListNotations.
Local Open Scope string_scope.
Local Open Scope list_scope.
Local Open Scope R_scope.

(* ------------------------------------------------------------ faces of the user's mesh *)

Lemma face_transport w (g : nat -> nat) els els' f :
  (forall x y, referenced els x -> referenced els y -> g x = g y -> x = y) ->
  Forall2 (fun e e' => Permutation (map g e) e') els els' ->
  boundary_face w els f -> boundary_face w els' (sort_nat (map g f)).
Proof.
  intros Hinj HF (Sf & Lf & k & e & Hk & I & U).
  assert (Re : forall k e x, nth_error els k = Some e -> In x e -> referenced els x).
  { intros k0 e0 x H0 H1. apply nth_error_In in H0. exists e0. auto. }
  assert (Rf : forall x, In x f -> referenced els x) by (intros x Hx; apply (Re k e); auto).
  assert (NDf : NoDup (map g f)).
  { apply NoDup_map_in; [|now apply sorted_lt_NoDup]. intros; apply Hinj; auto. }
  split; [now apply sort_nat_lt|]. split; [rewrite length_sort_nat, map_length; auto|].
  destruct (Forall2_nth_error _ _ _ _ _ HF Hk) as [e' [Hk' He']].
  exists k, e'. split; auto. split.
  - intros x Hx. apply In_sort_nat, in_map_iff in Hx. destruct Hx as [y [<- Hy]].
    eapply Permutation_in; [exact He'|]. apply in_map. auto.
  - intros k2 e2' Hk2 I2. apply (Forall2_nth_error_r _ _ _ _ _ HF) in Hk2.
    destruct Hk2 as [e2 [Hk2 He2]]. apply (U k2 e2); auto.
    intros x Hx. assert (Hgx : In (g x) e2').
    { apply I2, In_sort_nat, in_map. auto. }
    apply (Permutation_in _ (Permutation_sym He2)) in Hgx. apply in_map_iff in Hgx.
    destruct Hgx as [y [Hy Hin]]. replace x with y; auto.
    apply Hinj; auto. eapply Re; eauto.
Qed.

Lemma user_face old els els' w f : NoDup old -> relabelled_unordered old els els' ->
  boundary_face w els' f -> boundary_face w els (sort_nat (map (fun j => nth j old 0%nat) f)).
Proof.
  intros ND HE HF. apply (face_transport w (fun j => nth j old 0%nat) els' els); auto.
  - intros x y Hx Hy E. apply (proj1 (NoDup_nth old 0%nat) ND); auto; eapply reb_referenced'; eauto.
  - pose proof (reb_elements old els els' ND HE) as E. clear -E. induction E; constructor; tauto.
Qed.

Lemma mean2_swap p q : mean2 [p; q] = mean2 [q; p].
Proof. unfold mean2. cbn. f_equal; f_equal; ring. Qed.

Section Body.
  Variables (pb : problem) (ic id : P2 -> bool) (g : P2 -> R).
  Hypothesis PO : posed pb ic id g.
  Variables (bt : built) (density : option (nat -> R)) (ops : FemModel.operators).
  Hypothesis RD : ready pb bt density ops.
  Let m := bt_mesh bt.
  Let b := bt_body bt.
  Let N := List.length (m_nodes m).
  Let points := node_table coord2 zero2 (m_nodes m).
  Let els := m_elements m.
  Let integrate := integrate_forces m (bt_basic bt).
  Let mesh := contact_of bt.
  Let faces := faces_of m "contact".

  Lemma contact_faces_ok : faces_ok 2 (b_count b) (mesh_faces mesh).
  Proof.
    destruct RD as (HB & _). destruct PO as [HR HS HA HC HD _]. destruct (body_is pb bt density ops RD) as (_ & C & _). unfold b. rewrite C.
    exact (built_faces P2 vec mean2 zero2 _ _ _ m 1 ic id HR HS HC HD HB "contact" ltac:(cbn; auto)).
  Qed.

  (* the places of the nodes of contact faces are contact places *)
  Lemma contact_ends : whole_faces pb ic -> forall f a, In f faces -> In a f ->
    boundary_node 3 els a /\ holds_at (m_nodes m) ic a.
  Proof.
    intros WF f a Hf Ha. destruct RD as (HB & _). destruct PO as [HR HS HA HC HD _].
    destruct (mesh_node_order P2 vec mean2 zero2 _ _ _ m 3 ic id HR HS HC HD HB) as (C & Ne & I & D & HO).
    destruct (face_classes mean2 zero2 _ _ _ m 3 ic id HR HS HC HD HB) as (FC & _).
    apply FC in Hf. destruct Hf as (BF & ps & PK & HI).
    split; [exists f; auto|].
    destruct HO as [U A K R _ _ _ _ _]. set (old := C ++ Ne ++ I ++ D) in *.
    destruct BF as (SF & LF & X). assert (BF : boundary_face 3 (m_elements m) f) by (split; auto).
    destruct f as [|x [|y [|]]]; cbn in LF; try discriminate. clear LF X.
    inversion PK as [|? p ? l Hx PK1]; subst. inversion PK1 as [|? q ? l' Hy PK2]; subst. inversion PK2; subst. clear PK PK1 PK2.
    assert (EN : forall j p, nth_error (m_nodes m) j = Some p -> exists o, nth_error old j = Some o /\ nth_error (pr_nodes pb) o = Some p).
    { intros j p0 Hj. destruct (Forall2_nth_error_r _ _ _ _ _ K Hj) as (o & H1 & H2). eauto. }
    destruct (EN x p Hx) as (ox & Ox & Px). destruct (EN y q Hy) as (oy & Oy & Py).
    pose proof (user_face old (pr_elements pb) (m_elements m) 3 [x; y] U R BF) as UF. cbn [map] in UF.
    rewrite (nth_error_nth old x 0%nat Ox), (nth_error_nth old y 0%nat Oy) in UF.
    assert (Q : ic p = true /\ ic q = true).
    { unfold sort_nat in UF. cbn in UF.
      destruct (Nat.leb ox oy) eqn:LE; cbn in UF; rewrite ?LE in UF.
      - apply (WF [ox; oy] p q UF); [repeat constructor; auto|exact HI].
      - assert (ic q = true /\ ic p = true) as [? ?]; auto.
        apply (WF [oy; ox] q p UF); [repeat constructor; auto|rewrite mean2_swap; exact HI]. }
    destruct Ha as [<-|[<-|[]]]; [exists p|exists q]; tauto.
  Qed.

  Lemma contact_first : separate ic id -> whole_faces pb ic -> forall f a, In f faces -> In a f ->
    (a < mesh_contact_count mesh)%nat.
  Proof.
    intros SE WF f a Hf Ha. destruct (contact_ends WF f a Hf Ha) as (BN & p & Hp & Ip).
    destruct RD as (HB & _). destruct PO as [HR HS HA HC HD _].
    destruct (disjoint_slices mean2 zero2 _ _ _ m 3 ic id HR HS HC HD HB) as (C & Ne & I & D & HO & CC & _).
    { intros i _ (q & Hq & Iq) (q' & Hq' & Iq'). rewrite Hq in Hq'. injection Hq' as <-. rewrite (SE q Iq) in Iq'. discriminate. }
    cbn [mesh contact_of mesh_contact_count]. fold m. rewrite CC, Nat2Z.id.
    destruct HO as [U A K R NC NN NI ND _]. set (old := C ++ Ne ++ I ++ D) in *.
    destruct (Forall2_nth_error_r _ _ _ _ _ K Hp) as (o & Ho & Po).
    assert (BO : boundary_node 3 (pr_elements pb) o).
    { apply (reb_boundary old (pr_elements pb) (m_elements m) U R 3 a o Ho). exact BN. }
    assert (IC : In o C).
    { apply NC. split; [exact BO|]. split; [exists p; auto|]. intros (q & Hq & Iq). rewrite Po in Hq. injection Hq as <-.
      rewrite (SE p Ip) in Iq. discriminate. }
    destruct (Nat.lt_ge_cases a (List.length C)) as [|GE]; [assumption|exfalso].
    unfold old in Ho. rewrite nth_error_app2 in Ho by exact GE.
    apply nth_error_In in Ho. clear -U IC Ho. induction C as [|x C IH]; [contradiction|].
    cbn in U. inversion U; subst. destruct IC as [<-|IC]; [apply H1; apply in_or_app; auto|auto].
  Qed.

  Lemma contact_count : separate ic id -> (mesh_contact_count mesh <= b_count b)%nat.
  Proof.
    intros SE. destruct (body_is pb bt density ops RD) as (_ & CB & _). unfold b. rewrite CB.
    destruct RD as (HB & _). destruct PO as [HR HS HA HC HD _].
    destruct (disjoint_slices mean2 zero2 _ _ _ m 3 ic id HR HS HC HD HB) as (C & Ne & I & D & HO & CC & _).
    { intros i _ (q & Hq & Iq) (q' & Hq' & Iq'). rewrite Hq in Hq'. injection Hq' as <-. rewrite (SE q Iq) in Iq'. discriminate. }
    cbn [mesh contact_of mesh_contact_count]. fold m. rewrite CC, Nat2Z.id.
    destruct HO as [_ _ K _ _ _ _ _ _]. rewrite <- (Forall2_length' _ _ _ K), !app_length. lia.
  Qed.

  Definition fixes (conds : list condition) : Prop := forall dof v, prescribed conds dof v <->
        exists n k p, fixed_node m id n /\ (k < 2)%nat /\ nth_error (m_nodes m) n = Some p /\
          dof = (k * N + n)%nat /\ v = g p.

  Lemma contact_apart conds : separate ic id -> whole_faces pb ic -> fixes conds -> faces_apart b mesh conds.
  Proof.
    intros SE WF HP e a c He Ha Hc (v & Hv). apply HP in Hv. destruct Hv as (n & k & p & (_ & q & Hq & Iq) & Hk & Hp & E & _).
    destruct (body_is pb bt density ops RD) as (_ & CB & _). unfold b in E. rewrite CB in E. fold m in E. fold N in E.
    destruct (contact_ends WF e a He Ha) as (_ & r & Hr & Ir).
    assert (LA : (a < N)%nat) by (apply nth_error_Some; congruence). assert (LN : (n < N)%nat) by (apply nth_error_Some; congruence).
    assert (a = n).
    { apply (f_equal (fun x => Nat.modulo x N)) in E. rewrite !(Nat.add_comm (_ * N)), !Nat.mod_add, !Nat.mod_small in E by lia. exact E. }
    subst n. rewrite Hq in Hr. injection Hr as <-. rewrite (SE q Ir) in Iq. discriminate.
  Qed.

  Lemma contact_split conds : separate ic id -> whole_faces pb ic -> fixes conds -> faces_split b mesh conds.
  Proof.
    intros SE WF HP e a c He Ha Hc. left. split; [exact (contact_first SE WF e a He Ha)|]. exact (contact_apart conds SE WF HP e a c He Ha Hc).
  Qed.

  Lemma fixes_takes conds v : fixes conds -> (admissible (prescribed conds) v <-> takes m id 2 g v).
  Proof.
    intros HP. split.
    - intros A n k p Fx Hk Hp. apply A. apply HP. exists n, k, p. auto.
    - intros T d x Hx. apply HP in Hx. destruct Hx as (n & k & p & Fx & Hk & Hp & -> & ->). exact (T n k p Fx Hk Hp).
  Qed.

  Lemma run_cost law dt u w : run_contact b mesh law dt u w = contact_cost coord2 zero2 m law (contact_normals m (bt_normals bt)) dt u w.
  Proof. unfold run_contact, contact_cost. destruct (body_is pb bt density ops RD) as (_ & CB & _). unfold b. rewrite CB. reflexivity. Qed.

  (* ------------------------------------------------------------ the setting *)

  Variables fi fo : P2 -> R -> vec.
  Notation loads := (nodal_load m (bt_basic bt) fi fo).
  Notation forceful := (answers m (pr_inner pb) (pr_outer pb) 2).
  Notation p := (physics_of N ops (fun _ => 0)).

  Lemma mass_symmetric : symmetric (2 * N) (acceleration_operator ops).
  Proof.
    destruct RD as (_ & _ & HO & _). apply bilinear_symmetric. intros y x.
    rewrite !bilinear_sum. unfold N, m. rewrite !(mass_work pb ic id g PO bt density ops RD). unfold inertia_work. f_equal.
    apply sum_ext. intros c _. apply lsum_ext. intros e _. f_equal. unfold mean_product.
    rewrite (Rmult_comm (sum 3 _)). f_equal. f_equal. apply sum_ext. intros; ring.
  Qed.
  Lemma elastic_symmetric mu la : elastic (pr_material pb) = Some (mu, la) -> symmetric (2 * N) (some_mat (elasticity ops)).
  Proof.
    intros EL. pose proof RD as (_ & _ & HO & _). pose proof (elastic_some pb ic id g PO bt density ops RD mu la EL) as X.
    destruct (elasticity ops) as [A|] eqn:E; [|contradiction].
    exact (proj1 (proj2 (elasticity2_all N points els _ density ops (proj1 (plane pb ic id g PO bt density ops RD)) HO mu la A EL E))).
  Qed.
  Lemma viscous_symmetric : symmetric (2 * N) (some_mat (viscosity ops)).
  Proof.
    pose proof RD as (_ & _ & HO & _). destruct (viscosity ops) as [A|] eqn:E; [|intros i j _ _; reflexivity].
    destruct (viscous (pr_material pb)) as [[th ze]|] eqn:VI.
    - exact (proj1 (proj2 (viscosity2_all N points els _ density ops th ze A (proj1 (plane pb ic id g PO bt density ops RD)) HO VI E))).
    - rewrite (operators_are pb ic id g PO bt density ops RD) in E. cbn [viscosity get_dynamics2] in E. rewrite VI in E. discriminate.
  Qed.

  Lemma posed_setting k th ze mu la law dt : positive_density density -> loaded pb 2 fi fo -> sturdy pb id k th ze mu la ->
    forward k dt -> convex_law law dt ->
    exists conds, fixes conds /\ contact_setting integrate b k p loads forceful (fun _ => False) conds mesh law dt /\
      equipped b k p (fun _ _ _ => 0) forceful (fun _ => False) (bt_world bt).
  Proof.
    intros PD LD (EL & SK) FW CV. destruct (body_is pb bt density ops RD) as (D & C & _).
    assert (KK : k = StaticDisplacement \/ k = QuasistaticVelocity \/ k = DynamicVelocity) by (destruct k; try contradiction; auto).
    assert (HELD : clamped_mesh pb id -> forall conds, mesh_conditions m 2 "dirichlet" = Ok conds -> forall i, (i < N)%nat -> StatementSpec.held (clamped N conds) els i).
    { intros HU conds MC. destruct (clamped_body pb ic id g PO bt density ops RD HU) as (conds0 & MC0 & HH). fold m in MC0. rewrite MC in MC0. injection MC0 as <-. exact HH. }
    destruct (fixed_conds pb ic id g PO bt density ops RD 2) as (conds & MC & WS & CN & HP).
    assert (DI : dimension_in k 2 = 2%nat) by (destruct KK as [->|[->| ->]]; reflexivity).
    destruct (fixed_size pb bt density ops RD k conds) as (HC & HW); [destruct KK as [->|[->| ->]]; discriminate|rewrite DI; exact MC|rewrite DI; exact WS|].
    assert (FL : (2 * N)%nat = force_length b k) by (unfold force_length, b; rewrite D, C; destruct KK as [->|[->| ->]]; reflexivity).
    destruct (keeps_nodal pb ic id g PO bt density ops RD k 2 fi fo LD FL) as (KF & AF).
    destruct (never_hot bt k (physics_of N ops (fun _ => 0))) as (KH & NH); [destruct KK as [->|[->| ->]]; discriminate|].
    exists conds. split; [exact HP|]. split.
    - unfold contact_setting. split; [exact D|]. split; [exact HC|]. split; [exact HW|]. split; [exact CN|]. split; [reflexivity|].
      split; [exact contact_faces_ok|]. split; [exact mass_symmetric|]. split; [exact viscous_symmetric|]. split; [exact (elastic_symmetric mu la EL)|].
      split; [|split; [exact KF|split; [exact KH|split; [exact FW|exact CV]]]].
      destruct KK as [->|[->| ->]]; cbn [stable_kind physics_of ph_n mass damping stiffness]; cbn [sturdy] in SK.
      + destruct SK as (M & L & HU). exact (elastic_definite_free pb ic id g PO bt density ops RD PD conds mu la (HELD HU conds MC) EL M L).
      + destruct SK as (VI & M & L & T & Z & HU). split.
        * exact (viscous_definite_free pb ic id g PO bt density ops RD PD conds th ze (HELD HU conds MC) VI T Z).
        * exact (elastic_psd pb ic id g PO bt density ops RD PD mu la EL M L).
      + destruct SK as (VI & M & L & T & Z & RM). split; [exact (proj1 (mass_definite pb ic id g PO bt density ops RD conds RM))|].
        split; [exact (viscous_psd pb ic id g PO bt density ops RD PD th ze VI T Z)|exact (elastic_psd pb ic id g PO bt density ops RD PD mu la EL M L)].
    - apply (equip pb bt density ops RD k (fun _ _ _ => 0) forceful (fun _ => False) (fun _ => 0)); [|intros _; exact AF|exact NH].
      pose proof (elastic_some pb ic id g PO bt density ops RD mu la EL) as X.
      destruct KK as [->|[->| ->]]; cbn [furnished]; cbn [sturdy] in SK; [exact X| |]; split; auto; apply (viscous_some pb ic id g PO bt density ops RD th ze); apply SK.
  Qed.

  (* ------------------------------------------------------------ the inequalities *)

  Lemma ew mu la v u G H : elastic (pr_material pb) = Some (mu, la) -> gradients coord2 zero2 m v G -> gradients coord2 zero2 m u H ->
    stress_work coord2 zero2 m density mu la G H = sum (2 * N) (fun i => v i * mv (2 * N) (some_mat (elasticity ops)) u i).
  Proof. exact (elastic_form pb ic id g PO bt density ops RD mu la v u G H). Qed.
  Lemma vw th ze v u G H : viscous (pr_material pb) = Some (th, ze) -> gradients coord2 zero2 m v G -> gradients coord2 zero2 m u H ->
    stress_work coord2 zero2 m density th ze G H = sum (2 * N) (fun i => v i * mv (2 * N) (some_mat (viscosity ops)) u i).
  Proof. exact (viscous_form pb ic id g PO bt density ops RD th ze v u G H). Qed.
  Lemma mw v a : inertia_work coord2 zero2 m 2 (mass_density (pr_material pb)) a v
    = sum (2 * N) (fun i => v i * mv (2 * N) (acceleration_operator ops) a i).
  Proof. exact (mass_form pb ic id g PO bt density ops RD v a). Qed.
  Lemma lw t v : load_work coord2 zero2 m 2 (fun p => fi p t) (fun p => fo p t) v = sum (2 * N) (fun a => v a * loads t a).
  Proof. symmetry. exact (loads_work pb ic id g PO bt density ops RD 2 fi fo t v). Qed.

  Lemma static_inequality conds mu la J u : fixes conds -> elastic (pr_material pb) = Some (mu, la) ->
    (contact_inequality (2 * N) (prescribed conds) (fun x i => mv (2 * N) (some_mat (elasticity ops)) x i - loads 0 i) J u <->
     leans coord2 zero2 m density id g mu la (fun p => fi p 0) (fun p => fo p 0) J u).
  Proof.
    intros HP EL.
    assert (Q : forall v G H, gradients coord2 zero2 m (fun i => v i - u i) G -> gradients coord2 zero2 m u H ->
      dot (2 * N) (fun i => mv (2 * N) (some_mat (elasticity ops)) u i - loads 0 i) (fun i => v i - u i)
      = stress_work coord2 zero2 m density mu la G H - load_work coord2 zero2 m 2 (fun p => fi p 0) (fun p => fo p 0) (fun i => v i - u i)).
    { intros v G H HG HH. rewrite (ew mu la _ u G H EL HG HH), lw.
      unfold dot. rewrite <- sum_minus. apply sum_ext. intros i _. ring. }
    split; intros [A B].
    - split; [apply (fixes_takes conds u HP); exact A|]. intros v G H TV HG HH.
      specialize (B v (proj2 (fixes_takes conds v HP) TV)). rewrite (Q v G H HG HH) in B. lra.
    - split; [apply (fixes_takes conds u HP); exact A|]. intros v AV. apply (fixes_takes conds v HP) in AV.
      destruct (vanishing_gradients pb ic id g PO bt density ops RD (fun i => v i - u i)) as (G & HG).
      destruct (vanishing_gradients pb ic id g PO bt density ops RD u) as (H & HH).
      specialize (B v G H AV HG HH). rewrite (Q v G H HG HH). lra.
  Qed.

  Notation step k th ze mu la := (contact_step coord2 zero2 m density id g (mass_density (pr_material pb)) th ze mu la fi fo k).

  Lemma moving_inequality conds k th ze mu la dt vb vt vp J t u v x : velocity_kind k -> sturdy pb id k th ze mu la -> fixes conds ->
    (contact_inequality (2 * N) (prescribed conds) (run_forces k p loads (fun _ _ _ => 0) vb vt vp dt u v t) J x <->
     step k th ze mu la t J (fun i => (x i - v i) / dt) x (fun i => u i + dt * x i)).
  Proof.
    intros VK (EL & SK) HP. pose proof (run_forces_form k p loads (fun _ _ _ => 0) dt vb vt vp VK u v t x) as RF.
    set (a := fun i => (x i - v i) / dt) in *. set (y := fun i => u i + dt * x i) in *.
    set (inert := fun z => match k with DynamicVelocity => inertia_work coord2 zero2 m 2 (mass_density (pr_material pb)) a z | _ => 0 end).
    assert (VI : viscous (pr_material pb) = Some (th, ze)) by (destruct k; try contradiction; apply SK).
    assert (Q : forall z G H K, gradients coord2 zero2 m (fun i => z i - x i) G -> gradients coord2 zero2 m x H -> gradients coord2 zero2 m y K ->
      dot (2 * N) (run_forces k p loads (fun _ _ _ => 0) vb vt vp dt u v t x) (fun i => z i - x i)
      = inert (fun i => z i - x i) + stress_work coord2 zero2 m density th ze G H + stress_work coord2 zero2 m density mu la G K
        - load_work coord2 zero2 m 2 (fun p => fi p t) (fun p => fo p t) (fun i => z i - x i)).
    { intros z G H K HG HH HK.
      rewrite (ew mu la _ y G K EL HG HK), (vw th ze _ x G H VI HG HH), lw.
      assert (I : inert (fun i => z i - x i) = sum (2 * N) (fun i => (z i - x i) * mv (2 * N) (inertia k p) a i)).
      { unfold inert, inertia. destruct k; try contradiction; cbn [mass physics_of];
          try apply mw;
          symmetry; apply sum_0; intros i _; unfold mv; rewrite sum_0 by (intros; ring); ring. }
      rewrite I. unfold dot. rewrite <- !sum_plus, <- sum_minus. apply sum_ext. intros i _. rewrite RF.
      cbn [ph_n damping stiffness physics_of]. unfold run_loads. destruct k; try contradiction; ring. }
    assert (E : step k th ze mu la t J a x y <-> (takes m id 2 g x /\
      forall z G H K, takes m id 2 g z -> gradients coord2 zero2 m (fun i => z i - x i) G -> gradients coord2 zero2 m x H -> gradients coord2 zero2 m y K ->
      load_work coord2 zero2 m 2 (fun p => fi p t) (fun p => fo p t) (fun i => z i - x i)
      <= inert (fun i => z i - x i) + stress_work coord2 zero2 m density th ze G H + stress_work coord2 zero2 m density mu la G K + J z - J x)).
    { unfold inert. destruct k; try contradiction; unfold contact_step; [|reflexivity].
      unfold drags. split; intros [A B]; (split; [exact A|]); intros z G H K TZ HG HH HK; specialize (B z G H K TZ HG HH HK); lra. }
    rewrite E. split; intros [A B].
    - split; [apply (fixes_takes conds x HP); exact A|]. intros z G H K TZ HG HH HK.
      specialize (B z (proj2 (fixes_takes conds z HP) TZ)). rewrite (Q z G H K HG HH HK) in B. lra.
    - split; [apply (fixes_takes conds x HP); exact A|]. intros z AZ. apply (fixes_takes conds z HP) in AZ.
      destruct (vanishing_gradients pb ic id g PO bt density ops RD (fun i => z i - x i)) as (G & HG).
      destruct (vanishing_gradients pb ic id g PO bt density ops RD x) as (H & HH).
      destruct (vanishing_gradients pb ic id g PO bt density ops RD y) as (K & HK).
      specialize (B z G H K AZ HG HH HK). rewrite (Q z G H K HG HH HK). lra.
  Qed.

  Lemma motion_governed conds k th ze mu la law dt vb vt vp u0 v0 n u v : velocity_kind k -> sturdy pb id k th ze mu la -> fixes conds ->
    (contact_governed (2 * N) (prescribed conds) (run_forces k p loads (fun _ _ _ => 0) vb vt vp dt) (run_contact b mesh law dt) dt u0 v0 n u v <->
     contact_motion dt (contact_cost coord2 zero2 m law (contact_normals m (bt_normals bt)) dt) (step k th ze mu la) u0 v0 n u v).
  Proof.
    intros VK SK HP.
    assert (EJ : run_contact b mesh law dt = contact_cost coord2 zero2 m law (contact_normals m (bt_normals bt)) dt).
    { apply functional_extensionality. intros y. apply functional_extensionality. intros z. apply run_cost. }
    rewrite EJ. unfold contact_governed, contact_motion.
    split; intros (A & B & H); (split; [exact A|]; split; [exact B|]); intros j Hj; destruct (H j Hj) as [H1 H2]; (split; [exact H1|]).
    - assert (EU : u (S j) = (fun i => u j i + dt * v (S j) i)) by (apply functional_extensionality; exact H1). rewrite EU.
      apply (moving_inequality conds k th ze mu la dt vb vt vp) in H2; auto.
    - assert (EU : u (S j) = (fun i => u j i + dt * v (S j) i)) by (apply functional_extensionality; exact H1). rewrite EU in H2.
      apply (moving_inequality conds k th ze mu la dt vb vt vp); auto.
  Qed.
End Body.
