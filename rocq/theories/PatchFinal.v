(* The patch test for the problems that a user poses. *)
From Coq Require Import Reals List Arith Bool Lia Lra Permutation Sorted String.
From Verif Require Import Common PyModel RVec ListLemmas MeshModel MeshBuildModel MeshBuildProofs MeshSpec MeshFacesProofs MeshOrderProofs FemModel FemSpec ForcesSpec NormalsModel ForcesModel
  FemAssemblyProofs FemGeomProofs FemOperatorProofs FemMeshProofs FemPipelineProofs FemBuildProofs FemFinalProofs DirichletSpec StatementModel StatementSpec StateModel MethodModel
  RegistryModel TimeModel TimeSpec ProblemModel ProblemSpec ProblemReady ProblemTheorems ProblemUnique ProblemFinal
  GaussSpec GaussProofs GaussFinal SidesProofs SidesFinal PatchSpec PatchProofs.
Import ListNotations.
Local Open Scope string_scope.
Local Open Scope list_scope.
Local Open Scope R_scope.

(* sums over all boundary faces of something that vanishes on the others *)
Lemma lsum_part (faces part : list (list nat)) (h : list nat -> R) : NoDup faces -> NoDup part -> incl part faces ->
  (forall f, In f faces -> ~ In f part -> h f = 0) -> lsum faces h = lsum part h.
Proof.
  intros NF NP I Z. set (q := fun f => if in_dec (list_eq_dec Nat.eq_dec) f part then true else false).
  rewrite (lsum_filter q faces). rewrite (lsum_0 (filter (fun a => negb (q a)) faces)).
  - rewrite Rplus_0_r. apply lsum_perm. apply NoDup_Permutation; auto; [apply NoDup_filter; auto|].
    intros f. rewrite filter_In. unfold q. destruct (in_dec _ f part); split; intros; try tauto; try (destruct H; discriminate). split; auto.
  - intros f Hf. apply filter_In in Hf. destruct Hf as [Hf Q]. apply Z; auto. unfold q in Q. destruct (in_dec _ f part); [discriminate|auto].
Qed.

Section Posed.
  Variables (pb : problem) (ic id : P2 -> bool) (g : P2 -> R).
  Hypothesis PO : posed pb ic id g.
  Variables (bt : built) (density : option (nat -> R)) (ops : FemModel.operators).
  Hypothesis RD : ready pb bt density ops.
  Let m := bt_mesh bt.
  Let N := List.length (m_nodes m).
  Let els := m_elements m.
  Let x := node_table coord2 zero2 (m_nodes m).
  Hypothesis TS : two_sided 2 (node_table coord2 zero2 (pr_nodes pb)) (pr_elements pb).

  Lemma posed_sided : two_sided 2 x els.
  Proof.
    destruct RD as (HB & _). destruct PO as [HR HS HA HC HD _].
    exact (built_sided mean2 zero2 coord2 (pr_nodes pb) (pr_elements pb) (pr_boundaries pb) m 1 ic id HR HS HC HD HB TS).
  Qed.
  Lemma posed_simplices : simplices 3 els.
  Proof. destruct RD as (HB & _). destruct PO as [HR HS _ _ _ _]. exact (proj1 (built_shape mean2 zero2 _ _ _ m 1 HR HS HB)). Qed.
  Lemma posed_triangles : triangles N x els.
  Proof. exact (proj1 (plane pb ic id g PO bt density ops RD)). Qed.

  Lemma neumann_faces : NoDup (faces_of m "neumann") /\ forall f, In f (faces_of m "neumann") -> boundary_face 3 els f.
  Proof.
    destruct RD as (HB & _). destruct PO as [HR HS HA HC HD _].
    destruct (face_classes mean2 zero2 (pr_nodes pb) (pr_elements pb) (pr_boundaries pb) m 3 ic id HR HS HC HD HB) as (_ & _ & FN & _ & _ & _ & SN).
    split; [apply sorted_distinct; auto|]. intros f Hf. apply FN in Hf. apply Hf.
  Qed.

  (* without load in the body the work of the loads is the work of a matching constant stress at the boundary *)
  Lemma matched_work width S h (hn : P2 -> vec) n v (E : forall i k, (i < N)%nat -> h i k = hn (nth i (m_nodes m) zero2) k) : (width <= 2)%nat ->
    loads_match 2 width els (fun f => In f (faces_of m "neumann")) (fixed_node m id) (fun f => traction 2 S (n f)) h ->
    vanishes m id width v ->
    lsum (boundary_surfaces els) (fun f => face_measure 2 x f * sum width (fun k => traction 2 S (n f) k * (lsum f (component N v k) / INR 2)))
    = surface_work coord2 zero2 m width hn v.
  Proof.
    intros W2 LM VA. destruct neumann_faces as [ND NB]. pose proof (surfaces_list 2 els posed_simplices) as BL. destruct BL as [BN BI].
    pose proof (face_lt 2 N els (boundary_surfaces els) (proj1 posed_triangles) (conj BN BI)) as FL.
    unfold surface_work, face_integral. fold N x. rewrite <- lsum_sum.
    rewrite (lsum_part _ (faces_of m "neumann")); auto.
    - apply lsum_ext. intros f Hf. rewrite <- sum_scal. apply sum_ext. intros k Hk. f_equal. unfold Rdiv. rewrite <- Rmult_assoc. f_equal.
      rewrite <- (lsum_scal_l f (traction 2 S (n f) k) (component N v k)). apply lsum_ext. intros i Hi. pose proof (NB f Hf) as BF. apply BI in BF. unfold at_nodes.
      destruct (LM f i (NB f Hf) Hi) as [Fx|L].
      + unfold component. unfold N. rewrite (VA i k Fx Hk). ring.
      + rewrite (proj1 (L k Hk) Hf), (E i k) by (apply (FL f); auto). ring.
    - intros f Hf. apply BI, NB; auto.
    - intros f Hf Nf. rewrite sum_0; [ring|]. intros k Hk.
      replace (traction 2 S (n f) k * (lsum f (component N v k) / INR 2)) with (/ INR 2 * (traction 2 S (n f) k * lsum f (component N v k))) by (unfold Rdiv; ring).
      rewrite <- lsum_scal_l, lsum_0; [ring|]. intros i Hi. destruct (LM f i (proj1 (BI f) Hf) Hi) as [Fx|L].
      + unfold component, N. rewrite (VA i k Fx Hk). ring.
      + rewrite (proj2 (L k Hk) Nf). ring.
  Qed.

  Lemma no_volume_work width f v : (forall p k, (k < width)%nat -> f p k = 0) -> volume_work coord2 zero2 m width f v = 0.
  Proof.
    intros Z. unfold volume_work. apply sum_0. intros k Hk. apply lsum_0. intros e _. unfold cross_mean, at_nodes.
    rewrite (sum_0 3 (fun i => f (nth (nth i e 0%nat) (m_nodes m) zero2) k)) by (intros; apply Z; auto).
    cbn [sum]. rewrite !Z by auto. unfold Rdiv. ring.
  Qed.

  Lemma gradient_constant u (H : nat -> list nat -> vec) b A : affine_values 2 N x b A u -> vector_gradient 2 N x els u H ->
    forall e k c, In e els -> (k < 2)%nat -> (c < 2)%nat -> H k e c = A k c.
  Proof.
    intros AF HH e k c He Hk Hc. destruct posed_triangles as (HR & HL & HD).
    pose proof (rigid_gradient 2 N x els b A u HR HL AF k Hk e He) as G1. pose proof (HH k Hk e He) as G2.
    exact (gradient_unique 2 (corners x e) (grad2 (corners x e)) (fun c Hc => grad2_sum (corners x e) c (HD e He) Hc)
      (fun k c H H' => grad2_coord (corners x e) k c (HD e He) H H') _ _ _ G2 G1 c Hc).
  Qed.

  Lemma affine_balances mu la f h n b A u : density = None -> outer_normals 2 x els n -> (forall p k, (k < 2)%nat -> f p k = 0) ->
    loads_match 2 2 els (fun f => In f (faces_of m "neumann")) (fixed_node m id) (fun f => traction 2 (stress 2 mu la A) (n f)) (fun i => h (nth i (m_nodes m) zero2)) ->
    affine_values 2 N x b A u -> balances coord2 zero2 m density id mu la f h u.
  Proof.
    intros DN HN F0 LM AF v G H VA HG HH. unfold load_work. rewrite (no_volume_work 2 f v F0), Rplus_0_l.
    rewrite <- (matched_work 2 (stress 2 mu la A) (fun i => h (nth i (m_nodes m) zero2)) h n v); auto.
    destruct (gauss_2d N x els posed_triangles posed_simplices) as [_ GA].
    pose proof (surfaces_list 2 els posed_simplices) as BL.
    change (lsum (boundary_surfaces els) _) with (boundary_work 2 N x (boundary_surfaces els) n (stress 2 mu la A) v).
    rewrite <- (constant_work 2 N x els (element_area x) n (boundary_surfaces els) (fun v g c => GA posed_sided n HN _ v g c BL) _ v G HG).
    unfold stress_work. rewrite DN. cbn [mesh_integral]. fold els x. apply lsum_ext. intros e He. f_equal.
    rewrite <- (density_2d_constant mu la (fun c => G c e) A).
    pose proof (fun k c => gradient_constant u H b A AF HH e k c He) as GC.
    unfold elastic_density, strain, divergence. cbn [sum]. rewrite !GC by lia. reflexivity.
  Qed.

  Lemma affine_rests c f h n b A u : density = None -> outer_normals 2 x els n -> (forall p, f p 0%nat = 0) ->
    loads_match 2 1 els (fun f => In f (faces_of m "neumann")) (fixed_node m id) (fun f _ => c ^ 2 * dot 2 A (n f)) (fun i => h (nth i (m_nodes m) zero2)) ->
    (forall i, (i < N)%nat -> u i = b + dot 2 A (x i)) -> rests coord2 zero2 m density id c f h u.
  Proof.
    intros DN HN F0 LM AF v G K VA HG HK. unfold load_work. rewrite (no_volume_work 1 f v), Rplus_0_l.
    2:{ intros p k Hk. assert (k = 0%nat) by lia. subst k. auto. }
    set (S := fun (_ : nat) k => c ^ 2 * A k).
    assert (TR : forall fc k, traction 2 S (n fc) k = c ^ 2 * dot 2 A (n fc)).
    { intros fc k. unfold traction, S, dot. rewrite <- sum_scal. apply sum_ext. intros; ring. }
    rewrite <- (matched_work 1 S (fun i => h (nth i (m_nodes m) zero2)) h n v); auto.
    2:{ intros fc i HF Hi. destruct (LM fc i HF Hi) as [|L]; [auto|]. right. intros k Hk. rewrite TR. auto. }
    destruct (gauss_2d N x els posed_triangles posed_simplices) as [_ GA].
    pose proof (surfaces_list 2 els posed_simplices) as BL.
    assert (GU : forall e k, In e els -> (k < 2)%nat -> K e k = A k).
    { intros e k He Hk. destruct posed_triangles as (HR & HL & HD).
      assert (G1 : affine_gradient 2 (corners x e) (fun k => u (nth k e 0%nat)) A).
      {
        assert (LT : forall i, (i <= 2)%nat -> (nth i e 0%nat < N)%nat) by (intros i Hi; eapply in_range_nth; eauto; lia).
        intros i j Hi Hj. rewrite !AF by auto. unfold corners, dot. cbn [sum]. ring. }
      pose proof (HK e He) as G2.
      exact (gradient_unique 2 (corners x e) (grad2 (corners x e)) (fun c Hc => grad2_sum (corners x e) c (HD e He) Hc)
        (fun k c H H' => grad2_coord (corners x e) k c (HD e He) H H') _ _ _ G2 G1 k Hk). }
    assert (FX : forall k, (k < 2)%nat -> integral (element_area x) els (fun e => G e k) = flux 2 x (boundary_surfaces els) n v k).
    { intros k Hk. apply (GA posed_sided n HN _ v G k BL); auto. }
    unfold flux_work. rewrite DN. cbn [mesh_integral]. fold els x.
    transitivity (c ^ 2 * sum 2 (fun k => A k * integral (element_area x) els (fun e => G e k))).
    - unfold integral. rewrite (lsum_ext els _ (fun e => c ^ 2 * sum 2 (fun k => A k * (element_area x e * G e k)))).
      + rewrite lsum_scal_l, lsum_sum. f_equal. apply sum_ext. intros k _. apply lsum_scal_l.
      + intros e He. cbn [sum]. rewrite !GU by (auto; lia). ring.
    - rewrite (sum_ext 2 _ (fun k => A k * flux 2 x (boundary_surfaces els) n v k)) by (intros k Hk; rewrite FX by auto; reflexivity).
      unfold flux. rewrite (sum_ext 2 _ (fun k => lsum (boundary_surfaces els) (fun f0 => A k * (face_measure 2 x f0 * (n f0 k * (lsum f0 v / INR 2)))))) by (intros; rewrite lsum_scal_l; reflexivity).
      rewrite <- lsum_sum, <- lsum_scal_l. apply lsum_ext. intros fc Hf. cbn [sum]. rewrite TR. unfold dot. cbn [sum].
      replace (lsum fc (component N v 0)) with (lsum fc v) by reflexivity. ring.
  Qed.
End Posed.
