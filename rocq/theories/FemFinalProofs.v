(* Last steps towards the theorems of Props_Fem. *)
From Coq Require Import Reals List Arith ZArith String Bool Lia Lra.
From Verif Require Import RVec PyModel MeshModel MeshBuildModel MeshSpec FemModel FemSpec FemGeomProofs FemAssemblyProofs
  FemFormProofs FemBasicProofs FemOperatorProofs FemMeshProofs FemBuildProofs FemQuadProofs
  FemPipelineProofs FemExamples.
Import ListNotations.
Local Open Scope string_scope.
Local Open Scope list_scope.
Local Open Scope R_scope.

Lemma gradients_2d x i : det_2d x <> 0 -> (i <= 2)%nat ->
  let '(g, v) := integral_parts2 x i in
  affine_gradient 2 x (delta i) g /\
  (forall g', affine_gradient 2 x (delta i) g' -> veq 2 g' g) /\
  v = area x.
Proof.
  intros D Hi. pose proof (grad2_basis x i D Hi) as H. unfold grad2 in H.
  pose proof (volume2_any x i ltac:(lia)) as HV.
  destruct (integral_parts2 x i) as [g v]. cbn [fst snd] in *. split; [exact H|]. split; [|exact HV].
  intros g' H'. apply (gradient_unique 2 x (grad2 x)) with (f := delta i); auto.
  - intros k Hk. apply grad2_sum; auto.
  - intros k c Hk Hc. apply grad2_coord; auto.
Qed.

Lemma gradients_3d x i : det_3d x <> 0 -> (i <= 3)%nat ->
  let '(g, v) := integral_parts3 x i in
  affine_gradient 3 x (delta i) g /\
  (forall g', affine_gradient 3 x (delta i) g' -> veq 3 g' g) /\
  v = volume x.
Proof.
  intros D Hi. pose proof (grad3_basis x i D Hi) as H. unfold grad3 in H.
  pose proof (volume3_any x i ltac:(lia)) as HV.
  destruct (integral_parts3 x i) as [g v]. cbn [fst snd] in *. split; [exact H|]. split; [|exact HV].
  intros g' H'. apply (gradient_unique 3 x (grad3 x)) with (f := delta i); auto.
  - intros k Hk. apply grad3_sum; auto.
  - intros k c Hk Hc. apply grad3_coord; auto.
Qed.

Lemma rows_2d N nodes els B : triangles N nodes els -> get_basic_matrices nodes els = Ok B ->
  (forall k l a, (k < 2)%nat -> (l < 2)%nat -> (a < N)%nat -> sum N (W B k l a) = 0) /\
  (forall k a, (k < 2)%nat -> (a < N)%nat -> sum N (V B k a) = 0) /\
  (forall k l a b, (k < 2)%nat -> (l < 2)%nat -> W B k l a b = W B l k b a).
Proof.
  intros HT HB. rewrite (basic2_is _ _ _ _ HT HB).
  pose proof (triangles_fem N nodes els HT) as F.
  pose proof (basic2_assembled nodes els (proj1 (proj2 HT))) as A.
  split; [|split]; intros.
  - apply (W_row 2 N nodes els _ _ _ F A); auto.
  - apply (V_row 2 N nodes els _ _ _ F A); auto.
  - apply (W_transpose 2 els _ _ _ A); auto.
Qed.

Lemma rows_3d N nodes els B : tetrahedra N nodes els -> get_basic_matrices nodes els = Ok B ->
  (forall k l a, (k < 3)%nat -> (l < 3)%nat -> (a < N)%nat -> sum N (W B k l a) = 0) /\
  (forall k a, (k < 3)%nat -> (a < N)%nat -> sum N (V B k a) = 0) /\
  (forall k l a b, (k < 3)%nat -> (l < 3)%nat -> W B k l a b = W B l k b a).
Proof.
  intros HT HB. rewrite (basic3_is _ _ _ _ HT HB).
  pose proof (tetrahedra_fem N nodes els HT) as F.
  pose proof (basic3_assembled nodes els (proj1 (proj2 HT))) as A.
  split; [|split]; intros.
  - apply (W_row 3 N nodes els _ _ _ F A); auto.
  - apply (V_row 3 N nodes els _ _ _ F A); auto.
  - apply (W_transpose 3 els _ _ _ A); auto.
Qed.

Lemma forms_2d N nodes els B : triangles N nodes els -> get_basic_matrices nodes els = Ok B ->
  (forall y x, bilinear N N (U B) y x = integral (element_area nodes) els (fun e =>
     mean_product 2 (fun k => y (nth k e 0%nat)) (fun k => x (nth k e 0%nat)))) /\
  (forall k y x gx, (k < 2)%nat -> field_gradient 2 nodes els x gx ->
     bilinear N N (V B k) y x = integral (element_area nodes) els (fun e => mean_value 2 e y * gx e k)) /\
  (forall k l y x gy gx, (k < 2)%nat -> (l < 2)%nat ->
     field_gradient 2 nodes els y gy -> field_gradient 2 nodes els x gx ->
     bilinear N N (W B k l) y x = integral (element_area nodes) els (fun e => gy e k * gx e l)) /\
  (forall x, exists g, field_gradient 2 nodes els x g).
Proof.
  intros HT HB. rewrite (basic2_is _ _ _ _ HT HB).
  pose proof (triangles_fem N nodes els HT) as F.
  pose proof (basic2_assembled nodes els (proj1 (proj2 HT))) as A.
  split; [|split; [|split]]; intros.
  - apply (U_form 2 N nodes els _ _ _ F A).
  - apply (V_form 2 N nodes els _ _ _ F A); auto.
  - apply (W_stiffness 2 N nodes els _ _ _ F A); auto.
  - apply gradient2_ex with N; auto.
Qed.

Lemma forms_3d N nodes els B : tetrahedra N nodes els -> get_basic_matrices nodes els = Ok B ->
  (forall y x, bilinear N N (U B) y x = integral (element_volume nodes) els (fun e =>
     mean_product 3 (fun k => y (nth k e 0%nat)) (fun k => x (nth k e 0%nat)))) /\
  (forall k y x gx, (k < 3)%nat -> field_gradient 3 nodes els x gx ->
     bilinear N N (V B k) y x = integral (element_volume nodes) els (fun e => mean_value 3 e y * gx e k)) /\
  (forall k l y x gy gx, (k < 3)%nat -> (l < 3)%nat ->
     field_gradient 3 nodes els y gy -> field_gradient 3 nodes els x gx ->
     bilinear N N (W B k l) y x = integral (element_volume nodes) els (fun e => gy e k * gx e l)) /\
  (forall x, exists g, field_gradient 3 nodes els x g).
Proof.
  intros HT HB. rewrite (basic3_is _ _ _ _ HT HB).
  pose proof (tetrahedra_fem N nodes els HT) as F.
  pose proof (basic3_assembled nodes els (proj1 (proj2 HT))) as A.
  split; [|split; [|split]]; intros.
  - apply (U_form 3 N nodes els _ _ _ F A).
  - apply (V_form 3 N nodes els _ _ _ F A); auto.
  - apply (W_stiffness 3 N nodes els _ _ _ F A); auto.
  - apply gradient3_ex with N; auto.
Qed.

Lemma mass_2d N nodes els B : triangles N nodes els -> get_basic_matrices nodes els = Ok B ->
  symmetric N (U B) /\
  sum N (fun a => sum N (fun b => U B a b)) = lsum els (element_area nodes) /\
  sum N (fun a => sum N (fun b => volume_at_nodes B a b)) = lsum els (element_area nodes) /\
  ((forall i, (i < N)%nat -> referenced els i) -> pos_def N (U B)) /\
  element_initial_volume B = map (element_area nodes) els.
Proof.
  intros HT HB. rewrite (basic2_is _ _ _ _ HT HB).
  pose proof (triangles_fem N nodes els HT) as F.
  pose proof (basic2_assembled nodes els (proj1 (proj2 HT))) as A.
  split; [|split; [|split; [|split]]]; intros.
  - apply (U_symmetric 2 N els _ _ _ A).
  - apply (U_total 2 N nodes els _ _ _ F A).
  - apply (vol_sum 2 N nodes els _ _ _ F A); lia.
  - apply (U_pos_def 2 N nodes els _ _ _ F A); auto.
    intros e He. apply area_pos. destruct HT as (_ & _ & HD). apply HD; auto.
  - apply A.
Qed.

Lemma mass_3d N nodes els B : tetrahedra N nodes els -> get_basic_matrices nodes els = Ok B ->
  symmetric N (U B) /\
  sum N (fun a => sum N (fun b => U B a b)) = lsum els (element_volume nodes) /\
  sum N (fun a => sum N (fun b => volume_at_nodes B a b)) = lsum els (element_volume nodes) /\
  ((forall i, (i < N)%nat -> referenced els i) -> pos_def N (U B)) /\
  element_initial_volume B = map (element_volume nodes) els.
Proof.
  intros HT HB. rewrite (basic3_is _ _ _ _ HT HB).
  pose proof (tetrahedra_fem N nodes els HT) as F.
  pose proof (basic3_assembled nodes els (proj1 (proj2 HT))) as A.
  split; [|split; [|split; [|split]]]; intros.
  - apply (U_symmetric 3 N els _ _ _ A).
  - apply (U_total 3 N nodes els _ _ _ F A).
  - apply (vol_sum 3 N nodes els _ _ _ F A); lia.
  - apply (U_pos_def 3 N nodes els _ _ _ F A); auto.
    intros e He. apply volume_pos. destruct HT as (_ & _ & HD). apply HD; auto.
  - apply A.
Qed.

(* density weighted assembly *)
Lemma density_2d N nodes els g : triangles N nodes els ->
  (forall e i, In e els -> (i <= 2)%nat -> affine_gradient 2 (corners nodes e) (delta i) (g e i)) ->
  (forall rho k l a b, (k < 2)%nat -> (l < 2)%nat ->
     w_matrix2 nodes els (Some rho) k l a b
     = lsum (combine (seq 0 (List.length els)) els) (fun p => rho (fst p) *
         assembly 3 [snd p] (fun e i j => element_area nodes e * (g e i k * g e j l)) a b)) /\
  (forall k l a b, (k < 2)%nat -> (l < 2)%nat ->
     w_matrix2 nodes els (Some (fun _ => 1)) k l a b = w_matrix2 nodes els None k l a b) /\
  (forall rho rho' s s' k l a b, (k < 2)%nat -> (l < 2)%nat ->
     w_matrix2 nodes els (Some (fun n => s * rho n + s' * rho' n)) k l a b
     = s * w_matrix2 nodes els (Some rho) k l a b + s' * w_matrix2 nodes els (Some rho') k l a b).
Proof.
  intros HT Hg. pose proof (triangles_fem N nodes els HT) as F.
  pose proof (basic2_assembled nodes els (proj1 (proj2 HT))) as A.
  pose proof (basis_is 2 N nodes els (grads2 nodes) F g Hg) as E.
  assert (EN : forall rho k l a b, (k < 2)%nat -> (l < 2)%nat ->
     w_matrix2 nodes els (Some rho) k l a b
     = lsum (combine (seq 0 (List.length els)) els) (fun p => rho (fst p) *
         assembly 3 [snd p] (fun e i j => element_area nodes e * (g e i k * g e j l)) a b)).
  { intros rho k l a b Hk Hl. cbn [w_matrix2]. rewrite (density_entry nodes els rho k l a b) by (auto; apply HT).
    apply lsum_ext. intros p Hp. f_equal. unfold assembly. cbn [lsum]. rewrite Rplus_0_r.
    apply combine_seq_in in Hp. destruct Hp as [Hp _]. apply nth_error_In in Hp.
    apply sum_ext. intros i Hi. apply sum_ext. intros j Hj. rewrite !E by (auto; lia). reflexivity. }
  split; [exact EN|split].
  - intros k l a b Hk Hl. rewrite EN by auto. cbn [w_matrix2].
    destruct A as (_ & _ & _ & A4 & _). rewrite A4 by auto. unfold assembly at 2.
    rewrite <- (combine_map_snd els 0) at 3. rewrite lsum_map. apply lsum_ext.
    intros p Hp. unfold assembly. cbn [lsum]. rewrite Rplus_0_r, Rmult_1_l.
    apply combine_seq_in in Hp. destruct Hp as [Hp _]. apply nth_error_In in Hp.
    apply sum_ext. intros i Hi. apply sum_ext. intros j Hj. rewrite !E by (auto; lia).
    reflexivity.
  - intros rho rho' s s' k l a b Hk Hl. rewrite !EN by auto. rewrite <- !lsum_scal, <- lsum_plus.
    apply lsum_ext. intros; ring.
Qed.

(* relaxation tensor *)
Lemma relaxation_2d N nodes els density coeff : triangles N nodes els ->
  let A := relaxation2 N (w_matrix2 nodes els density) coeff in
  (forall v u G H, vector_gradient 2 N nodes els v G -> vector_gradient 2 N nodes els u H ->
   bilinear (2 * N) (2 * N) A v u
    = mesh_integral (element_area nodes) density els (fun e =>
        coeff 0%nat 0%nat 0%nat * (G 0%nat e 0%nat * H 0%nat e 0%nat)
        + coeff 0%nat 1%nat 1%nat * (G 0%nat e 1%nat * H 0%nat e 1%nat)
        + coeff 0%nat 1%nat 0%nat * (G 0%nat e 1%nat * H 1%nat e 0%nat)
        + coeff 0%nat 0%nat 1%nat * (G 0%nat e 0%nat * H 1%nat e 1%nat)
        + coeff 1%nat 1%nat 0%nat * (G 1%nat e 1%nat * H 0%nat e 0%nat)
        + coeff 1%nat 0%nat 1%nat * (G 1%nat e 0%nat * H 0%nat e 1%nat)
        + coeff 1%nat 0%nat 0%nat * (G 1%nat e 0%nat * H 1%nat e 0%nat)
        + coeff 1%nat 1%nat 1%nat * (G 1%nat e 1%nat * H 1%nat e 1%nat))) /\
  (coeff 0%nat 1%nat 0%nat = coeff 1%nat 0%nat 1%nat ->
   coeff 0%nat 0%nat 1%nat = coeff 1%nat 1%nat 0%nat -> symmetric (2 * N) A) /\
  (forall mu lambda,
    coeff 0%nat 0%nat 0%nat = 2 * mu + lambda -> coeff 1%nat 1%nat 1%nat = 2 * mu + lambda ->
    coeff 0%nat 1%nat 1%nat = mu -> coeff 1%nat 0%nat 0%nat = mu ->
    coeff 0%nat 1%nat 0%nat = mu -> coeff 1%nat 0%nat 1%nat = mu ->
    coeff 0%nat 0%nat 1%nat = lambda -> coeff 1%nat 1%nat 0%nat = lambda ->
    forall v u G H, vector_gradient 2 N nodes els v G -> vector_gradient 2 N nodes els u H ->
    bilinear (2 * N) (2 * N) A v u = mesh_integral (element_area nodes) density els (fun e =>
      elastic_density 2 mu lambda (fun c => G c e) (fun c => H c e))).
Proof.
  intros HT A.
  pose proof (mesh_like (element_area nodes) density els) as HI.
  pose proof (w2_stiffness N nodes els density HT) as HW.
  assert (EQ := relaxation2_form 2 N nodes els _ _ HI HW coeff).
  split; [|split].
  - intros v u G H HG HH. apply (EQ v u G H eq_refl HG HH).
  - intros E1 E2. apply bilinear_symmetric. intros y x.
    destruct (gradients2_ex N nodes els y HT) as [G HG], (gradients2_ex N nodes els x HT) as [H HH].
    unfold A. rewrite (EQ y x G H eq_refl HG HH), (EQ x y H G eq_refl HH HG).
    apply (proj1 HI). intros e _. rewrite E1, E2. ring.
  - intros mu lambda e1 e2 e3 e4 e5 e6 e7 e8 v u G H HG HH. unfold A.
    rewrite (EQ v u G H eq_refl HG HH). apply (proj1 HI). intros e _.
    rewrite e1, e2, e3, e4, e5, e6, e7, e8. unfold elastic_density, strain, divergence. cbn [sum].
    field.
Qed.

(* 3D rotation: existence of a displacement *)
Definition rotation_field (N : nat) (nodes : nat -> vec) : vec := fun a =>
  match (a / N)%nat with
  | O => - nodes (a mod N)%nat 1%nat
  | 1%nat => nodes (a mod N)%nat 0%nat
  | _ => 0
  end.

Lemma rotation_field_rigid N nodes : rigid_motion 3 N nodes (fun _ => 0) rotation_z (rotation_field N nodes).
Proof.
  intros c n Hc Hn. unfold rotation_field.
  rewrite Nat.add_comm, Nat.div_add, Nat.mod_add, Nat.div_small, Nat.mod_small by lia.
  destruct c as [|[|[|c]]]; [| | |lia]; cbn; ring.
Qed.

Lemma total_volume_pos N nodes els : tetrahedra N nodes els -> els <> [] ->
  0 < lsum els (element_volume nodes).
Proof.
  intros (_ & _ & HD) HN. destruct els as [|e els]; [congruence|]. simpl.
  assert (0 < element_volume nodes e) by (apply volume_pos; apply HD; left; auto).
  assert (0 <= lsum els (element_volume nodes)) by (apply lsum_nonneg; intros; apply volume_nonneg). lra.
Qed.

Lemma elasticity3_not_isotropic N nodes els p ops mu lambda E :
  tetrahedra N nodes els -> reinitialize_matrices N nodes els p None = Ok ops ->
  elastic p = Some (mu, lambda) -> elasticity ops = Some E -> mu < lambda ->
  exists b S u, antisymmetric 3 S /\ rigid_motion 3 N nodes b S u /\ qform (3 * N) E u < 0.
Proof.
  intros HT HO Hp HE L. pose proof (elasticity3_is _ _ _ _ _ _ HT HO _ _ _ Hp HE) as EE.
  exists (fun _ => 0), rotation_z, (rotation_field N nodes). split; [|split].
  - intros k l Hk Hl. destruct k as [|[|[|k]]]; [| | |lia]; destruct l as [|[|[|l]]]; try lia; cbn; ring.
  - apply rotation_field_rigid.
  - rewrite (rotation3 _ _ _ HT mu lambda E _ _ EE (rotation_field_rigid N nodes)).
    assert (els <> []) by (intros ->; discriminate HO).
    pose proof (total_volume_pos N nodes els HT H).
    assert (0 < (lambda - mu) * lsum els (element_volume nodes)) by (apply Rmult_lt_0_compat; lra). nra.
Qed.

Definition steel (mu lambda : R) : properties := mkProperties 1 (Some (mu, lambda)) None None None None.

Lemma elasticity3_refuted : exists N nodes els p ops mu lambda E b S u,
  tetrahedra N nodes els /\ reinitialize_matrices N nodes els p None = Ok ops /\
  elastic p = Some (mu, lambda) /\ elasticity ops = Some E /\ 0 <= mu /\ 0 <= lambda /\
  antisymmetric 3 S /\ rigid_motion 3 N nodes b S u /\ qform (3 * N) E u < 0.
Proof.
  exists 5%nat, tet_nodes, tet_els, (steel 1 2). do 1 eexists. exists 1, 2. eexists.
  destruct (elasticity3_not_isotropic 5 tet_nodes tet_els (steel 1 2) _ 1 2 _ tet_tetrahedra
              eq_refl eq_refl eq_refl ltac:(lra)) as (b & S & u & H1 & H2 & H3).
  exists b, S, u. split; [exact tet_tetrahedra|]. split; [reflexivity|]. split; [reflexivity|].
  split; [reflexivity|]. repeat split; try lra; auto.
Qed.

(* psd of the conductivity form *)
Lemma form_psd2 N nodes els density (co : nat -> nat -> R) (K : mat) :
  triangles N nodes els -> nonneg_density density ->
  (forall v, 0 <= sum 2 (fun k => sum 2 (fun l => co k l * (v k * v l)))) ->
  (forall y x gy gx, field_gradient 2 nodes els y gy -> field_gradient 2 nodes els x gx ->
    bilinear N N K y x = mesh_integral (element_area nodes) density els (fun e =>
      sum 2 (fun k => sum 2 (fun l => co k l * (gy e k * gx e l))))) ->
  pos_semidef N K.
Proof.
  intros HT HD HC HK y. destruct (gradient2_ex N nodes els y HT) as [g Hg].
  unfold qform. rewrite <- bilinear_dot, (HK y y g g Hg Hg). apply mesh_integral_nonneg; auto.
  intros; apply area_nonneg.
Qed.

Lemma form_sym2 N nodes els density (co : nat -> nat -> R) (K : mat) :
  triangles N nodes els -> co 0%nat 1%nat = co 1%nat 0%nat ->
  (forall y x gy gx, field_gradient 2 nodes els y gy -> field_gradient 2 nodes els x gx ->
    bilinear N N K y x = mesh_integral (element_area nodes) density els (fun e =>
      sum 2 (fun k => sum 2 (fun l => co k l * (gy e k * gx e l))))) ->
  symmetric N K.
Proof.
  intros HT HC HK. apply bilinear_symmetric. intros y x.
  destruct (gradient2_ex N nodes els y HT) as [g Hg], (gradient2_ex N nodes els x HT) as [h Hh].
  rewrite (HK y x g h Hg Hh), (HK x y h g Hh Hg). apply (proj1 (mesh_like (element_area nodes) density els)).
  intros e _. cbn [sum]. rewrite HC. ring.
Qed.

Lemma form_psd3 N nodes els (co : nat -> nat -> R) (K : mat) :
  tetrahedra N nodes els ->
  (forall v, 0 <= sum 3 (fun k => sum 3 (fun l => co k l * (v k * v l)))) ->
  (forall y x gy gx, field_gradient 3 nodes els y gy -> field_gradient 3 nodes els x gx ->
    bilinear N N K y x = integral (element_volume nodes) els (fun e =>
      sum 3 (fun k => sum 3 (fun l => co k l * (gy e k * gx e l))))) ->
  pos_semidef N K.
Proof.
  intros HT HC HK y. destruct (gradient3_ex N nodes els y HT) as [g Hg].
  unfold qform. rewrite <- bilinear_dot, (HK y y g g Hg Hg).
  apply lsum_nonneg. intros e _. apply Rmult_le_pos; auto. apply volume_nonneg.
Qed.

Lemma form_sym3 N nodes els (co : nat -> nat -> R) (K : mat) :
  tetrahedra N nodes els -> (forall k l, (k < 3)%nat -> (l < 3)%nat -> co k l = co l k) ->
  (forall y x gy gx, field_gradient 3 nodes els y gy -> field_gradient 3 nodes els x gx ->
    bilinear N N K y x = integral (element_volume nodes) els (fun e =>
      sum 3 (fun k => sum 3 (fun l => co k l * (gy e k * gx e l))))) ->
  symmetric N K.
Proof.
  intros HT HC HK. apply bilinear_symmetric. intros y x.
  destruct (gradient3_ex N nodes els y HT) as [g Hg], (gradient3_ex N nodes els x HT) as [h Hh].
  rewrite (HK y x g h Hg Hh), (HK x y h g Hh Hg). apply lsum_ext.
  intros e _. cbn [sum]. rewrite (HC 1%nat 0%nat), (HC 2%nat 0%nat), (HC 2%nat 1%nat) by lia. ring.
Qed.

(* a constant coefficient form with unit matrix *)
Lemma poisson_psd2 N nodes els density c (K : mat) : triangles N nodes els -> nonneg_density density ->
  (forall y x gy gx, field_gradient 2 nodes els y gy -> field_gradient 2 nodes els x gx ->
    bilinear N N K y x = mesh_integral (element_area nodes) density els (fun e =>
      c ^ 2 * sum 2 (fun k => gy e k * gx e k))) ->
  symmetric N K /\ pos_semidef N K /\ (forall s, veq N (mv N K (fun _ => s)) (fun _ => 0)).
Proof.
  intros HT HD HK. split; [|split].
  - apply bilinear_symmetric. intros y x.
    destruct (gradient2_ex N nodes els y HT) as [g Hg], (gradient2_ex N nodes els x HT) as [h Hh].
    rewrite (HK y x g h Hg Hh), (HK x y h g Hh Hg). apply (proj1 (mesh_like (element_area nodes) density els)).
    intros e _. cbn [sum]. ring.
  - intros y. destruct (gradient2_ex N nodes els y HT) as [g Hg].
    unfold qform. rewrite <- bilinear_dot, (HK y y g g Hg Hg). apply mesh_integral_nonneg; auto.
    + intros; apply area_nonneg.
    + intros e _. cbn [sum]. nra.
  - intros s a Ha. rewrite <- (bilinear_row N N K a (fun _ => s) Ha).
    destruct (gradient2_ex N nodes els (delta a) HT) as [g Hg].
    rewrite (HK (delta a) (fun _ => s) g (fun _ _ => 0) Hg).
    2:{ intros e _ i j _ _. cbn [sum]. ring. }
    destruct (mesh_like (element_area nodes) density els) as (E1 & _ & E3).
    rewrite (E1 _ (fun e => 0 * 0)). { rewrite (E3 0 (fun _ => 0)). ring. }
    intros e _. cbn [sum]. ring.
Qed.

Lemma poisson_psd3 N nodes els c (K : mat) : tetrahedra N nodes els ->
  (forall y x gy gx, field_gradient 3 nodes els y gy -> field_gradient 3 nodes els x gx ->
    bilinear N N K y x = integral (element_volume nodes) els (fun e =>
      c ^ 2 * sum 3 (fun k => gy e k * gx e k))) ->
  symmetric N K /\ pos_semidef N K /\ (forall s, veq N (mv N K (fun _ => s)) (fun _ => 0)).
Proof.
  intros HT HK. split; [|split].
  - apply bilinear_symmetric. intros y x.
    destruct (gradient3_ex N nodes els y HT) as [g Hg], (gradient3_ex N nodes els x HT) as [h Hh].
    rewrite (HK y x g h Hg Hh), (HK x y h g Hh Hg). apply lsum_ext.
    intros e _. cbn [sum]. ring.
  - intros y. destruct (gradient3_ex N nodes els y HT) as [g Hg].
    unfold qform. rewrite <- bilinear_dot, (HK y y g g Hg Hg).
    apply lsum_nonneg. intros e _. apply Rmult_le_pos; [apply volume_nonneg|]. cbn [sum].
    apply Rmult_le_pos; [apply pow2_ge_0|]. nra.
  - intros s a Ha. rewrite <- (bilinear_row N N K a (fun _ => s) Ha).
    destruct (gradient3_ex N nodes els (delta a) HT) as [g Hg].
    rewrite (HK (delta a) (fun _ => s) g (fun _ _ => 0) Hg).
    2:{ intros e _ i j _ _. cbn [sum]. ring. }
    apply lsum_0. intros e _. cbn [sum]. ring.
Qed.

(* which operators exist *)
Definition same_presence {A B} (a : option A) (b : option B) : Prop := a = None <-> b = None.

Lemma presence_map {A B} (f : A -> B) (a : option A) : same_presence a (option_map f a).
Proof. destruct a; simpl; split; intros; congruence. Qed.

Lemma dispatch_2d N nodes els p density : triangles N nodes els -> els <> [] ->
  exists ops, reinitialize_matrices N nodes els p density = Ok ops /\
    same_presence (elastic p) (elasticity ops) /\ same_presence (viscous p) (viscosity ops) /\
    same_presence (membrane p) (poisson_operator ops) /\
    same_presence (thermal p) (thermal_expansion ops) /\
    same_presence (thermal p) (thermal_conductivity ops) /\
    same_presence (piezo p) (piezoelectricity ops) /\ same_presence (piezo p) (permittivity ops).
Proof.
  intros (_ & HL & _) HN. destruct els as [|e els]; [congruence|]. inversion HL; subst.
  unfold reinitialize_matrices. rewrite H1. change ((3 - 1 =? 2)%nat) with true. cbv iota zeta.
  eexists. split; [reflexivity|].
  unfold get_dynamics2. cbn [elasticity viscosity poisson_operator thermal_expansion thermal_conductivity
    piezoelectricity permittivity].
  repeat split; intros H; try (rewrite H; reflexivity);
    match goal with |- ?q = None => destruct q; simpl in H; [discriminate|reflexivity] end.
Qed.

Lemma dispatch_3d N nodes els p density : tetrahedra N nodes els -> els <> [] ->
  match density, piezo p with
  | Some _, _ => reinitialize_matrices N nodes els p density = Err TypeError
  | None, Some _ => reinitialize_matrices N nodes els p density = Err NotImplemented
  | None, None => exists ops, reinitialize_matrices N nodes els p density = Ok ops /\
      same_presence (elastic p) (elasticity ops) /\ same_presence (viscous p) (viscosity ops) /\
      same_presence (membrane p) (poisson_operator ops) /\
      same_presence (thermal p) (thermal_expansion ops) /\
      same_presence (thermal p) (thermal_conductivity ops) /\
      piezoelectricity ops = None /\ permittivity ops = None
  end.
Proof.
  intros (_ & HL & _) HN. destruct els as [|e els]; [congruence|]. inversion HL; subst.
  unfold reinitialize_matrices. rewrite H1. change ((4 - 1 =? 2)%nat) with false.
  change ((4 - 1 =? 3)%nat) with true. cbv iota zeta. unfold w_matrix3.
  destruct density as [rho|]; [reflexivity|]. unfold get_dynamics3.
  destruct (piezo p) as [z|]; [reflexivity|].
  eexists. split; [reflexivity|].
  cbn [elasticity viscosity poisson_operator thermal_expansion thermal_conductivity
    piezoelectricity permittivity].
  repeat split; intros; try (rewrite H; reflexivity);
    match goal with |- ?q = None => destruct q; simpl in H; [discriminate|reflexivity] end.
Qed.

(* kinetic energy *)
Lemma mass_block_2d N nodes els p density ops : triangles N nodes els ->
  reinitialize_matrices N nodes els p density = Ok ops ->
  (forall i, (i < N)%nat -> referenced els i) -> 0 < mass_density p ->
  symmetric (2 * N) (acceleration_operator ops) /\ pos_def (2 * N) (acceleration_operator ops).
Proof.
  intros HT HO HR Hm. pose proof (mass2_form N nodes els p density ops HT HO) as HF.
  assert (MS : forall f g, mean_product 2 f g = mean_product 2 g f).
  { intros f g. unfold mean_product. rewrite (Rmult_comm (sum 3 f)). f_equal. f_equal.
    apply sum_ext. intros; ring. }
  split.
  - apply bilinear_symmetric. intros y x. rewrite !HF. f_equal. apply sum_ext. intros c _.
    apply lsum_ext. intros e _. f_equal. apply MS.
  - intros x (a & Ha & Hx). unfold qform. rewrite <- bilinear_dot, HF.
    apply Rmult_lt_0_compat; auto.
    pose proof (triangles_fem N nodes els HT) as F.
    pose proof (basic2_assembled nodes els (proj1 (proj2 HT))) as A.
    assert (HP : pos_def N (U (basic2 nodes els))).
    { apply (U_pos_def 2 N nodes els _ _ _ F A); auto.
      intros e He. apply area_pos. apply (proj2 (proj2 HT)); auto. }
    assert (HU : forall y, qform N (U (basic2 nodes els)) y = integral (element_area nodes) els
       (fun e => mean_product 2 (fun k => y (nth k e 0%nat)) (fun k => y (nth k e 0%nat)))).
    { intros y. unfold qform. rewrite <- bilinear_dot. apply (U_form 2 N nodes els _ _ _ F A). }
    rewrite (sum_ext 2 _ (fun c => qform N (U (basic2 nodes els)) (component N x c)))
      by (intros c _; symmetry; apply HU).
    assert (HN : N <> 0%nat) by (intros ->; lia).
    apply (sum_pos 2 _ (a / N)%nat).
    + intros c _. apply pos_def_semidef; auto.
    + apply Nat.div_lt_upper_bound; lia.
    + apply HP. exists (a mod N)%nat. split; [apply Nat.mod_upper_bound; auto|].
      unfold component. rewrite Nat.mul_comm, <- Nat.div_mod by auto; exact Hx.
Qed.

Lemma mass_block_3d N nodes els p density ops : tetrahedra N nodes els ->
  reinitialize_matrices N nodes els p density = Ok ops ->
  (forall i, (i < N)%nat -> referenced els i) -> 0 < mass_density p ->
  symmetric (3 * N) (acceleration_operator ops) /\ pos_def (3 * N) (acceleration_operator ops).
Proof.
  intros HT HO HR Hm. pose proof (mass3_form N nodes els p density ops HT HO) as HF.
  assert (MS : forall f g, mean_product 3 f g = mean_product 3 g f).
  { intros f g. unfold mean_product. rewrite (Rmult_comm (sum 4 f)). f_equal. f_equal.
    apply sum_ext. intros; ring. }
  split.
  - apply bilinear_symmetric. intros y x. rewrite !HF. f_equal. apply sum_ext. intros c _.
    apply lsum_ext. intros e _. f_equal. apply MS.
  - intros x (a & Ha & Hx). unfold qform. rewrite <- bilinear_dot, HF.
    apply Rmult_lt_0_compat; auto.
    pose proof (tetrahedra_fem N nodes els HT) as F.
    pose proof (basic3_assembled nodes els (proj1 (proj2 HT))) as A.
    assert (HP : pos_def N (U (basic3 nodes els))).
    { apply (U_pos_def 3 N nodes els _ _ _ F A); auto.
      intros e He. apply volume_pos. apply (proj2 (proj2 HT)); auto. }
    assert (HU : forall y, qform N (U (basic3 nodes els)) y = integral (element_volume nodes) els
       (fun e => mean_product 3 (fun k => y (nth k e 0%nat)) (fun k => y (nth k e 0%nat)))).
    { intros y. unfold qform. rewrite <- bilinear_dot. apply (U_form 3 N nodes els _ _ _ F A). }
    rewrite (sum_ext 3 _ (fun c => qform N (U (basic3 nodes els)) (component N x c)))
      by (intros c _; symmetry; apply HU).
    assert (HN : N <> 0%nat) by (intros ->; lia).
    apply (sum_pos 3 _ (a / N)%nat).
    + intros c _. apply pos_def_semidef; auto.
    + apply Nat.div_lt_upper_bound; lia.
    + apply HP. exists (a mod N)%nat. split; [apply Nat.mod_upper_bound; auto|].
      unfold component. rewrite Nat.mul_comm, <- Nat.div_mod by auto; exact Hx.
Qed.

Lemma entries_2d N nodes els B g : triangles N nodes els ->
  get_basic_matrices nodes els = Ok B ->
  (forall e i, In e els -> (i <= 2)%nat -> affine_gradient 2 (corners nodes e) (delta i) (g e i)) ->
  (forall a b, volume_at_nodes B a b = assembly 3 els (fun e i j =>
      element_area nodes e * ((1 - delta i j) / (INR 3 * INR 2))) a b) /\
  (forall a b, U B a b = assembly 3 els (fun e i j =>
      element_area nodes e * ((1 + delta i j) / (INR 3 * INR 4))) a b) /\
  (forall k a b, (k < 2)%nat -> V B k a b = assembly 3 els (fun e i j =>
      element_area nodes e * (g e j k / INR 3)) a b) /\
  (forall k l a b, (k < 2)%nat -> (l < 2)%nat -> W B k l a b = assembly 3 els (fun e i j =>
      element_area nodes e * (g e i k * g e j l)) a b) /\
  element_initial_volume B = map (element_area nodes) els.
Proof.
  intros HT HB Hg. rewrite (basic2_is _ _ _ _ HT HB).
  exact (entries 2 N nodes els _ _ _ (triangles_fem N nodes els HT)
    (basic2_assembled nodes els (proj1 (proj2 HT))) g Hg).
Qed.

Lemma entries_3d N nodes els B g : tetrahedra N nodes els ->
  get_basic_matrices nodes els = Ok B ->
  (forall e i, In e els -> (i <= 3)%nat -> affine_gradient 3 (corners nodes e) (delta i) (g e i)) ->
  (forall a b, volume_at_nodes B a b = assembly 4 els (fun e i j =>
      element_volume nodes e * ((1 - delta i j) / (INR 4 * INR 3))) a b) /\
  (forall a b, U B a b = assembly 4 els (fun e i j =>
      element_volume nodes e * ((1 + delta i j) / (INR 4 * INR 5))) a b) /\
  (forall k a b, (k < 3)%nat -> V B k a b = assembly 4 els (fun e i j =>
      element_volume nodes e * (g e j k / INR 4)) a b) /\
  (forall k l a b, (k < 3)%nat -> (l < 3)%nat -> W B k l a b = assembly 4 els (fun e i j =>
      element_volume nodes e * (g e i k * g e j l)) a b) /\
  element_initial_volume B = map (element_volume nodes) els.
Proof.
  intros HT HB Hg. rewrite (basic3_is _ _ _ _ HT HB).
  exact (entries 3 N nodes els _ _ _ (tetrahedra_fem N nodes els HT)
    (basic3_assembled nodes els (proj1 (proj2 HT))) g Hg).
Qed.

Lemma viscosity2_all N nodes els p density ops th ze C :
  triangles N nodes els -> reinitialize_matrices N nodes els p density = Ok ops ->
  viscous p = Some (th, ze) -> viscosity ops = Some C ->
  (forall v u G H, vector_gradient 2 N nodes els v G -> vector_gradient 2 N nodes els u H ->
     bilinear (2 * N) (2 * N) C v u
     = mesh_integral (element_area nodes) density els (fun e =>
         elastic_density 2 th ze (fun c => G c e) (fun c => H c e))) /\
  symmetric (2 * N) C /\
  (0 <= th -> 0 <= ze -> nonneg_density density -> pos_semidef (2 * N) C) /\
  (forall b S u, antisymmetric 2 S -> rigid_motion 2 N nodes b S u ->
     veq (2 * N) (mv (2 * N) C u) (fun _ => 0)).
Proof.
  intros HT HO Hp HC. pose proof (viscosity2_is _ _ _ _ _ _ HT HO _ _ _ Hp HC) as ->.
  set (p' := mkProperties 1 (Some (th, ze)) None None None None).
  assert (HN : els <> []) by (intros ->; discriminate HO).
  destruct (dispatch_2d N nodes els p' density HT HN) as (ops' & HO' & _).
  refine (elasticity2_all N nodes els p' density ops' HT HO' th ze _ eq_refl _).
  rewrite (reinit2_is _ _ _ _ _ _ HT HO'). reflexivity.
Qed.

Lemma conductivity2_all N nodes els p density ops ex co K :
  triangles N nodes els -> reinitialize_matrices N nodes els p density = Ok ops ->
  thermal p = Some (ex, co) -> thermal_conductivity ops = Some K ->
  (forall y x gy gx, field_gradient 2 nodes els y gy -> field_gradient 2 nodes els x gx ->
     bilinear N N K y x = mesh_integral (element_area nodes) density els (fun e =>
       sum 2 (fun k => sum 2 (fun l => co k l * (gy e k * gx e l))))) /\
  (co 0%nat 1%nat = co 1%nat 0%nat -> symmetric N K) /\
  (nonneg_density density ->
   (forall v, 0 <= sum 2 (fun k => sum 2 (fun l => co k l * (v k * v l)))) -> pos_semidef N K).
Proof.
  intros HT HO Hp HK. pose proof (conductivity2_is _ _ _ _ _ _ HT HO _ _ _ Hp HK) as HF.
  split; [exact HF|split].
  - intros HC. exact (form_sym2 N nodes els density co K HT HC HF).
  - intros HD HC. exact (form_psd2 N nodes els density co K HT HD HC HF).
Qed.

Lemma permittivity2_all N nodes els p density ops pz pm K :
  triangles N nodes els -> reinitialize_matrices N nodes els p density = Ok ops ->
  piezo p = Some (pz, pm) -> permittivity ops = Some K ->
  (forall y x gy gx, field_gradient 2 nodes els y gy -> field_gradient 2 nodes els x gx ->
     bilinear N N K y x = mesh_integral (element_area nodes) density els (fun e =>
       sum 2 (fun k => sum 2 (fun l => pm k l * (gy e k * gx e l))))) /\
  (pm 0%nat 1%nat = pm 1%nat 0%nat -> symmetric N K) /\
  (nonneg_density density ->
   (forall v, 0 <= sum 2 (fun k => sum 2 (fun l => pm k l * (v k * v l)))) -> pos_semidef N K).
Proof.
  intros HT HO Hp HK. pose proof (permittivity2_is _ _ _ _ _ _ HT HO _ _ _ Hp HK) as HF.
  split; [exact HF|split].
  - intros HC. exact (form_sym2 N nodes els density pm K HT HC HF).
  - intros HD HC. exact (form_psd2 N nodes els density pm K HT HD HC HF).
Qed.

Lemma conductivity3_all N nodes els p density ops ex co K :
  tetrahedra N nodes els -> reinitialize_matrices N nodes els p density = Ok ops ->
  thermal p = Some (ex, co) -> thermal_conductivity ops = Some K ->
  (forall y x gy gx, field_gradient 3 nodes els y gy -> field_gradient 3 nodes els x gx ->
     bilinear N N K y x = integral (element_volume nodes) els (fun e =>
       sum 3 (fun k => sum 3 (fun l => co k l * (gy e k * gx e l))))) /\
  ((forall k l, (k < 3)%nat -> (l < 3)%nat -> co k l = co l k) -> symmetric N K) /\
  ((forall v, 0 <= sum 3 (fun k => sum 3 (fun l => co k l * (v k * v l)))) -> pos_semidef N K).
Proof.
  intros HT HO Hp HK. pose proof (conductivity3_is _ _ _ _ _ _ HT HO _ _ _ Hp HK) as HF.
  split; [exact HF|split].
  - intros HC. exact (form_sym3 N nodes els co K HT HC HF).
  - intros HC. exact (form_psd3 N nodes els co K HT HC HF).
Qed.

Lemma poisson2_all N nodes els p density ops c K :
  triangles N nodes els -> reinitialize_matrices N nodes els p density = Ok ops ->
  membrane p = Some c -> poisson_operator ops = Some K -> nonneg_density density ->
  (forall y x gy gx, field_gradient 2 nodes els y gy -> field_gradient 2 nodes els x gx ->
     bilinear N N K y x = mesh_integral (element_area nodes) density els (fun e =>
       c ^ 2 * sum 2 (fun k => gy e k * gx e k))) /\
  symmetric N K /\ pos_semidef N K /\ (forall s, veq N (mv N K (fun _ => s)) (fun _ => 0)).
Proof.
  intros HT HO Hp HK HD. pose proof (poisson2_is _ _ _ _ _ _ HT HO _ _ Hp HK) as HF.
  split; [exact HF|]. exact (poisson_psd2 N nodes els density c K HT HD HF).
Qed.

Lemma poisson3_all N nodes els p density ops c K :
  tetrahedra N nodes els -> reinitialize_matrices N nodes els p density = Ok ops ->
  membrane p = Some c -> poisson_operator ops = Some K ->
  (forall y x gy gx, field_gradient 3 nodes els y gy -> field_gradient 3 nodes els x gx ->
     bilinear N N K y x = integral (element_volume nodes) els (fun e =>
       c ^ 2 * sum 3 (fun k => gy e k * gx e k))) /\
  symmetric N K /\ pos_semidef N K /\ (forall s, veq N (mv N K (fun _ => s)) (fun _ => 0)).
Proof.
  intros HT HO Hp HK. pose proof (poisson3_is _ _ _ _ _ _ HT HO _ _ Hp HK) as HF.
  split; [exact HF|]. exact (poisson_psd3 N nodes els c K HT HF).
Qed.

Lemma built_mass_2d (P A : Type) (mean : list P -> P) (zero : P) (coord : P -> vec)
    (nodes0 : list P) (els0 : list (list nat)) (d : @Description P A) (m : @MeshData P A) ic id B :
  in_range (List.length nodes0) els0 -> simplices 3 els0 ->
  dict_get (indicators d) "contact" = Some ic -> dict_get (indicators d) "dirichlet" = Some id ->
  build mean zero nodes0 els0 d = Ok m ->
  (forall e, In e els0 -> det_2d (corners (node_table coord zero nodes0) e) <> 0) ->
  get_basic_matrices (node_table coord zero (m_nodes m)) (m_elements m) = Ok B ->
  let N := List.length (m_nodes m) in
  symmetric N (U B) /\ pos_def N (U B) /\
  sum N (fun a => sum N (fun b => U B a b))
    = lsum els0 (element_area (node_table coord zero nodes0)).
Proof.
  intros HR HS HC HD HB HN HM N.
  destruct (built_triangles mean zero nodes0 els0 d m 1%nat ic id coord HR HS HC HD HB eq_refl HN) as [HT HE].
  destruct (mass_2d N _ _ B HT HM) as (M1 & M2 & _ & M4 & _). split; [exact M1|split].
  - apply M4. intros i Hi. exact (built_referenced mean zero nodes0 els0 d m 1%nat ic id HR HS HC HD HB i Hi).
  - rewrite M2. exact HE.
Qed.

Lemma built_mass_3d (P A : Type) (mean : list P -> P) (zero : P) (coord : P -> vec)
    (nodes0 : list P) (els0 : list (list nat)) (d : @Description P A) (m : @MeshData P A) ic id B :
  in_range (List.length nodes0) els0 -> simplices 4 els0 ->
  dict_get (indicators d) "contact" = Some ic -> dict_get (indicators d) "dirichlet" = Some id ->
  build mean zero nodes0 els0 d = Ok m ->
  (forall e, In e els0 -> det_3d (corners (node_table coord zero nodes0) e) <> 0) ->
  get_basic_matrices (node_table coord zero (m_nodes m)) (m_elements m) = Ok B ->
  let N := List.length (m_nodes m) in
  symmetric N (U B) /\ pos_def N (U B) /\
  sum N (fun a => sum N (fun b => U B a b))
    = lsum els0 (element_volume (node_table coord zero nodes0)).
Proof.
  intros HR HS HC HD HB HN HM N.
  destruct (built_tetrahedra mean zero nodes0 els0 d m 2%nat ic id coord HR HS HC HD HB eq_refl HN) as [HT HE].
  destruct (mass_3d N _ _ B HT HM) as (M1 & M2 & _ & M4 & _). split; [exact M1|split].
  - apply M4. intros i Hi. exact (built_referenced mean zero nodes0 els0 d m 2%nat ic id HR HS HC HD HB i Hi).
  - rewrite M2. exact HE.
Qed.
