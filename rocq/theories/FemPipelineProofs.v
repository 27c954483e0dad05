(* From reinitialize_matrices to integrals. *)
From Coq Require Import Reals List Arith ZArith String Bool Lia Lra.
From Verif Require Import RVec PyModel MeshSpec FemModel FemSpec FemGeomProofs FemAssemblyProofs
  FemFormProofs FemBasicProofs FemOperatorProofs FemMeshProofs.
Import ListNotations.
Local Open Scope R_scope.

Lemma ok_inj {A} (a b : A) : Ok a = Ok b -> a = b.
Proof. intros H. congruence. Qed.

Lemma basic2_is N nodes els B : triangles N nodes els -> get_basic_matrices nodes els = Ok B ->
  B = basic2 nodes els.
Proof.
  intros (_ & HL & _) H. destruct els as [|e els]; [discriminate|]. inversion HL; subst.
  unfold get_basic_matrices in H. rewrite H2 in H. simpl in H. congruence.
Qed.

Lemma basic3_is N nodes els B : tetrahedra N nodes els -> get_basic_matrices nodes els = Ok B ->
  B = basic3 nodes els.
Proof.
  intros (_ & HL & _) H. destruct els as [|e els]; [discriminate|]. inversion HL; subst.
  unfold get_basic_matrices in H. rewrite H2 in H. simpl in H. congruence.
Qed.

Lemma reinit2_is N nodes els p density ops : triangles N nodes els ->
  reinitialize_matrices N nodes els p density = Ok ops ->
  ops = get_dynamics2 N p (U (basic2 nodes els)) (V (basic2 nodes els)) (w_matrix2 nodes els density).
Proof.
  intros (_ & HL & _) H. destruct els as [|e els]; [discriminate|]. inversion HL; subst.
  unfold reinitialize_matrices in H. rewrite H2 in H.
  change ((3 - 1 =? 2)%nat) with true in H. cbv iota zeta in H. congruence.
Qed.

Lemma reinit3_is N nodes els p density ops : tetrahedra N nodes els ->
  reinitialize_matrices N nodes els p density = Ok ops ->
  density = None /\ piezo p = None /\
  Ok ops = get_dynamics3 N p (U (basic3 nodes els)) (V (basic3 nodes els)) (W (basic3 nodes els)).
Proof.
  intros (_ & HL & _) H. destruct els as [|e els]; [discriminate|]. inversion HL; subst.
  unfold reinitialize_matrices in H. rewrite H2 in H.
  change ((4 - 1 =? 2)%nat) with false in H. change ((4 - 1 =? 3)%nat) with true in H.
  cbv iota zeta in H. destruct density as [rho|]; [discriminate|].
  unfold w_matrix3 in H. destruct (piezo p) eqn:E.
  - unfold get_dynamics3 in H. rewrite E in H. discriminate.
  - auto.
Qed.

Lemma w2_stiffness N nodes els density : triangles N nodes els ->
  stiffness_of 2 N nodes els (mesh_integral (element_area nodes) density els) (w_matrix2 nodes els density).
Proof.
  intros HT. destruct density as [rho|].
  - exact (density_stiffness N nodes els rho HT).
  - exact (W_stiffness 2 N nodes els _ _ _ (triangles_fem N nodes els HT)
             (basic2_assembled nodes els (proj1 (proj2 HT)))).
Qed.

Lemma w3_stiffness N nodes els : tetrahedra N nodes els ->
  stiffness_of 3 N nodes els (integral (element_volume nodes) els) (W (basic3 nodes els)).
Proof.
  intros HT. exact (W_stiffness 3 N nodes els _ _ _ (tetrahedra_fem N nodes els HT)
    (basic3_assembled nodes els (proj1 (proj2 HT)))).
Qed.

Lemma mesh_like meas density els : integral_like els (mesh_integral meas density els).
Proof.
  destruct density; simpl; [apply (weighted_like meas r els)|apply (integral_is_like meas els)].
Qed.

Lemma gradients2_ex N nodes els u : triangles N nodes els -> exists H, vector_gradient 2 N nodes els u H.
Proof. intros HT. apply vector_gradient_ex with (G := grads2 nodes). apply triangles_fem; auto. Qed.

Lemma gradients3_ex N nodes els u : tetrahedra N nodes els -> exists H, vector_gradient 3 N nodes els u H.
Proof. intros HT. apply vector_gradient_ex with (G := grads3 nodes). apply tetrahedra_fem; auto. Qed.

Lemma gradient2_ex N nodes els x : triangles N nodes els -> exists g, field_gradient 2 nodes els x g.
Proof. intros HT. apply gradient_ex with (N := N) (G := grads2 nodes). apply triangles_fem; auto. Qed.

Lemma gradient3_ex N nodes els x : tetrahedra N nodes els -> exists g, field_gradient 3 nodes els x g.
Proof. intros HT. apply gradient_ex with (N := N) (G := grads3 nodes). apply tetrahedra_fem; auto. Qed.

Lemma area_nonneg nodes e : 0 <= element_area nodes e.
Proof.
  unfold element_area, area. pose proof (Rabs_pos (det_2d (corners nodes e))). lra.
Qed.

Lemma volume_nonneg nodes e : 0 <= element_volume nodes e.
Proof.
  unfold element_volume, volume. pose proof (Rabs_pos (det_3d (corners nodes e))). lra.
Qed.

Lemma mesh_integral_nonneg meas density els f : (forall e, 0 <= meas e) -> nonneg_density density ->
  (forall e, In e els -> 0 <= f e) -> 0 <= mesh_integral meas density els f.
Proof.
  intros HM HD Hf. destruct density as [rho|]; simpl in *.
  - apply lsum_nonneg. intros p Hp. apply combine_seq_in in Hp. destruct Hp as [Hp _].
    apply nth_error_In in Hp. apply Rmult_le_pos; auto. apply Rmult_le_pos; auto.
  - apply lsum_nonneg. intros e He. apply Rmult_le_pos; auto.
Qed.

(* 2D *)
Section Two.
  Variables (N : nat) (nodes : nat -> vec) (els : list (list nat)) (p : properties).
  Variables (density : option (nat -> R)) (ops : operators).
  Hypothesis HT : triangles N nodes els.
  Hypothesis HO : reinitialize_matrices N nodes els p density = Ok ops.
  Notation I := (mesh_integral (element_area nodes) density els).

  Let HI := mesh_like (element_area nodes) density els.
  Let HW := w2_stiffness N nodes els density HT.
  Let F := triangles_fem N nodes els HT.
  Let A := basic2_assembled nodes els (proj1 (proj2 HT)).

  Lemma elasticity2_all mu lambda E : elastic p = Some (mu, lambda) -> elasticity ops = Some E ->
    (forall v u G H, vector_gradient 2 N nodes els v G -> vector_gradient 2 N nodes els u H ->
       bilinear (2 * N) (2 * N) E v u
       = I (fun e => elastic_density 2 mu lambda (fun c => G c e) (fun c => H c e))) /\
    symmetric (2 * N) E /\
    (0 <= mu -> 0 <= lambda -> nonneg_density density -> pos_semidef (2 * N) E) /\
    (forall b S u, antisymmetric 2 S -> rigid_motion 2 N nodes b S u ->
       veq (2 * N) (mv (2 * N) E u) (fun _ => 0)).
  Proof.
    intros Hp HE. rewrite (reinit2_is _ _ _ _ _ _ HT HO) in HE. simpl in HE. rewrite Hp in HE.
    simpl in HE. inversion HE; subst E. split; [|split; [|split]].
    - intros v u G H HG HH. apply (elasticity2_form 2 N nodes els I _ HI HW mu lambda v u G H); auto.
    - apply (elasticity2_symmetric N nodes els I _ HI mu lambda HW).
      intros u. apply gradients2_ex; auto.
    - intros Hm Hl Hd. apply (elasticity2_psd N nodes els I _ HI mu lambda HW); auto.
      + intros u. apply gradients2_ex; auto.
      + intros f Hf. apply mesh_integral_nonneg; auto. intros. apply area_nonneg.
    - intros b S u HS Hu. destruct HT as (HR & HL & HD).
      apply (elasticity2_rigid N nodes els I _ HI HR mu lambda HW HL) with (b := b) (S := S); auto.
      intros x. apply gradients2_ex; auto.
  Qed.

  Lemma viscosity2_is th ze C : viscous p = Some (th, ze) -> viscosity ops = Some C ->
    C = constitutive2 N (w_matrix2 nodes els density) th ze.
  Proof.
    intros Hp HE. rewrite (reinit2_is _ _ _ _ _ _ HT HO) in HE. simpl in HE. rewrite Hp in HE.
    simpl in HE. congruence.
  Qed.

  Lemma mass2_form v u : bilinear (2 * N) (2 * N) (acceleration_operator ops) v u
    = mass_density p * sum 2 (fun c => integral (element_area nodes) els (fun e =>
        mean_product 2 (fun k => component N v c (nth k e 0%nat)) (fun k => component N u c (nth k e 0%nat)))).
  Proof.
    rewrite (reinit2_is _ _ _ _ _ _ HT HO). cbn [acceleration_operator get_dynamics2].
    rewrite acceleration2_form. f_equal. apply sum_ext. intros c _.
    apply (U_form 2 N nodes els _ _ _ F A).
  Qed.

  Lemma poisson2_is c P : membrane p = Some c -> poisson_operator ops = Some P ->
    forall y x gy gx, field_gradient 2 nodes els y gy -> field_gradient 2 nodes els x gx ->
    bilinear N N P y x = I (fun e => c ^ 2 * sum 2 (fun k => gy e k * gx e k)).
  Proof.
    intros Hp HE. rewrite (reinit2_is _ _ _ _ _ _ HT HO) in HE. simpl in HE. rewrite Hp in HE.
    simpl in HE. inversion HE; subst P. intros. apply (poisson_form 2 N nodes els I _ HI HW); auto.
  Qed.

  Lemma conductivity2_is ex co K : thermal p = Some (ex, co) -> thermal_conductivity ops = Some K ->
    forall y x gy gx, field_gradient 2 nodes els y gy -> field_gradient 2 nodes els x gx ->
    bilinear N N K y x = I (fun e => sum 2 (fun k => sum 2 (fun l => co k l * (gy e k * gx e l)))).
  Proof.
    intros Hp HE. rewrite (reinit2_is _ _ _ _ _ _ HT HO) in HE. simpl in HE. rewrite Hp in HE.
    simpl in HE. inversion HE; subst K. intros. apply (conductivity2_form 2 N nodes els I _ HI HW); auto.
  Qed.

  Lemma permittivity2_is pz pm K : piezo p = Some (pz, pm) -> permittivity ops = Some K ->
    forall y x gy gx, field_gradient 2 nodes els y gy -> field_gradient 2 nodes els x gx ->
    bilinear N N K y x = I (fun e => sum 2 (fun k => sum 2 (fun l => pm k l * (gy e k * gx e l)))).
  Proof.
    intros Hp HE. rewrite (reinit2_is _ _ _ _ _ _ HT HO) in HE. simpl in HE. rewrite Hp in HE.
    simpl in HE. inversion HE; subst K. intros. apply (conductivity2_form 2 N nodes els I _ HI HW); auto.
  Qed.

  Lemma piezo2_is pz pm K : piezo p = Some (pz, pm) -> piezoelectricity ops = Some K ->
    forall y u gy H, field_gradient 2 nodes els y gy -> vector_gradient 2 N nodes els u H ->
    bilinear N (2 * N) K y u = I (fun e => sum 2 (fun c => sum 2 (fun k => sum 2 (fun l =>
       pz c k l * (gy e k * H c e l))))).
  Proof.
    intros Hp HE. rewrite (reinit2_is _ _ _ _ _ _ HT HO) in HE. simpl in HE. rewrite Hp in HE.
    simpl in HE. inversion HE; subst K. intros. apply (piezo2_form 2 N nodes els I _ HI HW); auto.
  Qed.

  Lemma expansion2_is ex co K : thermal p = Some (ex, co) -> thermal_expansion ops = Some K ->
    forall y u H, vector_gradient 2 N nodes els u H ->
    bilinear N (2 * N) K y u = integral (element_area nodes) els (fun e =>
       mean_value 2 e y * sum 2 (fun c => sum 2 (fun l => ex c l * H c e l))).
  Proof.
    intros Hp HE. rewrite (reinit2_is _ _ _ _ _ _ HT HO) in HE. simpl in HE. rewrite Hp in HE.
    simpl in HE. inversion HE; subst K. intros.
    apply (thermal2_form 2 N nodes els (element_area nodes)); auto.
    intros. apply (V_form 2 N nodes els _ _ _ F A); auto.
  Qed.
End Two.

(* 3D *)
Section Three.
  Variables (N : nat) (nodes : nat -> vec) (els : list (list nat)) (p : properties).
  Variables (density : option (nat -> R)) (ops : operators).
  Hypothesis HT : tetrahedra N nodes els.
  Hypothesis HO : reinitialize_matrices N nodes els p density = Ok ops.
  Notation I := (integral (element_volume nodes) els).

  Let HI := integral_is_like (element_volume nodes) els.
  Let HW := w3_stiffness N nodes els HT.
  Let F := tetrahedra_fem N nodes els HT.
  Let A := basic3_assembled nodes els (proj1 (proj2 HT)).

  Lemma ops3 : exists Q, ops = Q /\ Ok Q = get_dynamics3 N p (U (basic3 nodes els))
    (V (basic3 nodes els)) (W (basic3 nodes els)) /\ piezo p = None.
  Proof. destruct (reinit3_is _ _ _ _ _ _ HT HO) as (_ & H1 & H2). eauto. Qed.

  Lemma elasticity3_is mu lambda E : elastic p = Some (mu, lambda) -> elasticity ops = Some E ->
    E = constitutive3 N (W (basic3 nodes els)) mu lambda.
  Proof.
    intros Hp HE. destruct ops3 as (Q & -> & HQ & Hz). unfold get_dynamics3 in HQ. rewrite Hz in HQ.
    apply ok_inj in HQ; subst Q. cbn [elasticity viscosity poisson_operator thermal_conductivity thermal_expansion] in HE. rewrite Hp in HE. cbn [option_map] in HE. congruence.
  Qed.

  Lemma viscosity3_is mu lambda E : viscous p = Some (mu, lambda) -> viscosity ops = Some E ->
    E = constitutive3 N (W (basic3 nodes els)) mu lambda.
  Proof.
    intros Hp HE. destruct ops3 as (Q & -> & HQ & Hz). unfold get_dynamics3 in HQ. rewrite Hz in HQ.
    apply ok_inj in HQ; subst Q. cbn [elasticity viscosity poisson_operator thermal_conductivity thermal_expansion] in HE. rewrite Hp in HE. cbn [option_map] in HE. congruence.
  Qed.

  Lemma elasticity3_all mu lambda E : E = constitutive3 N (W (basic3 nodes els)) mu lambda ->
    (forall v u G H, vector_gradient 3 N nodes els v G -> vector_gradient 3 N nodes els u H ->
       bilinear (3 * N) (3 * N) E v u
       = I (fun e => elastic_density 3 mu lambda (fun c => G c e) (fun c => H c e))
         + (mu - lambda) * I (fun e => defect_3d (fun c => G c e) (fun c => H c e))) /\
    symmetric (3 * N) E.
  Proof.
    intros ->. split.
    - intros v u G H HG HH. apply (elasticity3_form 3 N nodes els I _ HI HW mu lambda v u G H); auto.
    - apply (elasticity3_symmetric N nodes els I _ HI mu lambda HW).
      intros u. apply gradients3_ex; auto.
  Qed.

  Lemma elasticity3_iso mu E : E = constitutive3 N (W (basic3 nodes els)) mu mu ->
    (forall v u G H, vector_gradient 3 N nodes els v G -> vector_gradient 3 N nodes els u H ->
       bilinear (3 * N) (3 * N) E v u
       = I (fun e => elastic_density 3 mu mu (fun c => G c e) (fun c => H c e))) /\
    (0 <= mu -> pos_semidef (3 * N) E) /\
    (forall b S u, antisymmetric 3 S -> rigid_motion 3 N nodes b S u ->
       veq (3 * N) (mv (3 * N) E u) (fun _ => 0)).
  Proof.
    intros HE. destruct (elasticity3_all mu mu E HE) as [H1 _].
    assert (H1' : forall v u G H, vector_gradient 3 N nodes els v G -> vector_gradient 3 N nodes els u H ->
       bilinear (3 * N) (3 * N) E v u
       = I (fun e => elastic_density 3 mu mu (fun c => G c e) (fun c => H c e))).
    { intros v u G H HG HH. rewrite (H1 v u G H HG HH). ring. }
    split; [exact H1'|split].
    - intros Hm u. destruct (gradients3_ex N nodes els u HT) as [G HG].
      unfold qform. rewrite <- bilinear_dot, (H1' u u G G HG HG).
      apply lsum_nonneg. intros e _. apply Rmult_le_pos; [apply volume_nonneg|].
      apply elastic_density_nonneg; auto.
    - intros b S u HS Hu. subst E. destruct HT as (HR & HL & HD).
      apply (elasticity3_rigid N nodes els I _ HI HR mu mu HW HL) with (b := b) (S := S); auto.
      intros x. apply gradients3_ex; auto.
  Qed.

  Lemma rotation3 mu lambda E b u : E = constitutive3 N (W (basic3 nodes els)) mu lambda ->
    rigid_motion 3 N nodes b rotation_z u ->
    qform (3 * N) E u = 2 * (mu - lambda) * lsum els (element_volume nodes).
  Proof.
    intros -> Hu. destruct HT as (HR & HL & HD).
    rewrite (rotation_z_energy N nodes els I _ HI HR mu lambda HW HL b u Hu).
    f_equal. apply lsum_ext. intros; ring.
  Qed.

  Lemma mass3_form v u : bilinear (3 * N) (3 * N) (acceleration_operator ops) v u
    = mass_density p * sum 3 (fun c => integral (element_volume nodes) els (fun e =>
        mean_product 3 (fun k => component N v c (nth k e 0%nat)) (fun k => component N u c (nth k e 0%nat)))).
  Proof.
    destruct ops3 as (Q & -> & HQ & Hz). unfold get_dynamics3 in HQ. rewrite Hz in HQ.
    apply ok_inj in HQ; subst Q. cbn [acceleration_operator].
    rewrite acceleration3_form. f_equal. apply sum_ext. intros c _.
    apply (U_form 3 N nodes els _ _ _ F A).
  Qed.

  Lemma poisson3_is c P : membrane p = Some c -> poisson_operator ops = Some P ->
    forall y x gy gx, field_gradient 3 nodes els y gy -> field_gradient 3 nodes els x gx ->
    bilinear N N P y x = I (fun e => c ^ 2 * sum 3 (fun k => gy e k * gx e k)).
  Proof.
    intros Hp HE. destruct ops3 as (Q & -> & HQ & Hz). unfold get_dynamics3 in HQ. rewrite Hz in HQ.
    apply ok_inj in HQ; subst Q. cbn [elasticity viscosity poisson_operator thermal_conductivity thermal_expansion] in HE. rewrite Hp in HE. cbn [option_map] in HE. inversion HE; subst P.
    intros. apply (poisson_form 3 N nodes els I _ HI HW); auto.
  Qed.

  Lemma conductivity3_is ex co K : thermal p = Some (ex, co) -> thermal_conductivity ops = Some K ->
    forall y x gy gx, field_gradient 3 nodes els y gy -> field_gradient 3 nodes els x gx ->
    bilinear N N K y x = I (fun e => sum 3 (fun k => sum 3 (fun l => co k l * (gy e k * gx e l)))).
  Proof.
    intros Hp HE. destruct ops3 as (Q & -> & HQ & Hz). unfold get_dynamics3 in HQ. rewrite Hz in HQ.
    apply ok_inj in HQ; subst Q. cbn [elasticity viscosity poisson_operator thermal_conductivity thermal_expansion] in HE. rewrite Hp in HE. cbn [option_map] in HE. inversion HE; subst K.
    intros. apply (conductivity3_form 3 N nodes els I _ HI HW); auto.
  Qed.

  Lemma expansion3_is ex co K : thermal p = Some (ex, co) -> thermal_expansion ops = Some K ->
    forall y u H, vector_gradient 3 N nodes els u H ->
    bilinear N (3 * N) K y u = integral (element_volume nodes) els (fun e =>
       mean_value 3 e y * sum 3 (fun c => sum 3 (fun l => ex c l * H c e l))).
  Proof.
    intros Hp HE. destruct ops3 as (Q & -> & HQ & Hz). unfold get_dynamics3 in HQ. rewrite Hz in HQ.
    apply ok_inj in HQ; subst Q. cbn [elasticity viscosity poisson_operator thermal_conductivity thermal_expansion] in HE. rewrite Hp in HE. cbn [option_map] in HE. inversion HE; subst K.
    intros. apply (thermal3_form 3 N nodes els (element_volume nodes)); auto.
    intros. apply (V_form 3 N nodes els _ _ _ F A); auto.
  Qed.
End Three.
