(* The operators of the model on affine fields. *)
From Coq Require Import Reals List Arith Bool Lia Lra Permutation Sorted.
From Verif Require Import Common PyModel RVec ListLemmas MeshModel MeshSpec MeshFacesProofs FemModel FemSpec ForcesSpec
  FemAssemblyProofs FemGeomProofs FemOperatorProofs FemMeshProofs FemPipelineProofs FemFinalProofs GaussSpec GaussProofs GaussFinal PatchSpec.
Import ListNotations.
Local Open Scope R_scope.

Lemma surfaces_list d els : simplices (S d) els -> boundary_list d els (boundary_surfaces els).
Proof.
  intros HS. destruct (boundary_faces_spec (S d) els HS) as (_ & BI & BS & _). split; auto.
  clear - BS. induction BS as [|a l S IH F]; constructor; auto. intros H. rewrite Forall_forall in F. specialize (F a H). exact (lex_lt_irrefl a F).
Qed.
Lemma sorted_distinct (l : list (list nat)) : StronglySorted lex_lt l -> NoDup l.
Proof. induction 1 as [|a l S IH F]; constructor; auto. intros H. rewrite Forall_forall in F. specialize (F a H). exact (lex_lt_irrefl a F). Qed.

Lemma lsum_scal_l {A} (l : list A) c f : lsum l (fun a => c * f a) = c * lsum l f.
Proof. induction l as [|a l IH]; cbn; [ring|]. rewrite IH. ring. Qed.
Lemma lsum_sum {A} (l : list A) n (f : A -> nat -> R) : lsum l (fun a => sum n (f a)) = sum n (fun k => lsum l (fun a => f a k)).
Proof. induction l as [|a l IH]; cbn; [symmetry; apply sum_0; auto|]. rewrite IH, <- sum_plus. reflexivity. Qed.

Section Constant.
  Variables (d N : nat) (x : nat -> vec) (els : list (list nat)) (meas : list nat -> R) (n : list nat -> vec) (faces : list (list nat)).
  Hypothesis HG : forall v g c, field_gradient d x els v g -> (c < d)%nat -> integral meas els (fun e => g e c) = flux d x faces n v c.

  (* a constant stress does its work at the boundary *)
  Lemma constant_work S v G : vector_gradient d N x els v G ->
    integral meas els (fun e => sum d (fun k => sum d (fun c => S k c * G k e c))) = boundary_work d N x faces n S v.
  Proof.
    intros HV. unfold integral, boundary_work.
    rewrite (lsum_ext els _ (fun e => sum d (fun k => sum d (fun c => S k c * (meas e * G k e c))))).
    2:{ intros e _. rewrite <- sum_scal. apply sum_ext. intros k _. rewrite <- sum_scal. apply sum_ext. intros; ring. }
    rewrite lsum_sum.
    rewrite (lsum_ext faces _ (fun f => sum d (fun k => sum d (fun c => S k c * (face_measure d x f * (n f c * (lsum f (component N v k) / INR d))))))).
    2:{ intros f _. rewrite <- sum_scal. apply sum_ext. intros k _. unfold traction. rewrite <- sum_scal_r, <- sum_scal. apply sum_ext. intros; ring. }
    rewrite lsum_sum. apply sum_ext. intros k Hk. rewrite !lsum_sum. apply sum_ext. intros c Hc. rewrite !lsum_scal_l. f_equal.
    exact (HG (component N v k) (G k) c (HV k Hk) Hc).
  Qed.

  Lemma boundary_work_0 S v : (forall f i k, In f faces -> In i f -> (k < d)%nat -> v (k * N + i)%nat = 0) -> boundary_work d N x faces n S v = 0.
  Proof.
    intros H. unfold boundary_work. apply lsum_0. intros f Hf. rewrite sum_0; [ring|]. intros k Hk.
    rewrite lsum_0; [unfold Rdiv; ring|]. intros i Hi. apply (H f i k); auto.
  Qed.

  (* an operator that is a form with constant coefficients on affine fields *)
  Lemma affine_equilibrium E u S : (forall v G, vector_gradient d N x els v G ->
      sum (d * N) (fun a => v a * mv (d * N) E u a) = integral meas els (fun e => sum d (fun k => sum d (fun c => S k c * G k e c)))) ->
    (forall v, exists G, vector_gradient d N x els v G) ->
    (forall v, sum (d * N) (fun a => v a * mv (d * N) E u a) = boundary_work d N x faces n S v) /\
    (forall k i, (k < d)%nat -> (i < N)%nat -> (forall f j, In f faces -> In j f -> (j < N)%nat) -> (forall f, In f faces -> ~ In i f) -> mv (d * N) E u (k * N + i)%nat = 0).
  Proof.
    intros HE EX. assert (W : forall v, sum (d * N) (fun a => v a * mv (d * N) E u a) = boundary_work d N x faces n S v).
    { intros v. destruct (EX v) as (G & HV). rewrite (HE v G HV). apply constant_work; auto. }
    split; auto. intros k i Hk Hi HF NI.
    assert (LT : (k * N + i < d * N)%nat) by nia.
    rewrite <- (sum_delta_l (d * N) (k * N + i) (fun a => mv (d * N) E u a) LT). rewrite (W (delta (k * N + i))). apply boundary_work_0.
    intros f j k' Hf Hj Hk'. unfold delta. destruct (Nat.eqb_spec (k * N + i) (k' * N + j)) as [EQ|]; auto. exfalso.
    assert (j < N)%nat by (apply (HF f); auto). assert (i = j) by (destruct (Nat.lt_trichotomy k k') as [Q|[->|Q]]; [nia|lia|nia]). subst j. apply (NI f Hf Hj).
  Qed.
End Constant.

(* the density of the work of a constant gradient *)
Lemma density_2d_constant mu la (G : nat -> vec) (A : mat) :
  elastic_density 2 mu la G (fun c => A c) = sum 2 (fun k => sum 2 (fun c => stress 2 mu la A k c * G k c)).
Proof. unfold elastic_density, strain, divergence, stress, delta. cbn [sum Nat.eqb]. field. Qed.
Lemma density_3d_constant mu la (G : nat -> vec) (A : mat) :
  elastic_density 3 mu la G (fun c => A c) = sum 3 (fun k => sum 3 (fun c => stress 3 mu la A k c * G k c)).
Proof. unfold elastic_density, strain, divergence, stress, delta. cbn [sum Nat.eqb]. field. Qed.
(* the stress of the 3D operator *)
Definition defect_stress (A : mat) : mat := fun k c => defect_3d (fun i j => delta i k * delta j c) (fun i => A i).
Lemma defect_constant (G : nat -> vec) (A : mat) :
  defect_3d G (fun c => A c) = sum 3 (fun k => sum 3 (fun c => defect_stress A k c * G k c)).
Proof. unfold defect_stress, defect_3d, delta. cbn [sum Nat.eqb]. ring. Qed.

Lemma face_lt d N els faces : in_range N els -> boundary_list d els faces -> forall f j, In f faces -> In j f -> (j < N)%nat.
Proof.
  intros HR [_ BI] f j Hf Hj. apply BI in Hf. destruct Hf as (_ & _ & k & e & Hk & I & _). apply nth_error_In in Hk.
  unfold in_range in HR. rewrite Forall_forall in HR. specialize (HR e Hk). rewrite Forall_forall in HR. apply HR. auto.
Qed.
Lemma off_boundary d els faces i : boundary_list d els faces -> ~ boundary_node (S d) els i -> forall f, In f faces -> ~ In i f.
Proof. intros [_ BI] NB f Hf Hi. apply NB. exists f. split; auto. apply BI; auto. Qed.

Lemma operator_2d N x els p ops mu la E b A u : triangles N x els -> simplices 3 els -> two_sided 2 x els ->
  reinitialize_matrices N x els p None = Ok ops -> elastic p = Some (mu, la) -> elasticity ops = Some E -> affine_values 2 N x b A u ->
  (forall k i, (k < 2)%nat -> (i < N)%nat -> ~ boundary_node 3 els i -> mv (2 * N) E u (k * N + i)%nat = 0) /\
  (forall n faces v, outer_normals 2 x els n -> boundary_list 2 els faces ->
     sum (2 * N) (fun a => v a * mv (2 * N) E u a) = boundary_work 2 N x faces n (stress 2 mu la A) v).
Proof.
  intros HT HS TS HO EL HE AF. destruct (gauss_2d N x els HT HS) as [(n0 & N0) GA]. specialize (GA TS).
  destruct (elasticity2_all N x els p None ops HT HO mu la E EL HE) as (FM & _). pose proof HT as (HR & HL & _).
  pose proof (rigid_gradient 2 N x els b A u HR HL AF) as GU.
  assert (FV : forall v G, vector_gradient 2 N x els v G -> sum (2 * N) (fun a => v a * mv (2 * N) E u a)
     = integral (element_area x) els (fun e => sum 2 (fun k => sum 2 (fun c => stress 2 mu la A k c * G k e c)))).
  { intros v G HV. pose proof (FM v u G _ HV GU) as X. rewrite bilinear_dot in X. unfold dot in X. rewrite X. cbn [mesh_integral].
    apply lsum_ext. intros e _. f_equal. apply (density_2d_constant mu la (fun c => G c e) A). }
  assert (EX : forall v, exists G, vector_gradient 2 N x els v G) by (intros v; apply (gradients2_ex N x els v HT)).
  split.
  - intros k i Hk Hi NB. pose proof (surfaces_list 2 els HS) as BL.
    apply (proj2 (affine_equilibrium 2 N x els (element_area x) n0 (boundary_surfaces els) (fun v g c => GA n0 N0 _ v g c BL) E u _ FV EX)); auto.
    + apply (face_lt 2 N els); auto.
    + apply (off_boundary 2 els); auto.
  - intros n faces v HN BL.
    apply (proj1 (affine_equilibrium 2 N x els (element_area x) n faces (fun v g c => GA n HN _ v g c BL) E u _ FV EX)).
Qed.

Lemma operator_3d N x els p ops mu la E b A u : tetrahedra N x els -> simplices 4 els -> two_sided 3 x els ->
  reinitialize_matrices N x els p None = Ok ops -> elastic p = Some (mu, la) -> elasticity ops = Some E -> affine_values 3 N x b A u ->
  (forall k i, (k < 3)%nat -> (i < N)%nat -> ~ boundary_node 4 els i -> mv (3 * N) E u (k * N + i)%nat = 0) /\
  (mu = la -> forall n faces v, outer_normals 3 x els n -> boundary_list 3 els faces ->
     sum (3 * N) (fun a => v a * mv (3 * N) E u a) = boundary_work 3 N x faces n (stress 3 mu la A) v).
Proof.
  intros HT HS TS HO EL HE AF. destruct (gauss_3d N x els HT HS) as [(n0 & N0) GA]. specialize (GA TS).
  destruct (elasticity3_all N x els HT mu la E (elasticity3_is N x els p None ops HT HO mu la E EL HE)) as (FM & _). pose proof HT as (HR & HL & _).
  pose proof (rigid_gradient 3 N x els b A u HR HL AF) as GU.
  set (S := fun k c => stress 3 mu la A k c + (mu - la) * defect_stress A k c).
  assert (FV : forall v G, vector_gradient 3 N x els v G -> sum (3 * N) (fun a => v a * mv (3 * N) E u a)
     = integral (element_volume x) els (fun e => sum 3 (fun k => sum 3 (fun c => S k c * G k e c)))).
  { intros v G HV. pose proof (FM v u G _ HV GU) as X. rewrite bilinear_dot in X. unfold dot in X. rewrite X. unfold integral. 
    rewrite <- lsum_scal_l, <- lsum_plus. apply lsum_ext. intros e _.
    rewrite (density_3d_constant mu la (fun c => G c e) A), (defect_constant (fun c => G c e) A). unfold S. cbn [sum]. ring. }
  assert (EX : forall v, exists G, vector_gradient 3 N x els v G) by (intros v; apply (gradients3_ex N x els v HT)).
  split.
  - intros k i Hk Hi NB. pose proof (surfaces_list 3 els HS) as BL.
    apply (proj2 (affine_equilibrium 3 N x els (element_volume x) n0 (boundary_surfaces els) (fun v g c => GA n0 N0 _ v g c BL) E u _ FV EX)); auto.
    + apply (face_lt 3 N els); auto.
    + apply (off_boundary 3 els); auto.
  - intros ML n faces v HN BL.
    rewrite (proj1 (affine_equilibrium 3 N x els (element_volume x) n faces (fun v g c => GA n HN _ v g c BL) E u _ FV EX)).
    unfold boundary_work. apply lsum_ext. intros f _. f_equal. apply sum_ext. intros k _. f_equal. unfold traction. apply sum_ext. intros c _.
    unfold S. rewrite ML. ring.
Qed.

(* the matrices of first derivatives *)
Lemma derivative_2d N x els B k : triangles N x els -> simplices 3 els -> two_sided 2 x els -> get_basic_matrices x els = Ok B -> (k < 2)%nat ->
  (forall n faces v, outer_normals 2 x els n -> boundary_list 2 els faces -> bilinear N N (V B k) (fun _ => 1) v = flux 2 x faces n v k) /\
  (forall b, (b < N)%nat -> ~ boundary_node 3 els b -> sum N (fun a => V B k a b) = 0).
Proof.
  intros HT HS TS HB Hk. destruct (gauss_2d N x els HT HS) as [(n0 & N0) GA]. specialize (GA TS).
  destruct (forms_2d N x els B HT HB) as (_ & FV & _ & EX).
  assert (W : forall n faces v, outer_normals 2 x els n -> boundary_list 2 els faces -> bilinear N N (V B k) (fun _ => 1) v = flux 2 x faces n v k).
  { intros n faces v HN BL. destruct (EX v) as (g & Hg). rewrite (FV k (fun _ => 1) v g Hk Hg), <- (GA n HN faces v g k BL Hg Hk).
    apply lsum_ext. intros e _. f_equal. unfold mean_value. rewrite sum_const. cbn. field. }
  split; auto. intros b Hb NB. pose proof (surfaces_list 2 els HS) as BL.
  pose proof (W n0 (boundary_surfaces els) (fun i => delta i b) N0 BL) as X. unfold bilinear in X.
  rewrite (sum_ext N _ (fun a => V B k a b)) in X.
  - rewrite X. unfold flux. apply lsum_0. intros f Hf. rewrite (lsum_0 f); [unfold Rdiv; ring|]. intros i Hi. unfold delta.
    destruct (Nat.eqb_spec i b) as [->|]; auto. exfalso. apply (off_boundary 2 els _ b BL NB f Hf Hi).
  - intros a _. rewrite (sum_ext N _ (fun b0 => V B k a b0 * delta b0 b)) by (intros; ring). apply sum_delta_r; auto.
Qed.
Lemma derivative_3d N x els B k : tetrahedra N x els -> simplices 4 els -> two_sided 3 x els -> get_basic_matrices x els = Ok B -> (k < 3)%nat ->
  (forall n faces v, outer_normals 3 x els n -> boundary_list 3 els faces -> bilinear N N (V B k) (fun _ => 1) v = flux 3 x faces n v k) /\
  (forall b, (b < N)%nat -> ~ boundary_node 4 els b -> sum N (fun a => V B k a b) = 0).
Proof.
  intros HT HS TS HB Hk. destruct (gauss_3d N x els HT HS) as [(n0 & N0) GA]. specialize (GA TS).
  destruct (forms_3d N x els B HT HB) as (_ & FV & _ & EX).
  assert (W : forall n faces v, outer_normals 3 x els n -> boundary_list 3 els faces -> bilinear N N (V B k) (fun _ => 1) v = flux 3 x faces n v k).
  { intros n faces v HN BL. destruct (EX v) as (g & Hg). rewrite (FV k (fun _ => 1) v g Hk Hg), <- (GA n HN faces v g k BL Hg Hk).
    apply lsum_ext. intros e _. f_equal. unfold mean_value. rewrite sum_const. cbn. field. }
  split; auto. intros b Hb NB. pose proof (surfaces_list 3 els HS) as BL.
  pose proof (W n0 (boundary_surfaces els) (fun i => delta i b) N0 BL) as X. unfold bilinear in X.
  rewrite (sum_ext N _ (fun a => V B k a b)) in X.
  - rewrite X. unfold flux. apply lsum_0. intros f Hf. rewrite (lsum_0 f); [unfold Rdiv; ring|]. intros i Hi. unfold delta.
    destruct (Nat.eqb_spec i b) as [->|]; auto. exfalso. apply (off_boundary 3 els _ b BL NB f Hf Hi).
  - intros a _. rewrite (sum_ext N _ (fun b0 => V B k a b0 * delta b0 b)) by (intros; ring). apply sum_delta_r; auto.
Qed.
