(* The operators built from the basic matrices, as integrals. *)
From Coq Require Import Reals List Arith Bool Lia Lra.
From Verif Require Import RVec MeshSpec PyModel FemModel FemSpec FemGeomProofs FemAssemblyProofs
  FemFormProofs.
Import ListNotations.
Local Open Scope R_scope.

Lemma integral_is_like meas els : integral_like els (integral meas els).
Proof.
  split; [|split]; unfold integral.
  - intros f g H. apply lsum_ext. intros e He. rewrite H; auto.
  - intros f g. rewrite <- lsum_plus. apply lsum_ext. intros; ring.
  - intros c f. rewrite <- lsum_scal. apply lsum_ext. intros; ring.
Qed.

Section Operators.
  Variables (d N : nat) (nodes : nat -> vec) (els : list (list nat)).
  Variable I : (list nat -> R) -> R.
  Variable W : nat -> nat -> mat.
  Hypothesis HI : integral_like els I.
  Hypothesis HW : stiffness_of d N nodes els I W.

  Let I_ext := proj1 HI.
  Let I_plus := proj1 (proj2 HI).
  Let I_scal := proj2 (proj2 HI).

  Lemma I_zero f : (forall e, In e els -> f e = 0) -> I f = 0.
  Proof.
    intros H. rewrite (I_ext f (fun e => 0 * f e)).
    - rewrite I_scal. ring.
    - intros e He. rewrite H by auto. ring.
  Qed.

  Lemma elasticity2_form mu lambda v u G H : d = 2%nat ->
    vector_gradient d N nodes els v G -> vector_gradient d N nodes els u H ->
    bilinear (2 * N) (2 * N) (constitutive2 N W mu lambda) v u
    = I (fun e => elastic_density 2 mu lambda (fun c => G c e) (fun c => H c e)).
  Proof.
    intros -> HG HH. unfold constitutive2. rewrite block_bilinear.
    cbn [sum table nth]. rewrite !bilinear_madd, !bilinear_smul.
    rewrite !(HW _ _ (component N v 0%nat) (component N u 0%nat) (G 0%nat) (H 0%nat)),
      !(HW _ _ (component N v 0%nat) (component N u 1%nat) (G 0%nat) (H 1%nat)),
      !(HW _ _ (component N v 1%nat) (component N u 0%nat) (G 1%nat) (H 0%nat)),
      !(HW _ _ (component N v 1%nat) (component N u 1%nat) (G 1%nat) (H 1%nat))
      by (first [lia|apply HG; lia|apply HH; lia]).
    rewrite !Rplus_0_l. rewrite <- !I_scal. rewrite <- !I_plus. apply I_ext. intros e _.
    unfold elastic_density, strain, divergence. cbn [sum]. field.
  Qed.

  Lemma elasticity3_form mu lambda v u G H : d = 3%nat ->
    vector_gradient d N nodes els v G -> vector_gradient d N nodes els u H ->
    bilinear (3 * N) (3 * N) (constitutive3 N W mu lambda) v u
    = I (fun e => elastic_density 3 mu lambda (fun c => G c e) (fun c => H c e))
      + (mu - lambda) * I (fun e => defect_3d (fun c => G c e) (fun c => H c e)).
  Proof.
    intros -> HG HH. unfold constitutive3. rewrite block_bilinear.
    cbn [sum table nth]. rewrite !bilinear_madd, !bilinear_smul.
    rewrite !(HW _ _ (component N v 0%nat) (component N u 0%nat) (G 0%nat) (H 0%nat)),
      !(HW _ _ (component N v 0%nat) (component N u 1%nat) (G 0%nat) (H 1%nat)),
      !(HW _ _ (component N v 0%nat) (component N u 2%nat) (G 0%nat) (H 2%nat)),
      !(HW _ _ (component N v 1%nat) (component N u 0%nat) (G 1%nat) (H 0%nat)),
      !(HW _ _ (component N v 1%nat) (component N u 1%nat) (G 1%nat) (H 1%nat)),
      !(HW _ _ (component N v 1%nat) (component N u 2%nat) (G 1%nat) (H 2%nat)),
      !(HW _ _ (component N v 2%nat) (component N u 0%nat) (G 2%nat) (H 0%nat)),
      !(HW _ _ (component N v 2%nat) (component N u 1%nat) (G 2%nat) (H 1%nat)),
      !(HW _ _ (component N v 2%nat) (component N u 2%nat) (G 2%nat) (H 2%nat))
      by (first [lia|apply HG; lia|apply HH; lia]).
    rewrite !Rplus_0_l. rewrite <- !I_scal. rewrite <- !I_plus. apply I_ext. intros e _.
    unfold elastic_density, strain, divergence, defect_3d. cbn [sum Nat.eqb]. field.
  Qed.

  Lemma relaxation2_form coeff v u G H : d = 2%nat ->
    vector_gradient d N nodes els v G -> vector_gradient d N nodes els u H ->
    bilinear (2 * N) (2 * N) (relaxation2 N W coeff) v u
    = I (fun e =>
        coeff 0%nat 0%nat 0%nat * (G 0%nat e 0%nat * H 0%nat e 0%nat)
        + coeff 0%nat 1%nat 1%nat * (G 0%nat e 1%nat * H 0%nat e 1%nat)
        + coeff 0%nat 1%nat 0%nat * (G 0%nat e 1%nat * H 1%nat e 0%nat)
        + coeff 0%nat 0%nat 1%nat * (G 0%nat e 0%nat * H 1%nat e 1%nat)
        + coeff 1%nat 1%nat 0%nat * (G 1%nat e 1%nat * H 0%nat e 0%nat)
        + coeff 1%nat 0%nat 1%nat * (G 1%nat e 0%nat * H 0%nat e 1%nat)
        + coeff 1%nat 0%nat 0%nat * (G 1%nat e 0%nat * H 1%nat e 0%nat)
        + coeff 1%nat 1%nat 1%nat * (G 1%nat e 1%nat * H 1%nat e 1%nat)).
  Proof.
    intros -> HG HH. unfold relaxation2. rewrite block_bilinear.
    cbn [sum table nth]. rewrite !bilinear_madd, !bilinear_smul.
    rewrite !(HW _ _ (component N v 0%nat) (component N u 0%nat) (G 0%nat) (H 0%nat)),
      !(HW _ _ (component N v 0%nat) (component N u 1%nat) (G 0%nat) (H 1%nat)),
      !(HW _ _ (component N v 1%nat) (component N u 0%nat) (G 1%nat) (H 0%nat)),
      !(HW _ _ (component N v 1%nat) (component N u 1%nat) (G 1%nat) (H 1%nat))
      by (first [lia|apply HG; lia|apply HH; lia]).
    rewrite !Rplus_0_l. rewrite <- !I_scal. rewrite <- !I_plus. apply I_ext. intros e _. ring.
  Qed.

  Lemma conductivity2_form coeff y x gy gx : d = 2%nat ->
    field_gradient d nodes els y gy -> field_gradient d nodes els x gx ->
    bilinear N N (conductivity2 W coeff) y x
    = I (fun e => sum 2 (fun k => sum 2 (fun l => coeff k l * (gy e k * gx e l)))).
  Proof.
    intros -> Hy Hx. unfold conductivity2. rewrite !bilinear_madd, !bilinear_smul.
    rewrite !(HW _ _ y x gy gx) by (auto; lia).
    rewrite <- !I_scal. rewrite <- !I_plus. apply I_ext. intros e _. cbn [sum]. ring.
  Qed.

  Lemma conductivity3_form coeff y x gy gx : d = 3%nat ->
    field_gradient d nodes els y gy -> field_gradient d nodes els x gx ->
    bilinear N N (conductivity3 W coeff) y x
    = I (fun e => sum 3 (fun k => sum 3 (fun l => coeff k l * (gy e k * gx e l)))).
  Proof.
    intros -> Hy Hx. unfold conductivity3. rewrite !bilinear_madd, !bilinear_smul.
    rewrite !(HW _ _ y x gy gx) by (auto; lia).
    rewrite <- !I_scal. rewrite <- !I_plus. apply I_ext. intros e _. cbn [sum]. ring.
  Qed.

  Lemma poisson_form c y x gy gx :
    field_gradient d nodes els y gy -> field_gradient d nodes els x gx ->
    bilinear N N (poisson d W c) y x = I (fun e => c ^ 2 * sum d (fun k => gy e k * gx e k)).
  Proof.
    intros Hy Hx. rewrite I_scal.
    transitivity (c ^ 2 * bilinear N N (fun a b => sum d (fun k => W k k a b)) y x).
    { apply (bilinear_smul N N (c ^ 2) (fun a b => sum d (fun k => W k k a b))). }
    f_equal.
    assert (A : forall m, (m <= d)%nat ->
      bilinear N N (fun a b => sum m (fun k => W k k a b)) y x
      = I (fun e => sum m (fun k => gy e k * gx e k))).
    { induction m as [|m IH]; intros Hm; cbn [sum].
      - transitivity 0.
        + apply sum_0. intros a _. apply sum_0. intros; ring.
        + symmetry. apply I_zero. reflexivity.
      - rewrite I_plus, <- IH by lia. rewrite <- (HW m m y x gy gx) by (auto; lia).
        apply (bilinear_madd N N (fun a b => sum m (fun k => W k k a b)) (W m m)). }
    apply A; lia.
  Qed.

  Lemma piezo2_form coeff y u gy H : d = 2%nat ->
    field_gradient d nodes els y gy -> vector_gradient d N nodes els u H ->
    bilinear N (2 * N) (piezoelectric2 N W coeff) y u
    = I (fun e => sum 2 (fun c => sum 2 (fun k => sum 2 (fun l =>
                    coeff c k l * (gy e k * H c e l))))).
  Proof.
    intros -> Hy HH. unfold piezoelectric2. rewrite <- (Nat.mul_1_l N) at 1. rewrite block_bilinear.
    cbn [sum table nth].
    change (component N y 0) with y.
    rewrite !bilinear_madd, !bilinear_smul.
    rewrite !(HW _ _ y (component N u 0%nat) gy (H 0%nat)),
      !(HW _ _ y (component N u 1%nat) gy (H 1%nat))
      by (first [lia|apply HH; lia|auto]).
    rewrite !Rplus_0_l. rewrite <- !I_scal. rewrite <- !I_plus. apply I_ext. intros e _.
    cbn [sum]. ring.
  Qed.
End Operators.

(* operators built from V and U *)
Section Coupling.
  Variables (d N : nat) (nodes : nat -> vec) (els : list (list nat)).
  Variable meas : list nat -> R.
  Variable V : nat -> mat.
  Hypothesis HV : forall k y x gx, (k < d)%nat -> field_gradient d nodes els x gx ->
    bilinear N N (V k) y x = integral meas els (fun e => mean_value d e y * gx e k).

  Let I_ext := proj1 (integral_is_like meas els).
  Let I_plus := proj1 (proj2 (integral_is_like meas els)).
  Let I_scal := proj2 (proj2 (integral_is_like meas els)).

  Lemma thermal2_form coeff y u H : d = 2%nat -> vector_gradient d N nodes els u H ->
    bilinear N (2 * N) (thermal_expansion2 N V coeff) y u
    = integral meas els (fun e => mean_value 2 e y *
        sum 2 (fun c => sum 2 (fun l => coeff c l * H c e l))).
  Proof.
    intros -> HH. unfold thermal_expansion2. rewrite <- (Nat.mul_1_l N) at 1. rewrite block_bilinear.
    cbn [sum table nth]. change (component N y 0) with y.
    rewrite !bilinear_madd, !bilinear_smul.
    rewrite !(HV _ y (component N u 0%nat) (H 0%nat)),
      !(HV _ y (component N u 1%nat) (H 1%nat)) by (first [lia|apply HH; lia]).
    rewrite !Rplus_0_l. rewrite <- !I_scal. rewrite <- !I_plus. apply I_ext. intros e _.
    cbn [sum]. ring.
  Qed.

  Lemma thermal3_form coeff y u H : d = 3%nat -> vector_gradient d N nodes els u H ->
    bilinear N (3 * N) (thermal_expansion3 N V coeff) y u
    = integral meas els (fun e => mean_value 3 e y *
        sum 3 (fun c => sum 3 (fun l => coeff c l * H c e l))).
  Proof.
    intros -> HH. unfold thermal_expansion3. rewrite <- (Nat.mul_1_l N) at 1. rewrite block_bilinear.
    cbn [sum table nth]. change (component N y 0) with y.
    rewrite !bilinear_madd, !bilinear_smul.
    rewrite !(HV _ y (component N u 0%nat) (H 0%nat)),
      !(HV _ y (component N u 1%nat) (H 1%nat)),
      !(HV _ y (component N u 2%nat) (H 2%nat)) by (first [lia|apply HH; lia]).
    rewrite !Rplus_0_l. rewrite <- !I_scal. rewrite <- !I_plus. apply I_ext. intros e _.
    cbn [sum]. ring.
  Qed.

  Lemma bilinear_zero n m y x : bilinear n m (fun _ _ => 0) y x = 0.
  Proof. apply sum_0. intros a _. apply sum_0. intros; ring. Qed.

  (* kinetic form *)
  Variable U : mat.
  Lemma acceleration2_form rho v u :
    bilinear (2 * N) (2 * N) (acceleration2 N U rho) v u
    = rho * sum 2 (fun c => bilinear N N U (component N v c) (component N u c)).
  Proof.
    unfold acceleration2. rewrite bilinear_smul, block_bilinear. cbn [sum table nth].
    rewrite !bilinear_zero. ring.
  Qed.

  Lemma acceleration3_form rho v u :
    bilinear (3 * N) (3 * N) (acceleration3 N U rho) v u
    = rho * sum 3 (fun c => bilinear N N U (component N v c) (component N u c)).
  Proof.
    unfold acceleration3. rewrite bilinear_smul, block_bilinear. cbn [sum table nth].
    rewrite !bilinear_zero. ring.
  Qed.
End Coupling.

(* rigid motions *)
Lemma rigid_gradient d N nodes els b A u : in_range N els ->
  Forall (fun e => length e = S d) els -> rigid_motion d N nodes b A u ->
  vector_gradient d N nodes els u (fun c _ => A c).
Proof.
  intros HR HL HU c Hc e He i j Hi Hj. unfold component, corners.
  assert (nth i e 0%nat < N)%nat by (eapply in_range_nth; eauto; lia).
  assert (nth j e 0%nat < N)%nat by (eapply in_range_nth; eauto; lia).
  rewrite !HU by auto. rewrite (sum_ext d _ (fun k =>
    A c k * nodes (nth i e 0%nat) k - A c k * nodes (nth j e 0%nat) k)) by (intros; ring).
  rewrite sum_minus. ring.
Qed.

Lemma rigid_density d mu lambda G A : antisymmetric d A -> elastic_density d mu lambda G (fun c => A c) = 0.
Proof.
  intros HA. unfold elastic_density, divergence.
  rewrite sum_0, (sum_0 d (fun k => A k k)).
  - ring.
  - intros k Hk. specialize (HA k k Hk Hk). lra.
  - intros k Hk. apply sum_0. intros l Hl. unfold strain at 2. rewrite (HA k l) by auto. field.
Qed.

Lemma elastic_density_sym d mu lambda G H :
  elastic_density d mu lambda G H = elastic_density d mu lambda H G.
Proof.
  unfold elastic_density. rewrite (Rmult_comm (divergence d G)). f_equal. f_equal.
  apply sum_ext. intros k _. apply sum_ext. intros l _. ring.
Qed.

Lemma elastic_density_nonneg d mu lambda G : 0 <= mu -> 0 <= lambda ->
  0 <= elastic_density d mu lambda G G.
Proof.
  intros Hm Hl. unfold elastic_density. apply Rplus_le_le_0_compat; apply Rmult_le_pos; try lra.
  - apply sum_nonneg. intros k _. apply sum_nonneg. intros l _. apply Rle_0_sqr.
  - apply Rle_0_sqr.
Qed.

Lemma defect_3d_sym G H : defect_3d G H = defect_3d H G.
Proof. unfold defect_3d. cbn [sum Nat.eqb]. ring. Qed.
