(* The assembled matrices as integrals of piecewise linear functions, in any dimension. *)
From Coq Require Import Reals List Arith Bool Lia Lra.
From Verif Require Import RVec MeshSpec FemModel FemSpec FemGeomProofs FemAssemblyProofs.
Import ListNotations.
Local Open Scope R_scope.

(* double sum of a product *)
Lemma sum_product m (f g : nat -> R) :
  sum m (fun i => sum m (fun j => f i * g j)) = sum m f * sum m g.
Proof.
  rewrite <- sum_scal_r. apply sum_ext. intros i _. apply sum_scal.
Qed.

Lemma sum_diag m (f : nat -> nat -> R) :
  sum m (fun i => sum m (fun j => delta i j * f i j)) = sum m (fun i => f i i).
Proof. apply sum_ext. intros i Hi. apply (sum_delta_l m i (f i)); auto. Qed.

Section Forms.
  Variables (d N : nat) (nodes : nat -> vec) (els : list (list nat)).
  Variables (meas : list nat -> R) (G : list nat -> nat -> vec).
  Hypothesis HR : in_range N els.
  Hypothesis HL : Forall (fun e => length e = S d) els.
  Hypothesis R0 : forall e k, In e els -> (k < d)%nat -> sum (S d) (fun i => G e i k) = 0.
  Hypothesis R1 : forall e k c, In e els -> (k < d)%nat -> (c < d)%nat ->
    sum (S d) (fun i => G e i k * corners nodes e i c) = delta k c.
  Hypothesis HG : forall e m, In e els -> (m <= d)%nat ->
    affine_gradient d (corners nodes e) (delta m) (G e m).

  Definition loc_mass e (i j : nat) := meas e * ((1 + delta i j) / (INR (S d) * INR (S (S d)))).
  Definition loc_vol e (i j : nat) := meas e * ((1 - delta i j) * (1 / INR (S d) / INR d)).
  Definition loc_grad k e (i j : nat) := meas e * (1 / INR (S d) * G e j k).
  Definition loc_stiff k l e (i j : nat) := meas e * (G e i k * G e j l).

  Lemma INR_pos n : INR (S n) <> 0.
  Proof. apply not_0_INR. lia. Qed.

  Lemma mass_form y x :
    bilinear N N (assembly (S d) els loc_mass) y x
    = integral meas els (fun e =>
        mean_product d (fun k => y (nth k e 0%nat)) (fun k => x (nth k e 0%nat))).
  Proof.
    rewrite assembly_bilinear by auto. apply lsum_ext. intros e He. unfold mean_product, loc_mass.
    set (C := INR (S d) * INR (S (S d))).
    assert (HC : C <> 0) by (apply Rmult_integral_contrapositive; split; apply INR_pos).
    rewrite (sum_ext (S d) _ (fun i => meas e / C *
      (sum (S d) (fun j => delta i j * (y (nth i e 0%nat) * x (nth j e 0%nat)))
       + sum (S d) (fun j => y (nth i e 0%nat) * x (nth j e 0%nat))))).
    2:{ intros i _. rewrite <- sum_plus, <- sum_scal. apply sum_ext. intros j _. field; auto. }
    rewrite sum_scal, sum_plus, sum_product.
    rewrite (sum_diag (S d) (fun i j => y (nth i e 0%nat) * x (nth j e 0%nat))). field; auto.
  Qed.

  (* total action of volume_at_nodes: integral of the interpolant *)
  Lemma vol_total x : (0 < d)%nat ->
    bilinear N N (assembly (S d) els loc_vol) (fun _ => 1) x
    = integral meas els (fun e => mean_value d e x).
  Proof.
    intros Hd. rewrite assembly_bilinear by auto. apply lsum_ext. intros e He.
    unfold mean_value, loc_vol.
    assert (D0 : INR d <> 0) by (apply not_0_INR; lia). pose proof (INR_pos d) as D1.
    rewrite sum_swap.
    rewrite (sum_ext (S d) _ (fun j => meas e / INR (S d) * x (nth j e 0%nat))).
    { rewrite sum_scal. field; auto. }
    intros j Hj.
    rewrite (sum_ext (S d) _ (fun i => meas e / INR (S d) / INR d * x (nth j e 0%nat)
       + (- (meas e / INR (S d) / INR d * x (nth j e 0%nat))) * delta i j)) by (intros; field; auto).
    rewrite sum_plus, sum_const.
    rewrite (sum_delta_r (S d) j (fun _ => - (meas e / INR (S d) / INR d * x (nth j e 0%nat)))) by auto.
    rewrite S_INR in *. field; auto.
  Qed.

  Lemma grad_form k y x gx : (k < d)%nat -> field_gradient d nodes els x gx ->
    bilinear N N (assembly (S d) els (loc_grad k)) y x
    = integral meas els (fun e => mean_value d e y * gx e k).
  Proof.
    intros Hk Hg. rewrite assembly_bilinear by auto. apply lsum_ext. intros e He.
    unfold loc_grad, mean_value. pose proof (INR_pos d) as D1.
    rewrite (sum_ext (S d) _ (fun i => sum (S d) (fun j =>
       (meas e / INR (S d) * y (nth i e 0%nat)) * (x (nth j e 0%nat) * G e j k)))).
    2:{ intros i _. apply sum_ext. intros j _. field; auto. }
    rewrite (sum_product (S d) (fun i => meas e / INR (S d) * y (nth i e 0%nat))
                         (fun j => x (nth j e 0%nat) * G e j k)).
    rewrite (gradient_combination d (corners nodes e) (G e) (fun k0 H => R0 e k0 He H)
               (fun k0 c0 H H' => R1 e k0 c0 He H H') (fun j => x (nth j e 0%nat)) (gx e) k (Hg e He) Hk).
    rewrite sum_scal. field; auto.
  Qed.

  Lemma stiff_form k l y x gy gx : (k < d)%nat -> (l < d)%nat ->
    field_gradient d nodes els y gy -> field_gradient d nodes els x gx ->
    bilinear N N (assembly (S d) els (loc_stiff k l)) y x
    = integral meas els (fun e => gy e k * gx e l).
  Proof.
    intros Hk Hl Hy Hx. rewrite assembly_bilinear by auto. apply lsum_ext. intros e He.
    unfold loc_stiff.
    rewrite (sum_ext (S d) _ (fun i => sum (S d) (fun j =>
       (meas e * (y (nth i e 0%nat) * G e i k)) * (x (nth j e 0%nat) * G e j l)))).
    2:{ intros i _. apply sum_ext. intros j _. ring. }
    rewrite (sum_product (S d) (fun i => meas e * (y (nth i e 0%nat) * G e i k))
                         (fun j => x (nth j e 0%nat) * G e j l)).
    rewrite sum_scal.
    rewrite (gradient_combination d (corners nodes e) (G e) (fun k0 H => R0 e k0 He H)
               (fun k0 c0 H H' => R1 e k0 c0 He H H') (fun j => x (nth j e 0%nat)) (gx e) l (Hx e He) Hl).
    rewrite (gradient_combination d (corners nodes e) (G e) (fun k0 H => R0 e k0 He H)
               (fun k0 c0 H H' => R1 e k0 c0 He H H') (fun j => y (nth j e 0%nat)) (gy e) k (Hy e He) Hk).
    ring.
  Qed.

  (* every nodal field has an elementwise gradient *)
  Lemma field_gradient_exists x : exists g, field_gradient d nodes els x g.
  Proof.
    exists (fun e k => sum (S d) (fun m => x (nth m e 0%nat) * G e m k)).
    intros e He. apply gradient_exists. intros m Hm. apply HG; auto.
  Qed.

  Lemma field_gradient_unique x g h : field_gradient d nodes els x g ->
    field_gradient d nodes els x h -> forall e k, In e els -> (k < d)%nat -> g e k = h e k.
  Proof.
    intros Hg Hh e k He Hk.
    apply (gradient_unique d (corners nodes e) (G e) (fun k0 H => R0 e k0 He H)
             (fun k0 c0 H H' => R1 e k0 c0 He H H') (fun j => x (nth j e 0%nat))); auto.
  Qed.

  (* constant and affine fields *)
  Lemma field_gradient_const c : field_gradient d nodes els (fun _ => c) (fun _ _ => 0).
  Proof. intros e He i j _ _. rewrite sum_0; [ring|intros; ring]. Qed.

  Lemma stiff_const_r k l y c : (k < d)%nat -> (l < d)%nat ->
    bilinear N N (assembly (S d) els (loc_stiff k l)) y (fun _ => c) = 0.
  Proof.
    intros Hk Hl. destruct (field_gradient_exists y) as [gy Hy].
    rewrite (stiff_form k l y _ gy (fun _ _ => 0) Hk Hl Hy (field_gradient_const c)).
    apply lsum_0. intros; ring.
  Qed.

  Lemma grad_const_r k y c : (k < d)%nat ->
    bilinear N N (assembly (S d) els (loc_grad k)) y (fun _ => c) = 0.
  Proof.
    intros Hk. rewrite (grad_form k y _ (fun _ _ => 0) Hk (field_gradient_const c)).
    apply lsum_0. intros; ring.
  Qed.

  Lemma stiff_transpose k l a b :
    assembly (S d) els (loc_stiff k l) a b = assembly (S d) els (loc_stiff l k) b a.
  Proof.
    unfold assembly. apply lsum_ext. intros e _. rewrite sum_swap. apply sum_ext. intros i _.
    apply sum_ext. intros j _. unfold loc_stiff. ring.
  Qed.

  Lemma mass_symmetric n : symmetric n (assembly (S d) els loc_mass).
  Proof.
    intros a b _ _. unfold assembly. apply lsum_ext. intros e _. rewrite sum_swap. apply sum_ext.
    intros i _. apply sum_ext. intros j _. unfold loc_mass, delta.
    rewrite (Nat.eqb_sym j i). ring.
  Qed.

  Lemma mean_product_self f : 0 <= mean_product d f f.
  Proof.
    unfold mean_product. apply Rmult_le_pos.
    - apply Rplus_le_le_0_compat; [apply sum_nonneg; intros|]; apply Rle_0_sqr.
    - apply Rlt_le, Rinv_0_lt_compat, Rmult_lt_0_compat; apply lt_0_INR; lia.
  Qed.

  Lemma mean_product_self_pos f k : (k <= d)%nat -> f k <> 0 -> 0 < mean_product d f f.
  Proof.
    intros Hk Hf. unfold mean_product. apply Rmult_lt_0_compat.
    - apply Rplus_lt_le_0_compat; [|apply Rle_0_sqr].
      apply (sum_pos (S d) _ k); [intros; apply Rle_0_sqr|lia|].
      apply Rsqr_pos_lt; auto.
    - apply Rinv_0_lt_compat, Rmult_lt_0_compat; apply lt_0_INR; lia.
  Qed.

  Lemma mass_pos_def : (forall e, In e els -> 0 < meas e) ->
    (forall i, (i < N)%nat -> referenced els i) -> pos_def N (assembly (S d) els loc_mass).
  Proof.
    intros HM HRef x [i [Hi Hx]]. unfold qform. rewrite <- bilinear_dot, mass_form.
    assert (P : forall e, In e els -> 0 <= meas e *
       mean_product d (fun k => x (nth k e 0%nat)) (fun k => x (nth k e 0%nat))).
    { intros e He. apply Rmult_le_pos; [apply Rlt_le; auto|apply mean_product_self]. }
    destruct (Rle_lt_or_eq_dec 0 _ (lsum_nonneg els _ P)) as [L|L]; auto.
    exfalso. symmetry in L. destruct (HRef i Hi) as (e & He & Hin).
    pose proof (lsum_nonneg_0 els _ P L e He) as Z. simpl in Z.
    destruct (In_nth e i 0%nat Hin) as (k & Hk & Ek).
    rewrite Forall_forall in HL. rewrite (HL e He) in Hk.
    assert (0 < mean_product d (fun k => x (nth k e 0%nat)) (fun k => x (nth k e 0%nat))).
    { apply (mean_product_self_pos _ k); [lia|]. rewrite Ek. auto. }
    specialize (HM e He). pose proof (Rmult_lt_0_compat _ _ HM H). lra.
  Qed.

  Lemma mass_total :
    bilinear N N (assembly (S d) els loc_mass) (fun _ => 1) (fun _ => 1) = lsum els meas.
  Proof.
    rewrite mass_form. apply lsum_ext. intros e _. unfold mean_product.
    rewrite !sum_const.
    rewrite (S_INR (S d)). pose proof (INR_pos d). pose proof (INR_pos (S d)) as HH.
    rewrite S_INR in HH. field. auto.
  Qed.
End Forms.
