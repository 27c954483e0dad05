(* The matrices returned by get_basic_matrices in 2D and 3D. *)
From Coq Require Import Reals List Arith Bool Lia Lra.
From Verif Require Import RVec MeshSpec PyModel FemModel FemSpec FemGeomProofs FemAssemblyProofs
  FemFormProofs.
Import ListNotations.
Local Open Scope R_scope.

(* the assembled matrices of a dimension, in terms of measures and gradients *)
Definition assembled (d : nat) (els : list (list nat)) (meas : list nat -> R)
    (G : list nat -> nat -> vec) (B : basic) : Prop :=
  (forall a b, volume_at_nodes B a b = assembly (S d) els (loc_vol d meas) a b) /\
  (forall a b, U B a b = assembly (S d) els (loc_mass d meas) a b) /\
  (forall k a b, (k < d)%nat -> V B k a b = assembly (S d) els (loc_grad d meas G k) a b) /\
  (forall k l a b, (k < d)%nat -> (l < d)%nat ->
     W B k l a b = assembly (S d) els (loc_stiff meas G k l) a b) /\
  element_initial_volume B = map meas els.

Definition grads2 nodes (e : list nat) : nat -> vec := grad2 (corners nodes e).
Definition grads3 nodes (e : list nat) : nat -> vec := grad3 (corners nodes e).

Lemma contribution2_eq x i j : (i < 3)%nat -> (j < 3)%nat ->
  contribution2 x i j = map (fun v => area x * v)
    [ num (negb (i =? j)%nat) * ((1 / 3) / 2); (1 + num (i =? j)%nat) / 12;
      1 / 3 * grad2 x j 0%nat; 1 / 3 * grad2 x j 1%nat;
      grad2 x i 0%nat * grad2 x j 0%nat; grad2 x i 0%nat * grad2 x j 1%nat;
      grad2 x i 1%nat * grad2 x j 0%nat; grad2 x i 1%nat * grad2 x j 1%nat;
      FemModel.q2 x i j (area x) / area x ].
Proof.
  intros Hi Hj. unfold contribution2. pose proof (volume2_any x i Hi) as E.
  unfold grad2. destruct (integral_parts2 x i) as [gi vi], (integral_parts2 x j) as [gj vj].
  cbn [snd fst] in *. rewrite E. reflexivity.
Qed.

Lemma contribution3_eq x i j : (i < 4)%nat -> (j < 4)%nat ->
  contribution3 x i j = map (fun v => volume x * v)
    [ num (negb (i =? j)%nat) * ((1 / 4) / 3); (1 + num (i =? j)%nat) / 20;
      1 / 4 * grad3 x j 0%nat; 1 / 4 * grad3 x j 1%nat; 1 / 4 * grad3 x j 2%nat;
      grad3 x i 0%nat * grad3 x j 0%nat; grad3 x i 0%nat * grad3 x j 1%nat;
      grad3 x i 0%nat * grad3 x j 2%nat;
      grad3 x i 1%nat * grad3 x j 0%nat; grad3 x i 1%nat * grad3 x j 1%nat;
      grad3 x i 1%nat * grad3 x j 2%nat;
      grad3 x i 2%nat * grad3 x j 0%nat; grad3 x i 2%nat * grad3 x j 1%nat;
      grad3 x i 2%nat * grad3 x j 2%nat ].
Proof.
  intros Hi Hj. unfold contribution3. pose proof (volume3_any x i Hi) as E.
  unfold grad3. destruct (integral_parts3 x i) as [gi vi], (integral_parts3 x j) as [gj vj].
  cbn [snd fst] in *. rewrite E. reflexivity.
Qed.

Lemma num_delta i j : num (i =? j)%nat = delta i j.
Proof. reflexivity. Qed.

Lemma num_negb_delta i j : num (negb (i =? j)%nat) = 1 - delta i j.
Proof. unfold num, delta. destruct (i =? j)%nat; simpl; ring. Qed.

Lemma basic2_assembled nodes els : Forall (fun e => length e = 3%nat) els ->
  assembled 2 els (element_area nodes) (grads2 nodes) (basic2 nodes els).
Proof.
  intros HL. unfold assembled, basic2, basic_of.
  cbn [volume_at_nodes U V W element_initial_volume].
  split; [|split; [|split; [|split]]].
  - intros a b. rewrite (edges_features_entry _ _ _ 3) by auto.
    apply assembly_ext. intros e i j He Hi Hj. rewrite contribution2_eq by auto.
    unfold loc_vol, element_area. cbn [map nth INR]. rewrite num_negb_delta. field.
  - intros a b. rewrite (edges_features_entry _ _ _ 3) by auto.
    apply assembly_ext. intros e i j He Hi Hj. rewrite contribution2_eq by auto.
    unfold loc_mass, element_area. cbn [map nth INR]. rewrite num_delta. field.
  - intros k a b Hk. rewrite (edges_features_entry _ _ _ 3) by auto.
    apply assembly_ext. intros e i j He Hi Hj. rewrite contribution2_eq by auto.
    unfold loc_grad, element_area, grads2.
    destruct k as [|[|k]]; [| |lia]; cbn [map nth INR Nat.add]; field.
  - intros k l a b Hk Hl. rewrite (edges_features_entry _ _ _ 3) by auto.
    apply assembly_ext. intros e i j He Hi Hj. rewrite contribution2_eq by auto.
    unfold loc_stiff, element_area, grads2.
    destruct k as [|[|k]]; [| |lia]; (destruct l as [|[|l]]; [| |lia]);
      cbn [map nth Nat.add Nat.mul]; reflexivity.
  - apply map_ext. intros e. apply volume2_any. lia.
Qed.

Lemma basic3_assembled nodes els : Forall (fun e => length e = 4%nat) els ->
  assembled 3 els (element_volume nodes) (grads3 nodes) (basic3 nodes els).
Proof.
  intros HL. unfold assembled, basic3, basic_of.
  cbn [volume_at_nodes U V W element_initial_volume].
  split; [|split; [|split; [|split]]].
  - intros a b. rewrite (edges_features_entry _ _ _ 4) by auto.
    apply assembly_ext. intros e i j He Hi Hj. rewrite contribution3_eq by auto.
    unfold loc_vol, element_volume. cbn [map nth INR]. rewrite num_negb_delta. field.
  - intros a b. rewrite (edges_features_entry _ _ _ 4) by auto.
    apply assembly_ext. intros e i j He Hi Hj. rewrite contribution3_eq by auto.
    unfold loc_mass, element_volume. cbn [map nth INR]. rewrite num_delta. field.
  - intros k a b Hk. rewrite (edges_features_entry _ _ _ 4) by auto.
    apply assembly_ext. intros e i j He Hi Hj. rewrite contribution3_eq by auto.
    unfold loc_grad, element_volume, grads3.
    destruct k as [|[|[|k]]]; [| | |lia]; cbn [map nth INR Nat.add]; field.
  - intros k l a b Hk Hl. rewrite (edges_features_entry _ _ _ 4) by auto.
    apply assembly_ext. intros e i j He Hi Hj. rewrite contribution3_eq by auto.
    unfold loc_stiff, element_volume, grads3.
    destruct k as [|[|[|k]]]; [| | |lia]; (destruct l as [|[|[|l]]]; [| | |lia]);
      cbn [map nth Nat.add Nat.mul]; reflexivity.
  - apply map_ext. intros e. apply volume3_any. lia.
Qed.

(* the exactly integrated mass term *)
Lemma q2_exact x i j : det_2d x <> 0 -> (i < 3)%nat -> (j < 3)%nat ->
  FemModel.q2 x i j (area x) = area x * ((1 + delta i j) / 12).
Proof.
  intros D Hi Hj. unfold FemModel.q2, area.
  assert (J : jacobian2 x = Rabs (det_2d x)) by (unfold jacobian2, det2, det_2d; f_equal; cbv beta zeta; ring).
  rewrite J. pose proof (Rabs_pos_lt _ D) as P.
  assert (S : Rabs (det_2d x) * Rabs (det_2d x) = det_2d x * det_2d x)
    by (rewrite <- Rabs_mult; apply Rabs_right, Rle_ge, Rle_0_sqr).
  remember (Rabs (det_2d x)) as s eqn:Es. clear Es J.
  unfold det_2d in S; cbv beta zeta in S.
  apply (Rmult_eq_reg_l s); [|lra].
  replace (s * (s / 2 * ((1 + delta i j) / 12))) with (s * s * (1 + delta i j) / 24) by field.
  rewrite S.
  match goal with |- s * (?A / (4 * (s / 2) ^ 2) + ?B / (4 * (s / 2))) = _ =>
    replace (s * (A / (4 * (s / 2) ^ 2) + B / (4 * (s / 2)))) with (A / s + B / 2) by (field; lra) end.
  destruct i as [|[|[|i]]]; [| | |lia]; (destruct j as [|[|[|j]]]; [| | |lia]);
    unfold coeffs2, int_matrix2, int_sqr2, int_xy2, det2, delta;
    cbn [sum nth Nat.eqb Nat.add Nat.modulo Nat.divmod fst snd Nat.sub];
    field; lra.
Qed.
