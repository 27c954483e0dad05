(* Geometry of one simplex: the gradients and volumes used by the assembly. *)
From Coq Require Import Reals List Arith Bool Lia Lra.
From Verif Require Import RVec FemModel FemSpec.
Import ListNotations.
Local Open Scope R_scope.

Lemma others3 i : (i < 3)%nat ->
  (i = 0%nat /\ others 3 i = [1; 2]%nat) \/ (i = 1%nat /\ others 3 i = [0; 2]%nat) \/
  (i = 2%nat /\ others 3 i = [0; 1]%nat).
Proof. intros H. destruct i as [|[|[|i]]]; [auto|auto|auto|lia]. Qed.

Lemma others4 i : (i < 4)%nat ->
  (i = 0%nat /\ others 4 i = [1; 2; 3]%nat) \/ (i = 1%nat /\ others 4 i = [0; 2; 3]%nat) \/
  (i = 2%nat /\ others 4 i = [0; 1; 3]%nat) \/ (i = 3%nat /\ others 4 i = [0; 1; 2]%nat).
Proof. intros H. destruct i as [|[|[|[|i]]]]; [auto|auto|auto|auto|lia]. Qed.

(* gradients and volumes written with the single determinant *)
Definition grad2 (x : nat -> vec) (i : nat) : vec := fst (integral_parts2 x i).
Definition grad3 (x : nat -> vec) (i : nat) : vec := fst (integral_parts3 x i).

Lemma denominator2_0 x : denominator2 (x 0%nat) (x 1%nat) (x 2%nat) = - det_2d x.
Proof. unfold denominator2, det_2d; cbv beta zeta. ring. Qed.
Lemma denominator2_1 x : denominator2 (x 1%nat) (x 0%nat) (x 2%nat) = det_2d x.
Proof. unfold denominator2, det_2d; cbv beta zeta. ring. Qed.
Lemma denominator2_2 x : denominator2 (x 2%nat) (x 0%nat) (x 1%nat) = - det_2d x.
Proof. unfold denominator2, det_2d; cbv beta zeta. ring. Qed.

Lemma denominator3_0 x : denominator3 (x 0%nat) (x 1%nat) (x 2%nat) (x 3%nat) = det_3d x.
Proof. unfold denominator3, det_3d; cbv beta zeta. ring. Qed.
Lemma denominator3_1 x : denominator3 (x 1%nat) (x 0%nat) (x 2%nat) (x 3%nat) = - det_3d x.
Proof. unfold denominator3, det_3d; cbv beta zeta. ring. Qed.
Lemma denominator3_2 x : denominator3 (x 2%nat) (x 0%nat) (x 1%nat) (x 3%nat) = det_3d x.
Proof. unfold denominator3, det_3d; cbv beta zeta. ring. Qed.
Lemma denominator3_3 x : denominator3 (x 3%nat) (x 0%nat) (x 1%nat) (x 2%nat) = - det_3d x.
Proof. unfold denominator3, det_3d; cbv beta zeta. ring. Qed.

Lemma volume2_any x i : (i < 3)%nat -> snd (integral_parts2 x i) = area x.
Proof.
  intros H. unfold integral_parts2, area.
  destruct (others3 i H) as [[-> ->]|[[-> ->]|[-> ->]]]; cbn [nth snd];
    rewrite ?denominator2_0, ?denominator2_1, ?denominator2_2, ?Rabs_Ropp; reflexivity.
Qed.

Lemma volume3_any x i : (i < 4)%nat -> snd (integral_parts3 x i) = volume x.
Proof.
  intros H. unfold integral_parts3, volume.
  destruct (others4 i H) as [[-> ->]|[[-> ->]|[[-> ->]|[-> ->]]]]; cbn [nth snd];
    rewrite ?denominator3_0, ?denominator3_1, ?denominator3_2, ?denominator3_3, ?Rabs_Ropp; reflexivity.
Qed.

(* reproduction of constants and coordinates *)
Lemma grad2_sum x k : det_2d x <> 0 -> (k < 2)%nat -> sum 3 (fun i => grad2 x i k) = 0.
Proof.
  intros D Hk. unfold grad2, integral_parts2. cbn [sum nth others filter seq Nat.eqb negb fst].
  rewrite denominator2_0, denominator2_1, denominator2_2.
  destruct k as [|[|k]]; [| |lia]; cbn [nth]; field; auto.
Qed.

Lemma grad2_coord x k c : det_2d x <> 0 -> (k < 2)%nat -> (c < 2)%nat ->
  sum 3 (fun i => grad2 x i k * x i c) = delta k c.
Proof.
  intros D Hk Hc. unfold grad2, integral_parts2. cbn [sum nth others filter seq Nat.eqb negb fst].
  rewrite denominator2_0, denominator2_1, denominator2_2.
  remember (det_2d x) as dd eqn:HD. unfold det_2d in HD. cbv beta zeta in HD.
  destruct k as [|[|k]]; [| |lia]; (destruct c as [|[|c]]; [| |lia]);
    unfold delta; cbn [nth Nat.eqb]; field_simplify_eq; auto; rewrite HD; ring.
Qed.

Lemma grad3_sum x k : det_3d x <> 0 -> (k < 3)%nat -> sum 4 (fun i => grad3 x i k) = 0.
Proof.
  intros D Hk. unfold grad3, integral_parts3. cbn [sum nth others filter seq Nat.eqb negb fst].
  rewrite denominator3_0, denominator3_1, denominator3_2, denominator3_3.
  destruct k as [|[|[|k]]]; [| | |lia]; cbn [nth]; field; auto.
Qed.

Lemma grad3_coord x k c : det_3d x <> 0 -> (k < 3)%nat -> (c < 3)%nat ->
  sum 4 (fun i => grad3 x i k * x i c) = delta k c.
Proof.
  intros D Hk Hc. unfold grad3, integral_parts3. cbn [sum nth others filter seq Nat.eqb negb fst].
  rewrite denominator3_0, denominator3_1, denominator3_2, denominator3_3.
  remember (det_3d x) as dd eqn:HD. unfold det_3d in HD. cbv beta zeta in HD.
  destruct k as [|[|[|k]]]; [| | |lia]; (destruct c as [|[|[|c]]]; [| | |lia]);
    unfold delta; cbn [nth Nat.eqb]; field_simplify_eq; auto; rewrite ?HD; ring.
Qed.

(* the gradients are those of the nodal basis functions *)
Lemma grad2_basis x m : det_2d x <> 0 -> (m <= 2)%nat -> affine_gradient 2 x (delta m) (grad2 x m).
Proof.
  intros D Hm.
  assert (B : forall i, (i <= 2)%nat ->
    sum 2 (fun c => grad2 x m c * (x i c - x 0%nat c)) = delta m i - delta m 0%nat).
  { intros i Hi. unfold grad2, integral_parts2.
    remember (det_2d x) as dd eqn:HD.
    destruct m as [|[|[|m]]]; [| | |lia]; cbn [sum nth others filter seq Nat.eqb negb fst];
      rewrite ?denominator2_0, ?denominator2_1, ?denominator2_2, <- HD;
      unfold det_2d in HD; cbv beta zeta in HD;
      (destruct i as [|[|[|i]]]; [| | |lia]);
      unfold delta; cbn [Nat.eqb]; field_simplify_eq; auto; rewrite ?HD; ring. }
  intros i j Hi Hj.
  rewrite (sum_ext 2 _ (fun c => grad2 x m c * (x i c - x 0%nat c)
                                 - grad2 x m c * (x j c - x 0%nat c))) by (intros; ring).
  rewrite sum_minus, !B by auto. ring.
Qed.

Lemma grad3_basis x m : det_3d x <> 0 -> (m <= 3)%nat -> affine_gradient 3 x (delta m) (grad3 x m).
Proof.
  intros D Hm.
  assert (B : forall i, (i <= 3)%nat ->
    sum 3 (fun c => grad3 x m c * (x i c - x 0%nat c)) = delta m i - delta m 0%nat).
  { intros i Hi. unfold grad3, integral_parts3.
    remember (det_3d x) as dd eqn:HD.
    destruct m as [|[|[|[|m]]]]; [| | | |lia]; cbn [sum nth others filter seq Nat.eqb negb fst];
      rewrite ?denominator3_0, ?denominator3_1, ?denominator3_2, ?denominator3_3, <- HD;
      unfold det_3d in HD; cbv beta zeta in HD;
      (destruct i as [|[|[|[|i]]]]; [| | | |lia]);
      unfold delta; cbn [Nat.eqb]; field_simplify_eq; auto; rewrite ?HD; ring. }
  intros i j Hi Hj.
  rewrite (sum_ext 3 _ (fun c => grad3 x m c * (x i c - x 0%nat c)
                                 - grad3 x m c * (x j c - x 0%nat c))) by (intros; ring).
  rewrite sum_minus, !B by auto. ring.
Qed.

(* consequences that hold for any family with these reproduction properties *)
Section Reproduction.
  Variables (d : nat) (x : nat -> vec) (G : nat -> vec).
  Hypothesis R0 : forall k, (k < d)%nat -> sum (S d) (fun i => G i k) = 0.
  Hypothesis R1 : forall k c, (k < d)%nat -> (c < d)%nat ->
    sum (S d) (fun i => G i k * x i c) = delta k c.

  Lemma gradient_combination f g k :
    affine_gradient d x f g -> (k < d)%nat -> sum (S d) (fun i => f i * G i k) = g k.
  Proof.
    intros A Hk.
    rewrite (sum_ext (S d) _ (fun i => (f i - f 0%nat) * G i k + f 0%nat * G i k)) by (intros; ring).
    rewrite sum_plus, sum_scal, R0 by auto. rewrite Rmult_0_r, Rplus_0_r.
    rewrite (sum_ext (S d) _ (fun i => sum d (fun c => g c * (G i k * x i c - G i k * x 0%nat c)))).
    2:{ intros i Hi. rewrite <- (A i 0%nat) by lia. rewrite <- sum_scal_r.
        apply sum_ext. intros; ring. }
    rewrite sum_swap.
    rewrite (sum_ext d _ (fun c => delta k c * g c)).
    - apply sum_delta_l; auto.
    - intros c Hc. rewrite sum_scal, sum_minus, R1 by auto.
      rewrite (sum_ext (S d) _ (fun i => x 0%nat c * G i k)) by (intros; ring).
      rewrite sum_scal, R0 by auto. ring.
  Qed.

  Lemma gradient_unique f g h :
    affine_gradient d x f g -> affine_gradient d x f h -> veq d g h.
  Proof.
    intros A B k Hk. rewrite <- (gradient_combination f g k A Hk).
    apply gradient_combination; auto.
  Qed.

  Lemma gradient_exists f :
    (forall m, (m <= d)%nat -> affine_gradient d x (delta m) (G m)) ->
    affine_gradient d x f (fun k => sum (S d) (fun m => f m * G m k)).
  Proof.
    intros B i j Hi Hj.
    rewrite (sum_ext d _ (fun c => sum (S d) (fun m => f m * (G m c * (x i c - x j c))))).
    2:{ intros c _. rewrite <- sum_scal_r. apply sum_ext. intros; ring. }
    rewrite sum_swap.
    rewrite (sum_ext (S d) _ (fun m => f m * delta m i - f m * delta m j)).
    2:{ intros m Hm. rewrite sum_scal, B by lia. ring. }
    rewrite sum_minus, !sum_delta_r by lia. reflexivity.
  Qed.
End Reproduction.

Lemma area_pos x : det_2d x <> 0 -> 0 < area x.
Proof. intros H. unfold area. pose proof (Rabs_pos_lt _ H). lra. Qed.

Lemma volume_pos x : det_3d x <> 0 -> 0 < volume x.
Proof. intros H. unfold volume. pose proof (Rabs_pos_lt _ H). lra. Qed.
