(* The contact laws shipped with the package. *)
From Coq Require Import Reals List Arith Bool Lia Lra Psatz.
From Verif Require Import RVec PyModel ContactModel ContactSpec.
Local Open Scope R_scope.

Lemma leb_true x y : x <= y -> leb x y = true.
Proof. intros H. unfold leb. destruct (Rle_dec x y); [reflexivity|contradiction]. Qed.
Lemma leb_false x y : y < x -> leb x y = false.
Proof. intros H. unfold leb. destruct (Rle_dec x y); [lra|reflexivity]. Qed.
Lemma ltb_true x y : x < y -> ltb x y = true.
Proof. intros H. unfold ltb. destruct (Rlt_dec x y); [reflexivity|contradiction]. Qed.
Lemma ltb_false x y : y <= x -> ltb x y = false.
Proof. intros H. unfold ltb. destruct (Rlt_dec x y); [lra|reflexivity]. Qed.

(* the slope law as functions of one variable *)
Definition slope_potential (slope x : R) : R := potential_normal_direction (make_slope_contact_law slope) x 0 0.

Lemma slope_value slope x s dt :
  potential_normal_direction (make_slope_contact_law slope) x s dt = / 2 * slope * Rmax 0 x ^ 2.
Proof.
  cbn [potential_normal_direction make_slope_contact_law]. unfold Rmax.
  destruct (Rle_dec 0 x) as [L | L].
  - destruct (Req_dec x 0) as [-> | H].
    + rewrite leb_true by lra. ring.
    + rewrite leb_false by lra. lra.
  - rewrite leb_true by lra. ring.
Qed.

Definition slope_sub (slope x : R) : R := slope * Rmax 0 x.

Lemma slope_sub_value slope sub x s dt :
  subderivative_normal_direction (make_slope_contact_law slope) = Some sub ->
  sub x s dt = slope_sub slope x.
Proof.
  cbn [subderivative_normal_direction make_slope_contact_law]. intros H. injection H as <-.
  unfold slope_sub, Rmax. destruct (Rle_dec 0 x) as [L | L].
  - destruct (Req_dec x 0) as [-> | H].
    + rewrite leb_true by lra. ring.
    + rewrite leb_false by lra. reflexivity.
  - rewrite leb_true by lra. ring.
Qed.

Lemma max0 x : (0 <= x /\ Rmax 0 x = x) \/ (x <= 0 /\ Rmax 0 x = 0).
Proof. destruct (Rle_dec 0 x); [left|right]; (split; [lra|]); [apply Rmax_right|apply Rmax_left]; lra. Qed.

Lemma slope_nonneg slope x s dt : 0 <= slope ->
  0 <= potential_normal_direction (make_slope_contact_law slope) x s dt.
Proof. intros H. rewrite slope_value. pose proof (pow2_ge_0 (Rmax 0 x)). nra. Qed.

(* subgradient inequality *)
Lemma slope_subgradient slope x y : 0 <= slope ->
  / 2 * slope * Rmax 0 x ^ 2 + slope_sub slope x * (y - x) <= / 2 * slope * Rmax 0 y ^ 2.
Proof.
  intros H. unfold slope_sub.
  assert (E : Rmax 0 x ^ 2 + 2 * Rmax 0 x * (y - x) <= Rmax 0 y ^ 2).
  { destruct (max0 x) as [[A ->] | [A ->]], (max0 y) as [[B ->] | [B ->]];
      pose proof (pow2_ge_0 (x - y)); pose proof (pow2_ge_0 x); nra. }
  nra.
Qed.

Lemma subgradient_convex1 (f g : R -> R) : (forall x y, f x + g x * (y - x) <= f y) -> convex1 f.
Proof.
  intros H x y t Ht. set (z := (1 - t) * x + t * y).
  pose proof (H z x) as Hx. pose proof (H z y) as Hy.
  assert ((1 - t) * (f z + g z * (x - z)) <= (1 - t) * f x) by (apply Rmult_le_compat_l; lra).
  assert (t * (f z + g z * (y - z)) <= t * f y) by (apply Rmult_le_compat_l; lra).
  assert ((1 - t) * (x - z) + t * (y - z) = 0) by (unfold z; ring).
  assert (g z * ((1 - t) * (x - z) + t * (y - z)) = 0) by (rewrite H2; ring).
  lra.
Qed.

Lemma slope_convex slope s dt : 0 <= slope ->
  convex1 (fun x => potential_normal_direction (make_slope_contact_law slope) x s dt).
Proof.
  intros H. apply (subgradient_convex1 _ (slope_sub slope)). intros x y. rewrite !slope_value.
  apply slope_subgradient; auto.
Qed.

(* derivative everywhere, also at 0 *)
Lemma slope_derivative slope x s dt :
  derivable_pt_lim (fun y => potential_normal_direction (make_slope_contact_law slope) y s dt) x (slope_sub slope x).
Proof.
  intros eps Heps.
  assert (Hd : 0 < eps / (Rabs slope + 1)).
  { apply Rdiv_lt_0_compat; auto. pose proof (Rabs_pos slope). lra. }
  exists (mkposreal _ Hd). intros h Hh Hlt. simpl in Hlt.
  rewrite !slope_value. unfold slope_sub.
  replace ((/ 2 * slope * Rmax 0 (x + h) ^ 2 - / 2 * slope * Rmax 0 x ^ 2) / h - slope * Rmax 0 x)
    with (slope * ((/ 2 * Rmax 0 (x + h) ^ 2 - / 2 * Rmax 0 x ^ 2 - h * Rmax 0 x) / h)) by (field; auto).
  rewrite Rabs_mult.
  assert (B : Rabs ((/ 2 * Rmax 0 (x + h) ^ 2 - / 2 * Rmax 0 x ^ 2 - h * Rmax 0 x) / h) <= Rabs h).
  { unfold Rdiv. rewrite Rabs_mult, Rabs_inv.
    assert (P : 0 < Rabs h) by (apply Rabs_pos_lt; auto).
    apply (Rmult_le_reg_r (Rabs h)); auto. rewrite Rmult_assoc, Rinv_l, Rmult_1_r by lra.
    rewrite <- Rabs_mult. rewrite (Rabs_pos_eq (h * h)) by nra.
    apply Rabs_le. destruct (max0 x) as [[A ->] | [A ->]], (max0 (x + h)) as [[B ->] | [B ->]]; split; nra. }
  apply Rle_lt_trans with (Rabs slope * Rabs h).
  - apply Rmult_le_compat_l; [apply Rabs_pos|exact B].
  - apply Rle_lt_trans with ((Rabs slope + 1) * Rabs h).
    + pose proof (Rabs_pos h). nra.
    + pose proof (Rabs_pos slope).
      apply (Rmult_lt_compat_l (Rabs slope + 1)) in Hlt; [|lra].
      replace ((Rabs slope + 1) * (eps / (Rabs slope + 1))) with eps in Hlt by (field; lra). lra.
Qed.
