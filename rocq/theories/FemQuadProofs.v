(* The closed formulas for integrals over a simplex agree with calculus. *)
From Coq Require Import Reals List Arith Bool Lia Lra.
From Verif Require Import RVec FemSpec.
Import ListNotations.
Local Open Scope R_scope.

(* polynomial c0 + c1 x + ... + c4 x^4 and its primitive vanishing at 0 *)
Definition poly (c0 c1 c2 c3 c4 x : R) : R := c0 + c1 * x + c2 * x ^ 2 + c3 * x ^ 3 + c4 * x ^ 4.
Definition primitive (c0 c1 c2 c3 c4 x : R) : R :=
  c0 * x + c1 / 2 * x ^ 2 + c2 / 3 * x ^ 3 + c3 / 4 * x ^ 4 + c4 / 5 * x ^ 5.

Lemma lim_ext f g x l : (forall y, f y = g y) -> derivable_pt_lim f x l -> derivable_pt_lim g x l.
Proof.
  intros E H eps He. destruct (H eps He) as [dl Hd]. exists dl. intros h h0 hd.
  rewrite <- !E. apply Hd; auto.
Qed.

Lemma lim_term c n x : derivable_pt_lim (fun y => c * y ^ n) x (c * (INR n * x ^ pred n)).
Proof. apply (derivable_pt_lim_scal (fun y => y ^ n)). apply derivable_pt_lim_pow. Qed.

Lemma primitive_lim c0 c1 c2 c3 c4 x :
  derivable_pt_lim (primitive c0 c1 c2 c3 c4) x (poly c0 c1 c2 c3 c4 x).
Proof.
  apply (lim_ext (fun y => ((((c0 * y ^ 1 + c1 / 2 * y ^ 2) + c2 / 3 * y ^ 3) + c3 / 4 * y ^ 4)
    + c4 / 5 * y ^ 5))).
  { intros y. unfold primitive. ring. }
  replace (poly c0 c1 c2 c3 c4 x) with
    ((((c0 * (INR 1 * x ^ pred 1) + c1 / 2 * (INR 2 * x ^ pred 2)) + c2 / 3 * (INR 3 * x ^ pred 3))
      + c3 / 4 * (INR 4 * x ^ pred 4)) + c4 / 5 * (INR 5 * x ^ pred 5)).
  2:{ unfold poly. simpl. field. }
  repeat apply derivable_pt_lim_plus; apply lim_term.
Qed.

(* integral of a polynomial over [0, b] *)
Lemma poly_integral f c0 c1 c2 c3 c4 b : (forall x, f x = poly c0 c1 c2 c3 c4 x) ->
  is_integral f 0 b (primitive c0 c1 c2 c3 c4 b).
Proof.
  intros E. exists (primitive c0 c1 c2 c3 c4). split.
  - intros x. rewrite E. apply primitive_lim.
  - unfold primitive. ring.
Qed.

(* integral over [0, b] of a polynomial in b - x *)
Lemma poly_integral_rev f c0 c1 c2 c3 c4 b : (forall x, f x = poly c0 c1 c2 c3 c4 (b - x)) ->
  is_integral f 0 b (primitive c0 c1 c2 c3 c4 b).
Proof.
  intros E. exists (fun x => - primitive c0 c1 c2 c3 c4 (b - x)). split.
  - intros x. rewrite E.
    replace (poly c0 c1 c2 c3 c4 (b - x)) with (- (poly c0 c1 c2 c3 c4 (b - x) * (0 - 1))) by ring.
    apply (derivable_pt_lim_opp (fun x => primitive c0 c1 c2 c3 c4 (b - x))).
    apply (derivable_pt_lim_comp (fun x => b - x) (primitive c0 c1 c2 c3 c4)).
    + apply (derivable_pt_lim_minus (fun _ => b) (fun x => x)).
      * apply derivable_pt_lim_const.
      * apply derivable_pt_lim_id.
    + apply primitive_lim.
  - replace (b - 0) with b by ring. replace (b - b) with 0 by ring. unfold primitive. ring.
Qed.

Lemma is_integral_eq f a b I J : I = J -> is_integral f a b I -> is_integral f a b J.
Proof. now intros ->. Qed.

(* the integral of [is_integral] is unique *)
Lemma is_integral_unique f a b I J : is_integral f a b I -> is_integral f a b J -> I = J.
Proof.
  intros (F & HF & EF) (G & HG & EG).
  assert (D : forall x, derivable_pt_lim (fun y => F y - G y) x 0).
  { intros x. replace 0 with (f x - f x) by ring. apply (derivable_pt_lim_minus F G); auto. }
  assert (pr : derivable (fun y => F y - G y)) by (intros x; exists 0; apply D).
  assert (C : constant (fun y => F y - G y)).
  { apply (null_derivative_1 _ pr). intros x. apply derive_pt_eq_0. apply D. }
  specialize (C a b). simpl in C. lra.
Qed.

Lemma triangle_product f g :
  is_triangle_integral (fun s t => bary2 f s t * bary2 g s t) (mean_product 2 f g / 2).
Proof.
  set (a := f 1%nat - f 0%nat). set (b := g 1%nat - g 0%nat).
  set (be := f 2%nat - f 0%nat). set (de := g 2%nat - g 0%nat).
  exists (fun s => primitive ((f 0%nat + a * s) * (g 0%nat + b * s))
     ((f 0%nat + a * s) * de + be * (g 0%nat + b * s)) (be * de) 0 0 (1 - s)). split.
  - intros s. apply poly_integral. intros t. unfold bary2, poly, a, b, be, de. ring.
  - eapply is_integral_eq; [|apply (poly_integral_rev _ 0 (f 1%nat * g 1%nat)
      (- (f 1%nat * b + a * g 1%nat) + (f 1%nat * de + be * g 1%nat) / 2)
      (a * b - (a * de + be * b) / 2 + be * de / 3) 0)].
    + unfold primitive, mean_product, a, b, be, de. cbn [sum INR]. field.
    + intros s. unfold primitive, poly, a, b, be, de. field.
Qed.

Lemma triangle_linear f : is_triangle_integral (bary2 f) (sum 3 f / 3 / 2).
Proof.
  set (a := f 1%nat - f 0%nat). set (be := f 2%nat - f 0%nat).
  exists (fun s => primitive (f 0%nat + a * s) be 0 0 0 (1 - s)). split.
  - intros s. apply poly_integral. intros t. unfold bary2, poly, a, be. ring.
  - eapply is_integral_eq; [|apply (poly_integral_rev _ 0 (f 1%nat) (- a + be / 2) 0 0)].
    + unfold primitive, a, be. cbn [sum INR]. field.
    + intros s. unfold primitive, poly, a, be. field.
Qed.

Lemma tetrahedron_product f g :
  is_tetrahedron_integral (fun r s t => bary3 f r s t * bary3 g r s t) (mean_product 3 f g / 6).
Proof.
  set (a := f 0%nat - f 2%nat). set (c := g 0%nat - g 2%nat).
  set (be := f 3%nat - f 0%nat). set (de := g 3%nat - g 0%nat).
  set (p := f 2%nat - f 1%nat). set (q := g 2%nat - g 1%nat).
  exists (fun r => let A := f 1%nat + p * (1 - r) in let B := g 1%nat + q * (1 - r) in
    primitive 0 (A * B) (A * c + a * B + (A * de + be * B) / 2)
      (a * c + (a * de + be * c) / 2 + be * de / 3) 0 (1 - r)). split.
  - intros r. set (A := f 1%nat + p * (1 - r)). set (B := g 1%nat + q * (1 - r)).
    exists (fun s => let v := 1 - r - s in
      primitive ((A + a * v) * (B + c * v)) ((A + a * v) * de + be * (B + c * v)) (be * de) 0 0 v).
    split.
    + intros s. cbv zeta. apply poly_integral. intros t.
      unfold bary3, poly, A, B, a, c, be, de, p, q. ring.
    + cbv zeta. apply poly_integral_rev. intros s. unfold primitive, poly. field.
  - cbv zeta. eapply is_integral_eq; [|apply (poly_integral_rev _ 0 0 (f 1%nat * g 1%nat / 2)
      ((f 1%nat * q + p * g 1%nat) / 2
       + (f 1%nat * c + a * g 1%nat + (f 1%nat * de + be * g 1%nat) / 2) / 3)
      (p * q / 2 + (p * c + a * q + (p * de + be * q) / 2) / 3
       + (a * c + (a * de + be * c) / 2 + be * de / 3) / 4))].
    + unfold primitive, mean_product, a, c, be, de, p, q. cbn [sum INR]. field.
    + intros r. unfold primitive, poly. field.
Qed.

Lemma tetrahedron_linear f : is_tetrahedron_integral (bary3 f) (sum 4 f / 4 / 6).
Proof.
  set (a := f 0%nat - f 2%nat). set (be := f 3%nat - f 0%nat). set (p := f 2%nat - f 1%nat).
  exists (fun r => let A := f 1%nat + p * (1 - r) in
    primitive 0 A (a + be / 2) 0 0 (1 - r)). split.
  - intros r. set (A := f 1%nat + p * (1 - r)).
    exists (fun s => let v := 1 - r - s in primitive (A + a * v) be 0 0 0 v). split.
    + intros s. cbv zeta. apply poly_integral. intros t. unfold bary3, poly, A, a, be, p. ring.
    + cbv zeta. apply poly_integral_rev. intros s. unfold primitive, poly. field.
  - cbv zeta. eapply is_integral_eq; [|apply (poly_integral_rev _ 0 0 (f 1%nat / 2)
      (p / 2 + (a + be / 2) / 3) 0)].
    + unfold primitive, a, be, p. cbn [sum INR]. field.
    + intros r. unfold primitive, poly. field.
Qed.
