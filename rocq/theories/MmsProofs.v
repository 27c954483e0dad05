(* Proofs about examples/example_manufactured_solution.py. *)
From Coq Require Import Reals List Arith Bool Lra Lia.
From Verif Require Import RVec MeshSpec FemSpec FemQuadProofs FemFormProofs StressSpec StressProofs
  ContactModel ContactLawProofs MmsModel MmsSpec.
Import ListNotations.
Local Open Scope R_scope.

Lemma quadratic_at_0 a b c : derivable_pt_lim (fun h => a + b * h + c * (h * h)) 0 b.
Proof.
  intros eps He. assert (Hc := Rabs_pos c).
  assert (D : 0 < eps / (Rabs c + 1)) by (apply Rdiv_lt_0_compat; lra).
  exists (mkposreal _ D). intros h h0 hd. cbn in hd.
  replace ((a + b * (0 + h) + c * ((0 + h) * (0 + h)) - (a + b * 0 + c * (0 * 0))) / h - b)
    with (c * h) by (field; exact h0).
  rewrite Rabs_mult. apply Rle_lt_trans with ((Rabs c + 1) * Rabs h).
  { pose proof (Rabs_pos h). nra. }
  apply (Rmult_lt_compat_l (Rabs c + 1)) in hd; [|lra].
  replace ((Rabs c + 1) * (eps / (Rabs c + 1))) with eps in hd by (field; lra). exact hd.
Qed.

Lemma quadratic_lim f a b c : (forall h, f h = a + b * h + c * (h * h)) -> derivable_pt_lim f 0 b.
Proof. intros F. apply lim_ext with (2 := quadratic_at_0 a b c). intros. symmetry. apply F. Qed.

Lemma quadratic_lim' f l : forall a b c, (forall h, f h = a + b * h + c * (h * h)) -> l = b ->
  derivable_pt_lim f 0 l.
Proof. intros a b c F ->. exact (quadratic_lim f a b c F). Qed.

(* the gradient of the manufactured solution *)
Definition solution_gradient (x : vec) : nat -> vec := fun c k =>
  match c, k with
  | 0%nat, 0%nat => ALPHA * (2 * x 1%nat + x 1%nat * x 1%nat)
  | 0%nat, _ => ALPHA * (2 * x 0%nat + 2 * x 0%nat * x 1%nat)
  | _, 0%nat => - (2 * ALPHA * x 0%nat * (1 + x 1%nat))
  | _, _ => - ALPHA * (x 0%nat * x 0%nat)
  end.

Ltac two c := destruct c as [|[|c]]; [| |exfalso; lia].

Lemma solution_has_gradient : displacement_gradient solution solution_gradient.
Proof.
  intros x c k Hc Hk. unfold partial_derivative. two c; two k; cbn.
  - eapply quadratic_lim' with (a := ALPHA * (2 * x 0%nat * x 1%nat + x 0%nat * (x 1%nat * x 1%nat)))
      (c := 0) (b := ALPHA * (2 * x 1%nat + x 1%nat * x 1%nat)); [intros; ring|ring].
  - eapply quadratic_lim' with (a := ALPHA * (2 * x 0%nat * x 1%nat + x 0%nat * (x 1%nat * x 1%nat)))
      (c := ALPHA * x 0%nat) (b := ALPHA * (2 * x 0%nat + 2 * x 0%nat * x 1%nat)); [intros; ring|ring].
  - eapply quadratic_lim' with (a := - ALPHA * (x 0%nat * x 0%nat) * (1 + x 1%nat))
      (c := - ALPHA * (1 + x 1%nat)) (b := - (2 * ALPHA * x 0%nat * (1 + x 1%nat))); [intros; ring|ring].
  - eapply quadratic_lim' with (a := - ALPHA * (x 0%nat * x 0%nat) * (1 + x 1%nat))
      (c := 0) (b := - ALPHA * (x 0%nat * x 0%nat)); [intros; ring|ring].
Qed.

Lemma gradient_fixed G : displacement_gradient solution G ->
  forall x c k, (c < 2)%nat -> (k < 2)%nat -> G x c k = solution_gradient x c k.
Proof.
  intros D x c k Hc Hk. eapply uniqueness_limite; [exact (D x c k Hc Hk)|].
  exact (solution_has_gradient x c k Hc Hk).
Qed.

Lemma hooke_fixed G : displacement_gradient solution G ->
  forall m l x c k, (c < 2)%nat -> (k < 2)%nat -> hooke 2 m l (G x) c k = hooke 2 m l (solution_gradient x) c k.
Proof.
  intros D m l x c k Hc Hk. unfold hooke, strain, divergence. cbn [sum].
  rewrite !(gradient_fixed G D) by lia. reflexivity.
Qed.

(* the stresses *)
Lemma hooke_values m l x :
  hooke 2 m l (solution_gradient x) 0%nat 0%nat
    = (l + 2 * m) * (ALPHA * (2 * x 1%nat + x 1%nat * x 1%nat)) + l * (- ALPHA * (x 0%nat * x 0%nat)) /\
  hooke 2 m l (solution_gradient x) 1%nat 1%nat
    = l * (ALPHA * (2 * x 1%nat + x 1%nat * x 1%nat)) + (l + 2 * m) * (- ALPHA * (x 0%nat * x 0%nat)) /\
  hooke 2 m l (solution_gradient x) 0%nat 1%nat = 0 /\
  hooke 2 m l (solution_gradient x) 1%nat 0%nat = 0.
Proof. unfold hooke, strain, divergence. cbn. repeat split; field. Qed.

Lemma solution_equilibrium G : displacement_gradient solution G -> equilibrium MU LAMBDA G inner_forces.
Proof.
  intros D x c Hc.
  assert (P : forall k d, (k < 2)%nat ->
    partial_derivative (fun y => hooke 2 MU LAMBDA (solution_gradient y) c k) k x d ->
    partial_derivative (fun y => hooke 2 MU LAMBDA (G y) c k) k x d).
  { intros k d Hk. apply lim_ext. intros h. symmetry. apply hooke_fixed; assumption. }
  destruct c as [|[|c]]; [| |lia].
  - exists (fun k => match k with 0%nat => - (2 * LAMBDA * ALPHA * x 0%nat) | _ => 0 end). split.
    + intros k Hk. apply P; [exact Hk|]. unfold partial_derivative. two k.
      * eapply quadratic_lim' with (a := hooke 2 MU LAMBDA (solution_gradient x) 0%nat 0%nat)
          (b := - (2 * LAMBDA * ALPHA * x 0%nat)) (c := - (LAMBDA * ALPHA)); [|reflexivity].
        intros h. rewrite !(proj1 (hooke_values _ _ _)). cbn. ring.
      * eapply quadratic_lim' with (a := 0) (b := 0) (c := 0); [|reflexivity].
        intros h. destruct (hooke_values MU LAMBDA (moved x 1 h)) as (_ & _ & V & _). rewrite V. ring.
    + cbn. ring.
  - exists (fun k => match k with 0%nat => 0 | _ => 2 * LAMBDA * ALPHA * (1 + x 1%nat) end). split.
    + intros k Hk. apply P; [exact Hk|]. unfold partial_derivative. two k.
      * eapply quadratic_lim' with (a := 0) (b := 0) (c := 0); [|reflexivity].
        intros h. destruct (hooke_values MU LAMBDA (moved x 0 h)) as (_ & _ & _ & V). rewrite V. ring.
      * eapply quadratic_lim' with (a := hooke 2 MU LAMBDA (solution_gradient x) 1%nat 1%nat)
          (b := 2 * LAMBDA * ALPHA * (1 + x 1%nat)) (c := LAMBDA * ALPHA); [|reflexivity].
        intros h. rewrite !(proj1 (proj2 (hooke_values _ _ _))). cbn. ring.
    + cbn. ring.
Qed.

Lemma solution_clamped x c : dirichlet x -> solution x c = 0.
Proof. unfold dirichlet. intros D. destruct c; cbn; rewrite D; ring. Qed.

Lemma traction_right G x c : displacement_gradient solution G -> (c < 2)%nat ->
  x 0%nat = W -> x 1%nat <= H - 1 / 1000 ->
  outer_forces x c = traction MU LAMBDA G to_right x c.
Proof.
  intros D Hc Hx Hy. unfold traction. rewrite !(hooke_fixed G D) by (assumption || lia).
  destruct (hooke_values MU LAMBDA x) as (A & B & C & F).
  unfold outer_forces. rewrite (ltb_true (W - 1 / 1000)) by (rewrite Hx; unfold W; lra).
  rewrite (ltb_false (H - 1 / 1000)) by exact Hy. two c; cbn [andb to_right].
  - rewrite A, C. ring.
  - rewrite B, F. ring.
Qed.

Lemma traction_top G x c : displacement_gradient solution G -> (c < 2)%nat ->
  x 1%nat = H -> x 0%nat <= W - 1 / 1000 ->
  outer_forces x c = traction MU LAMBDA G upwards x c.
Proof.
  intros D Hc Hx Hy. unfold traction. rewrite !(hooke_fixed G D) by (assumption || lia).
  destruct (hooke_values MU LAMBDA x) as (A & B & C & F).
  unfold outer_forces. rewrite (ltb_false (W - 1 / 1000)) by exact Hy.
  rewrite (ltb_true (H - 1 / 1000)) by (rewrite Hx; unfold H; lra). two c; cbn [andb upwards].
  - rewrite A, C. ring.
  - rewrite B, F. ring.
Qed.

Lemma traction_corner G x c : displacement_gradient solution G -> (c < 2)%nat ->
  x 0%nat = W -> x 1%nat = H ->
  outer_forces x c = (traction MU LAMBDA G to_right x c + traction MU LAMBDA G upwards x c) / 2.
Proof.
  intros D Hc Hx Hy. unfold traction. rewrite !(hooke_fixed G D) by (assumption || lia).
  destruct (hooke_values MU LAMBDA x) as (A & B & C & F).
  unfold outer_forces. rewrite (ltb_true (W - 1 / 1000)) by (rewrite Hx; unfold W; lra).
  rewrite (ltb_true (H - 1 / 1000)) by (rewrite Hy; unfold H; lra). two c; cbn [andb upwards to_right].
  - rewrite A, C. field.
  - rewrite B, F. field.
Qed.

Lemma unloaded x c : x 0%nat <= W - 1 / 1000 -> x 1%nat <= H - 1 / 1000 -> outer_forces x c = 0.
Proof.
  intros A B. unfold outer_forces. rewrite !ltb_false by assumption. destruct c; reflexivity.
Qed.

Lemma constants_positive : 0 < ALPHA /\ 0 < MU /\ 0 < LAMBDA.
Proof.
  repeat split; unfold ALPHA, MU, LAMBDA, E, NU; try lra.
Qed.

(* just left of the corner, on the top edge *)
Lemma strip G : displacement_gradient solution G ->
  forall x, x 1%nat = H -> W - 1 / 1000 < x 0%nat -> x 0%nat < W ->
  outer_forces x 1%nat = traction MU LAMBDA G upwards x 1%nat / 2.
Proof.
  intros D x Hy H1 H2. unfold traction. rewrite !(hooke_fixed G D) by (assumption || lia).
  destruct (hooke_values MU LAMBDA x) as (A & B & C & F).
  unfold outer_forces. rewrite (ltb_true (W - 1 / 1000)) by exact H1.
  rewrite (ltb_true (H - 1 / 1000)) by (rewrite Hy; unfold H; lra). cbn [andb upwards].
  rewrite B, F. field.
Qed.

Lemma strip_differs G : displacement_gradient solution G ->
  exists x, x 1%nat = H /\ 0 < x 0%nat < W /\ outer_forces x 1%nat <> traction MU LAMBDA G upwards x 1%nat.
Proof.
  intros D. set (x := fun c : nat => match c with 0%nat => W - 1 / 2000 | _ => H end).
  exists x. split; [reflexivity|]. split; [unfold x, W; lra|].
  rewrite (strip G D x eq_refl) by (unfold x, W; lra).
  assert (T : traction MU LAMBDA G upwards x 1%nat < 0).
  { unfold traction. rewrite !(hooke_fixed G D) by (assumption || lia).
    destruct (hooke_values MU LAMBDA x) as (_ & B & _ & F). rewrite B, F. cbn [upwards].
    unfold x. destruct constants_positive as (PA & PM & PL).
    replace (LAMBDA * (ALPHA * (2 * H + H * H)) + (LAMBDA + 2 * MU) * (- ALPHA * ((W - 1 / 2000) * (W - 1 / 2000))))
      with (ALPHA * (LAMBDA * (2 * H + H * H - (W - 1 / 2000) * (W - 1 / 2000))
                     - 2 * MU * ((W - 1 / 2000) * (W - 1 / 2000)))) by ring.
    rewrite Rmult_0_r, Rmult_1_r, Rplus_0_l.
    assert (Q : LAMBDA * (2 * H + H * H - (W - 1 / 2000) * (W - 1 / 2000)) < 0).
    { unfold H, W. nra. }
    assert (Q2 : 0 < MU * ((W - 1 / 2000) * (W - 1 / 2000))) by (unfold W; nra).
    nra. }
  lra.
Qed.

Lemma contact_balance G x : displacement_gradient solution G -> contact x ->
  let un := along (solution x) downwards in
  un = ALPHA * (x 0%nat * x 0%nat) /\
  along (traction MU LAMBDA G downwards x) downwards = - linear_subderivative C_N_MATCHED un /\
  traction MU LAMBDA G downwards x 0%nat = 0.
Proof.
  intros D C. unfold contact in C. cbv zeta.
  assert (U : along (solution x) downwards = ALPHA * (x 0%nat * x 0%nat)).
  { unfold along, solution, downwards. rewrite C. ring. }
  split; [exact U|]. rewrite U. unfold along, traction. rewrite !(hooke_fixed G D) by (assumption || lia).
  destruct (hooke_values MU LAMBDA x) as (A & B & Z & F). rewrite A, B, Z, F. cbn [downwards]. rewrite C.
  split; [|ring]. unfold linear_subderivative, C_N_MATCHED.
  destruct (Req_dec (x 0%nat) 0) as [Z0 | N0].
  - rewrite Z0. rewrite leb_true by lra. ring.
  - rewrite leb_false; [ring|]. assert (P : 0 < x 0%nat * x 0%nat) by nra. destruct constants_positive. nra.
Qed.

Lemma contact_matched G x s : displacement_gradient solution G -> contact x -> x 0%nat <> 0 ->
  along (traction MU LAMBDA G downwards x) downwards
    = - linear_subderivative s (along (solution x) downwards) <-> s = LAMBDA + 2 * MU.
Proof.
  intros D C N. destruct (contact_balance G x D C) as (U & B & _). rewrite B, U.
  assert (P : 0 < ALPHA * (x 0%nat * x 0%nat)).
  { destruct constants_positive. assert (0 < x 0%nat * x 0%nat) by nra. nra. }
  unfold linear_subderivative. rewrite !leb_false by exact P. unfold C_N_MATCHED. split.
  - intros Q. apply Rmult_eq_reg_r with (ALPHA * (x 0%nat * x 0%nat)); lra.
  - intros ->. reflexivity.
Qed.

(* the linear law *)
Lemma linear_law_derivative s x : derivable_pt_lim (linear_potential s) x (linear_subderivative s x).
Proof.
  unfold linear_subderivative. destruct (Rlt_le_dec x 0) as [Lt | Ge].
  - rewrite leb_true by lra. intros eps He. assert (D : 0 < - x) by lra. exists (mkposreal _ D).
    intros h h0 hd. cbn in hd. unfold linear_potential.
    rewrite !leb_true; [|lra|pose proof (Rle_abs h); lra].
    replace ((0 - 0) / h - 0) with 0 by (field; exact h0). rewrite Rabs_R0. exact He.
  - destruct (Req_dec x 0) as [-> | N].
    + rewrite leb_true by lra. intros eps He. assert (Hc := Rabs_pos s).
      assert (D : 0 < eps / (Rabs s + 1)) by (apply Rdiv_lt_0_compat; lra).
      exists (mkposreal _ D). intros h h0 hd. cbn in hd. unfold linear_potential.
      rewrite (leb_true 0 0) by lra. rewrite Rplus_0_l.
      assert (K : (Rabs s + 1) * Rabs h < eps).
      { apply (Rmult_lt_compat_l (Rabs s + 1)) in hd; [|lra].
        replace ((Rabs s + 1) * (eps / (Rabs s + 1))) with eps in hd by (field; lra). exact hd. }
      destruct (Rle_dec h 0) as [Le | Gt].
      * rewrite leb_true by exact Le. replace ((0 - 0) / h - 0) with 0 by (field; exact h0).
        rewrite Rabs_R0. exact He.
      * rewrite leb_false by lra.
        replace ((1 / 2 * s * (h * h) - 0) / h - 0) with (1 / 2 * (s * h)) by (field; exact h0).
        rewrite Rabs_mult, Rabs_mult. rewrite (Rabs_right (1 / 2)) by lra. pose proof (Rabs_pos h). nra.
    + assert (X : 0 < x) by lra. rewrite leb_false by exact X.
      intros eps He. assert (Hc := Rabs_pos s).
      assert (D : 0 < Rmin x (eps / (Rabs s + 1))).
      { apply Rmin_pos; [exact X|apply Rdiv_lt_0_compat; lra]. }
      exists (mkposreal _ D). intros h h0 hd. cbn in hd. unfold linear_potential.
      assert (B1 := Rlt_le_trans _ _ _ hd (Rmin_l _ _)). assert (B2 := Rlt_le_trans _ _ _ hd (Rmin_r _ _)).
      assert (x + h > 0). { pose proof (Rle_abs (- h)) as Q. rewrite Rabs_Ropp in Q. lra. }
      rewrite !leb_false by lra.
      replace ((1 / 2 * s * ((x + h) * (x + h)) - 1 / 2 * s * (x * x)) / h - s * x) with (1 / 2 * (s * h))
        by (field; exact h0).
      rewrite Rabs_mult, Rabs_mult. rewrite (Rabs_right (1 / 2)) by lra.
      apply (Rmult_lt_compat_l (Rabs s + 1)) in B2; [|lra].
      replace ((Rabs s + 1) * (eps / (Rabs s + 1))) with eps in B2 by (field; lra).
      pose proof (Rabs_pos h). nra.
Qed.

(* ------------------------------------------------------------ L2 errors *)
Lemma mms_area_area nodes e : mms_area nodes e = element_area nodes e.
Proof.
  unfold mms_area, element_area, area, det_2d, corners. cbv zeta.
  match goal with |- 1 / 2 * Rabs ?a = Rabs ?b / 2 => replace b with a by ring end. field.
Qed.

Lemma element_integral_mean nodes d e : element_integral nodes d e =
  element_area nodes e *
   (mean_product 2 (fun k => d (nth k e 0%nat) 0%nat) (fun k => d (nth k e 0%nat) 0%nat)
    + mean_product 2 (fun k => d (nth k e 0%nat) 1%nat) (fun k => d (nth k e 0%nat) 1%nat)).
Proof.
  unfold element_integral. rewrite mms_area_area. unfold mean_product. cbn [sum INR]. field.
Qed.

Lemma squared_integral nodes els d : lsum els (element_integral nodes d) = squared_l2 nodes els d.
Proof. unfold squared_l2, integral. apply lsum_ext. intros e _. apply element_integral_mean. Qed.

Lemma element_area_nonneg nodes e : 0 <= element_area nodes e.
Proof. unfold element_area, area. pose proof (Rabs_pos (det_2d (corners nodes e))). lra. Qed.

Lemma squared_nonneg nodes els d : 0 <= squared_l2 nodes els d.
Proof.
  apply lsum_nonneg. intros e _. pose proof (element_area_nonneg nodes e).
  pose proof (mean_product_self 2 (fun k => d (nth k e 0%nat) 0%nat)).
  pose proof (mean_product_self 2 (fun k => d (nth k e 0%nat) 1%nat)). nra.
Qed.

Definition difference (a b : nat -> vec) : nat -> vec := fun n c => a n c - b n c.

Lemma total_square els nodes a b :
  total_l2_norm els nodes a b * total_l2_norm els nodes a b = squared_l2 nodes els (fun n c => a n c - b n c).
Proof.
  unfold total_l2_norm. rewrite squared_integral. apply sqrt_sqrt. apply squared_nonneg.
Qed.

Lemma total_nonneg els nodes a b : 0 <= total_l2_norm els nodes a b.
Proof. apply sqrt_pos. Qed.

Lemma squared_zero N nodes els d : triangles N nodes els -> squared_l2 nodes els d = 0 ->
  forall n c, referenced els n -> (c < 2)%nat -> d n c = 0.
Proof.
  intros (_ & L & T) Z n c (e & He & Hn) Hc.
  assert (Le : List.length e = 3%nat) by (rewrite Forall_forall in L; apply L; exact He).
  destruct (In_nth e n 0%nat Hn) as (k & Hk & Ek). rewrite Le in Hk.
  destruct (Req_dec (d n c) 0) as [|Nz]; [assumption|exfalso].
  assert (P := lsum_nonneg_0 els (fun el => element_area nodes el *
     (mean_product 2 (fun k => d (nth k el 0%nat) 0%nat) (fun k => d (nth k el 0%nat) 0%nat)
    + mean_product 2 (fun k => d (nth k el 0%nat) 1%nat) (fun k => d (nth k el 0%nat) 1%nat)))).
  assert (Q : forall m, 0 <= mean_product 2 (fun k => d (nth k m 0%nat) 0%nat) (fun k => d (nth k m 0%nat) 0%nat) /\
     0 <= mean_product 2 (fun k => d (nth k m 0%nat) 1%nat) (fun k => d (nth k m 0%nat) 1%nat)).
  { intros m. split; apply mean_product_self. }
  specialize (P (fun m _ => ltac:(pose proof (Q m); pose proof (element_area_nonneg nodes m); nra)) Z e He).
  cbv beta in P. specialize (T e He). specialize (Q e).
  assert (A : 0 < element_area nodes e).
  { unfold element_area, area. pose proof (Rabs_pos_lt _ T). lra. }
  assert (S0 : 0 < mean_product 2 (fun k => d (nth k e 0%nat) c) (fun k => d (nth k e 0%nat) c)).
  { apply (mean_product_self_pos 2) with (k := k); [lia|]. rewrite Ek. exact Nz. }
  two c; nra.
Qed.

Lemma total_zero N els nodes a b : triangles N nodes els ->
  (total_l2_norm els nodes a b = 0 <-> forall n c, referenced els n -> (c < 2)%nat -> a n c = b n c).
Proof.
  intros T. pose proof (total_square els nodes a b) as S. split.
  - intros Z n c Hn Hc. rewrite Z, Rmult_0_l in S. symmetry in S.
    pose proof (squared_zero N nodes els _ T S n c Hn Hc). cbv beta in *. lra.
  - intros Eq. unfold total_l2_norm. rewrite squared_integral.
    replace (squared_l2 nodes els (fun n c => a n c - b n c)) with 0; [apply sqrt_0|].
    symmetry. unfold squared_l2, integral. rewrite (lsum_ext els _ (fun _ => 0 * 0)).
    { rewrite lsum_scal. ring. }
    intros e He. destruct T as (_ & L & _). rewrite Forall_forall in L. specialize (L e He).
    assert (K : forall k c, (k < 3)%nat -> (c < 2)%nat -> a (nth k e 0%nat) c - b (nth k e 0%nat) c = 0).
    { intros k c Hk Hc. rewrite Eq; [ring| |exact Hc]. exists e. split; [exact He|]. apply nth_In. lia. }
    unfold mean_product. cbn [sum]. rewrite !K by lia. cbn [INR]. field.
Qed.

Lemma total_sym els nodes a b : total_l2_norm els nodes a b = total_l2_norm els nodes b a.
Proof.
  unfold total_l2_norm. f_equal. apply lsum_ext. intros e _. unfold element_integral. cbv zeta. cbn [sum]. ring.
Qed.

(* triangle inequality *)
Definition product (nodes : nat -> vec) (els : list (list nat)) (p q : nat -> vec) : R :=
  lsum els (fun el => element_area nodes el *
    (mean_product 2 (fun k => p (nth k el 0%nat) 0%nat) (fun k => q (nth k el 0%nat) 0%nat)
    + mean_product 2 (fun k => p (nth k el 0%nat) 1%nat) (fun k => q (nth k el 0%nat) 1%nat))).

Lemma squared_line nodes els p q t :
  squared_l2 nodes els (fun n c => p n c + t * q n c)
  = squared_l2 nodes els p + 2 * t * product nodes els p q + t * t * squared_l2 nodes els q.
Proof.
  unfold squared_l2, integral, product. rewrite <- !lsum_scal, <- !lsum_plus. apply lsum_ext. intros e _.
  unfold mean_product. cbn [sum INR]. field.
Qed.

Lemma product_bound nodes els p q :
  product nodes els p q <= sqrt (squared_l2 nodes els p) * sqrt (squared_l2 nodes els q).
Proof.
  set (a := squared_l2 nodes els p). set (b := squared_l2 nodes els q). set (m := product nodes els p q).
  assert (A : 0 <= a) by apply squared_nonneg. assert (B : 0 <= b) by apply squared_nonneg.
  assert (Q : forall t, 0 <= a + 2 * t * m + t * t * b).
  { intros t. unfold a, m, b. rewrite <- squared_line. apply squared_nonneg. }
  assert (D : m * m <= a * b).
  { destruct (Req_dec b 0) as [B0 | B0].
    - destruct (Req_dec m 0) as [M0 | M0]; [rewrite M0, B0; lra|exfalso].
      specialize (Q (- (a + 1) / (2 * m))). rewrite B0 in Q.
      replace (a + 2 * (- (a + 1) / (2 * m)) * m + - (a + 1) / (2 * m) * (- (a + 1) / (2 * m)) * 0)
        with (-1) in Q by (field; exact M0). lra.
    - specialize (Q (- m / b)).
      replace (a + 2 * (- m / b) * m + - m / b * (- m / b) * b) with ((a * b - m * m) / b) in Q by (field; exact B0).
      assert (0 < b) by lra. apply (Rmult_le_compat_r b) in Q; [|lra].
      replace ((a * b - m * m) / b * b) with (a * b - m * m) in Q by (field; exact B0). lra. }
  rewrite <- sqrt_mult by assumption. destruct (Rle_dec m 0) as [M | M].
  - apply Rle_trans with 0; [exact M|apply sqrt_pos].
  - rewrite <- (sqrt_square m) by lra. apply sqrt_le_1_alt. exact D.
Qed.

Lemma total_triangle els nodes a b c :
  total_l2_norm els nodes a c <= total_l2_norm els nodes a b + total_l2_norm els nodes b c.
Proof.
  unfold total_l2_norm. rewrite !squared_integral.
  set (p := fun n c => a n c - b n c). set (q := fun n k => b n k - c n k).
  assert (L : squared_l2 nodes els (fun n k => a n k - c n k)
     = squared_l2 nodes els p + 2 * 1 * product nodes els p q + 1 * 1 * squared_l2 nodes els q).
  { rewrite <- squared_line. unfold squared_l2, integral. apply lsum_ext. intros e _.
    unfold mean_product, p, q. cbn [sum INR]. field. }
  rewrite L. pose proof (product_bound nodes els p q) as PB.
  set (x := squared_l2 nodes els p) in *. set (y := squared_l2 nodes els q) in *.
  assert (X : 0 <= x) by apply squared_nonneg. assert (Y : 0 <= y) by apply squared_nonneg.
  pose proof (sqrt_pos x). pose proof (sqrt_pos y).
  rewrite <- (sqrt_square (sqrt x + sqrt y)) by lra. apply sqrt_le_1_alt.
  pose proof (sqrt_sqrt x X). pose proof (sqrt_sqrt y Y). nra.
Qed.

(* nodal values *)
Lemma add_once (e : list nat) n v : NoDup e ->
  lsum e (fun m => if (m =? n)%nat then v else 0) = if existsb (Nat.eqb n) e then v else 0.
Proof.
  induction 1 as [|m e Hm D IH]; [reflexivity|]. cbn [lsum existsb].
  rewrite (Nat.eqb_sym n m). destruct (Nat.eqb_spec m n) as [-> | Ne].
  - cbn [orb]. rewrite IH. replace (existsb (Nat.eqb n) e) with false; [ring|].
    symmetry. apply not_true_iff_false. intros X. apply existsb_exists in X. destruct X as (k & Hk & Ek).
    apply Nat.eqb_eq in Ek. subst k. contradiction.
  - cbn [orb]. rewrite IH. ring.
Qed.

Lemma add_at_around els value n : Forall (@NoDup nat) els -> add_at els value n = lsum (around els n) value.
Proof.
  unfold add_at, around. induction 1 as [|e els De D IH]; [reflexivity|]. cbn [lsum filter].
  rewrite IH, add_once by exact De. destruct (existsb (Nat.eqb n) e); cbn [lsum]; ring.
Qed.

Lemma triangles_nodup N nodes els : triangles N nodes els -> Forall (@NoDup nat) els.
Proof.
  intros (_ & L & T). rewrite Forall_forall in *. intros e He. specialize (L e He). specialize (T e He).
  destruct e as [|i [|j [|k [|? ?]]]]; try discriminate L.
  destruct (triangle_distinct nodes i j k T) as (A & B & C).
  repeat constructor; cbn; intuition congruence.
Qed.

Lemma area_around_pos N nodes els n : triangles N nodes els -> referenced els n -> 0 < area_around nodes els n.
Proof.
  intros (_ & L & T) U. unfold area_around.
  assert (P : forall e, In e (around els n) -> 0 < element_area nodes e).
  { intros e He. unfold around in He. apply filter_In in He. unfold element_area, area.
    pose proof (Rabs_pos_lt _ (T e (proj1 He))). lra. }
  pose proof (around_used els n U) as Ne. destruct (around els n) as [|e r]; [contradiction|].
  cbn [lsum]. pose proof (P e (or_introl eq_refl)).
  assert (0 <= lsum r (element_area nodes)). { apply lsum_nonneg. intros. apply element_area_nonneg. } lra.
Qed.

Lemma node_error_square N nodes els a b n : triangles N nodes els -> referenced els n ->
  node_l2_error els nodes a b n * node_l2_error els nodes a b n
  = 3 * mean_square_around nodes els (fun n c => a n c - b n c) n.
Proof.
  intros T U. pose proof (triangles_nodup N nodes els T) as D. pose proof (area_around_pos N nodes els n T U) as P.
  unfold node_l2_error. rewrite !add_at_around by exact D. rewrite squared_integral.
  assert (A : lsum (around els n) (fun e => mms_area nodes e / 3) = area_around nodes els n / 3).
  { unfold area_around. replace (lsum (around els n) (element_area nodes) / 3)
      with (/ 3 * lsum (around els n) (element_area nodes)) by field.
    rewrite <- lsum_scal. apply lsum_ext. intros e _. rewrite mms_area_area. field. }
  rewrite A. destruct (Req_EM_T (area_around nodes els n / 3) 0) as [Z | _]; [lra|].
  rewrite sqrt_sqrt.
  - unfold mean_square_around. field. lra.
  - pose proof (squared_nonneg nodes (around els n) (fun n c => a n c - b n c)).
    apply Rmult_le_pos; [assumption|]. apply Rlt_le, Rinv_0_lt_compat. lra.
Qed.

Lemma node_error_unused N nodes els a b n : triangles N nodes els -> ~ referenced els n ->
  node_l2_error els nodes a b n = 0.
Proof.
  intros T U. pose proof (triangles_nodup N nodes els T) as D.
  unfold node_l2_error. rewrite !add_at_around by exact D. rewrite (around_unused els n U). cbn [lsum].
  destruct (Req_EM_T 0 0) as [_ | N0]; [|lra]. replace (0 / 1) with 0 by field. apply sqrt_0.
Qed.

Lemma squared_constant nodes els (k : vec) :
  squared_l2 nodes els (fun _ c => k c) = (k 0%nat * k 0%nat + k 1%nat * k 1%nat) * lsum els (element_area nodes).
Proof.
  unfold squared_l2, integral. rewrite <- lsum_scal. apply lsum_ext. intros e _.
  unfold mean_product. cbn [sum INR]. field.
Qed.

Lemma squared_ext nodes els p q : (forall n c, p n c = q n c) -> squared_l2 nodes els p = squared_l2 nodes els q.
Proof.
  intros Eq. unfold squared_l2, integral, mean_product. apply lsum_ext. intros e _. cbn [sum].
  rewrite !Eq. reflexivity.
Qed.

Lemma total_offset els nodes a (k : vec) :
  total_l2_norm els nodes (fun n c => a n c + k c) a
  = sqrt ((k 0%nat * k 0%nat + k 1%nat * k 1%nat) * lsum els (element_area nodes)).
Proof.
  unfold total_l2_norm. rewrite squared_integral. f_equal. rewrite <- squared_constant.
  apply squared_ext. intros. ring.
Qed.

Lemma node_error_offset N els nodes a (k : vec) n : triangles N nodes els -> referenced els n ->
  node_l2_error els nodes (fun n c => a n c + k c) a n
  = sqrt 3 * sqrt (k 0%nat * k 0%nat + k 1%nat * k 1%nat).
Proof.
  intros T U. pose proof (node_error_square N nodes els (fun n c => a n c + k c) a n T U) as S.
  pose proof (area_around_pos N nodes els n T U) as P.
  assert (M : mean_square_around nodes els (fun n c => a n c + k c - a n c) n
              = k 0%nat * k 0%nat + k 1%nat * k 1%nat).
  { unfold mean_square_around.
    rewrite (squared_ext _ _ _ (fun _ c => k c)) by (intros; ring).
    rewrite squared_constant. unfold area_around in *. field. lra. }
  cbv beta in S. rewrite M in S. rewrite <- sqrt_mult; [|lra|nra]. rewrite <- S. symmetry. apply sqrt_square. apply sqrt_pos.
Qed.
