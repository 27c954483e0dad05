(* The manufactured solution of the examples and its error measures (C97, C98). *)
From Coq Require Import Reals List Arith Bool Lra Lia.
From Verif Require Import RVec MeshSpec FemSpec FemModel FemExamples StressSpec ContactModel
  MmsModel MmsSpec MmsProofs.
Import ListNotations.
Local Open Scope R_scope.

(* the manufactured solution is differentiable everywhere *)
Theorem C97_smooth : exists G, displacement_gradient solution G.
Proof. exact (ex_intro _ _ solution_has_gradient). Qed.
Print Assumptions C97_smooth.

(* its stresses balance the volume forces of the example *)
Theorem C97_equilibrium : forall G, displacement_gradient solution G ->
  equilibrium MU LAMBDA G inner_forces.
Proof. exact solution_equilibrium. Qed.
Print Assumptions C97_equilibrium.

(* it vanishes where the example clamps the body *)
Theorem C97_clamped : forall x c, dirichlet x -> solution x c = 0.
Proof. exact solution_clamped. Qed.
Print Assumptions C97_clamped.

(* the surface loads are its tractions on the right and on the top edge, away from the corner *)
Theorem C97_right : forall G x c, displacement_gradient solution G -> (c < 2)%nat ->
  x 0%nat = 2 -> x 1%nat <= 1 - 1 / 1000 -> outer_forces x c = traction MU LAMBDA G to_right x c.
Proof. exact traction_right. Qed.
Print Assumptions C97_right.

Theorem C97_top : forall G x c, displacement_gradient solution G -> (c < 2)%nat ->
  x 1%nat = 1 -> x 0%nat <= 2 - 1 / 1000 -> outer_forces x c = traction MU LAMBDA G upwards x c.
Proof. exact traction_top. Qed.
Print Assumptions C97_top.

(* at the corner the load is the mean of both tractions *)
Theorem C97_corner : forall G x c, displacement_gradient solution G -> (c < 2)%nat ->
  x 0%nat = 2 -> x 1%nat = 1 ->
  outer_forces x c = (traction MU LAMBDA G to_right x c + traction MU LAMBDA G upwards x c) / 2.
Proof. exact traction_corner. Qed.
Print Assumptions C97_corner.

(* elsewhere there is no surface load *)
Theorem C97_unloaded : forall x c, x 0%nat <= 2 - 1 / 1000 -> x 1%nat <= 1 - 1 / 1000 -> outer_forces x c = 0.
Proof. exact unloaded. Qed.
Print Assumptions C97_unloaded.

(* but within the tolerance of the corner the load on the edge is not the traction *)
Theorem C97_strip_refuted : forall G, displacement_gradient solution G ->
  exists x, x 1%nat = 1 /\ 0 < x 0%nat < 2 /\
            outer_forces x 1%nat <> traction MU LAMBDA G upwards x 1%nat.
Proof. exact strip_differs. Qed.
Print Assumptions C97_strip_refuted.

(* on the contact edge the body is pressed in, and the reaction of the linear law with the matched
   stiffness balances the normal stress; there is no tangential stress *)
Theorem C97_contact : forall G x, displacement_gradient solution G -> contact x ->
  let un := along (solution x) downwards in
  un = ALPHA * (x 0%nat * x 0%nat) /\
  along (traction MU LAMBDA G downwards x) downwards = - linear_subderivative C_N_MATCHED un /\
  traction MU LAMBDA G downwards x 0%nat = 0.
Proof. exact contact_balance. Qed.
Print Assumptions C97_contact.

(* no other stiffness does so, at any point of the contact edge but the clamped one *)
Theorem C97_matched : forall G x s, displacement_gradient solution G -> contact x -> x 0%nat <> 0 ->
  along (traction MU LAMBDA G downwards x) downwards
    = - linear_subderivative s (along (solution x) downwards) <-> s = LAMBDA + 2 * MU.
Proof. exact contact_matched. Qed.
Print Assumptions C97_matched.

(* the subderivative of the linear law is the derivative of its potential, everywhere *)
Theorem C97_law : forall s x, derivable_pt_lim (linear_potential s) x (linear_subderivative s x).
Proof. exact linear_law_derivative. Qed.
Print Assumptions C97_law.

(* the hypotheses on positions are met, and the tractions there are not zero *)
Example C97_case :
  let x : vec := fun c => match c with 0%nat => 2 | _ => 0 end in
  displacement_gradient solution solution_gradient /\
  contact x /\ x 0%nat <> 0 /\ x 1%nat <= 1 - 1 / 1000 /\
  along (solution x) downwards = 1 / 5 /\ outer_forces x 0%nat < 0.
Proof.
  cbv zeta. split; [exact solution_has_gradient|]. split; [reflexivity|]. split; [cbn; lra|].
  split; [cbn; lra|]. split.
  - unfold along, solution, downwards, ALPHA. lra.
  - rewrite (traction_right _ _ 0%nat solution_has_gradient) by (cbn; (lia || reflexivity || unfold H; lra)).
    unfold traction. destruct (hooke_values MU LAMBDA (fun c => match c with 0%nat => 2 | _ => 0 end)) as (A & _ & C & _).
    rewrite A, C. cbn [to_right]. destruct constants_positive as (PA & PM & PL). nra.
Qed.

(* the reported total is the L2 norm of the piecewise linear difference field *)
Theorem C98_total : forall els nodes a b,
  0 <= total_l2_norm els nodes a b /\
  total_l2_norm els nodes a b * total_l2_norm els nodes a b = squared_l2 nodes els (fun n c => a n c - b n c).
Proof. exact (fun els nodes a b => conj (total_nonneg els nodes a b) (total_square els nodes a b)). Qed.
Print Assumptions C98_total.

(* it is zero exactly if both fields agree at all nodes of elements *)
Theorem C98_zero : forall N els nodes a b, triangles N nodes els ->
  (total_l2_norm els nodes a b = 0 <-> forall n c, referenced els n -> (c < 2)%nat -> a n c = b n c).
Proof. exact total_zero. Qed.
Print Assumptions C98_zero.

(* it is a distance *)
Theorem C98_symmetric : forall els nodes a b, total_l2_norm els nodes a b = total_l2_norm els nodes b a.
Proof. exact total_sym. Qed.
Print Assumptions C98_symmetric.

Theorem C98_triangle : forall els nodes a b c,
  total_l2_norm els nodes a c <= total_l2_norm els nodes a b + total_l2_norm els nodes b c.
Proof. exact total_triangle. Qed.
Print Assumptions C98_triangle.

(* a constant offset k gives |k| times the root of the area *)
Theorem C98_offset : forall els nodes a k,
  total_l2_norm els nodes (fun n c => a n c + k c) a
  = sqrt ((k 0%nat * k 0%nat + k 1%nat * k 1%nat) * lsum els (element_area nodes)).
Proof. exact total_offset. Qed.
Print Assumptions C98_offset.

(* the error shown at a node is the root of THREE TIMES the mean square error around it *)
Theorem C98_node : forall N nodes els a b n, triangles N nodes els -> referenced els n ->
  node_l2_error els nodes a b n * node_l2_error els nodes a b n
  = 3 * mean_square_around nodes els (fun n c => a n c - b n c) n.
Proof. exact node_error_square. Qed.
Print Assumptions C98_node.

Theorem C98_unused : forall N nodes els a b n, triangles N nodes els -> ~ referenced els n ->
  node_l2_error els nodes a b n = 0.
Proof. exact node_error_unused. Qed.
Print Assumptions C98_unused.

(* so it is not the mean error: a constant offset k is shown as sqrt 3 |k|, on every mesh *)
Theorem C98_scaled_refuted : forall N els nodes a k n, triangles N nodes els -> referenced els n ->
  node_l2_error els nodes (fun n c => a n c + k c) a n
  = sqrt 3 * sqrt (k 0%nat * k 0%nat + k 1%nat * k 1%nat).
Proof. exact node_error_offset. Qed.
Print Assumptions C98_scaled_refuted.

Example C98_case : triangles 4 quad_nodes quad_els /\ referenced quad_els 2 /\
  0 < squared_l2 quad_nodes quad_els (fun n c => match n, c with 2%nat, 0%nat => 1 | _, _ => 0 end).
Proof.
  split; [exact quad_triangles|]. split; [apply quad_referenced; lia|].
  destruct (Rle_lt_or_eq_dec _ _ (squared_nonneg quad_nodes quad_els
    (fun n c => match n, c with 2%nat, 0%nat => 1 | _, _ => 0 end))) as [P | Z]; [exact P|exfalso].
  pose proof (squared_zero 4 quad_nodes quad_els _ quad_triangles (eq_sym Z) 2%nat 0%nat
    (quad_referenced 2 ltac:(lia)) ltac:(lia)) as Q. cbn in Q. lra.
Qed.
