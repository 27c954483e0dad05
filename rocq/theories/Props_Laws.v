(* The contact laws defined in the examples (C99 - C101). *)
From Coq Require Import Reals List Arith Bool Lra Lia.
From Verif Require Import RVec PyModel ContactModel LawsModel LawsSpec CompositeProofs LawsProofs.
Import ListNotations.
Local Open Scope R_scope.

(* ---- C99: make_composite_contact_law ---- *)

(* the potential vanishes before the first layer and is an antiderivative of the layered traction:
   at every penetration, also at the ends of the layers, its one-sided derivatives are the
   one-sided limits of the traction *)
Theorem C99_potential : forall layers alpha beta c, (2 <= List.length layers)%nat -> increasing_list layers ->
  make_composite_contact_law layers alpha beta = Ok c ->
  exists p : R -> R, (forall v, composite_potential c v = Ok (p v)) /\
    (forall v, v <= nth 0 layers 0 -> p v = 0) /\
    (forall v t, traction_left layers alpha beta v t -> left_derivative p v t) /\
    (forall v t, traction_right layers alpha beta v t -> right_derivative p v t).
Proof. exact composite_antiderivative. Qed.
Print Assumptions C99_potential.

(* these limits exist everywhere *)
Theorem C99_traction : forall layers alpha beta, (2 <= List.length layers)%nat -> forall v,
  (exists t, traction_left layers alpha beta v t) /\ (exists t, traction_right layers alpha beta v t).
Proof.
  exact (fun layers alpha beta H v =>
    conj (traction_left_ex layers alpha beta H v) (traction_right_ex layers alpha beta H v)).
Qed.
Print Assumptions C99_traction.

(* the subderivative is the limit from the left *)
Theorem C99_subderivative : forall layers alpha beta c, (2 <= List.length layers)%nat -> increasing_list layers ->
  make_composite_contact_law layers alpha beta = Ok c -> forall v,
  exists t, traction_left layers alpha beta v t /\ composite_subderivative c v = Some t.
Proof. exact composite_subderivative_left. Qed.
Print Assumptions C99_subderivative.

(* the second part is zero before the first layer and grows *)
Theorem C99_second : forall layers alpha beta c, (2 <= List.length layers)%nat -> increasing_list layers ->
  make_composite_contact_law layers alpha beta = Ok c ->
  monotone_on (fun _ => True) (composite_sub2derivative c) /\
  forall v, v <= nth 0 layers 0 -> composite_sub2derivative c v = 0.
Proof. exact composite_sub2_grows. Qed.
Print Assumptions C99_second.

(* added to the subderivative it gives a growing function, off the ends of the layers: the potential
   is a difference of two convex functions with these derivatives *)
Theorem C99_sum : forall layers alpha beta c, (2 <= List.length layers)%nat -> increasing_list layers ->
  make_composite_contact_law layers alpha beta = Ok c ->
  forall x y tx ty, ~ In x layers -> ~ In y layers -> x <= y ->
  composite_subderivative c x = Some tx -> composite_subderivative c y = Some ty ->
  tx + composite_sub2derivative c x <= ty + composite_sub2derivative c y.
Proof. exact composite_sum_grows. Qed.
Print Assumptions C99_sum.

(* "the sum grows" is false at the end of every layer where the traction drops: the subderivative
   still has the value before the drop, the second part already contains it *)
Theorem C99_drop_refuted : forall layers alpha beta c, (2 <= List.length layers)%nat -> increasing_list layers ->
  make_composite_contact_law layers alpha beta = Ok c ->
  forall n, (S n < List.length layers)%nat -> alpha (nth (S n) layers 0) < beta (nth (S n) layers 0) ->
  exists y tx ty, nth (S n) layers 0 < y /\
    composite_subderivative c (nth (S n) layers 0) = Some tx /\ composite_subderivative c y = Some ty /\
    ty + composite_sub2derivative c y < tx + composite_sub2derivative c (nth (S n) layers 0).
Proof. exact composite_drop. Qed.
Print Assumptions C99_drop_refuted.

(* no layers are refused; one layer gives a law without potential beyond it *)
Theorem C99_none : forall alpha beta, make_composite_contact_law [] alpha beta = Err IndexError.
Proof. exact composite_empty. Qed.
Print Assumptions C99_none.

Theorem C99_single : forall x alpha beta v, x < v ->
  exists c, make_composite_contact_law [x] alpha beta = Ok c /\
    composite_potential c v = Err IndexError /\ composite_subderivative c v = Some (alpha x).
Proof. exact composite_single. Qed.
Print Assumptions C99_single.

(* three layers with a drop at the second *)
Example C99_case : exists c, make_composite_contact_law [0; 1; 3] (fun x => 2 - x) (fun x => 3 - x / 2) = Ok c /\
  increasing_list [0; 1; 3] /\ (2 - nth 1 [0; 1; 3] 0 < 3 - nth 1 [0; 1; 3] 0 / 2) /\
  traction_left [0; 1; 3] (fun x => 2 - x) (fun x => 3 - x / 2) 2 (1 + (3 - 3 / 2 - (2 - 1)) * ((2 - 1) / (3 - 1)) + (2 - 1 - 1)).
Proof.
  eexists. split; [reflexivity|]. split.
  { intros i j Hi Hj. cbn in Hj. destruct j as [|[|[|j]]]; try lia; destruct i as [|[|i]]; try lia; cbn; lra. }
  split; [cbn; lra|].
  replace (1 + (3 - 3 / 2 - (2 - 1)) * ((2 - 1) / (3 - 1)) + (2 - 1 - 1))
    with (2 - 1 + (3 - 3 / 2 - (2 - 1)) * ((2 - 1) / (3 - 1))) by ring.
  apply (within _ (fun x => 2 - x) (fun x => 3 - x / 2) _ _ 1 1 3); cbn; (lia || reflexivity || lra).
Qed.

(* ---- C100: MMLV99 ---- *)

(* as a function of the penetration u = - var_nu the subderivative is the derivative from the
   right of the potential *)
Theorem C100_right : forall u, right_derivative (fun u => mmlv_potential (- u)) u (mmlv_subderivative (- u)).
Proof. exact mmlv_right. Qed.
Print Assumptions C100_right.

(* at the three ends the force drops *)
Theorem C100_corners :
  left_derivative (fun u => mmlv_potential (- u)) (1 / 2000) 12000 /\ mmlv_subderivative (- (1 / 2000)) = 8000 /\
  left_derivative (fun u => mmlv_potential (- u)) (1 / 1000) 12000 /\ mmlv_subderivative (- (1 / 1000)) = 6000 /\
  left_derivative (fun u => mmlv_potential (- u)) (1 / 500) 10000 /\ mmlv_subderivative (- (1 / 500)) = 0.
Proof. exact mmlv_corners. Qed.
Print Assumptions C100_corners.

(* as functions of the same argument, potential and subderivative have opposite signs *)
Theorem C100_opposite : forall v, ~ (- v = 1 / 2000 \/ - v = 1 / 1000 \/ - v = 1 / 500) ->
  derivable_pt_lim mmlv_potential v (- mmlv_subderivative v).
Proof. exact mmlv_derivative. Qed.
Print Assumptions C100_opposite.

(* so "subderivative_normal_direction is the derivative of potential_normal_direction" is false *)
Theorem C100_sign_refuted : exists v l, derivable_pt_lim mmlv_potential v l /\ l < 0 < mmlv_subderivative v.
Proof. exact mmlv_sign. Qed.
Print Assumptions C100_sign_refuted.

(* the two parts of the difference of convex functions, off the first corner *)
Theorem C100_sum : monotone_on (fun u => u <> 1 / 2000)
  (fun u => mmlv_subderivative (- u) + mmlv_sub2derivative (- u)).
Proof. exact mmlv_sum_monotone. Qed.
Print Assumptions C100_sum.

(* at the first corner the sum dips *)
Theorem C100_dip_refuted : exists u, u < 1 / 2000 /\
  mmlv_subderivative (- (1 / 2000)) + mmlv_sub2derivative (- (1 / 2000))
  < mmlv_subderivative (- u) + mmlv_sub2derivative (- u).
Proof. exact mmlv_dip. Qed.
Print Assumptions C100_dip_refuted.

(* the tangential subderivative is the gradient of the logarithmic potential where the body moves,
   zero where it does not; its length is 1 / (1 + |tau|) *)
Theorem C100_tangential : forall d tau w, 0 < norm d tau ->
  derivable_pt_lim (fun h => log_potential d (fun i => tau i + h * w i)) 0 (scalar d (mmlv_tangential d tau) w).
Proof. exact log_gradient. Qed.
Print Assumptions C100_tangential.

Theorem C100_length : forall d tau, 0 < norm d tau -> norm d (mmlv_tangential d tau) = 1 / (1 + norm d tau).
Proof. exact log_length. Qed.
Print Assumptions C100_length.

Theorem C100_rest : forall d tau i, norm d tau = 0 -> mmlv_tangential d tau i = 0.
Proof. exact log_at_rest. Qed.
Print Assumptions C100_rest.

Example C100_case : 0 < norm 2 (fun i => match i with 0%nat => 3 | _ => 4 end) /\
  norm 2 (fun i => match i with 0%nat => 3 | _ => 4 end) = 5 /\
  ~ (- - (1 / 4000) = 1 / 2000 \/ - - (1 / 4000) = 1 / 1000 \/ - - (1 / 4000) = 1 / 500).
Proof.
  assert (E : norm 2 (fun i => match i with 0%nat => 3 | _ => 4 end) = 5).
  { unfold norm. cbn [sum]. replace (0 + 3 * 3 + 4 * 4) with (5 * 5) by ring. apply sqrt_square. lra. }
  rewrite E. repeat split; lra.
Qed.

(* ---- C101: the laws of the other examples ---- *)

(* Tarzia 2026: the derivative of the potential is TWICE the subderivative *)
Theorem C101_twice : forall s r, r <> 5 -> derivable_pt_lim (tarzia_potential s) r (2 * tarzia_subderivative s r).
Proof. exact tarzia_twice. Qed.
Print Assumptions C101_twice.

(* so they never agree, but for a zero slope *)
Theorem C101_half_refuted : forall s r l, s <> 0 -> r <> 5 ->
  derivable_pt_lim (tarzia_potential s) r l -> l <> tarzia_subderivative s r.
Proof. exact tarzia_half. Qed.
Print Assumptions C101_half_refuted.

(* at b = 5 the potential is continuous and its derivative jumps from 0 to 2 slope *)
Theorem C101_kink : forall s, left_derivative (tarzia_potential s) 5 (2 * (5 - 5) * s) /\
  right_derivative (tarzia_potential s) 5 (2 * (1 / (5 - 5 + 1)) * s).
Proof. exact (fun s => conj (tarzia_left s 5 (Rle_refl 5)) (tarzia_right s 5 (Rle_refl 5))). Qed.
Print Assumptions C101_kink.

(* Jureczka, Ochal 2019: potential and friction bound are bounded, growing, Lipschitz *)
Theorem C101_jo_normal : (forall v, 0 <= jo2019_potential v <= 1 / 10) /\
  monotone_on (fun _ => True) jo2019_potential /\ lipschitz 2 jo2019_potential.
Proof. exact jo2019_normal. Qed.
Print Assumptions C101_jo_normal.

Theorem C101_jo_friction : (forall v, 0 <= jo2019_bound v <= 8 / 10) /\
  monotone_on (fun _ => True) jo2019_bound /\ lipschitz 8 jo2019_bound.
Proof. exact jo2019_friction. Qed.
Print Assumptions C101_jo_friction.

(* Jureczka, Ochal, Bartman 2023 *)
Theorem C101_job_normal : forall k limit, 0 <= k -> 0 <= limit ->
  (forall v, 0 <= job2023_potential k limit v <= k * limit) /\
  monotone_on (fun _ => True) (job2023_potential k limit) /\ lipschitz k (job2023_potential k limit).
Proof. exact job2023_normal. Qed.
Print Assumptions C101_job_normal.

Theorem C101_job_friction : forall n, 0 <= n -> (forall v, 0 <= job2023_bound n v <= n / 10) /\
  monotone_on (fun _ => True) (job2023_bound n) /\ lipschitz n (job2023_bound n).
Proof. exact job2023_friction. Qed.
Print Assumptions C101_job_friction.

(* the friction potential grows with the speed, with a rate between 7/10 and 1 *)
Theorem C101_job_tangential : forall d x y, norm d x <= norm d y ->
  7 / 10 * (norm d y - norm d x) <= job2023_tangential d y - job2023_tangential d x <= norm d y - norm d x.
Proof. exact job2023_tangential_growth. Qed.
Print Assumptions C101_job_tangential.

(* Bartman-Szwarc et al. 2025, example 10: the potential is differentiable everywhere *)
Theorem C101_bost : forall g,
  (forall v, v <= 0 -> derivable_pt_lim (bost_potential g) v 0) /\
  (forall v, 0 <= v <= 1 / 10 ->
     derivable_pt_lim (bost_potential g) v (g * ((1 / 10 + exp (- (1 / 10))) * (10 * v)))) /\
  (forall v, 1 / 10 <= v -> derivable_pt_lim (bost_potential g) v (g * (1 / 10 + exp (- v)))).
Proof. exact bost_derivative. Qed.
Print Assumptions C101_bost.

(* with a force between 0 and 11/10 g *)
Theorem C101_bost_bounded : forall g v l, 0 <= g -> derivable_pt_lim (bost_potential g) v l -> 0 <= l <= g * (11 / 10).
Proof. exact bost_bounded. Qed.
Print Assumptions C101_bost_bounded.

(* that falls beyond 1/10: the potential is not convex *)
Theorem C101_bost_convex_refuted : forall g, 0 < g -> exists v w lv lw, v < w /\
  derivable_pt_lim (bost_potential g) v lv /\ derivable_pt_lim (bost_potential g) w lw /\ lw < lv.
Proof. exact bost_not_convex. Qed.
Print Assumptions C101_bost_convex_refuted.

Example C101_case : tarzia_subderivative 3 6 = 3 / 2 /\ (6 <> 5) /\ jo2019_potential (1 / 20) = 1 / 40 /\
  jo2019_bound (1 / 20) = 4 / 10 /\ job2023_potential 2 4 1 = 2.
Proof.
  unfold tarzia_subderivative, B_COEF, jo2019_potential, jo2019_bound, job2023_potential, leb, ltb.
  destruct (Rlt_dec 6 5); [lra|]. destruct (Rle_dec (1 / 20) 0); [lra|]. destruct (Rlt_dec (1 / 20) (1 / 10)); [|lra].
  destruct (Rlt_dec (1 / 20) 0); [lra|]. destruct (Rle_dec 1 0); [lra|]. destruct (Rlt_dec 1 4); [|lra].
  repeat split; lra.
Qed.
