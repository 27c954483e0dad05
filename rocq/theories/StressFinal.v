(* Virtual work of the recovered stress, and the witnesses. *)
From Coq Require Import Reals List Arith Bool Lra Lia.
From Verif Require Import RVec PyModel MeshSpec FemSpec FemModel FemPipelineProofs FemFinalProofs FemExamples
  StressModel StressSpec StressProofs.
Import ListNotations.
Local Open Scope R_scope.

Lemma density_hooke mu la G H :
  elastic_density 2 mu la G H = contract (hooke 2 mu la H) G.
Proof.
  unfold elastic_density, contract, hooke, strain, divergence. cbn [sum Nat.eqb]. field.
Qed.

Lemma stacked_affine N nodes els b A u x : triangles N nodes els -> affine_rows N nodes b A u ->
  (forall c n, (c < 2)%nat -> (n < N)%nat -> x (c * N + n)%nat = u n c) ->
  vector_gradient 2 N nodes els x (fun c _ => A c).
Proof.
  intros HT HA Hx c Hc e He i j Hi Hj. destruct HT as (Hr & Hl & Hd).
  assert (L : length e = 3%nat) by (rewrite Forall_forall in Hl; apply Hl; exact He).
  assert (R0 : forall k, (k <= 2)%nat -> (nth k e 0%nat < N)%nat).
  { intros k Hk. unfold in_range in Hr. rewrite Forall_forall in Hr. specialize (Hr e He).
    rewrite Forall_forall in Hr. apply Hr. apply nth_In. lia. }
  unfold component. rewrite (Hx c _ Hc (R0 i Hi)), (Hx c _ Hc (R0 j Hj)).
  exact (affine_rows_gradient N nodes els b A u (conj Hr (conj Hl Hd)) HA c Hc e He i j Hi Hj).
Qed.

(* the elasticity operator does minus the work of the stress that the law reports *)
Lemma stress_work N nodes els p ops mu la E b A u x n r s : triangles N nodes els ->
  reinitialize_matrices N nodes els p None = Ok ops -> elastic p = Some (mu, la) -> elasticity ops = Some E ->
  affine_rows N nodes b A u ->
  (forall c m, (c < 2)%nat -> (m < N)%nat -> x (c * N + m)%nat = u m c) ->
  viscoelastic_constitutive_law mu la 0 0 N nodes els u (fun _ _ => 0) = Ok r ->
  referenced els n -> r n = Some s ->
  forall y Y, vector_gradient 2 N nodes els y Y ->
  bilinear (2 * N) (2 * N) E y x
  = - integral (element_area nodes) els (fun e => contract s (fun c => Y c e)).
Proof.
  intros HT HO Hp HE HA Hx Er Hn Hs y Y HY.
  destruct (elasticity2_all N nodes els p None ops HT HO mu la E Hp HE) as [HB _].
  rewrite (HB y x Y (fun c _ => A c) HY (stacked_affine N nodes els b A u x HT HA Hx)).
  cbn [mesh_integral]. unfold integral.
  assert (Z : affine_rows N nodes (fun _ => 0) (fun _ _ => 0) (fun _ _ => 0)) by (intros ? ? ? ?; ring).
  destruct (affine_stress N nodes els mu la 0 0 b A u _ _ _ HT HA Z) as [r' [E' H']].
  rewrite Er in E'. injection E' as <-. destruct (H' n Hn) as [s' [F K]]. rewrite Hs in F. injection F as <-.
  replace (- lsum els (fun e => element_area nodes e * contract s (fun c => Y c e)))
    with ((-1) * lsum els (fun e => element_area nodes e * contract s (fun c => Y c e))) by ring.
  rewrite <- lsum_scal. apply lsum_ext. intros e He. rewrite density_hooke.
  assert (C : contract s (fun c => Y c e) = - contract (hooke 2 mu la A) (fun c => Y c e)).
  { unfold contract. cbn [sum]. rewrite !K by lia. unfold hooke, strain, divergence. cbn [sum Nat.eqb]. field. }
  rewrite C. change (hooke 2 mu la (fun c : nat => A c)) with (hooke 2 mu la A). ring.
Qed.


Lemma hooke_rigid m l A : antisymmetric 2 A -> same2 (hooke 2 m l A) (fun _ _ => 0).
Proof.
  intros SA i j Hi Hj.
  assert (S0 : forall k k', (k < 2)%nat -> (k' < 2)%nat -> A k k' + A k' k = 0).
  { intros k k' Hk Hk'. rewrite (SA k k' Hk Hk'). ring. }
  assert (D0 : A 0%nat 0%nat = 0) by (pose proof (S0 0%nat 0%nat ltac:(lia) ltac:(lia)); lra).
  assert (D1 : A 1%nat 1%nat = 0) by (pose proof (S0 1%nat 1%nat ltac:(lia) ltac:(lia)); lra).
  unfold hooke, strain, divergence. cbn [sum]. rewrite (S0 i j Hi Hj), D0, D1.
  destruct (i =? j)%nat; field.
Qed.

Lemma rigid_stress N nodes els mu la th ze bu A u bv B v : triangles N nodes els ->
  affine_rows N nodes bu A u -> affine_rows N nodes bv B v -> antisymmetric 2 A -> antisymmetric 2 B ->
  exists r, viscoelastic_constitutive_law mu la th ze N nodes els u v = Ok r /\
    forall n, referenced els n -> exists s, r n = Some s /\ same2 s (fun _ _ => 0).
Proof.
  intros HT HA HB SA SB. destruct (affine_stress N nodes els mu la th ze bu A u bv B v HT HA HB) as [r [E H]].
  exists r. split; [exact E |]. intros n Hn. destruct (H n Hn) as [s [F K]]. exists s. split; [exact F |].
  intros i j Hi Hj. rewrite (K i j Hi Hj), (hooke_rigid mu la A SA i j Hi Hj), (hooke_rigid th ze B SB i j Hi Hj).
  ring.
Qed.

(* the reported norm does not see the sign *)
Lemma norm_sign s t : same2 s (negate t) -> stress_norm s = stress_norm t.
Proof.
  intros H. unfold stress_norm. f_equal. cbn [sum]. rewrite !H by lia. unfold negate. ring.
Qed.

Lemma norm_square s : 0 <= stress_norm s /\ stress_norm s * stress_norm s = contract s s.
Proof.
  split; [apply sqrt_pos|]. unfold stress_norm. rewrite sqrt_sqrt; [reflexivity|]. cbn [sum]. nra.
Qed.

Lemma norm_frobenius s : 0 <= stress_norm s /\ stress_norm s * stress_norm s = contract s s /\
  forall t, same2 s (negate t) -> stress_norm s = stress_norm t.
Proof. destruct (norm_square s) as (A & B). split; [exact A|]. split; [exact B|]. apply norm_sign. Qed.

(* stretching along the first axis by any amount a > 0 *)
Lemma stretch_reported N nodes els mu la a : triangles N nodes els -> 0 < mu -> 0 <= la -> 0 < a ->
  exists r, viscoelastic_constitutive_law mu la 0 0 N nodes els
              (fun n c => match c with 0%nat => a * nodes n 0%nat | _ => 0 end) (fun _ _ => 0) = Ok r /\
    forall n, referenced els n -> exists s, r n = Some s /\ stress_x s = - ((2 * mu + la) * a) /\ stress_x s < 0.
Proof.
  intros HT Hm Hl Ha.
  assert (HA : affine_rows N nodes (fun _ => 0) (fun i j => match i, j with 0%nat, 0%nat => a | _, _ => 0 end)
                 (fun n c => match c with 0%nat => a * nodes n 0%nat | _ => 0 end)).
  { intros n c _ Hc. destruct c as [| [|]]; [| | lia]; ring. }
  assert (Z : affine_rows N nodes (fun _ => 0) (fun _ _ => 0) (fun _ _ => 0)) by (intros ? ? ? ?; ring).
  destruct (affine_stress N nodes els mu la 0 0 _ _ _ _ _ _ HT HA Z) as [r [E H]].
  exists r. split; [exact E |]. intros n Hn. destruct (H n Hn) as [s [F K]]. exists s. split; [exact F |].
  assert (X : stress_x s = - ((2 * mu + la) * a)).
  { unfold stress_x. rewrite (K 0%nat 0%nat) by lia. unfold hooke, strain, divergence. cbn [sum Nat.eqb]. field. }
  split; [exact X |]. rewrite X. assert (0 < (2 * mu + la) * a) by (apply Rmult_lt_0_compat; lra). lra.
Qed.

(* the memory term of the law does not see the coefficients of div *)
Definition bulk (t : R) (i j k : nat) : R :=
  match i, j, k with
  | 0%nat, 0%nat, _ | 1%nat, 1%nat, _ => 1
  | _, _, _ => 0
  end.

Lemma rows_gradient_ex N nodes els field : triangles N nodes els -> exists G, rows_gradient nodes els field G.
Proof.
  intros HT.
  destruct (gradients2_ex N nodes els (fun a => if (a <? N)%nat then field a 0%nat else field (a - N)%nat 1%nat) HT)
    as [G HG].
  exists G. intros c Hc e He i j Hi Hj. pose proof (HG c Hc e He i j Hi Hj) as H. rewrite H.
  destruct HT as (Hr & Hl & _).
  assert (L : length e = 3%nat) by (rewrite Forall_forall in Hl; apply Hl; exact He).
  assert (R0 : forall k, (k <= 2)%nat -> (nth k e 0%nat < N)%nat).
  { intros k Hk. unfold in_range in Hr. rewrite Forall_forall in Hr. specialize (Hr e He).
    rewrite Forall_forall in Hr. apply Hr. apply nth_In. lia. }
  assert (P : forall k, (k <= 2)%nat ->
    component N (fun a => if (a <? N)%nat then field a 0%nat else field (a - N)%nat 1%nat) c (nth k e 0%nat)
    = field (nth k e 0%nat) c).
  { intros k Hk. unfold component. specialize (R0 k Hk). destruct c as [| [|]]; [| | lia].
    - rewrite (proj2 (Nat.ltb_lt _ _)) by lia. f_equal.
    - rewrite (proj2 (Nat.ltb_ge _ _)) by lia. f_equal. lia. }
  rewrite (P i Hi), (P j Hj). reflexivity.
Qed.

Lemma memory_blind N nodes els mu la u v w t : triangles N nodes els ->
  exists r r', elastic_relaxation_constitutive_law mu la bulk N nodes els u v t = Ok r /\
    elastic_relaxation_constitutive_law mu la bulk N nodes els u w t = Ok r' /\
    forall n, referenced els n -> exists s s', r n = Some s /\ r' n = Some s' /\ same2 s s'.
Proof.
  intros HT. destruct (rows_gradient_ex N nodes els u HT) as [G HG].
  destruct (rows_gradient_ex N nodes els v HT) as [H HH]. destruct (rows_gradient_ex N nodes els w HT) as [K HK].
  destruct (relaxation_mean N nodes els mu la bulk u v t G H HT HG HH) as [r [E [P _]]].
  destruct (relaxation_mean N nodes els mu la bulk u w t G K HT HG HK) as [r' [E' [P' _]]].
  exists r, r'. split; [exact E |]. split; [exact E' |]. intros n Hn.
  destruct (P n Hn) as [s [F Q]]. destruct (P' n Hn) as [s' [F' Q']].
  exists s, s'. split; [exact F |]. split; [exact F' |]. intros i j Hi Hj. rewrite (Q i j Hi Hj), (Q' i j Hi Hj).
  f_equal. apply mean_ext. intros e _. cbn [bulk]. unfold hooke. destruct (i =? j)%nat; ring.
Qed.

(* a stretch of the quadrilateral, stacked *)
Definition quad_stretch : vec := fun a => if (a <? 4)%nat then quad_nodes a 0%nat else 0.

Lemma bulk_work :
  bilinear (2 * 4) (2 * 4) (relaxation2 4 (w_matrix2 quad_nodes quad_els None) (bulk 0)) quad_stretch quad_stretch
  = 5 / 2.
Proof.
  destruct (relaxation_2d 4 quad_nodes quad_els None (bulk 0) quad_triangles) as [H _].
  assert (HG : vector_gradient 2 4 quad_nodes quad_els quad_stretch
                 (fun c _ k => match c, k with 0%nat, 0%nat => 1 | _, _ => 0 end)).
  { apply (stacked_affine 4 quad_nodes quad_els (fun _ => 0)
             (fun c k => match c, k with 0%nat, 0%nat => 1 | _, _ => 0 end)
             (fun n c => match c with 0%nat => quad_nodes n 0%nat | _ => 0 end) quad_stretch quad_triangles).
    - intros n c _ Hc. destruct c as [| [|]]; [| | lia]; ring.
    - intros c n Hc Hn. unfold quad_stretch. destruct c as [| [|]]; [| | lia].
      + rewrite (proj2 (Nat.ltb_lt _ _)) by lia. reflexivity.
      + rewrite (proj2 (Nat.ltb_ge _ _)) by lia. reflexivity. }
  rewrite (H _ _ _ _ HG HG). unfold mesh_integral, integral, quad_els, element_area, area, det_2d, corners, quad_nodes, at_rows.
  cbn [lsum nth bulk].
  rewrite (Rabs_right ((2 - 0) * (1 - 0) - (0 - 0) * (0 - 0))) by lra.
  rewrite (Rabs_left ((3 - 0) * (0 - 1) - (1 - 1) * (2 - 0))) by lra. lra.
Qed.

(* arrows of draw_stress at a node whose elements carry the mean stress sig *)
Lemma arrows_down scale displaced stress contact n : scale <> 0 -> In n contact -> stress n 1%nat 1%nat <> 0 ->
  draw_stress scale displaced stress contact
  = map (fun k => ((displaced k 0%nat, displaced k 1%nat), (0, - stress k 1%nat 1%nat))) contact.
Proof.
  intros Hs Hn Hy. change (stress n 1%nat 1%nat) with (stress_y (stress n)) in Hy. unfold draw_stress. destruct (Req_EM_T scale 0) as [Z | _]; [contradiction |].
  cbv zeta. assert (X : existsb (fun p => if Req_EM_T (snd p) 0 then false else true)
                (map (fun k => (0, - stress_y (stress k))) contact) = true).
  { apply existsb_exists. exists (0, - stress_y (stress n)). split; [apply (in_map (fun k => (0, - stress_y (stress k)))); exact Hn |].
    cbn [snd]. destruct (Req_EM_T (- stress_y (stress n)) 0); [lra | reflexivity]. }
  rewrite X, orb_true_r. clear. induction contact as [| k l IH]; [reflexivity |]. cbn [map combine]. rewrite IH. reflexivity.
Qed.
