(* Scalar contact, interior contact, three dimensions, and the other laws. *)
From Coq Require Import Reals List Arith Bool Lia Lra Psatz.
From Verif Require Import RVec PyModel ForcesSpec FemSpec ContactModel ContactSpec ContactProofs ContactLawProofs
  ContactCostProofs ContactForceProofs.
Import ListNotations.
Local Open Scope R_scope.

(* ------------------------------------------------- scalar problems *)

(* the displacement the law receives, and the tangential argument *)
Definition skewed (n s : vec) : R := s 0%nat * (n 0%nat + n 1%nat).
Definition skewed_rest (n s : vec) : list R := map (fun k => s 0%nat - skewed n s * n k) [0; 1]%nat.

Lemma scalar_point jn hn jt ht nodes n (v : arr) l u e dt : (exists a b, e = [a; b]) ->
  point_cost (Function jn) (Function hn) (Function jt) (Function ht) 1 1 nodes e (2%nat, n) v (l, u) dt
  = Ok (face_measure 2 nodes e / 3 * scalar_density hn jn ht jt dt
          (skewed n (mean_at e (nodal l u))) (skewed_rest n (mean_at e (nodal l u))) (snd v)).
Proof.
  intros He. unfold point_cost. cbn [Nat.eqb njit bind].
  set (m := interpolate_node_between e _ _ 1).
  assert (Hm : m = (1%nat, snd m)) by reflexivity. rewrite Hm.
  assert (E0 : snd m 0%nat = mean_at e (nodal l u) 0%nat) by (unfold m; replace l with (1 * l)%nat at 1 2 by lia; apply interpolate_mean; lia).
  unfold split, broadcast, times. cbn [fst snd Nat.eqb bind].
  apply (f_equal Ok). unfold contact_cost. rewrite (length_measure e nodes He).
  replace (INR (List.length e + 1)) with 3.
  2:{ destruct He as (a & b & ->). simpl. lra. }
  unfold scalar_density, entries, total, times. cbn [fst snd seq map sum].
  rewrite E0. set (M := mean_at e (nodal l u)).
  replace (0 + M 0%nat * n 0%nat + M 0%nat * n 1%nat) with (skewed n M) by (unfold skewed; ring).
  unfold skewed_rest. cbn [map]. ring.
Qed.

Theorem scalar_value jn hn jt ht nodes normals M faces m x old u l dt :
  faces_ok 2 M faces -> (M <= m)%nat ->
  contact_cost_functional (Function jn) (Function hn) (Function jt) (Function ht) 1 1 nodes 2 normals
    (m, x) old (l, u) faces dt
  = Ok (boundary_sum nodes faces (fun ei v s => scalar_density hn jn ht jt dt
          (skewed (normals ei) s) (skewed_rest (normals ei) s) v) (nodal m x) (nodal l u)).
Proof.
  intros HF HM. unfold contact_cost_functional. destruct old as [lo old].
  rewrite (accumulate_sum _ (fun ei => let e := nth ei faces [] in
     face_measure 2 nodes e / 3 * lsum (samples e (nodal m x))
       (fun p => scalar_density hn jn ht jt dt (skewed (normals ei) (mean_at e (nodal l u)))
          (skewed_rest (normals ei) (mean_at e (nodal l u))) p))).
  { rewrite lsum_seq, Rplus_0_l. reflexivity. }
  intros ei acc Hei. apply in_seq in Hei.
  destruct (face_ok_pair M faces ei HF ltac:(lia)) as (a & b & He & Ha & Hb).
  cbv zeta. rewrite He.
  set (G := get_nodes [a; b] (m, x) (lo, old) 1).
  assert (HG : G = get_nodes [a; b] (1 * m, x)%nat (1 * lo, old)%nat 1) by (unfold G; rewrite !Nat.mul_1_l; reflexivity).
  set (q := skewed (normals ei) (mean_at [a; b] (nodal l u))).
  set (r := skewed_rest (normals ei) (mean_at [a; b] (nodal l u))).
  rewrite (accumulate_sum _ (fun c => face_measure 2 nodes [a; b] / 3 *
     scalar_density hn jn ht jt dt q r (fun i => G i c))).
  2:{ intros c acc' _. unfold column. rewrite scalar_point by eauto. reflexivity. }
  f_equal. f_equal. rewrite <- lsum_scal.
  change (seq 0 (List.length [a; b] + 1)) with [0; 1; 2]%nat. unfold samples. cbn [lsum map].
  assert (D : forall c w, G 0%nat c = w 0%nat ->
    scalar_density hn jn ht jt dt q r (fun i => G i c) = scalar_density hn jn ht jt dt q r w).
  { intros c w H0. unfold scalar_density. rewrite H0. reflexivity. }
  rewrite (D 0%nat (mean_at [a; b] (nodal m x))).
  2:{ rewrite HG. rewrite nodes_mean by lia. apply mean_at_ext. intros d [<- | [<- | []]]; apply mixed_low; lia. }
  rewrite (D 1%nat (nodal m x a)).
  2:{ rewrite HG. rewrite (nodes_node 1 m x lo old [a; b] _ 0%nat) by lia. apply mixed_low. simpl. lia. }
  rewrite (D 2%nat (nodal m x b)).
  2:{ rewrite HG. rewrite (nodes_node 1 m x lo old [a; b] _ 1%nat) by lia. apply mixed_low. simpl. lia. }
  reflexivity.
Qed.

Lemma pow2_gt_0 x : x <> 0 -> 0 < x ^ 2.
Proof. intros H. rewrite <- Rsqr_pow2. apply Rsqr_pos_lt. exact H. Qed.

(* ------------------------------------------------ interior contact *)

Lemma interior_value f n m A b x disp M dt : (n <= m)%nat ->
  equation_energy (Function f) (mkSized n n A) (n, b) (m, x) disp (mkSized n n M) dt
  = Ok (quadratic n A b x
        + / 2 * sum n (fun i => sum n (fun j => M i j * f (x j) (snd disp j) dt))
        + sum (m - n) (fun i => x (n + i)%nat ^ 2)).
Proof.
  intros H. unfold equation_energy, sized_mv, arr_dot, head, tail. cbn [rows cols data fst snd njit].
  rewrite !(Nat.min_l n m) by auto. rewrite !Nat.eqb_refl. cbn [bind fst snd]. rewrite !Nat.eqb_refl. cbn [bind].
  f_equal. unfold quadratic, qform. rewrite (dot_comm n x).
  replace (dot n (mv n M (fun i => f (x i) (snd disp i) dt)) (fun _ => 1))
    with (sum n (fun i => sum n (fun j => M i j * f (x j) (snd disp j) dt))).
  2:{ unfold dot, mv. apply sum_ext. intros; ring. }
  replace (dot (m - n) (fun i => x (n + i)%nat) (fun i => x (n + i)%nat)) with (sum (m - n) (fun i => x (n + i)%nat ^ 2)).
  2:{ unfold dot. apply sum_ext. intros; ring. }
  lra.
Qed.

Theorem interior_minimiser f n m A b x disp M dt : (n <= m)%nat ->
  minimises (fun x => equation_energy (Function f) (mkSized n n A) (n, b) (m, x) disp (mkSized n n M) dt) x <->
  (forall i, (n <= i < m)%nat -> x i = 0) /\
  (forall y, quadratic n A b x + / 2 * sum n (fun i => sum n (fun j => M i j * f (x j) (snd disp j) dt))
          <= quadratic n A b y + / 2 * sum n (fun i => sum n (fun j => M i j * f (y j) (snd disp j) dt))).
Proof.
  intros Hnm. set (E := fun y => quadratic n A b y + / 2 * sum n (fun i => sum n (fun j => M i j * f (y j) (snd disp j) dt))).
  assert (HE : forall y z, veq n y z -> E y = E z).
  { intros y z H. unfold E, quadratic. rewrite (qform_ext n A y z H).
    rewrite (dot_ext n b b y z ltac:(intros ? ?; reflexivity) H). f_equal. f_equal.
    apply sum_ext. intros i _. apply sum_ext. intros j Hj. rewrite (H j Hj). reflexivity. }
  rewrite (minimises_iff _ (fun y => E y + sum (m - n) (fun i => y (n + i)%nat ^ 2))).
  2:{ intros y. rewrite interior_value by auto. reflexivity. }
  split.
  - intros H. split.
    + assert (Z : sum (m - n) (fun i => x (n + i)%nat ^ 2) = 0).
      { specialize (H (fun i => if (i <? n)%nat then x i else 0)).
        rewrite (HE (fun i => if (i <? n)%nat then x i else 0) x) in H.
        2:{ intros i Hi. cbv beta. apply Nat.ltb_lt in Hi. rewrite Hi. reflexivity. }
        rewrite (sum_0 (m - n) (fun i => (if (n + i <? n)%nat then x (n + i)%nat else 0) ^ 2)) in H.
        2:{ intros i _. replace (n + i <? n)%nat with false; [ring|]. symmetry. apply Nat.ltb_ge. lia. }
        assert (0 <= sum (m - n) (fun i => x (n + i)%nat ^ 2)) by (apply sum_nonneg; intros; apply pow2_ge_0).
        lra. }
      intros i Hi.
      assert (S : x (n + (i - n))%nat ^ 2 = 0).
      { apply (sum_nonneg_0 (m - n) (fun i => x (n + i)%nat ^ 2)); auto; [intros; apply pow2_ge_0|lia]. }
      replace (n + (i - n))%nat with i in S by lia. destruct (Req_dec (x i) 0); auto.
      exfalso. assert (0 < x i ^ 2) by (apply pow2_gt_0; auto). lra.
    + intros y. change (E x <= E y). specialize (H (fun i => if (i <? n)%nat then y i else x i)).
      rewrite (HE (fun i => if (i <? n)%nat then y i else x i) y) in H.
      2:{ intros i Hi. apply Nat.ltb_lt in Hi. rewrite Hi. reflexivity. }
      rewrite (sum_ext (m - n) (fun i => (if (n + i <? n)%nat then y (n + i)%nat else x (n + i)%nat) ^ 2)
        (fun i => x (n + i)%nat ^ 2)) in H.
      2:{ intros i _. replace (n + i <? n)%nat with false; [reflexivity|]. symmetry. apply Nat.ltb_ge. lia. }
      lra.
  - intros [Z H] y. fold (E x) in H. specialize (H y). fold (E y) in H.
    rewrite (sum_0 (m - n) (fun i => x (n + i)%nat ^ 2)).
    2:{ intros i Hi. rewrite Z by lia. ring. }
    assert (0 <= sum (m - n) (fun i => y (n + i)%nat ^ 2)) by (apply sum_nonneg; intros; apply pow2_ge_0). lra.
Qed.

(* ------------------------------------------------ three dimensions *)

(* the direct equation and the gradient work on two components only *)
Lemma accumulate_err {A B} (f : A -> B -> result A) x l acc e :
  f acc x = Err e -> accumulate f (x :: l) acc = Err e.
Proof. intros H. cbn [accumulate]. rewrite H. reflexivity. Qed.

Theorem direct_raises_3d jn nodes normals x faces : faces <> [] ->
  contact_part 2 nodes 3 normals jn x faces = Err ValueError.
Proof.
  intros H. destruct faces as [|e faces]; [contradiction|]. unfold contact_part.
  cbn [List.length seq]. apply accumulate_err. cbv zeta. rewrite Nat.add_1_r. cbn [seq]. apply accumulate_err. reflexivity.
Qed.

Theorem gradient_raises_3d sub nodes normals b A x old u faces dt : faces <> [] ->
  loss_subgradient sub nodes 3 normals A b x old u faces dt = Err ValueError.
Proof.
  intros H. destruct faces as [|e faces]; [contradiction|]. unfold loss_subgradient, subgradient, contact_subgradient.
  cbn [List.length seq].
  match goal with |- bind (accumulate ?f ?l ?a) _ = _ => replace (accumulate f l a) with (@Err arr ValueError) end; [reflexivity|].
  symmetry. apply accumulate_err. cbv zeta. rewrite Nat.add_1_r. cbn [seq]. apply accumulate_err. reflexivity.
Qed.

(* in space the weight of a face is a third of ... the distance of the first two nodes in
   the x-y plane, so a vertical face costs nothing *)
Lemma split_3 (v n : arr) : fst v = 3%nat -> fst n = 3%nat -> exists p, split v n = Ok p.
Proof.
  destruct v as [a v], n as [b n]. cbn [fst]. intros -> ->.
  eexists. unfold split, broadcast, times. cbn [fst snd Nat.eqb bind]. reflexivity.
Qed.

Theorem flat_cost_3d jn hn jt ht nodes normals x old u faces dt :
  (forall e, In e faces -> length e nodes = 0) ->
  contact_cost_functional (Function jn) (Function hn) (Function jt) (Function ht) 3 3 nodes 3 normals
    x old u faces dt = Ok 0.
Proof.
  intros H. unfold contact_cost_functional.
  rewrite (accumulate_sum _ (fun _ => 0)).
  { rewrite lsum_0 by auto. f_equal. ring. }
  intros ei acc Hei. apply in_seq in Hei. cbv zeta.
  set (e := nth ei faces []). assert (He : In e faces) by (apply nth_In; lia).
  rewrite (accumulate_sum _ (fun _ => 0)).
  { rewrite lsum_0 by auto. reflexivity. }
  intros c acc' _. unfold point_cost. cbn [Nat.eqb]. unfold column.
  destruct (split_3 (3%nat, fun i => get_nodes e x old 3 i c) (3%nat, normals ei) eq_refl eq_refl) as ([r t] & H1).
  match type of H1 with ?L = _ => match goal with |- bind (bind ?L' _) _ = _ => change L' with L end end.
  rewrite H1. cbn [bind].
  destruct (split_3 (interpolate_node_between e u u 3) (3%nat, normals ei) eq_refl eq_refl) as ([r' t'] & H2).
  match type of H2 with ?L = _ => match goal with |- bind (bind ?L' _) _ = _ => change L' with L end end.
  rewrite H2. cbn [bind].
  apply (f_equal Ok). unfold contact_cost. rewrite (H e He). unfold Rdiv. ring.
Qed.

(* ---------------------------------------------------- constant law *)

Lemma const_derivative resistance x s dt : 0 < x ->
  derivable_pt_lim (fun y => potential_normal_direction (make_const_contact_law resistance) y s dt) x (resistance * s).
Proof.
  intros Hx eps Heps. exists (mkposreal x Hx). intros h Hh Hl. simpl in Hl.
  cbn [potential_normal_direction make_const_contact_law].
  assert (0 < x + h) by (revert Hl; unfold Rabs; destruct (Rcase_abs h); lra).
  rewrite !leb_false by lra.
  replace ((resistance * (x + h) * s - resistance * x * s) / h - resistance * s) with 0 by (field; auto).
  rewrite Rabs_R0. auto.
Qed.

Lemma derivative_unique f x a b : derivable_pt_lim f x a -> derivable_pt_lim f x b -> a = b.
Proof. apply uniqueness_limite. Qed.

(* -------------------------------------------------- damped compliance *)

(* normal bound times potential, as used in the cost *)
Definition damped_energy (g kappa beta s dt v : R) : R :=
  normal_bound (make_damped_norm_compl g kappa beta) v s dt
  * potential_normal_direction (make_damped_norm_compl g kappa beta) v s dt.

Lemma damped_jump g kappa beta s dt v : 0 < dt -> v <> 0 -> beta <> 0 -> s + v * dt = g ->
  ~ continuity_pt (damped_energy g kappa beta s dt) v.
Proof.
  intros Hdt Hv Hb Hg HC.
  assert (E : damped_energy g kappa beta s dt v = / 2 * beta * v ^ 2).
  { unfold damped_energy. cbn [normal_bound potential_normal_direction make_damped_norm_compl].
    rewrite ltb_false by lra. replace (s + v * dt - g) with 0 by lra. lra. }
  assert (Z : forall w, w < v -> damped_energy g kappa beta s dt w = 0).
  { intros w Hw. unfold damped_energy. cbn [normal_bound potential_normal_direction make_damped_norm_compl].
    rewrite ltb_true; [ring|]. assert (w * dt < v * dt) by (apply Rmult_lt_compat_r; lra). lra. }
  assert (P : 0 < Rabs (/ 2 * beta * v ^ 2)).
  { apply Rabs_pos_lt. assert (0 < v ^ 2) by (apply pow2_gt_0; auto).
    apply Rmult_integral_contrapositive. split; [|lra]. apply Rmult_integral_contrapositive. split; [lra|auto]. }
  destruct (HC _ P) as (alp & Ha & H). specialize (H (v - alp / 2)).
  simpl in H. unfold R_dist in H. rewrite E, Z in H by lra.
  assert (Q : Rabs (0 - / 2 * beta * v ^ 2) < Rabs (/ 2 * beta * v ^ 2)).
  { apply H. split; [split; [exact I|lra]|].
    replace (v - alp / 2 - v) with (- (alp / 2)) by ring. rewrite Rabs_Ropp, Rabs_pos_eq; lra. }
  rewrite Rminus_0_l, Rabs_Ropp in Q. lra.
Qed.
