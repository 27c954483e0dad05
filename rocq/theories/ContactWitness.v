(* Solutions without contact, and the concrete cases used by the refutations. *)
From Coq Require Import Reals List Arith Bool Lia Lra Psatz.
From Verif Require Import RVec PyModel DirichletSpec ForcesSpec FemSpec ContactModel ContactSpec ContactProofs ContactLawProofs
  ConvexMin ContactCostProofs ContactForceProofs ContactExtraProofs.
Import ListNotations.
Local Open Scope R_scope.

(* ------------------------------------------------- without contact *)

Lemma loss_no_faces law din dout nodes width normals n A b x old u dt :
  loss law din dout nodes width normals (mkSized n n A) (n, b) (n, x) old u [] dt = Ok (quadratic n A b x + 0).
Proof.
  unfold loss, cost_functional, contact_cost_functional. cbn [List.length seq accumulate bind].
  unfold sized_mv, arr_dot, head. cbn [rows cols data fst snd]. rewrite Nat.min_id, Nat.eqb_refl. cbn [bind fst snd].
  rewrite Nat.eqb_refl. cbn [bind]. apply (f_equal Ok). unfold quadratic, qform. rewrite (dot_comm n x). lra.
Qed.

Theorem minimiser_no_faces law din dout nodes width normals n A b old u dt x :
  symmetric n A -> pos_semidef n A ->
  minimises (fun x => loss law din dout nodes width normals (mkSized n n A) (n, b) (n, x) old u [] dt) x
  <-> solves n A b x.
Proof.
  intros HS HP. rewrite (minimises_iff _ (fun x => quadratic n A b x + 0)).
  - apply linear_minimiser; auto.
  - intros y. apply loss_no_faces.
Qed.

Lemma residual_no_contact nodes normals jn n A b x : 
  exists r, equation_residual 2 nodes 2 normals jn (mkSized n n A) (n, b) (n, x) [] = Ok (n, r) /\
    ((forall i, (i < n)%nat -> r i = 0) <-> solves n A b x).
Proof.
  unfold equation_residual, contact_part. cbn [List.length seq accumulate bind fst].
  unfold sized_mv, broadcast. cbn [rows cols data fst snd]. rewrite Nat.eqb_refl. cbn [bind fst snd].
  rewrite Nat.eqb_refl. cbn [bind fst snd]. rewrite Nat.eqb_refl. cbn [fst snd].
  eexists. split; [reflexivity|]. unfold solves. cbv beta. unfold mv.
  split; intros H i Hi; specialize (H i Hi); lra.
Qed.

(* residual of the direct equation *)
Lemma residual_value jn nodes normals faces N A b x : faces_ok 2 N faces ->
  exists c r, contact_part 2 nodes 2 normals jn (2 * N, x)%nat faces = Ok (2 * N, c)%nat /\
    equation_residual 2 nodes 2 normals jn (mkSized (2 * N) (2 * N) A) (2 * N, b)%nat (2 * N, x)%nat faces
      = Ok (2 * N, r)%nat /\
    (forall i, (i < 2 * N)%nat -> r i = mv (2 * N) A x i + c i - b i).
Proof.
  intros HF. destruct (direct_forces jn nodes normals faces N x HF) as (c & Hc & _).
  eexists c, _. split; [exact Hc|]. unfold equation_residual. rewrite Hc. cbn [bind].
  unfold sized_mv, broadcast. cbn [rows cols data fst snd]. rewrite Nat.eqb_refl. cbn [bind fst snd].
  rewrite Nat.eqb_refl. cbn [bind fst snd]. rewrite Nat.eqb_refl. cbn [fst snd].
  split; [reflexivity|]. intros; reflexivity.
Qed.

(* a solution of the direct equation balances the averaged contact stresses *)
Theorem direct_balance jn nodes normals faces N A b x : faces_ok 2 N faces ->
  exists r, equation_residual 2 nodes 2 normals jn (mkSized (2 * N) (2 * N) A) (2 * N, b)%nat (2 * N, x)%nat faces
      = Ok (2 * N, r)%nat /\
    ((forall i, (i < 2 * N)%nat -> r i = 0) <->
     (forall w, dot (2 * N) w (mv (2 * N) A x)
                + averaged_work nodes normals faces (fun _ r => jn r 0 0) (nodal N x) (nodal N w)
                = dot (2 * N) w b)).
Proof.
  intros HF. destruct (residual_value jn nodes normals faces N A b x HF) as (c & r & Hc & Hr & Hv).
  destruct (direct_forces jn nodes normals faces N x HF) as (c' & Hc' & Hw).
  rewrite Hc in Hc'. injection Hc' as ->. 
  exists r. split; [exact Hr|].
  assert (D : forall w, dot (2 * N) w r = dot (2 * N) w (mv (2 * N) A x) + dot (2 * N) w c' - dot (2 * N) w b).
  { intros w. rewrite (dot_ext (2 * N) w w r (fun i => mv (2 * N) A x i + c' i - b i)
      ltac:(intros ? ?; reflexivity) Hv).
    unfold dot. rewrite <- sum_plus, <- sum_minus. apply sum_ext. intros; ring. }
  split.
  - intros Z w. rewrite <- Hw.
    assert (dot (2 * N) w r = 0) by (unfold dot; apply sum_0; intros i Hi; rewrite (Z i Hi); ring).
    rewrite D in H. lra.
  - intros Z i Hi.
    assert (E : dot (2 * N) (fun k => if (k =? i)%nat then 1 else 0) r = 0).
    { rewrite D, Hw, <- Z. ring. }
    rewrite <- E. unfold dot. rewrite (sum_single (2 * N) i); auto.
    + rewrite Nat.eqb_refl. ring.
    + intros k Hk Hne. destruct (Nat.eqb_spec k i); [contradiction|ring].
Qed.

Lemma sum_nth_lsum {A} (l : list A) f d : lsum l f = sum (List.length l) (fun i => f (nth i l d)).
Proof.
  induction l as [|x l IH]; [reflexivity|]. cbn [lsum List.length]. rewrite IH.
  rewrite <- Nat.add_1_l, sum_split. cbn [sum nth Nat.add]. ring.
Qed.

(* ------------------------------------------------------ one face *)

(* two nodes on the x axis, distance 1; normal (0, 1) *)
Definition bar (i : nat) : vec := fun k => if (i =? 1)%nat then (if (k =? 0)%nat then 1 else 0) else 0.
Definition up (_ : nat) : vec := fun k => if (k =? 1)%nat then 1 else 0.
Definition bar_faces : list (list nat) := [[0; 1]%nat].

Lemma bar_faces_ok : faces_ok 2 2 bar_faces.
Proof.
  unfold faces_ok, bar_faces. constructor; [|constructor]. split; [reflexivity|]. split.
  - repeat constructor; simpl; intros H; repeat destruct H as [H|H]; try discriminate; auto.
  - repeat constructor; lia.
Qed.

Lemma bar_length : face_measure 2 bar [0; 1]%nat = 1.
Proof.
  cbn [face_measure]. unfold segment_length, corners, inner_product. cbn [nth sum]. unfold bar. cbn [Nat.eqb].
  replace (0 + (1 - 0) * (1 - 0) + (0 - 0) * (0 - 0)) with 1 by ring. apply sqrt_1.
Qed.

Lemma bar_along i v : along (up i) v = v 1%nat.
Proof. unfold along, inner_product, up. cbn [sum Nat.eqb]. ring. Qed.

Lemma bar_mean v k : mean_at [0; 1]%nat v k = (v 0%nat k + v 1%nat k) / 2.
Proof. unfold mean_at. cbn [lsum List.length]. simpl INR. lra. Qed.

(* work of the stresses on one face *)
Lemma bar_sampled j v w : sampled_work bar up bar_faces j v w
  = / 3 * (j 0%nat ((v 0%nat 1%nat + v 1%nat 1%nat) / 2) * ((w 0%nat 1%nat + w 1%nat 1%nat) / 2)
           + (j 0%nat (v 0%nat 1%nat) * w 0%nat 1%nat + j 0%nat (v 1%nat 1%nat) * w 1%nat 1%nat)).
Proof.
  unfold sampled_work, bar_faces. cbn [List.length sum nth lsum]. rewrite bar_length, !bar_along, !bar_mean. lra.
Qed.

Lemma bar_averaged j v w : averaged_work bar up bar_faces j v w
  = / 3 * (j 0%nat ((v 0%nat 1%nat + v 1%nat 1%nat) / 2) + (j 0%nat (v 0%nat 1%nat) + j 0%nat (v 1%nat 1%nat)))
    * ((w 0%nat 1%nat + w 1%nat 1%nat) / 2).
Proof.
  unfold averaged_work, bar_faces, samples. cbn [List.length sum nth lsum map].
  rewrite bar_length, !bar_along, !bar_mean. lra.
Qed.

Lemma bar_sum phi v s : boundary_sum bar bar_faces (fun ei p q => phi (along (up ei) p) (along (up ei) q)) v s
  = / 3 * (phi ((v 0%nat 1%nat + v 1%nat 1%nat) / 2) ((s 0%nat 1%nat + s 1%nat 1%nat) / 2)
           + (phi (v 0%nat 1%nat) ((s 0%nat 1%nat + s 1%nat 1%nat) / 2)
              + phi (v 1%nat 1%nat) ((s 0%nat 1%nat + s 1%nat 1%nat) / 2))).
Proof.
  unfold boundary_sum, bar_faces, samples. cbn [List.length sum nth lsum map].
  rewrite bar_length, !bar_along, !bar_mean. lra.
Qed.

(* identity matrix *)
Definition unit4 : mat := fun i j => if (i =? j)%nat then 1 else 0.
Lemma unit4_symmetric : symmetric 4 unit4.
Proof. intros i j _ _. unfold unit4. rewrite Nat.eqb_sym. reflexivity. Qed.
Lemma unit4_qform x : qform 4 unit4 x = x 0%nat ^ 2 + x 1%nat ^ 2 + x 2%nat ^ 2 + x 3%nat ^ 2.
Proof. unfold qform, dot, mv, unit4. cbn [sum Nat.eqb]. ring. Qed.
Lemma unit4_pos : pos_def 4 unit4.
Proof.
  intros x (i & Hi & Hx). rewrite unit4_qform.
  assert (0 < x i ^ 2) by (apply pow2_gt_0; auto).
  pose proof (pow2_ge_0 (x 0%nat)). pose proof (pow2_ge_0 (x 1%nat)).
  pose proof (pow2_ge_0 (x 2%nat)). pose proof (pow2_ge_0 (x 3%nat)).
  destruct i as [|[|[|[|]]]]; try lia; lra.
Qed.

Definition vec4 (a b c d : R) : vec := fun i =>
  match i with 0%nat => a | 1%nat => b | 2%nat => c | 3%nat => d | _ => 0 end.

(* the loss of the slope law on this face *)
Lemma bar_loss slope b x old u dt : 
  loss (make_slope_contact_law slope) 2 2 bar 2 up (mkSized 4 4 unit4) (4%nat, b) (4%nat, x) (4%nat, old) (4%nat, u)
    bar_faces dt
  = Ok (quadratic 4 unit4 b x + / 6 * slope *
        (Rmax 0 ((x 2%nat + x 3%nat) / 2) ^ 2 + Rmax 0 (x 2%nat) ^ 2 + Rmax 0 (x 3%nat) ^ 2)).
Proof.
  pose proof (loss_value (make_slope_contact_law slope) bar up bar_faces 2 unit4 b x 2 old u dt bar_faces_ok) as H.
  change (2 * 2)%nat with 4%nat in H. rewrite H. apply (f_equal Ok). f_equal.
  pose proof (bar_sum (fun p q => potential_normal_direction (make_slope_contact_law slope) p q dt)
    (nodal 2 x) (nodal 2 u)) as S.
  cbv beta in S. rewrite !slope_value in S. unfold nodal in S at 3 4 5 6. cbn [Nat.mul Nat.add] in S.
  transitivity (/ 3 * (/ 2 * slope * Rmax 0 ((x 2%nat + x 3%nat) / 2) ^ 2
     + (/ 2 * slope * Rmax 0 (x 2%nat) ^ 2 + / 2 * slope * Rmax 0 (x 3%nat) ^ 2))); [|lra].
  rewrite <- S. unfold boundary_sum. apply sum_ext. intros i _. cbv zeta. f_equal. apply lsum_ext. intros p _.
  unfold density. cbn [normal_bound tangential_bound potential_tangential_direction make_slope_contact_law]. lra.
Qed.

Definition pushed : vec := vec4 0 0 1 0.
Definition load4 : vec := vec4 0 0 (5 / 4) (/ 4).

Definition sub1 (x _ _ : R) : R := if leb x 0 then 0 else 1 * x.
Lemma sub1_is : subderivative_normal_direction (make_slope_contact_law 1) = Some sub1.
Proof. reflexivity. Qed.
Lemma sub1_value x s dt : sub1 x s dt = slope_sub 1 x.
Proof. exact (slope_sub_value 1 sub1 x s dt sub1_is). Qed.

Lemma bar_residual : exists r,
  equation_residual 2 bar 2 up sub1 (mkSized 4 4 unit4) (4%nat, load4) (4%nat, pushed) bar_faces
    = Ok (4%nat, r) /\ forall i, (i < 4)%nat -> r i = 0.
Proof.
  destruct (direct_balance sub1 bar up bar_faces 2 unit4 load4 pushed bar_faces_ok)
    as (r & Hr & H).
  exists r. split; [exact Hr|]. apply H. intros w. change (2 * 2)%nat with 4%nat. rewrite bar_averaged, !sub1_value. unfold nodal, pushed, slope_sub.
  cbn [Nat.mul Nat.add vec4]. rewrite (Rmax_right 0 1) by lra. rewrite (Rmax_right 0 ((1 + 0) / 2)) by lra.
  rewrite (Rmax_right 0 0) by lra. unfold dot, mv, unit4, load4. cbn [sum Nat.eqb vec4]. lra.
Qed.

Lemma bar_not_minimal old u dt :
  ~ minimises (fun x => loss (make_slope_contact_law 1) 2 2 bar 2 up (mkSized 4 4 unit4) (4%nat, load4) (4%nat, x)
       (4%nat, old) (4%nat, u) bar_faces dt) pushed.
Proof.
  intros (c & Hc & H). destruct (H (vec4 0 0 (9 / 10) (/ 10))) as (c' & Hc' & L).
  rewrite bar_loss in Hc, Hc'. injection Hc as <-. injection Hc' as <-.
  unfold quadratic in L. rewrite !unit4_qform in L. unfold dot, pushed, load4 in L. cbn [sum vec4] in L.
  rewrite (Rmax_right 0 1), (Rmax_right 0 ((1 + 0) / 2)), (Rmax_right 0 0), (Rmax_right 0 (9 / 10)),
    (Rmax_right 0 (/ 10)), (Rmax_right 0 ((9 / 10 + / 10) / 2)) in L by lra. lra.
Qed.

(* solving the direct equation is not minimising the cost *)
Lemma direct_not_minimal : ~ (forall slope sub nodes normals faces N A b x r old u dt,
  0 <= slope -> subderivative_normal_direction (make_slope_contact_law slope) = Some sub ->
  symmetric (2 * N) A -> pos_def (2 * N) A -> faces_ok 2 N faces ->
  (forall i, inner_product 2 (normals i) (normals i) = 1) ->
  equation_residual 2 nodes 2 normals sub (mkSized (2 * N) (2 * N) A) (2 * N, b)%nat
    (2 * N, x)%nat faces = Ok (2 * N, r)%nat ->
  (forall i, (i < 2 * N)%nat -> r i = 0) ->
  minimises (fun x => loss (make_slope_contact_law slope) 2 2 nodes 2 normals (mkSized (2 * N) (2 * N) A) (2 * N, b)%nat
     (2 * N, x)%nat (2 * N, old)%nat (2 * N, u)%nat faces dt) x).
Proof.
  intros H. destruct bar_residual as (r & Hr & Hz).
  apply (bar_not_minimal (fun _ => 0) (fun _ => 0) 0).
  apply (H 1 sub1 bar up bar_faces 2%nat unit4 load4 pushed r (fun _ => 0) (fun _ => 0) 0); auto.
  - lra.
  - exact unit4_symmetric.
  - exact unit4_pos.
  - exact bar_faces_ok.
  - intros i. unfold inner_product, up. cbn [sum Nat.eqb]. ring.
Qed.

(* the contact forces are not the gradient of the contact cost *)
Lemma direct_not_gradient : ~ (forall slope sub nodes normals faces N x c u dt w J,
  0 <= slope -> subderivative_normal_direction (make_slope_contact_law slope) = Some sub ->
  faces_ok 2 N faces -> (forall i, inner_product 2 (normals i) (normals i) = 1) ->
  contact_part 2 nodes 2 normals sub (2 * N, x)%nat faces = Ok (2 * N, c)%nat ->
  (forall h, contact_cost_functional (Function (potential_normal_direction (make_slope_contact_law slope)))
     Nothing Nothing Nothing 2 2 nodes 2 normals ((2 * N)%nat, fun i => x i + h * w i) (2 * N, x)%nat (2 * N, u)%nat faces dt
     = Ok (J h)) ->
  derivable_pt_lim J 0 (dot (2 * N) w c)).
Proof.
  intros H.
  set (x := pushed). set (w := vec4 0 0 1 0). set (u := fun _ : nat => 0).
  destruct (direct_forces sub1 bar up bar_faces 2 x bar_faces_ok) as (c & Hc & Hw).
  set (pot := potential_normal_direction (make_slope_contact_law 1)).
  set (J := fun h => boundary_sum bar bar_faces
      (fun ei => density (fun _ _ _ => 1) pot (fun _ _ _ => 1) (fun _ _ _ => 0) 0 (up ei))
      (fun a k => nodal 2 x a k + h * nodal 2 w a k) (nodal 2 u)).
  assert (HJ : forall h, contact_cost_functional (Function pot) Nothing Nothing Nothing 2 2 bar 2 up
     ((2 * 2)%nat, fun i => x i + h * w i) (2 * 2, x)%nat (2 * 2, u)%nat bar_faces 0 = Ok (J h)).
  { intros h.
    exact (contact_value_inside pot (fun _ _ _ => 1) (fun _ _ _ => 0) (fun _ _ _ => 1) bar up bar_faces 2
             (fun i => x i + h * w i) 2 x u 0 bar_faces_ok). }
  pose proof (H 1 sub1 bar up bar_faces 2%nat x c u 0 w J ltac:(lra) sub1_is bar_faces_ok
    ltac:(intros i; unfold inner_product, up; cbn [sum Nat.eqb]; ring) Hc HJ) as D1.
  pose proof (cost_derivative pot (fun y _ _ => slope_sub 1 y) bar up bar_faces (nodal 2 x) (nodal 2 u) (nodal 2 w) 0
    (fun r q => slope_derivative 1 r q 0)) as D2.
  pose proof (derivative_unique _ _ _ _ D1 D2) as E.
  rewrite Hw, bar_averaged, bar_sampled, !sub1_value in E. unfold nodal, x, w, pushed, slope_sub in E. cbn [Nat.mul Nat.add vec4] in E.
  rewrite (Rmax_right 0 1), (Rmax_right 0 ((1 + 0) / 2)), (Rmax_right 0 0) in E by lra. lra.
Qed.

(* ---------------------------------------------------- constant law *)

Lemma const_mismatch : ~ (forall resistance sub x s dt,
  subderivative_normal_direction (make_const_contact_law resistance) = Some sub -> x <> 0 ->
  derivable_pt_lim (fun y => potential_normal_direction (make_const_contact_law resistance) y s dt) x (sub x s dt)).
Proof.
  intros H. pose proof (H 1 _ 1 0 0 eq_refl ltac:(lra)) as D. cbv beta in D. rewrite leb_false in D by lra.
  pose proof (derivative_unique _ _ _ _ D (const_derivative 1 1 0 0 ltac:(lra))). lra.
Qed.

Theorem const_no_resistance resistance nodes normals faces N x old u dt : faces_ok 2 N faces ->
  (forall i, (i < 2 * N)%nat -> u i = 0) ->
  contact_cost_functional (Function (potential_normal_direction (make_const_contact_law resistance)))
    (Function (normal_bound (make_const_contact_law resistance)))
    (Function (potential_tangential_direction (make_const_contact_law resistance)))
    (Function (tangential_bound (make_const_contact_law resistance)))
    2 2 nodes 2 normals (2 * N, x)%nat (2 * N, old)%nat (2 * N, u)%nat faces dt = Ok 0.
Proof.
  intros HF Hu. rewrite contact_value_inside by auto. apply (f_equal Ok). unfold boundary_sum. apply sum_0.
  intros ei Hei. cbv zeta. destruct (face_ok_pair N faces ei HF Hei) as (a & b & He & Ha & Hb). rewrite He.
  assert (Z : along (normals ei) (mean_at [a; b] (nodal N u)) = 0).
  { unfold along, inner_product, mean_at, nodal. cbn [sum lsum List.length Nat.mul].
    rewrite !Hu by lia. unfold Rdiv. ring. }
  rewrite lsum_0; [ring|]. intros p _. unfold density. rewrite Z.
  cbn [potential_normal_direction potential_tangential_direction make_const_contact_law].
  destruct (leb _ _); ring.
Qed.

(* -------------------------------------------------------- scalar *)

(* a face on the left side: normal (-1, 0) *)
Definition post (i : nat) : vec := fun k => if (i =? 1)%nat then (if (k =? 1)%nat then 1 else 0) else 0.
Definition left (_ : nat) : vec := fun k => if (k =? 0)%nat then -1 else 0.

Lemma post_length : face_measure 2 post [0; 1]%nat = 1.
Proof.
  cbn [face_measure]. unfold segment_length, corners, inner_product. cbn [nth sum]. unfold post. cbn [Nat.eqb].
  replace (0 + (0 - 0) * (0 - 0) + (1 - 0) * (1 - 0)) with 1 by ring. apply sqrt_1.
Qed.

Lemma scalar_skewed : ~ (forall jn hn jt ht nodes normals faces N x u dt,
  faces_ok 2 N faces -> (forall i, inner_product 2 (normals i) (normals i) = 1) ->
  contact_cost_functional (Function jn) (Function hn) (Function jt) (Function ht) 1 1 nodes 2 normals
    (N, x) (N, x) (N, u) faces dt
  = Ok (boundary_sum nodes faces (fun ei v s => hn (v 0%nat) (s 0%nat) dt * jn (v 0%nat) (s 0%nat) dt
       + ht (v 0%nat) (s 0%nat) dt * jt [] [] dt) (nodal N x) (nodal N u))).
Proof.
  intros H.
  specialize (H (fun _ q _ => q) (fun _ _ _ => 1) (fun _ _ _ => 0) (fun _ _ _ => 1) post left bar_faces 2%nat
    (fun _ => 0) (fun _ => 1) 0 bar_faces_ok ltac:(intros i; unfold inner_product, left; cbn [sum Nat.eqb]; ring)).
  rewrite (scalar_value _ _ _ _ post left 2 bar_faces 2 (fun _ => 0) _ (fun _ => 1) 2 0 bar_faces_ok (le_n 2)) in H.
  injection H as H. unfold boundary_sum, bar_faces, samples, scalar_density, skewed, left, nodal in H.
  cbn [List.length sum nth lsum map] in H. rewrite post_length, !bar_mean in H. cbn [Nat.eqb] in H. lra.
Qed.

(* the displacement which reaches the law is right iff the normal components add up to one *)
Lemma skewed_right n s : s 0%nat <> 0 -> (skewed n s = s 0%nat <-> n 0%nat + n 1%nat = 1).
Proof.
  intros H. unfold skewed. split; intros E.
  - apply (Rmult_eq_reg_l (s 0%nat)); auto. lra.
  - rewrite E. ring.
Qed.

(* -------------------------------------------------------- in space *)

(* a triangle in the x-z plane whose first edge is vertical *)
Definition wall (i : nat) : vec := fun k =>
  match i, k with 1%nat, 2%nat => 1 | 2%nat, 0%nat => 1 | _, _ => 0 end.

Lemma wall_area : face_measure 3 wall [0; 1; 2]%nat = / 2.
Proof.
  cbn [face_measure]. unfold triangle_area, corners, inner_product. cbn [nth sum wall].
  match goal with |- sqrt ?t / 2 = _ => replace t with 1 by ring end. rewrite sqrt_1. lra.
Qed.

Lemma wall_flat : length [0; 1; 2]%nat wall = 0.
Proof.
  unfold length. cbn [nth wall]. match goal with |- sqrt ?t = _ => replace t with 0 by ring end. apply sqrt_0.
Qed.

(* a unit potential does not measure the contact area *)
Lemma space_weights : ~ (forall nodes normals faces N x u dt, faces_ok 3 N faces ->
  contact_cost_functional (Function (fun _ _ _ => 1)) (Function (fun _ _ _ => 1))
    (Function (fun _ _ _ => 0)) (Function (fun _ _ _ => 1)) 3 3 nodes 3 normals
    (3 * N, x)%nat (3 * N, x)%nat (3 * N, u)%nat faces dt
  = Ok (lsum faces (face_measure 3 nodes))).
Proof.
  intros H. specialize (H wall (fun _ _ => 0) [[0; 1; 2]]%nat 3%nat (fun _ => 0) (fun _ => 0) 0).
  rewrite flat_cost_3d in H.
  2:{ intros e [<- | []]. exact wall_flat. }
  cbn [lsum] in H. rewrite wall_area in H.
  assert (F : faces_ok 3 3 [[0; 1; 2]]%nat).
  { unfold faces_ok. constructor; [|constructor]. split; [reflexivity|]. split.
    - repeat constructor; simpl; intros Q; repeat destruct Q as [Q|Q]; try discriminate; auto.
    - repeat constructor; lia. }
  specialize (H F). injection H. lra.
Qed.

(* in the plane it does *)
Theorem plane_weights nodes normals faces N x old u dt : faces_ok 2 N faces ->
  contact_cost_functional (Function (fun _ _ _ => 1)) (Function (fun _ _ _ => 1))
    (Function (fun _ _ _ => 0)) (Function (fun _ _ _ => 1)) 2 2 nodes 2 normals
    (2 * N, x)%nat (2 * N, old)%nat (2 * N, u)%nat faces dt
  = Ok (lsum faces (face_measure 2 nodes)).
Proof.
  intros HF. rewrite contact_value_inside by auto. apply (f_equal Ok). unfold boundary_sum.
  rewrite (sum_nth_lsum faces (face_measure 2 nodes) []). apply sum_ext. intros ei Hei. cbv zeta.
  destruct (face_ok_pair N faces ei HF Hei) as (a & b & He & _). rewrite He.
  unfold samples, density. cbn [lsum map]. lra.
Qed.

(* ------------------------------------------- statements about costs *)

Theorem cost_local jn hn jt ht nodes normals faces N x y old old' u dt : faces_ok 2 N faces ->
  (forall e a k, In e faces -> In a e -> (k < 2)%nat -> x (k * N + a)%nat = y (k * N + a)%nat) ->
  contact_cost_functional (Function jn) (Function hn) (Function jt) (Function ht) 2 2 nodes 2 normals
    (2 * N, x)%nat (2 * N, old)%nat (2 * N, u)%nat faces dt
  = contact_cost_functional (Function jn) (Function hn) (Function jt) (Function ht) 2 2 nodes 2 normals
    (2 * N, y)%nat (2 * N, old')%nat (2 * N, u)%nat faces dt.
Proof.
  intros HF H. rewrite !contact_value_inside by auto. apply (f_equal Ok). apply boundary_sum_ext; auto.
  apply density_planar.
Qed.

Theorem cost_nonneg jn hn jt ht nodes normals faces N x old u dt : faces_ok 2 N faces ->
  (forall v s, 0 <= jn v s dt) -> (forall v s, 0 <= hn v s dt) ->
  (forall v s, 0 <= jt v s dt) -> (forall v s, 0 <= ht v s dt) ->
  exists c, contact_cost_functional (Function jn) (Function hn) (Function jt) (Function ht) 2 2 nodes 2 normals
    (2 * N, x)%nat (2 * N, old)%nat (2 * N, u)%nat faces dt = Ok c /\ 0 <= c.
Proof.
  intros HF H1 H2 H3 H4. eexists. split; [apply contact_value_inside; auto|].
  apply boundary_sum_nonneg. intros ei p q. unfold density.
  apply Rplus_le_le_0_compat; apply Rmult_le_pos; auto.
Qed.

Theorem cost_no_faces jn hn jt ht din dout nodes width normals x old u dt :
  contact_cost_functional jn hn jt ht din dout nodes width normals x old u [] dt = Ok 0.
Proof. reflexivity. Qed.

Theorem slope_unique slope nodes normals faces N A b old u dt : 0 <= slope ->
  symmetric (2 * N) A -> pos_def (2 * N) A -> faces_ok 2 N faces ->
  let cost x := loss (make_slope_contact_law slope) 2 2 nodes 2 normals (mkSized (2 * N) (2 * N) A) (2 * N, b)%nat
                  (2 * N, x)%nat (2 * N, old)%nat (2 * N, u)%nat faces dt in
  exists x, minimises cost x /\ forall x', minimises cost x' -> veq (2 * N) x' x.
Proof. intros Hs HS HP HF. apply exactly_one_minimiser; auto. apply slope_law_convex; auto. Qed.

Theorem solution_minimises law nodes normals faces N A b old u dt x :
  symmetric (2 * N) A -> pos_semidef (2 * N) A -> faces_ok 2 N faces ->
  (forall v s, potential_normal_direction law v s dt = 0) ->
  (forall v s, potential_tangential_direction law v s dt = 0) ->
  minimises (fun x => loss law 2 2 nodes 2 normals (mkSized (2 * N) (2 * N) A) (2 * N, b)%nat
                  (2 * N, x)%nat (2 * N, old)%nat (2 * N, u)%nat faces dt) x <-> solves (2 * N) A b x.
Proof. intros HS HP HF H1 H2. apply minimiser_is_solution; auto. Qed.

(* the equation has a contact part which vanishes for a zero law *)
Theorem residual_zero_law nodes normals faces N jn A b x : faces_ok 2 N faces -> (forall v, jn v 0 0 = 0) ->
  exists r, equation_residual 2 nodes 2 normals jn (mkSized (2 * N) (2 * N) A) (2 * N, b)%nat (2 * N, x)%nat faces
      = Ok (2 * N, r)%nat /\
    ((forall i, (i < 2 * N)%nat -> r i = 0) <-> solves (2 * N) A b x).
Proof.
  intros HF Hj. destruct (residual_value jn nodes normals faces N A b x HF) as (c & r & Hc & Hr & Hv).
  exists r. split; [exact Hr|].
  destruct (direct_forces jn nodes normals faces N x HF) as (c' & Hc' & Hw).
  rewrite Hc in Hc'. injection Hc' as ->.
  assert (Z : forall i, (i < 2 * N)%nat -> c' i = 0).
  { intros i Hi. pose proof (Hw (fun k => if (k =? i)%nat then 1 else 0)) as E.
    unfold dot in E. rewrite (sum_single (2 * N) i) in E; auto.
    - rewrite Nat.eqb_refl, Rmult_1_l in E. rewrite E. unfold averaged_work. apply sum_0. intros ei _. cbv zeta.
      rewrite lsum_0; [ring|]. intros p _. apply Hj.
    - intros k Hk Hne. destruct (Nat.eqb_spec k i); [contradiction|ring]. }
  unfold solves. split; intros H i Hi; specialize (H i Hi); rewrite Hv, Z in * by auto; unfold mv in *; lra.
Qed.

Lemma sampled_work_ext nodes normals faces j j' v w : (forall i r, j i r = j' i r) ->
  sampled_work nodes normals faces j v w = sampled_work nodes normals faces j' v w.
Proof.
  intros H. unfold sampled_work. apply sum_ext. intros ei _. cbv zeta. rewrite H. f_equal. f_equal.
  apply lsum_ext. intros a _. rewrite H. reflexivity.
Qed.

(* displacing the nodes rigidly: force against every constant field *)
Theorem direct_resultant slope sub nodes normals faces N x old u dt w :
  subderivative_normal_direction (make_slope_contact_law slope) = Some sub -> faces_ok 2 N faces ->
  (forall e a b k, In e faces -> In a e -> In b e -> w (k * N + a)%nat = w (k * N + b)%nat) ->
  exists c J, contact_part 2 nodes 2 normals sub (2 * N, x)%nat faces = Ok (2 * N, c)%nat /\
    (forall h, contact_cost_functional (Function (potential_normal_direction (make_slope_contact_law slope)))
       Nothing Nothing Nothing 2 2 nodes 2 normals ((2 * N)%nat, fun i => x i + h * w i) (2 * N, old)%nat
       (2 * N, u)%nat faces dt = Ok (J h)) /\
    derivable_pt_lim J 0 (dot (2 * N) w c).
Proof.
  intros Hsub HF Hw.
  destruct (direct_forces sub nodes normals faces N x HF) as (c & Hc & Hd).
  set (pot := potential_normal_direction (make_slope_contact_law slope)).
  exists c, (fun h => boundary_sum nodes faces
      (fun ei => density (fun _ _ _ => 1) pot (fun _ _ _ => 1) (fun _ _ _ => 0) dt (normals ei))
      (fun a k => nodal N x a k + h * nodal N w a k) (nodal N u)).
  split; [exact Hc|]. split.
  - intros h.
    exact (contact_value_inside pot (fun _ _ _ => 1) (fun _ _ _ => 0) (fun _ _ _ => 1) nodes normals faces N
             (fun i => x i + h * w i) N old u dt HF).
  - rewrite Hd. rewrite (rigid_work _ _ _ _ _ _ N HF).
    + rewrite (sampled_work_ext nodes normals faces (fun _ r => sub r 0 0)
        (fun ei r => sub r (along (normals ei) (mean_at (nth ei faces []) (nodal N u))) dt)).
      2:{ intros i r. rewrite !(slope_sub_value slope sub _ _ _ Hsub). reflexivity. }
      apply (cost_derivative pot sub nodes normals faces (nodal N x) (nodal N u) (nodal N w) dt).
      intros r q. rewrite (slope_sub_value slope sub r q dt Hsub). apply slope_derivative.
    + intros e a b k He Ha Hb. unfold nodal. eapply Hw; eauto.
Qed.

Theorem slope_is_subgradient slope sub x y s dt : 0 <= slope ->
  subderivative_normal_direction (make_slope_contact_law slope) = Some sub ->
  potential_normal_direction (make_slope_contact_law slope) x s dt + sub x s dt * (y - x)
  <= potential_normal_direction (make_slope_contact_law slope) y s dt.
Proof.
  intros Hs Hsub. rewrite (slope_sub_value slope sub _ _ _ Hsub), !slope_value. apply slope_subgradient. exact Hs.
Qed.

Theorem slope_is_derivative slope sub x s dt :
  subderivative_normal_direction (make_slope_contact_law slope) = Some sub ->
  derivable_pt_lim (fun y => potential_normal_direction (make_slope_contact_law slope) y s dt) x (sub x s dt).
Proof. intros Hsub. rewrite (slope_sub_value slope sub _ _ _ Hsub). apply slope_derivative. Qed.

Lemma damped_not_continuous : ~ (forall g kappa beta s dt v, 0 < kappa -> 0 < beta -> 0 < dt ->
  continuity_pt (fun v => normal_bound (make_damped_norm_compl g kappa beta) v s dt
                          * potential_normal_direction (make_damped_norm_compl g kappa beta) v s dt) v).
Proof.
  intros H. apply (damped_jump 1 1 1 0 1 1); try lra. exact (H 1 1 1 0 1 1 ltac:(lra) ltac:(lra) ltac:(lra)).
Qed.

Theorem vertical_cost jn hn jt ht nodes normals x old u faces dt :
  (forall e, In e faces -> nodes (nth 0 e 0%nat) 0%nat = nodes (nth 1 e 0%nat) 0%nat
                        /\ nodes (nth 0 e 0%nat) 1%nat = nodes (nth 1 e 0%nat) 1%nat) ->
  contact_cost_functional (Function jn) (Function hn) (Function jt) (Function ht) 3 3 nodes 3 normals
    x old u faces dt = Ok 0.
Proof.
  intros H. apply flat_cost_3d. intros e He. destruct (H e He) as [H0 H1]. unfold length. rewrite H0, H1.
  match goal with |- sqrt ?t = _ => replace t with 0 by ring end. apply sqrt_0.
Qed.
