(* Consequences of the value of the contact cost. *)
From Coq Require Import Reals List Arith Bool Lia Lra Psatz.
From Verif Require Import RVec PyModel ForcesSpec FemSpec DirichletSpec LinAlg ContactModel ContactSpec ContactProofs
  ContactLawProofs ConvexMin.
Import ListNotations.
Local Open Scope R_scope.

Lemma measure_nonneg nodes e : 0 <= face_measure 2 nodes e.
Proof. apply sqrt_pos. Qed.

Lemma mean_at_ext e v w k : (forall a, In a e -> v a k = w a k) -> mean_at e v k = mean_at e w k.
Proof. intros H. unfold mean_at. f_equal. apply lsum_ext. auto. Qed.

(* phi only sees the two components of its arguments *)
Definition planar (phi : nat -> vec -> vec -> R) : Prop :=
  forall ei v w s s', v 0%nat = w 0%nat -> v 1%nat = w 1%nat -> s 0%nat = s' 0%nat -> s 1%nat = s' 1%nat ->
  phi ei v s = phi ei w s'.

Lemma density_planar hn jn ht jt dt normals : planar (fun ei => density hn jn ht jt dt (normals ei)).
Proof. intros ei v w s s' H0 H1 H2 H3. apply density_ext; auto. Qed.

Lemma boundary_sum_ext nodes faces phi v w s : planar phi ->
  (forall e a k, In e faces -> In a e -> (k < 2)%nat -> v a k = w a k) ->
  boundary_sum nodes faces phi v s = boundary_sum nodes faces phi w s.
Proof.
  intros HP H. unfold boundary_sum. apply sum_ext. intros ei Hei. cbv zeta. f_equal.
  assert (He : In (nth ei faces []) faces) by (apply nth_In; auto).
  set (e := nth ei faces []) in *. unfold samples. cbn [lsum]. rewrite !lsum_map. f_equal.
  - apply HP; auto; apply mean_at_ext; intros a Ha; apply (H e); auto.
  - apply lsum_ext. intros a Ha. apply HP; auto; apply (H e); auto.
Qed.

Lemma boundary_sum_nonneg nodes faces phi v s : (forall ei p q, 0 <= phi ei p q) ->
  0 <= boundary_sum nodes faces phi v s.
Proof.
  intros H. unfold boundary_sum. apply sum_nonneg. intros ei _. cbv zeta.
  apply Rmult_le_pos.
  - pose proof (measure_nonneg nodes (nth ei faces [])). lra.
  - apply lsum_nonneg. intros; apply H.
Qed.

Lemma mixed_nodal M C x N old faces e a k : faces_ok 2 C faces -> (M = C -> True) -> In e faces -> In a e ->
  mixed C x N old a k = nodal C x a k.
Proof.
  intros HF _ He Ha. apply mixed_low. unfold faces_ok in HF. rewrite Forall_forall in HF.
  destruct (HF e He) as (_ & _ & HR). rewrite Forall_forall in HR. auto.
Qed.

(* all face nodes are unknowns *)
Theorem contact_value_inside jn hn jt ht nodes normals faces C x N old u dt :
  faces_ok 2 C faces ->
  contact_cost_functional (Function jn) (Function hn) (Function jt) (Function ht) 2 2 nodes 2 normals
    (2 * C, x)%nat (2 * N, old)%nat (2 * N, u)%nat faces dt
  = Ok (boundary_sum nodes faces (fun ei => density hn jn ht jt dt (normals ei)) (nodal C x) (nodal N u)).
Proof.
  intros HF. rewrite (contact_value _ _ _ _ _ _ C) by auto. f_equal.
  apply boundary_sum_ext; [apply density_planar|]. intros e a k He Ha _.
  apply (mixed_nodal C C x N old faces e); auto.
Qed.

(* ------------------------------------------------------ whole cost *)

Lemma cost_value jn hn jt ht nodes normals faces C A b x N old u dt J :
  contact_cost_functional jn hn jt ht 2 2 nodes 2 normals (2 * C, x)%nat (2 * N, old)%nat (2 * N, u)%nat faces dt = Ok J ->
  cost_functional jn hn jt ht 2 2 nodes 2 normals (mkSized (2 * C) (2 * C) A) (2 * C, b)%nat
    (2 * C, x)%nat (2 * N, old)%nat (2 * N, u)%nat faces dt
  = Ok (quadratic (2 * C) A b x + J).
Proof.
  intros H. unfold cost_functional. rewrite H. unfold sized_mv, arr_dot, head.
  cbn [bind rows cols data fst snd]. rewrite !Nat.min_id, !Nat.eqb_refl. cbn [bind fst snd].
  rewrite !Nat.eqb_refl. cbn [bind]. f_equal. unfold quadratic, qform. rewrite (dot_comm _ x). lra.
Qed.

Theorem loss_value law nodes normals faces C A b x N old u dt :
  faces_ok 2 C faces ->
  loss law 2 2 nodes 2 normals (mkSized (2 * C) (2 * C) A) (2 * C, b)%nat
    (2 * C, x)%nat (2 * N, old)%nat (2 * N, u)%nat faces dt
  = Ok (quadratic (2 * C) A b x
        + boundary_sum nodes faces (fun ei => density (normal_bound law) (potential_normal_direction law)
             (tangential_bound law) (potential_tangential_direction law) dt (normals ei)) (nodal C x) (nodal N u)).
Proof. intros HF. apply cost_value. apply contact_value_inside. auto. Qed.

(* ------------------------------------------------------- minimisers *)

Lemma minimises_iff (cost : vec -> result R) (f : vec -> R) x : (forall y, cost y = Ok (f y)) ->
  (minimises cost x <-> forall y, f x <= f y).
Proof.
  intros H. unfold minimises. split.
  - intros (c & Hc & Hm) y. rewrite H in Hc. injection Hc as <-. destruct (Hm y) as (c' & Hc' & L).
    rewrite H in Hc'. injection Hc' as <-. exact L.
  - intros Hm. exists (f x). split; auto. intros y. exists (f y). auto.
Qed.

(* convexity of the contact cost *)
Lemma boundary_sum_convex nodes faces phi s N : planar phi ->
  (forall ei q, convex (fun p => phi ei p q)) ->
  convex (fun x => boundary_sum nodes faces phi (nodal N x) s).
Proof.
  intros HP HC x y t Ht. unfold boundary_sum.
  rewrite <- !sum_scal, <- sum_plus. apply sum_le. intros ei _. cbv zeta.
  set (e := nth ei faces []). set (q := mean_at e s).
  assert (W : 0 <= face_measure 2 nodes e / 3) by (pose proof (measure_nonneg nodes e); lra).
  match goal with |- _ * ?a <= (1 - t) * (_ * ?b) + t * (_ * ?c) => set (S0 := a); set (S1 := b); set (S2 := c) end.
  replace ((1 - t) * (face_measure 2 nodes e / 3 * S1) + t * (face_measure 2 nodes e / 3 * S2))
    with (face_measure 2 nodes e / 3 * ((1 - t) * S1 + t * S2)) by ring.
  apply Rmult_le_compat_l; auto. unfold S0, S1, S2.
  unfold samples. cbn [lsum]. rewrite !lsum_map, !Rmult_plus_distr_l.
  match goal with |- _ + _ <= ?a + ?b + (?c + ?d) => replace (a + b + (c + d)) with ((a + c) + (b + d)) by ring end.
  apply Rplus_le_compat.
  - rewrite (HP ei (mean_at e (nodal N (between t x y))) (between t (mean_at e (nodal N x)) (mean_at e (nodal N y))) q q);
      try reflexivity; [apply HC; auto| |].
    all: unfold mean_at, between, nodal; rewrite lsum_plus, !lsum_scal; unfold Rdiv; ring.
  - rewrite <- !lsum_scal, <- lsum_plus. apply lsum_le. intros a _. exact (HC ei q (nodal N x a) (nodal N y a) t Ht).
Qed.

Lemma boundary_sum_local nodes faces phi s N : planar phi -> faces_ok 2 N faces ->
  local_in (2 * N) (fun x => boundary_sum nodes faces phi (nodal N x) s).
Proof.
  intros HP HF x y E. apply boundary_sum_ext; auto. intros e a k He Ha Hk. unfold nodal. apply E.
  unfold faces_ok in HF. rewrite Forall_forall in HF. destruct (HF e He) as (_ & _ & HR).
  rewrite Forall_forall in HR. specialize (HR a Ha). nia.
Qed.

(* the contact potential of a law is convex in the current value *)
Definition convex_law (law : contact_law) (dt : R) : Prop := forall n s,
  convex (fun v => density (normal_bound law) (potential_normal_direction law)
    (tangential_bound law) (potential_tangential_direction law) dt n v s).

Theorem exactly_one_minimiser law nodes normals faces N A b old u dt :
  symmetric (2 * N) A -> pos_def (2 * N) A -> faces_ok 2 N faces -> convex_law law dt ->
  let cost x := loss law 2 2 nodes 2 normals (mkSized (2 * N) (2 * N) A) (2 * N, b)%nat
                  (2 * N, x)%nat (2 * N, old)%nat (2 * N, u)%nat faces dt in
  exists x, minimises cost x /\ forall x', minimises cost x' -> veq (2 * N) x' x.
Proof.
  intros HS HP HF HC cost.
  set (J := fun x => boundary_sum nodes faces (fun ei => density (normal_bound law) (potential_normal_direction law)
             (tangential_bound law) (potential_tangential_direction law) dt (normals ei)) (nodal N x) (nodal N u)).
  assert (HV : forall x, cost x = Ok (quadratic (2 * N) A b x + J x)) by (intros y; exact (loss_value law nodes normals faces N A b y N old u dt HF)).
  destruct (quadratic_exactly_one (2 * N) A b J HS HP) as (x & Hx & Hu).
  - apply boundary_sum_convex; [apply density_planar|]. intros ei q. apply HC.
  - apply boundary_sum_local; [apply density_planar|auto].
  - exists x. split.
    + apply (minimises_iff cost (fun x => quadratic (2 * N) A b x + J x)); auto.
    + intros x' Hx'. apply Hu. apply (minimises_iff cost (fun x => quadratic (2 * N) A b x + J x)); auto.
Qed.

Theorem minimiser_inequality law nodes normals faces N A b old u dt x :
  symmetric (2 * N) A -> pos_semidef (2 * N) A -> faces_ok 2 N faces -> convex_law law dt ->
  let cost x := loss law 2 2 nodes 2 normals (mkSized (2 * N) (2 * N) A) (2 * N, b)%nat
                  (2 * N, x)%nat (2 * N, old)%nat (2 * N, u)%nat faces dt in
  let J x := boundary_sum nodes faces (fun ei => density (normal_bound law) (potential_normal_direction law)
             (tangential_bound law) (potential_tangential_direction law) dt (normals ei)) (nodal N x) (nodal N u) in
  minimises cost x <->
  (forall y, dot (2 * N) b (fun i => y i - x i)
             <= dot (2 * N) (mv (2 * N) A x) (fun i => y i - x i) + J y - J x).
Proof.
  intros HS HP HF HC cost J.
  assert (HV : forall x, cost x = Ok (quadratic (2 * N) A b x + J x)) by (intros y; exact (loss_value law nodes normals faces N A b y N old u dt HF)).
  rewrite (minimises_iff cost (fun x => quadratic (2 * N) A b x + J x)) by auto.
  apply variational_inequality; auto.
  apply boundary_sum_convex; [apply density_planar|]. intros ei q. apply HC.
Qed.

(* -------------------------------------------------- no contact: C33 *)

Lemma linear_minimiser n A b x : symmetric n A -> pos_semidef n A ->
  ((forall y, quadratic n A b x + 0 <= quadratic n A b y + 0) <-> solves n A b x).
Proof.
  intros HS HP.
  rewrite (variational_inequality n A b (fun _ => 0) x HS HP const_convex). split.
  - intros H k Hk.
    pose proof (H (fun i => x i + delta k i)) as H1. pose proof (H (fun i => x i + - 1 * delta k i)) as H2.
    cbv beta in H1, H2.
    assert (E1 : forall w, dot n w (fun i => x i + delta k i - x i) = w k).
    { intros w. unfold dot. rewrite (sum_ext n _ (fun i => delta k i * w i)) by (intros; ring). apply sum_delta_l; auto. }
    assert (E2 : forall w, dot n w (fun i => x i + - 1 * delta k i - x i) = - w k).
    { intros w. unfold dot. rewrite (sum_ext n _ (fun i => delta k i * (- w i))) by (intros; ring). apply sum_delta_l; auto. }
    rewrite !E1 in H1. rewrite !E2 in H2. unfold mv in *. lra.
  - intros H y. right.
    rewrite (dot_ext n b (mv n A x) (fun i => y i - x i) (fun i => y i - x i));
      [ring| |intros ? ?; reflexivity]. intros i Hi. symmetry. apply H; auto.
Qed.

Lemma no_contact nodes normals faces N law u dt x :
  (faces = [] \/ forall v s, potential_normal_direction law v s dt = 0 /\
     forall v s, potential_tangential_direction law v s dt = 0) ->
  boundary_sum nodes faces (fun ei => density (normal_bound law) (potential_normal_direction law)
     (tangential_bound law) (potential_tangential_direction law) dt (normals ei)) (nodal N x) u = 0.
Proof.
  intros [-> | H]; [reflexivity|]. unfold boundary_sum. apply sum_0. intros ei _. cbv zeta.
  rewrite (lsum_0 _ (fun p => density _ _ _ _ _ _ p _)); [ring|]. intros p _. unfold density.
  destruct (H (along (normals ei) p) (along (normals ei) (mean_at (nth ei faces []) u))) as [-> H2]. rewrite H2. ring.
Qed.

Theorem minimiser_is_solution law nodes normals faces N A b old u dt x :
  symmetric (2 * N) A -> pos_semidef (2 * N) A -> faces_ok 2 N faces ->
  (faces = [] \/ forall v s, potential_normal_direction law v s dt = 0 /\
     forall v s, potential_tangential_direction law v s dt = 0) ->
  let cost x := loss law 2 2 nodes 2 normals (mkSized (2 * N) (2 * N) A) (2 * N, b)%nat
                  (2 * N, x)%nat (2 * N, old)%nat (2 * N, u)%nat faces dt in
  minimises cost x <-> solves (2 * N) A b x.
Proof.
  intros HS HP HF HN cost.
  rewrite (minimises_iff cost (fun x => quadratic (2 * N) A b x + 0)).
  - apply linear_minimiser; auto.
  - intros y. unfold cost. rewrite loss_value by auto. rewrite no_contact by auto. reflexivity.
Qed.

(* ----------------------------------------------------- slope law *)

Lemma along_between n t x y : along n (between t x y) = (1 - t) * along n x + t * along n y.
Proof. unfold along, inner_product, between. cbn [sum]. ring. Qed.

Lemma slope_law_convex slope dt : 0 <= slope -> convex_law (make_slope_contact_law slope) dt.
Proof.
  intros H n s x y t Ht. unfold density. rewrite along_between.
  cbn [normal_bound tangential_bound potential_tangential_direction make_slope_contact_law].
  pose proof (slope_convex slope (along n s) dt H (along n x) (along n y) t Ht) as C. cbv beta in C.
  cbn [potential_normal_direction make_slope_contact_law] in C |- *. lra.
Qed.
