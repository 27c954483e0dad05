(* Minimisation of the eliminated cost and minimisation over the admissible vectors. *)
From Coq Require Import Reals List Arith Bool Lia Lra Psatz.
From Verif Require Import Common PyModel RVec LinAlg DofModel DofSpec DirichletModel DirichletSpec DirichletProofs
  ForcesSpec ContactModel ContactSpec ContactProofs ConvexMin ContactCostProofs ConstrainedSpec.
Import ListNotations.
Local Open Scope R_scope.

Section Elimination.
  Variables (n : nat) (A : mat) (b : vec) (conds : list condition).
  Hypothesis HW : well_shaped n conds.
  Hypothesis HK : consistent (prescribed conds).
  Hypothesis HS : symmetric n A.

  Let P (i : nat) : bool := pinned (sequence conds) i.
  Let sys := apply_dirichlet conds (mkSystem A b).

  (* the values at the prescribed dofs *)
  Lemma pinned_values : exists g : vec,
    (forall d v, prescribed conds d v -> P d = true /\ g d = v) /\
    (forall d, P d = true -> prescribed conds d (g d) /\ (d < n)%nat) /\
    (forall k i, (k < n)%nat -> (i < n)%nat -> lhs sys k i = if P k || P i then delta k i else A k i) /\
    (forall k, (k < n)%nat -> rhs sys k = if P k then g k else b k - sum n (fun i => if P i then A k i * g i else 0)).
  Proof.
    pose proof (well_shaped_sequence _ _ HW) as HF.
    destruct (closed_all n A b _ HF) as (g1 & g2 & [HL HR H1 H2]).
    assert (E : forall d v, prescribed conds d v -> g1 d = v /\ g2 d = v).
    { intros d v Hp. assert (Q : pinned (sequence conds) d = true) by (apply (pinned_prescribed n); eauto).
      pose proof (earliest_prescribed _ _ _ (H1 d Q)). pose proof (latest_prescribed _ _ _ (H2 d Q)).
      split; eapply HK; eauto. }
    exists g2. split; [|split; [|split]].
    - intros d v Hp. split; [apply (pinned_prescribed n); eauto|apply E; exact Hp].
    - intros d Hd. split; [apply latest_prescribed, H2, Hd|].
      unfold P, pinned in Hd. apply existsb_exists in Hd. destruct Hd as (a & Ha & Q). rewrite Forall_forall in HF.
      eapply a_in_range; eauto.
    - intros k i Hk Hi. unfold sys. rewrite apply_sequence. apply HL; auto.
    - intros k Hk. unfold sys. rewrite apply_sequence. rewrite HR by auto. unfold P.
      destruct (pinned (sequence conds) k); [reflexivity|]. f_equal. apply sum_ext. intros i _.
      destruct (pinned (sequence conds) i) eqn:Q; [|reflexivity]. f_equal.
      apply (pinned_prescribed n) in Q; auto. destruct Q as (v & Q). destruct (E _ _ Q). congruence.
  Qed.

  Variable g : vec.
  Hypothesis HG : forall d v, prescribed conds d v -> P d = true /\ g d = v.
  Hypothesis HP : forall d, P d = true -> prescribed conds d (g d) /\ (d < n)%nat.
  Hypothesis HL : forall k i, (k < n)%nat -> (i < n)%nat -> lhs sys k i = if P k || P i then delta k i else A k i.
  Hypothesis HR : forall k, (k < n)%nat -> rhs sys k = if P k then g k else b k - sum n (fun i => if P i then A k i * g i else 0).

  (* the admissible vector with the free values of x *)
  Definition settled (x : vec) : vec := fun i => if pinned (sequence conds) i then g i else x i.

  Lemma settled_admissible x : admissible (prescribed conds) (settled x).
  Proof. intros d v Hp. destruct (HG d v Hp) as [Q E]. unfold settled. unfold P in Q. rewrite Q. exact E. Qed.
  Lemma admissible_settled x i : admissible (prescribed conds) x -> settled x i = x i.
  Proof.
    intros H. unfold settled. destruct (pinned (sequence conds) i) eqn:Q; [|reflexivity]. symmetry. apply H. apply HP. exact Q.
  Qed.

  Let gp : vec := fun i => if P i then g i else 0.
  Let free (x : vec) : vec := fun i => if P i then 0 else x i.

  Lemma eliminated_quadratic x : quadratic n (lhs sys) (rhs sys) x
    = quadratic n A b (settled x) + sum n (fun i => if P i then / 2 * (x i * x i) - g i * x i else 0)
      - quadratic n A b gp.
  Proof.
    unfold quadratic at 1. unfold sys at 1. rewrite (elimination_qform n A b conds x HW). fold sys.
    change (fun i => if pinned (sequence conds) i then 0 else x i) with (free x).
    change (fun i => if pinned (sequence conds) i then x i * x i else 0) with (fun i => if P i then x i * x i else 0).
    assert (D : dot n (rhs sys) x = sum n (fun i => if P i then g i * x i else 0) + dot n b (free x) - dot n (free x) (mv n A gp)).
    { unfold dot. rewrite <- sum_plus, <- sum_minus. apply sum_ext. intros k Hk. rewrite HR by exact Hk. unfold free.
      destruct (P k) eqn:Q; [ring|]. unfold mv.
      rewrite (sum_ext n (fun i => if P i then A k i * g i else 0) (fun j => A k j * gp j)); [ring|].
      intros j _. unfold gp. destruct (P j); ring. }
    rewrite D.
    assert (S : veq n (settled x) (fun i => free x i + gp i)).
    { intros i _. unfold settled, free, gp, P. destruct (pinned (sequence conds) i); ring. }
    assert (QS : quadratic n A b (settled x) = quadratic n A b (free x) + dot n (free x) (mv n A gp) + quadratic n A b gp).
    { unfold quadratic. rewrite (qform_ext n A _ _ S).
      rewrite (dot_ext n b b (settled x) (fun i => free x i + gp i)) by (auto; intros ? ?; reflexivity).
      rewrite dot_plus_r.
      assert (E : qform n A (fun i => free x i + gp i) = qform n A (free x) + 2 * dot n (free x) (mv n A gp) + qform n A gp).
      { unfold qform. rewrite (dot_ext n (fun i => free x i + gp i) (fun i => free x i + gp i)
          (mv n A (fun i => free x i + gp i)) (fun i => mv n A (free x) i + mv n A gp i)).
        - rewrite dot_plus_r. rewrite !(dot_comm n (fun i => free x i + gp i)), !dot_plus_r.
          rewrite (dot_comm n (mv n A (free x)) gp), (dot_mv_sym n A gp (free x) HS).
          rewrite !(dot_comm n (mv n A _)). ring.
        - intros ? ?; reflexivity.
        - intros i _. apply mv_plus. }
      rewrite E. field. }
    rewrite QS. unfold quadratic.
    assert (Q2 : sum n (fun i => if P i then / 2 * (x i * x i) - g i * x i else 0)
      = / 2 * sum n (fun i => if P i then x i * x i else 0) - sum n (fun i => if P i then g i * x i else 0)).
    { rewrite <- sum_scal, <- sum_minus. apply sum_ext. intros i _. destruct (P i); ring. }
    rewrite Q2. ring.
  Qed.

  (* J is the contact part of the problem, Je that of the eliminated cost *)
  Variables J Je : vec -> R.
  Hypothesis HJ : local_in n J.
  Hypothesis HE : forall x, Je x = J (settled x).

  Theorem eliminated_minimiser x :
    (forall y, quadratic n (lhs sys) (rhs sys) x + Je x <= quadratic n (lhs sys) (rhs sys) y + Je y) <->
    admissible (prescribed conds) x /\
    forall y, admissible (prescribed conds) y -> quadratic n A b x + J x <= quadratic n A b y + J y.
  Proof.
    set (pen := fun x : vec => sum n (fun i => if P i then / 2 * (x i * x i) - g i * x i else 0)).
    assert (V : forall y, quadratic n (lhs sys) (rhs sys) y + Je y
      = (quadratic n A b (settled y) + J (settled y)) + pen y - quadratic n A b gp).
    { intros y. rewrite eliminated_quadratic, HE. unfold pen. ring. }
    assert (FIX : forall y, veq n (settled (settled y)) (settled y)).
    { intros y i _. apply admissible_settled, settled_admissible. }
    assert (LOC : forall y z, veq n y z -> quadratic n A b y + J y = quadratic n A b z + J z).
    { intros y z E. apply (quadratic_local n A b J HJ y z E). }
    assert (PD : forall y, pen y - pen (settled y) = / 2 * sum n (fun i => if P i then (y i - g i) * (y i - g i) else 0)).
    { intros y. unfold pen. rewrite <- sum_scal, <- sum_minus. apply sum_ext. intros i _.
      unfold settled, P. destruct (pinned (sequence conds) i); field. }
    assert (PN : forall y, 0 <= pen y - pen (settled y)).
    { intros y. rewrite PD. apply Rmult_le_pos; [lra|]. apply sum_nonneg. intros i _. destruct (P i); [|lra]. apply Rle_0_sqr. }
    assert (PA : forall y, admissible (prescribed conds) y -> pen y = pen (settled y)).
    { intros y Hy. unfold pen. apply sum_ext. intros i _. rewrite (admissible_settled y i Hy). reflexivity. }
    assert (PC : forall y z, pen (settled y) = pen (settled z)).
    { intros y z. unfold pen. apply sum_ext. intros i _. unfold settled, P. destruct (pinned (sequence conds) i); reflexivity. }
    split.
    - intros M.
      assert (Z : pen x - pen (settled x) <= 0).
      { pose proof (M (settled x)) as L. rewrite !V in L. rewrite (LOC _ _ (FIX x)) in L. lra. }
      assert (AD : admissible (prescribed conds) x).
      { intros d v Hp. destruct (HG d v Hp) as [Q E]. destruct (HP d Q) as [_ Hd].
        assert (S0 : sum n (fun i => if P i then (x i - g i) * (x i - g i) else 0) <= 0) by (rewrite PD in Z; lra).
        assert (T : (x d - g d) * (x d - g d) <= sum n (fun i => if P i then (x i - g i) * (x i - g i) else 0)).
        { apply Rle_trans with (sum n (fun i => if (i =? d)%nat then (x d - g d) * (x d - g d) else 0)).
          - rewrite (sum_single n d); auto.
            + rewrite Nat.eqb_refl. lra.
            + intros i _ Hne. destruct (Nat.eqb_spec i d); [contradiction|reflexivity].
          - apply sum_le. intros i _. destruct (Nat.eqb_spec i d) as [->|_]; [rewrite Q; lra|].
            destruct (P i); [apply Rle_0_sqr|lra]. }
        pose proof (Rle_0_sqr (x d - g d)) as N0. unfold Rsqr in N0.
        assert (x d - g d = 0); [|lra]. apply Rsqr_0_uniq. unfold Rsqr. lra. }
      split; [exact AD|]. intros y Hy. specialize (M y). rewrite !V in M.
      rewrite (LOC (settled x) x), (LOC (settled y) y) in M by (intros i _; apply admissible_settled; assumption).
      rewrite (PA x AD), (PA y Hy), (PC x y) in M. lra.
    - intros [AD M] y. rewrite !V.
      rewrite (LOC (settled x) x) by (intros i _; apply admissible_settled; assumption).
      pose proof (M (settled y) (settled_admissible y)). pose proof (PN y). rewrite (PA x AD), (PC x y). lra.
  Qed.
End Elimination.

(* ---------------------------------------------------- existence and uniqueness *)

(* positive on the vectors that vanish at the prescribed dofs *)
Definition definite_among (n : nat) (pin : nat -> R -> Prop) (A : mat) : Prop :=
  forall x, (forall d v, pin d v -> x d = 0) -> (exists i, (i < n)%nat /\ x i <> 0) -> 0 < qform n A x.

Theorem constrained_exactly_one n A b conds J : well_shaped n conds -> consistent (prescribed conds) ->
  symmetric n A -> definite_among n (prescribed conds) A -> convex J -> local_in n J ->
  exists x, (admissible (prescribed conds) x /\
      forall y, admissible (prescribed conds) y -> quadratic n A b x + J x <= quadratic n A b y + J y) /\
    forall x', (admissible (prescribed conds) x' /\
      forall y, admissible (prescribed conds) y -> quadratic n A b x' + J x' <= quadratic n A b y + J y) -> veq n x' x.
Proof.
  intros HW HK HS HD HC HJ. destruct (pinned_values n A b conds HW HK) as (g & HG & HP & HL & HR).
  set (sys := apply_dirichlet conds (mkSystem A b)) in *.
  pose proof (eliminated_minimiser n A b conds HW HS g HG HP HR J (fun x => J (settled conds g x)) HJ ltac:(reflexivity)) as EQ.
  destruct (quadratic_exactly_one n (lhs sys) (rhs sys) (fun x => J (settled conds g x))) as (x & Hx & HU).
  - apply elimination_symmetric; auto.
  - apply elimination_pos_def; auto.
  - intros y z t Ht. cbv beta.
    rewrite (HJ (settled conds g (between t y z)) (between t (settled conds g y) (settled conds g z))).
    + apply HC. exact Ht.
    + intros i _. unfold settled, between. destruct (pinned (sequence conds) i); ring.
  - intros y z E. apply HJ. intros i Hi. unfold settled. destruct (pinned (sequence conds) i); [reflexivity|]. apply E, Hi.
  - exists x. split; [apply EQ; exact Hx|]. intros x' Hx'. apply HU. apply EQ. exact Hx'.
Qed.

(* ---------------------------------------------------- variational inequality *)

Theorem constrained_inequality n A b (pin : nat -> R -> Prop) J x : symmetric n A ->
  (forall z, (forall d v, pin d v -> z d = 0) -> 0 <= qform n A z) -> convex J -> admissible pin x ->
  ((forall y, admissible pin y -> quadratic n A b x + J x <= quadratic n A b y + J y) <->
   (forall y, admissible pin y -> dot n b (fun i => y i - x i) <= dot n (mv n A x) (fun i => y i - x i) + J y - J x)).
Proof.
  intros HS HP HJ AD.
  assert (E : forall y, quadratic n A b y - quadratic n A b x
    = dot n (mv n A x) (fun i => y i - x i) - dot n b (fun i => y i - x i) + / 2 * qform n A (fun i => y i - x i)).
  { intros y. unfold quadratic, qform. rewrite (dot_minus_r n b).
    rewrite (dot_ext n (fun i => y i - x i) (fun i => y i - x i) (mv n A (fun i => y i - x i))
               (fun i => mv n A y i - mv n A x i));
      [|intros ? ?; reflexivity|intros i _; apply mv_minus].
    rewrite !dot_minus_r. rewrite (dot_comm n (fun i => y i - x i) (mv n A y)), (dot_comm n (fun i => y i - x i) (mv n A x)), !dot_minus_r.
    rewrite (dot_comm n (mv n A y) y), (dot_comm n (mv n A y) x), (dot_comm n (mv n A x) y), (dot_comm n (mv n A x) x).
    rewrite (dot_mv_sym n A x y HS). field. }
  split.
  - intros M y AY.
    set (a := dot n (mv n A x) (fun i => y i - x i) - dot n b (fun i => y i - x i) + J y - J x).
    set (q := / 2 * qform n A (fun i => y i - x i)).
    assert (T : forall t, 0 < t <= 1 -> 0 <= t * a + t * t * q).
    { intros t Ht. assert (AB : admissible pin (between t x y)).
      { intros d v Hp. unfold between. rewrite (AD d v Hp), (AY d v Hp). ring. }
      pose proof (M _ AB) as L. pose proof (HJ x y t ltac:(lra)) as C. pose proof (E (between t x y)) as EB.
      assert (D : forall w, dot n w (fun i => between t x y i - x i) = t * dot n w (fun i => y i - x i)).
      { intros w. rewrite <- dot_scal_r. apply dot_ext; [intros ? ?; reflexivity|]. intros i _. unfold between. ring. }
      assert (Q : qform n A (fun i => between t x y i - x i) = t * t * qform n A (fun i => y i - x i)).
      { rewrite (qform_ext n A _ (fun i => t * (y i - x i))) by (intros i _; unfold between; ring).
        unfold qform. rewrite (dot_ext n _ (fun i => t * (y i - x i)) (mv n A (fun i => t * (y i - x i)))
          (fun i => t * mv n A (fun i => y i - x i) i)); [|intros ? ?; reflexivity|intros i _; apply mv_scal].
        rewrite dot_scal_r, dot_comm, dot_scal_r, dot_comm. ring. }
      rewrite !D, Q in EB. unfold a, q. nra. }
    destruct (Rle_dec 0 a) as [|N]; [unfold a in *; lra|]. exfalso.
    destruct (Rle_dec q 0) as [Q|Q].
    + specialize (T 1 ltac:(lra)). lra.
    + assert (H0 : 0 < - a / (2 * q)) by (apply Rdiv_lt_0_compat; lra).
      set (t := Rmin 1 (- a / (2 * q))).
      assert (Ht : 0 < t <= 1) by (unfold t; split; [apply Rmin_pos; lra|apply Rmin_l]).
      assert (Tq : t * q <= - a / 2).
      { apply Rle_trans with (- a / (2 * q) * q); [apply Rmult_le_compat_r; [lra|apply Rmin_r]|]. right. field. lra. }
      specialize (T t Ht). assert (0 <= t * (a + t * q)) by lra.
      assert (a + t * q < 0) by lra. nra.
  - intros M y AY. pose proof (M y AY) as L. pose proof (E y) as EY.
    assert (0 <= qform n A (fun i => y i - x i)).
    { apply HP. intros d v Hp. rewrite (AD d v Hp), (AY d v Hp). ring. }
    lra.
Qed.

(* ---------------------------------------------------- values of the model *)

Lemma minimises_among_iff pin (cost : vec -> result R) (f : vec -> R) x : (forall y, cost y = Ok (f y)) ->
  (minimises_among pin cost x <-> admissible pin x /\ forall y, admissible pin y -> f x <= f y).
Proof.
  intros H. unfold minimises_among. split; intros [AD M]; (split; [exact AD|]).
  - destruct M as (c & Hc & Hm). intros y AY. rewrite H in Hc. injection Hc as <-. destruct (Hm y AY) as (c' & Hc' & L).
    rewrite H in Hc'. injection Hc' as <-. exact L.
  - exists (f x). split; auto. intros y AY. exists (f y). auto.
Qed.

Lemma contact_energy_ext law nodes normals faces dt s v w :
  (forall e a k, In e faces -> In a e -> (k < 2)%nat -> v a k = w a k) ->
  contact_energy law nodes normals faces dt s v = contact_energy law nodes normals faces dt s w.
Proof. intros H. apply boundary_sum_ext; [apply density_planar|exact H]. Qed.

Lemma contact_energy_local law nodes normals faces dt s N : faces_ok 2 N faces ->
  local_in (2 * N) (fun x => contact_energy law nodes normals faces dt s (nodal N x)).
Proof. intros HF. apply boundary_sum_local; [apply density_planar|exact HF]. Qed.

Lemma contact_energy_convex law nodes normals faces dt s N : convex_law law dt ->
  convex (fun x => contact_energy law nodes normals faces dt s (nodal N x)).
Proof. intros HC. apply boundary_sum_convex; [apply density_planar|]. intros ei q. apply HC. Qed.

Section Model.
  Variables (law : contact_law) (nodes : nat -> vec) (normals : nat -> vec) (faces : list (list nat)) (N : nat).
  Variables (A : mat) (b : vec) (old u : vec) (dt : R) (conds : list condition).
  Hypothesis HF : faces_ok 2 N faces.
  Hypothesis HW : well_shaped (2 * N) conds.
  Hypothesis HK : consistent (prescribed conds).
  Hypothesis HS : symmetric (2 * N) A.
  Let sys := apply_dirichlet conds (mkSystem A b).
  Let cost A b x := loss law 2 2 nodes 2 normals (mkSized (2 * N) (2 * N) A) (2 * N, b)%nat
                  (2 * N, x)%nat (2 * N, old)%nat (2 * N, u)%nat faces dt.
  Let J x := contact_energy law nodes normals faces dt (nodal N u) (nodal N x).

  Lemma cost_is A' b' x : cost A' b' x = Ok (quadratic (2 * N) A' b' x + J x).
  Proof. exact (loss_value law nodes normals faces N A' b' x N old u dt HF). Qed.

  (* C84: no contact face touches a prescribed dof *)
  Theorem apart_minimiser x :
    (forall e a k, In e faces -> In a e -> (k < 2)%nat -> ~ fixed_dof (prescribed conds) N a k) ->
    (minimises (cost (lhs sys) (rhs sys)) x <-> minimises_among (prescribed conds) (cost A b) x).
  Proof.
    intros AP. destruct (pinned_values (2 * N) A b conds HW HK) as (g & HG & HP & HL & HR).
    rewrite (minimises_iff _ _ x (cost_is (lhs sys) (rhs sys))), (minimises_among_iff _ _ _ x (cost_is A b)).
    apply (eliminated_minimiser (2 * N) A b conds HW HS g HG HP HR J J).
    - apply contact_energy_local. exact HF.
    - intros y. apply contact_energy_ext. intros e a k He Ha Hk. unfold nodal, settled.
      destruct (pinned (sequence conds) (k * N + a)) eqn:Q; [|reflexivity]. exfalso.
      apply (AP e a k He Ha Hk). exists (g (k * N + a)%nat). apply HP. exact Q.
  Qed.

  (* touching or not, the constrained problem has exactly one solution *)
  Theorem contact_exactly_one : definite_among (2 * N) (prescribed conds) A -> convex_law law dt ->
    exists x, minimises_among (prescribed conds) (cost A b) x /\
      forall x', minimises_among (prescribed conds) (cost A b) x' -> veq (2 * N) x' x.
  Proof.
    intros HD HC.
    destruct (constrained_exactly_one (2 * N) A b conds J HW HK HS HD (contact_energy_convex _ _ _ _ _ _ _ HC)
      (contact_energy_local _ _ _ _ _ _ _ HF)) as (x & Hx & HU).
    exists x. split.
    - apply (minimises_among_iff _ _ _ x (cost_is A b)). exact Hx.
    - intros x' Hx'. apply HU. apply (minimises_among_iff _ _ _ x' (cost_is A b)). exact Hx'.
  Qed.

  Theorem contact_inequality_iff x :
    (forall z, (forall d v, prescribed conds d v -> z d = 0) -> 0 <= qform (2 * N) A z) -> convex_law law dt ->
    (minimises_among (prescribed conds) (cost A b) x <->
     contact_inequality (2 * N) (prescribed conds) (fun x i => mv (2 * N) A x i - b i) J x).
  Proof.
    intros HD HC. rewrite (minimises_among_iff _ _ _ x (cost_is A b)). unfold contact_inequality.
    assert (E : forall w, dot (2 * N) (fun i => mv (2 * N) A x i - b i) w = dot (2 * N) (mv (2 * N) A x) w - dot (2 * N) b w).
    { intros w. rewrite dot_comm, dot_minus_r, !(dot_comm _ w). reflexivity. }
    split; intros [AD M]; (split; [exact AD|]).
    - intros y AY. pose proof (proj1 (constrained_inequality (2 * N) A b (prescribed conds) J x HS HD
        (contact_energy_convex _ _ _ _ _ _ _ HC) AD) M y AY) as L. rewrite E. lra.
    - apply (constrained_inequality (2 * N) A b (prescribed conds) J x HS HD (contact_energy_convex _ _ _ _ _ _ _ HC) AD).
      intros y AY. specialize (M y AY). rewrite E in M. lra.
  Qed.
End Model.
