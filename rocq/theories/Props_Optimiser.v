(* C86: which optimiser is called, how often it may iterate, and what "constrained" constrains. *)
From Coq Require Import Reals List Arith Bool String Lia Lra.
From Verif Require Import PyModel RVec ContactModel StatementModel SchurSpec RegistryModel RegistrySpec RegistryProofs OptimisationModel OptimiserSpec OptimiserProofs
  ContactRunWitness.
Import ListNotations.
Local Open Scope string_scope.

Theorem C86_route : forall m r, route_of m = r <-> asks m r.
Proof. exact route_iff. Qed.
Print Assumptions C86_route.
Example C86_route_examples : asks "QsmLM" QuasiSecant /\ asks "GlobQSM 12" (GlobalQuasiSecant 5) /\ asks "gradiented BFGS" (Scipy "BFGS" true) /\
  asks "Nelder-Mead" (Scipy "Nelder-Mead" false) /\ asks "Constrained" Constrained /\ asks "dg" DiscontinuousGradient /\ asks "Adam" Adam.
Proof. do 6 (split; [apply route_iff; reflexivity|]). apply route_iff. reflexivity. Qed.

(* self.minimizer is made exactly for the branches that use it *)
Theorem C86_minimizer : forall m, makes_minimizer m = true <-> route_of m = QuasiSecant \/ exists n, route_of m = GlobalQuasiSecant n.
Proof. exact minimizer_iff. Qed.
Print Assumptions C86_minimizer.

(* the case of the letters matters for the branches of scipy only ... *)
Theorem C86_case : forall m m', same_name m m' ->
  route_of m = route_of m' \/ exists n n' g g', route_of m = Scipy n g /\ route_of m' = Scipy n' g'.
Proof. exact route_case. Qed.
Print Assumptions C86_case.
Example C86_case_example : same_name "QSM" "qsm" /\ same_name "bfgs" "BFGS".
Proof. split; apply same_name_lower; reflexivity. Qed.
(* ... but there it decides whether the subgradient is used: full claim of C86, refuted *)
Theorem C86_case_refuted : ~ (forall m m' n n' g g', same_name m m' -> route_of m = Scipy n g -> route_of m' = Scipy n' g' -> g = g').
Proof.
  intros H. specialize (H "Gradiented BFGS" "gradiented BFGS" _ _ _ _ ltac:(apply same_name_lower; reflexivity) eq_refl eq_refl). discriminate.
Qed.
Print Assumptions C86_case_refuted.

(* the number of steps is 5 whatever follows the name *)
Theorem C86_suffix : forall s, route_of ("globqsm" ++ s) = GlobalQuasiSecant 5.
Proof.
  intros s. apply route_iff. split; [reflexivity|]. exists "globqsm", "globqsm", s. split; [cbn; auto|]. split; [reflexivity|].
  apply same_name_lower. reflexivity.
Qed.
Print Assumptions C86_suffix.

(* the default number of iterations: 1000 for each entry of the first axis of the guess ... *)
Theorem C86_budget : forall axis name gradient given,
  iterations None axis (Scipy name gradient) = (1000 * axis)%nat /\ iterations None axis QuasiSecant = (1000 * axis)%nat /\
  iterations None axis Adam = (100 * (1000 * axis))%nat /\ iterations (Some given) axis (Scipy name gradient) = given /\
  iterations (Some given) axis Adam = (100 * given)%nat /\ (forall m, iterations m axis DiscontinuousGradient = (10 * 1000)%nat) /\
  iterations (Some given) axis QuasiSecant = given /\ iterations (Some given) axis Constrained = given /\
  iterations None axis Constrained = (axis * (1000 * 1000 * 1000))%nat.
Proof.
  intros axis name gradient given. unfold iterations.
  split; [lia|]. split; [lia|]. split; [lia|]. split; [reflexivity|]. split; [lia|]. repeat split; reflexivity.
Qed.
Print Assumptions C86_budget.
(* ... which is one entry for plane problems of the Schur solver, however many unknowns there are:
   full claim of C86, refuted *)
Theorem C86_schur_budget : forall b k mesh driving name gradient, dim b k = 2%nat ->
  iterations None (truncated_axis b k mesh driving) (Scipy name gradient) = 1000%nat.
Proof. intros b k mesh driving name gradient H. unfold truncated_axis. rewrite H. reflexivity. Qed.
Print Assumptions C86_schur_budget.
Theorem C86_budget_refuted : ~ (forall b k mesh driving name gradient,
  (1000 * (dim b k * mesh_contact_count mesh) <= iterations None (truncated_axis b k mesh driving) (Scipy name gradient))%nat).
Proof.
  intros H. specialize (H (wedge_body (fun _ => 0%R) 0%R) DynamicVelocity wedge_mesh false "BFGS" false).
  rewrite C86_schur_budget in H by reflexivity. change (dim _ _) with 2%nat in H. change (mesh_contact_count wedge_mesh) with 2%nat in H. lia.
Qed.
Print Assumptions C86_budget_refuted.

(* "constrained": the second components of the contact nodes are not below 0 *)
Theorem C86_constraint : forall nc q x, (0 < nc <= q)%nat ->
  exists y, constr nc ((2 * q)%nat, x) = Ok y /\ (0 <= y <-> raised q nc x)%R.
Proof. exact constr_spec. Qed.
Print Assumptions C86_constraint.
Theorem C86_no_contact : forall q x, constr 0 ((2 * q)%nat, x) = Err ValueError.
Proof. exact constr_none. Qed.
Print Assumptions C86_no_contact.
(* the same for the layouts of the global and the Schur solver *)
Theorem C86_layouts : forall nc nf x xc xf, parts 2 nc nf x xc xf -> (raised (nc + nf) nc x <-> raised nc nc xc).
Proof.
  intros nc nf x xc xf [HC _]. unfold raised. split; intros H i Hi.
  - specialize (H i Hi). specialize (HC 1%nat i ltac:(lia) Hi). rewrite !Nat.mul_1_l in HC. rewrite HC. exact H.
  - specialize (H i Hi). specialize (HC 1%nat i ltac:(lia) Hi). rewrite !Nat.mul_1_l in HC. rewrite <- HC. exact H.
Qed.
Print Assumptions C86_layouts.
Example C86_layouts_example : parts 2 1 1 (fun i => INR i) (fun i => if (i =? 0)%nat then INR 0 else INR 2) (fun i => if (i =? 0)%nat then INR 1 else INR 3).
Proof.
  split; intros k i Hk Hi; assert (i = 0%nat) by lia; subst i; destruct k as [|[|k]]; try lia; reflexivity.
Qed.
(* with the normal pointing down the constraint is impenetrability ... *)
Theorem C86_normal : forall q nc n x, n 0%nat = 0%R -> (n 1%nat < 0)%R -> (raised q nc x <-> not_pressed q nc n x).
Proof.
  intros q nc n x H0 H1. unfold raised, not_pressed. split; intros H i Hi; specialize (H i Hi); rewrite ?H0 in *.
  - assert (0 <= x (q + i)%nat * - n 1%nat)%R by (apply Rmult_le_pos; lra). lra.
  - apply Rnot_lt_le. intros L. assert (0 < - x (q + i)%nat * - n 1%nat)%R by (apply Rmult_lt_0_compat; lra). lra.
Qed.
Print Assumptions C86_normal.
Example C86_normal_example : exists n : vec, n 0%nat = 0%R /\ (n 1%nat < 0)%R.
Proof. exists (fun i => (- INR i)%R). split; cbn; lra. Qed.
(* ... and with another one it is not: full claim of C86, refuted *)
Theorem C86_normal_refuted : ~ (forall q nc n x, (n 0%nat * n 0%nat + n 1%nat * n 1%nat = 1)%R -> (raised q nc x <-> not_pressed q nc n x)).
Proof.
  intros H. destruct (H 1%nat 1%nat (fun i => if (i =? 0)%nat then 1 else 0)%R (fun i => if (i =? 0)%nat then 1 else 0)%R ltac:(cbn; lra)) as [A _].
  assert (R : raised 1 1 (fun i => if (i =? 0)%nat then 1 else 0)%R) by (intros i Hi; assert (i = 0%nat) by lia; subst; cbn; lra).
  specialize (A R 0%nat ltac:(lia)). cbn in A. lra.
Qed.
Print Assumptions C86_normal_refuted.
