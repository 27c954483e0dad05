(* One step of the optimisation solvers, with a reliable minimiser. *)
From Coq Require Import Reals List Arith Bool String Lia Lra.
From Verif Require Import Common PyModel RVec LinAlg DofModel DofSpec DirichletModel DirichletSpec DirichletProofs
  StatementModel StatementSpec StatementProofs StatementValueProofs StatementLawProofs RegistryModel StateModel TimeModel
  MethodModel MethodProofs ForcesSpec ContactModel ContactSpec ContactProofs ConvexMin ContactCostProofs
  SchurModel SchurSpec SchurProofs SchurMinProofs ConstrainedSpec ConstrainedProofs ConstrainedSchurProofs
  OptimisationModel ContactRunSpec.
Import ListNotations.
Local Open Scope R_scope.

(* writing the prescribed values into an admissible vector *)
Lemma overwrite_admissible n conds x : well_shaped n conds -> consistent (prescribed conds) ->
  admissible (prescribed conds) x -> forall d, overwrite_all conds x d = x d.
Proof.
  intros HW HK AD d. destruct (overwrite_consistent n conds x HW HK) as [H1 H2].
  destruct (pinned (sequence conds) d) eqn:Q.
  - apply (pinned_prescribed n) in Q; auto. destruct Q as (v & Q). rewrite (H1 d v Q). symmetry. apply AD. exact Q.
  - apply H2. intros w Hw. assert (pinned (sequence conds) d = true) by (apply (pinned_prescribed n); eauto). congruence.
Qed.

(* the eliminated matrix does not depend on the right hand side *)
Lemma eliminated_same n A b b' conds : well_shaped n conds ->
  meq n n (lhs (apply_dirichlet conds (mkSystem A b))) (lhs (apply_dirichlet conds (mkSystem A b'))).
Proof.
  intros HW i j Hi Hj. pose proof (well_shaped_sequence _ _ HW) as HF.
  destruct (closed_all n A b _ HF) as (g1 & g2 & [HL _ _ _]).
  destruct (closed_all n A b' _ HF) as (h1 & h2 & [HL' _ _ _]).
  rewrite !apply_sequence, HL, HL' by auto. reflexivity.
Qed.

(* problems with displacements or velocities in the plane *)
Definition plane_kind (k : kind) : Prop := k = StaticDisplacement \/ velocity_kind k.

Lemma forward_steps k dt : plane_kind k -> forward k dt -> can_step k dt.
Proof.
  unfold forward. intros [->|VK] H; [exact Logic.I|]. specialize (H VK).
  destruct k; cbn in VK |- *; auto; lra.
Qed.

Lemma plane_cases (Q : kind -> Prop) k : plane_kind k ->
  Q StaticDisplacement -> Q QuasistaticVelocity -> Q QuasistaticVelocityWithPiezoelectric -> Q DynamicVelocity ->
  Q DynamicVelocityWithTemperature -> Q DynamicVelocityWithPiezoelectric -> Q k.
Proof. intros [->|H]; [auto|]. destruct k; cbn in H; try contradiction; auto. Qed.

Lemma imbalance_rows b p k x i : StatementValueProofs.sized b p -> plane_kind k ->
  imbalance p k x i = mv (unknowns b k) (lmat p k) x i - rvec b p k i.
Proof.
  intros [HN Hn] K.
  apply (plane_cases (fun k => imbalance p k x i = mv (unknowns b k) (lmat p k) x i - rvec b p k i) k K);
    cbv [imbalance creeping moving lmat rvec StatementValueProofs.unknowns qvec dvec thermal_load electric_load];
    rewrite ?mv_advanced, ?mv_rate, ?HN, ?Hn; cbv [mv];
    rewrite ?row_plus, ?row_scale; unfold Rdiv; rewrite ?Rmult_1_l; ring.
Qed.

Section Steps.
  Context {F : Type}.
  Variable integrate : F -> R -> F * result (nat * vec).
  Variable b : body.
  Variable k : kind.
  Variable p : physics.
  Variable loads : R -> vec.
  Variable relaxations : R -> mat.
  Variables forceful heated : F -> Prop.
  Variable conds : list condition.
  Variable mesh : contact_mesh.
  Variable law : contact_law.
  Variable minimise : route -> nat -> (arr -> result R) -> arr -> arr.
  Variables (method_name : string) (maxiter : option nat).
  Notation moment := (moment k p loads relaxations).
  Notation updated := (updated integrate b k p loads relaxations forceful heated conds).
  Notation N := (b_count b).
  Notation faces := (mesh_faces mesh).
  Notation global_answer := (global_answer (F := F) b k mesh law minimise method_name maxiter).
  Notation schur_answer := (schur_answer (F := F) b k mesh law minimise method_name maxiter false).

  Hypothesis HB : b_dimension b = 2%nat.
  Hypothesis HP : plane_kind k.
  Hypothesis HC : conditions b k = Ok conds.
  Hypothesis HW : well_shaped (unknowns b k) conds.
  Hypothesis HK : consistent (prescribed conds).
  Hypothesis HM : mesh_width mesh = 2%nat.
  Hypothesis HF : faces_ok 2 N faces.
  Hypothesis SM : symmetric (ph_n p) (mass p).
  Hypothesis SC : symmetric (ph_n p) (damping p).
  Hypothesis SE : symmetric (ph_n p) (stiffness p).
  Hypothesis ST : stable_kind p conds k.
  Hypothesis HMin : forall m, reliable (minimise (route_of method_name) m).

  Definition step_cost (x : vectors) (dt t : R) (old u y : vec) : result R :=
    loss law 2 2 (mesh_nodes mesh) 2 (mesh_normals mesh)
      (mkSized (2 * N) (2 * N) (lmat (moment x dt t) k)) ((2 * N)%nat, rvec b (moment x dt t) k)
      ((2 * N)%nat, y) ((2 * N)%nat, old) ((2 * N)%nat, u) faces dt.

  Lemma plane_dim : dim b k = 2%nat.
  Proof. unfold dim. apply (plane_cases (fun k => dimension_in k (b_dimension b) = 2%nat) k HP); auto. Qed.
  Lemma plane_dofs : total_dofs b = (2 * N)%nat.
  Proof. unfold total_dofs. rewrite HB. reflexivity. Qed.
  Lemma plane_unknowns : unknowns b k = (2 * N)%nat.
  Proof. rewrite <- HB. apply (plane_cases (fun k => unknowns b k = (b_dimension b * b_count b)%nat) k HP); reflexivity. Qed.
  Lemma plane_loss : loss_of b k mesh law = loss law 2 2 (mesh_nodes mesh) 2 (mesh_normals mesh).
  Proof.
    unfold loss_of. rewrite plane_dim, HM.
    apply (plane_cases (fun k => match k with StaticPoisson => poisson_loss law (mesh_nodes mesh) 2 (mesh_normals mesh) | _ => loss law 2 2 (mesh_nodes mesh) 2 (mesh_normals mesh) end = loss law 2 2 (mesh_nodes mesh) 2 (mesh_normals mesh)) k HP); reflexivity.
  Qed.

  Lemma plane_lmat x dt t x' t' : lmat (moment x dt t) k = lmat (moment x' dt t') k.
  Proof. unfold MethodProofs.moment. apply (plane_cases (fun k' => lmat (mkPhysics _ _ _ _ _ _ _ _ _ _ _ _ _ _ _ _ _ _ _) k' = lmat (mkPhysics _ _ _ _ _ _ _ _ _ _ _ _ _ _ _ _ _ _ _) k') k HP); reflexivity. Qed.

  Lemma plane_symmetric x dt t : StatementValueProofs.sized b p -> symmetric (2 * N) (lmat (moment x dt t) k).
  Proof.
    intros [_ Hn]. rewrite HB in Hn. rewrite <- Hn. intros i j Hi Hj. unfold MethodProofs.moment.
    apply (plane_cases (fun k' => lmat (mkPhysics _ _ _ _ _ _ _ _ _ _ _ _ _ _ _ _ _ _ _) k' i j = lmat (mkPhysics _ _ _ _ _ _ _ _ _ _ _ _ _ _ _ _ _ _ _) k' j i) k HP);
      cbn [lmat mass stiffness damping ph_dt]; rewrite ?(SM i j), ?(SC i j), ?(SE i j) by auto; reflexivity.
  Qed.

  Lemma plane_definite x dt t : StatementValueProofs.sized b p -> forward k dt -> definite_among (2 * N) (prescribed conds) (lmat (moment x dt t) k).
  Proof.
    intros HZ Hdt. rewrite <- plane_unknowns.
    assert (D : forall q, 0 < q -> definite_among (unknowns b k) (prescribed conds) (lmat (moment x q t) k)).
    2:{ destruct HP as [K|VK]; [|exact (D dt (Hdt VK))]. specialize (D 1 ltac:(lra)). rewrite K in D |- *. exact D. }
    clear Hdt. intros q Hq. apply (lmat_definite b (moment x q t) conds k); [exact HZ|exact Hq|].
    revert ST. unfold MethodProofs.moment.
    apply (plane_cases (fun k' => stable_kind p conds k' -> stable_kind (mkPhysics _ _ _ _ _ _ _ _ _ _ _ _ _ _ _ _ _ _ _) conds k') k HP); auto.
  Qed.

  Lemma definite_nonneg x dt t z : StatementValueProofs.sized b p -> forward k dt -> (forall d v, prescribed conds d v -> z d = 0) ->
    0 <= qform (2 * N) (lmat (moment x dt t) k) z.
  Proof.
    intros HZ Hdt Z. pose proof (plane_definite x dt t HZ Hdt z Z) as D.
    destruct (vec_zero_dec (2 * N) z) as [A|A]; [left; apply D; exact A|].
    right. rewrite (qform_ext _ _ z (fun _ => 0)) by exact A. unfold qform, dot. symmetry. apply sum_0. intros; ring.
  Qed.

  Lemma updated_sized x dt t i : updated x dt t i -> StatementValueProofs.sized b p.
  Proof. intros ((E1 & E2 & _) & _). split; assumption. Qed.

  (* the step of the law of contact *)
  Lemma step_inequality x dt t old u y : StatementValueProofs.sized b p -> forward k dt -> convex_law law dt ->
    (minimises_among (prescribed conds) (step_cost x dt t old u) y <->
     contact_inequality (2 * N) (prescribed conds) (imbalance (moment x dt t) k)
       (fun y => contact_energy law (mesh_nodes mesh) (mesh_normals mesh) faces dt (nodal N u) (nodal N y)) y).
  Proof.
    intros HZ Hdt CV. unfold step_cost.
    rewrite (contact_inequality_iff law (mesh_nodes mesh) (mesh_normals mesh) faces N _ _ old u dt conds HF
      (plane_symmetric x dt t HZ) y (fun z => definite_nonneg x dt t z HZ Hdt) CV).
    unfold contact_inequality.
    assert (E : forall w, dot (2 * N) (fun i => mv (2 * N) (lmat (moment x dt t) k) y i - rvec b (moment x dt t) k i) w
      = dot (2 * N) (imbalance (moment x dt t) k y) w).
    { intros w. apply dot_ext; [|intros ? ?; reflexivity]. intros i _.
      rewrite (imbalance_rows b (moment x dt t) k y i HZ HP), plane_unknowns. reflexivity. }
    split; intros [AD M]; (split; [exact AD|]); intros z AZ; specialize (M z AZ); [rewrite <- E|rewrite E]; exact M.
  Qed.

  (* the arrays that the solver holds are the eliminated system *)
  Lemma held_cost x dt t i old u y : updated x dt t i ->
    loss_of b k mesh law (held_lhs i) (held_rhs i) ((2 * N)%nat, y) (total_dofs b, old) (total_dofs b, u) faces dt
    = let sys := apply_dirichlet conds (mkSystem (lmat (moment x dt t) k) (rvec b (moment x dt t) k)) in
      loss law 2 2 (mesh_nodes mesh) 2 (mesh_normals mesh) (mkSized (2 * N) (2 * N) (lhs sys)) ((2 * N)%nat, rhs sys)
        ((2 * N)%nat, y) ((2 * N)%nat, old) ((2 * N)%nat, u) faces dt.
  Proof.
    intros (_ & LEN & ML & VR & _ & MR & MC). rewrite plane_unknowns in *. cbv zeta.
    unfold held_lhs, held_rhs, shown_matrix, shown_vector. rewrite LEN, MR, MC, plane_loss, plane_dofs.
    rewrite !loss_value by exact HF. f_equal. f_equal. apply quadratic_meq; assumption.
  Qed.

  Lemma written_admissible x : admissible (prescribed conds) x ->
    exists y, written b k ((2 * N)%nat, x) = Ok ((2 * N)%nat, y) /\ forall d, y d = x d.
  Proof.
    intros AD. unfold written. assert (E : b_conditions b (dim b k) (dirichlet_cond_name k) = Ok conds) by exact HC.
    rewrite E. cbn [bind fst snd]. eexists. split; [reflexivity|].
    exact (overwrite_admissible (unknowns b k) conds x HW HK AD).
  Qed.

  Lemma minimises_among_ext x dt t old u y z : (forall d, y d = z d) ->
    minimises_among (prescribed conds) (step_cost x dt t old u) z -> minimises_among (prescribed conds) (step_cost x dt t old u) y.
  Proof.
    intros E [AD M].
    assert (V : forall y, step_cost x dt t old u y = Ok (quadratic (2 * N) (lmat (moment x dt t) k) (rvec b (moment x dt t) k) y
      + contact_energy law (mesh_nodes mesh) (mesh_normals mesh) faces dt (nodal N u) (nodal N y))).
    { intros w. unfold step_cost. rewrite loss_value by exact HF. reflexivity. }
    split; [intros d v P; rewrite E; apply AD; exact P|].
    replace (step_cost x dt t old u y) with (step_cost x dt t old u z); [exact M|].
    rewrite !V. f_equal. f_equal.
    - apply quadratic_veq. intros d _. symmetry. apply E.
    - apply contact_energy_ext. intros. unfold nodal. symmetry. apply E.
  Qed.

  (* C85: faces apart from the prescribed dofs, Global *)
  Theorem global_step x dt t i g old u : updated x dt t i -> forward k dt -> convex_law law dt ->
    (forall e a c, In e faces -> In a e -> (c < 2)%nat -> ~ fixed_dof (prescribed conds) N a c) ->
    exists y, global_answer i g old u dt = Ok ((2 * N)%nat, y) /\
      minimises_among (prescribed conds) (step_cost x dt t old u) y.
  Proof.
    intros U Hdt CV AP. pose proof (updated_sized _ _ _ _ U) as HZ.
    assert (HW2 : well_shaped (2 * N) conds) by (rewrite <- plane_unknowns; exact HW).
    destruct (contact_exactly_one law (mesh_nodes mesh) (mesh_normals mesh) faces N (lmat (moment x dt t) k) (rvec b (moment x dt t) k)
      old u dt conds HF HW2 HK (plane_symmetric x dt t HZ) (plane_definite x dt t HZ Hdt) CV) as (x0 & M0 & _).
    pose proof (fun y => apart_minimiser law (mesh_nodes mesh) (mesh_normals mesh) faces N (lmat (moment x dt t) k) (rvec b (moment x dt t) k)
      old u dt conds HF HW2 HK (plane_symmetric x dt t HZ) y AP) as EQ.
    assert (MIN : forall y, minimises (fun y => loss_of b k mesh law (held_lhs i) (held_rhs i) ((2 * N)%nat, y) (total_dofs b, old) (total_dofs b, u) faces dt) y
      <-> minimises_among (prescribed conds) (step_cost x dt t old u) y).
    { intros y. rewrite <- (EQ y). unfold minimises. rewrite (held_cost x dt t i old u y U). cbv zeta.
      split; intros (c & Hc & Hm); exists c; (split; [exact Hc|]); intros z; destruct (Hm z) as (c' & Hc' & L); exists c';
        (split; [|exact L]); [rewrite (held_cost x dt t i old u z U) in Hc'|rewrite (held_cost x dt t i old u z U)]; exact Hc'. }
    unfold OptimisationModel.global_answer, optimise.
    destruct (HMin (iterations maxiter (total_dofs b) (route_of method_name))
      (fun x : arr => loss_of b k mesh law (held_lhs i) (held_rhs i) x (total_dofs b, old) (total_dofs b, u) faces dt) (2 * N)%nat g) as (y & Ey & My).
    { exists x0. apply MIN. exact M0. }
    apply MIN in My. rewrite plane_dofs in Ey |- *. rewrite Ey.
    destruct (written_admissible y (proj1 My)) as (y' & -> & E). exists y'. split; [reflexivity|].
    exact (minimises_among_ext _ _ _ _ _ _ _ E My).
  Qed.

  (* ------------------------------------------------------------ Schur *)

  Variable inv : nat -> mat -> result mat.
  Hypothesis HI : inverts inv.
  Variable nf : nat.
  Notation nc := (mesh_contact_count mesh).
  Hypothesis HN : N = (nc + nf)%nat.
  Hypothesis KF : keeps_force integrate b k loads forceful.
  Hypothesis KH : keeps_heat integrate b p heated.

  Definition eliminated (x : vectors) (dt t : R) : system :=
    apply_dirichlet conds (mkSystem (lmat (moment x dt t) k) (rvec b (moment x dt t) k)).

  (* the state of a Schur solver after an update with these arrays at this time *)
  Definition schur_updated (x : vectors) (dt t : R) (i : schur_method F) : Prop :=
    updated x dt t (s_method i) /\
    exists A, reduces 2 nc nf A (snd (held_rhs (s_method i))) (s_schur i) /\ meq (2 * N) (2 * N) A (lhs (eliminated x dt t)).

  Lemma eliminated_same_lhs x dt t x' t' : meq (2 * N) (2 * N) (lhs (eliminated x dt t)) (lhs (eliminated x' dt t')).
  Proof.
    unfold eliminated. rewrite (plane_lmat x dt t x' t'). apply eliminated_same. rewrite <- plane_unknowns. exact HW.
  Qed.

  Lemma held_shapes x dt t i : updated x dt t i ->
    held_lhs i = mkSized (2 * N) (2 * N) (data (held_lhs i)) /\ held_rhs i = ((2 * N)%nat, snd (held_rhs i)).
  Proof.
    intros (_ & LEN & _ & _ & _ & MR & MC). unfold held_lhs, held_rhs, shown_matrix, shown_vector. cbn [data snd].
    rewrite LEN, MR, MC, plane_unknowns. split; reflexivity.
  Qed.

  Theorem schur_setup_updated w x dt : equipped b k p relaxations forceful heated w -> forward k dt ->
    exists i, schur_setup integrate b k mesh inv w x dt = Ok i /\ schur_updated x dt 0 i.
  Proof.
    intros E Hdt. unfold schur_setup.
    assert (CS : can_step k dt).
    { exact (forward_steps k dt HP Hdt). }
    destruct (setup_updated integrate b k p loads relaxations forceful heated KF KH conds HC HW w x dt E CS) as (i & -> & U).
    cbn [bind]. pose proof (updated_sized _ _ _ _ U) as HZ. rewrite plane_dim.
    destruct (held_shapes _ _ _ _ U) as [HL HR].
    assert (HE : meq (2 * N) (2 * N) (data (held_lhs i)) (lhs (eliminated x dt 0))).
    { destruct U as (_ & _ & ML & _). rewrite plane_unknowns in ML. exact ML. }
    rewrite HL, HR, HN.
    assert (HW2 : well_shaped (2 * N) conds) by (rewrite <- plane_unknowns; exact HW).
    destruct (eliminated_free_block (2 * N) 2 nc nf (lmat (moment x dt 0) k) (rvec b (moment x dt 0) k) conds
      ltac:(rewrite HN; reflexivity) HW2 (plane_definite x dt 0 HZ Hdt)) as (B & FB & FP).
    destruct (init_ok inv 2 nc nf HI ltac:(lia) (data (held_lhs i)) (snd (held_rhs i)) B) as (s & Es).
    { intros c a l j Hc Ha Hl Hj. rewrite HE by (rewrite HN; nia). apply FB; auto. }
    { apply pos_def_inverse. exact FP. }
    exists (mkSchurMethod i s). rewrite Es. cbn [bind]. split; [reflexivity|]. split; [exact U|]. cbn [s_method s_schur].
    exists (data (held_lhs i)). split; [|exact HE]. apply (init_reduces inv 2 nc nf HI ltac:(lia)). exact Es.
  Qed.

  Definition schur_class (c : solver_class) : Prop :=
    match c with QuasistaticSchur | RelaxedSchur | DynamicSchur => True | _ => False end.

  Theorem schur_iterate_updated c x0 t0 i x dt t : schur_class c -> renews integrate b k c -> schur_updated x0 dt t0 i -> forward k dt ->
    exists i', schur_iterate integrate b k mesh c i x dt t = Ok i' /\ schur_updated x dt t i'.
  Proof.
    intros SCl RN (U & A & HR & HA) Hdt.
    assert (CS : can_step k dt).
    { exact (forward_steps k dt HP Hdt). }
    destruct (iterate_updated integrate b k p loads relaxations forceful heated KF KH conds HC HW c (s_method i) x dt t RN (proj1 U) CS)
      as (m & Em & Um).
    destruct (held_shapes _ _ _ _ Um) as [_ HRm].
    destruct (iterate_reduces 2 nc nf ltac:(lia) A (snd (held_rhs (s_method i))) (snd (held_rhs m)) (s_schur i) HR) as (s & Es & Rs).
    exists (mkSchurMethod m s).
    assert (E : schur_iterate integrate b k mesh c i x dt t
      = bind (MethodModel.iterate integrate b k c (s_method i) x dt t) (fun m =>
        bind (SchurModel.iterate (dim b k) nc N (s_schur i) (held_rhs m)) (fun s => Ok (mkSchurMethod m s)))).
    { destruct c; try contradiction; reflexivity. }
    rewrite E, Em. cbn [bind]. rewrite plane_dim, HRm, HN. rewrite Es. cbn [bind].
    split; [reflexivity|]. split; [exact Um|]. exists A. cbn [s_method s_schur]. split; [exact Rs|].
    intros a c' Ha Hc. rewrite HA by auto. apply eliminated_same_lhs; auto.
  Qed.

  Theorem schur_step_run x dt t i g old u : schur_updated x dt t i -> forward k dt -> convex_law law dt ->
    (forall e a c, In e faces -> In a e -> (c < 2)%nat ->
      (a < nc)%nat /\ ~ fixed_dof (prescribed conds) N a c \/
      (nc <= a)%nat /\ prescribed conds (c * N + a) (old (c * N + a)%nat)) ->
    exists y, schur_answer i g old u dt = Ok ((2 * N)%nat, y) /\
      minimises_among (prescribed conds) (step_cost x dt t old u) y.
  Proof.
    intros (U & A & HR & HA) Hdt CV HT. pose proof (updated_sized _ _ _ _ U) as HZ.
    assert (HW2 : well_shaped (2 * N) conds) by (rewrite <- plane_unknowns; exact HW).
    assert (HbR : veq (2 * N) (snd (held_rhs (s_method i))) (rhs (eliminated x dt t))).
    { destruct U as (_ & _ & _ & VR & _). rewrite plane_unknowns in VR. exact VR. }
    destruct (contact_exactly_one law (mesh_nodes mesh) (mesh_normals mesh) faces N (lmat (moment x dt t) k) (rvec b (moment x dt t) k)
      old u dt conds HF HW2 HK (plane_symmetric x dt t HZ) (plane_definite x dt t HZ Hdt) CV) as (x0 & M0 & _).
    pose proof HF as HF'. pose proof (plane_symmetric x dt t HZ) as HSy. pose proof (plane_definite x dt t HZ Hdt) as HDe.
    unfold eliminated in HA, HbR. pose proof (fun y => minimises_among_ext x dt t old u y) as EXT. unfold step_cost in EXT |- *.
    pose proof written_admissible as WA.
    unfold OptimisationModel.schur_answer, optimise. rewrite plane_dim, plane_dofs, plane_loss.
    rewrite HN in HA, HbR, M0, HF', HW2, HSy, HDe, HT, EXT, WA |- *.
    set (small := fun y : arr => loss law 2 2 (mesh_nodes mesh) 2 (mesh_normals mesh) (node_relations (s_schur i)) (node_forces (s_schur i))
      y ((2 * (nc + nf))%nat, old) ((2 * (nc + nf))%nat, u) faces dt).
    assert (EX : exists xc, minimises (fun y => small ((2 * nc)%nat, y)) xc).
    { exists (contact_part_of nc nf x0).
      apply (schur_constrained law (mesh_nodes mesh) (mesh_normals mesh) faces nc nf _ _ old u dt conds HF' HW2 HK HSy HDe A _ (s_schur i)
        HA HbR HR HT x0 _ _ (parts_of 2 nc nf x0)). exact M0. }
    destruct (schur_step law (mesh_nodes mesh) (mesh_normals mesh) faces nc nf _ _ old u dt conds HF' HW2 HK HSy HDe A _ (s_schur i)
      HA HbR HR HT (minimise (route_of method_name) (iterations maxiter (truncated_axis b k mesh false) (route_of method_name)) small) g)
      as (y & Ey & My).
    { intros gc _. apply (HMin _ small (2 * nc)%nat gc EX). }
    match goal with |- context [solve_impl ?d ?c ?f ?o ?s ?g0] => change (solve_impl d c f o s g0) with (solve_impl 2 nc false (minimise (route_of method_name) (iterations maxiter (truncated_axis b k mesh false) (route_of method_name)) small) (s_schur i) ((2 * (nc + nf))%nat, g)) end.
    rewrite Ey. cbn [bind]. destruct (WA y (proj1 My)) as (y' & -> & E).
    exists y'. split; [reflexivity|]. exact (EXT _ _ E My).
  Qed.
End Steps.
