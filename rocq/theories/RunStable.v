(* Runs with stable statements and a linear solver that works for positive definite matrices go
   through; such a solver exists. *)
From Coq Require Import Reals List Arith ZArith Bool String Lia Lra.
From Verif Require Import Common PyModel RVec LinAlg MeshModel MeshBuildModel MeshSpec DofModel DofSpec DirichletModel DirichletSpec DirichletProofs
  FemModel FemSpec FemPipelineProofs FemFinalProofs FemBuildProofs FemKornProofs FemExamples
  StatementModel StatementSpec StatementProofs StatementValueProofs StatementLawProofs StatementEnergyProofs StatementMeshProofs StatementExamples
  RegistryModel RegistrySpec RegistryProofs DispatchProofs StateModel TimeModel TimeSpec StateLemmas CopyProofs TimeProofs
  RunProofs HistoryProofs SolveProofs MarchProofs TimeTheorems TimeCorollaries MethodModel MethodProofs RunSpec WholeRunProofs
  RunTheorems RunTotal RunWitness.
Import ListNotations.
Local Open Scope list_scope.
Local Open Scope R_scope.

(* ------------------------------------------------------- elimination *)

Fixpoint eliminate (n : nat) (A : mat) (r : vec) : vec :=
  match n with
  | O => fun _ => 0
  | S m => let x := eliminate m (reduced m A) (fun i => r i - A i m * r m / A m m) in
           fun j => if (j <? m)%nat then x j else (r m - sum m (fun l => A m l * x l)) / A m m
  end.

Lemma eliminate_solves : forall n A r, pos_def n A -> solves n A r (eliminate n A r).
Proof.
  induction n as [|n IH]; intros A r P.
  - intros k Hk. lia.
  - pose proof (pos_def_pivot n A P) as Hp.
    pose proof (IH (reduced n A) (fun i => r i - A i n * r n / A n n) (pos_def_reduced n A P)) as Hx.
    cbn [eliminate]. set (x := eliminate n (reduced n A) _) in *.
    set (y := fun j => if (j <? n)%nat then x j else (r n - sum n (fun l => A n l * x l)) / A n n).
    change (solves (S n) A r y).
    assert (E : forall j, (j < n)%nat -> y j = x j).
    { intros j Hj. unfold y. apply Nat.ltb_lt in Hj. rewrite Hj. reflexivity. }
    assert (En : y n = (r n - sum n (fun l => A n l * x l)) / A n n).
    { unfold y. rewrite Nat.ltb_irrefl. reflexivity. }
    intros k Hk. cbn [sum].
    rewrite (sum_ext n _ (fun j => A k j * x j)) by (intros j Hj; rewrite E; auto).
    rewrite En. destruct (Nat.eq_dec k n) as [->|Hne].
    + field. lra.
    + specialize (Hx k ltac:(lia)). cbv beta in Hx. unfold reduced in Hx.
      rewrite (sum_ext n _ (fun j => A k j * x j - A k n / A n n * (A n j * x j))) in Hx.
      2:{ intros j _. field. lra. }
      rewrite sum_minus, sum_scal in Hx.
      replace (r k) with (r k - A k n * r n / A n n + A k n * r n / A n n) by ring.
      rewrite <- Hx. field. lra.
Qed.

(* a linear solver that checks its answer *)
Definition elimination_solver (n : nat) (A : mat) (r : vec) : result vec :=
  let x := eliminate n A r in
  if forallb (fun i => if Req_EM_T (mv n A x i) (r i) then true else false) (seq 0 n) then Ok x else Err ValueError.

Lemma elimination_sound n A r x : elimination_solver n A r = Ok x -> solves n A r x.
Proof.
  unfold elimination_solver. destruct (forallb _ _) eqn:E; [|discriminate]. intros H. injection H as <-.
  rewrite forallb_forall in E. intros i Hi. specialize (E i). rewrite in_seq in E. specialize (E ltac:(lia)).
  cbv beta in E. destruct (Req_EM_T _ _) as [Q|]; [exact Q|discriminate].
Qed.

Lemma elimination_works n A r : pos_def n A -> exists x, elimination_solver n A r = Ok x.
Proof.
  intros P. unfold elimination_solver. destruct (forallb _ _) eqn:E; [eauto|]. exfalso.
  assert (T : forallb (fun i => if Req_EM_T (mv n A (eliminate n A r) i) (r i) then true else false) (seq 0 n) = true).
  { apply forallb_forall. intros i Hi. apply in_seq in Hi. destruct (Req_EM_T _ _) as [|Q]; [reflexivity|].
    exfalso. apply Q. apply (eliminate_solves n A r P). lia. }
  congruence.
Qed.

(* ------------------------------------------------------- stable statements *)

Section Stable.
  Context {V W F : Type}.
  Variable integrate : F -> R -> F * result (nat * vec).
  Variable b : body.
  Variable k : kind.
  Variable p : physics.
  Variable loads : R -> vec.
  Variable relaxations : R -> mat.
  Variables forceful heated : F -> Prop.
  Variable conds : list condition.
  Variable c : solver_class.
  Variable nodes : vec.
  Variable linsolve : nat -> mat -> vec -> result vec.
  Notation size := (b_dimension b * b_count b)%nat.
  Notation updated := (updated integrate b k p loads relaxations forceful heated conds).
  Hypothesis KF : keeps_force integrate b k loads forceful.
  Hypothesis KH : keeps_heat integrate b p heated.
  Hypothesis HC : conditions b k = Ok conds.
  Hypothesis HW : well_shaped (unknowns b k) conds.
  Hypothesis HD : (1 <= b_dimension b)%nat.
  Hypothesis RN : renews integrate b k c.
  Hypothesis LW : forall n A r, pos_def n A -> exists x, linsolve n A r = Ok x.
  Hypothesis ST : forall x dt t, stable_kind (moment k p loads relaxations x dt t) conds k.

  Lemma unknowns_bound : (unknowns b k <= size)%nat.
  Proof. unfold unknowns. destruct k; nia. Qed.

  Lemma stable_answers x dt t i g v u : 0 < dt -> updated x dt t i ->
    exists y, direct_answer b k linsolve i g v u dt = Ok (size, y).
  Proof.
    intros Hdt (E & LEN & ML & _).
    assert (SZ : sized b (moment k p loads relaxations x dt t)) by (destruct E as (E1 & E2 & _); split; assumption).
    assert (PF : pos_def (unknowns b k) (lhs (final b (moment k p loads relaxations x dt t) k conds))).
    { apply elimination_pos_def; [exact HW|]. exact (lmat_definite b (moment k p loads relaxations x dt t) conds k SZ Hdt (ST x dt t)). }
    assert (PD : pos_def (unknowns b k) (load_m (hp (m_world i)) (sm_data (m_lhs i)))).
    { intros z Hz. rewrite (qform_meq _ _ _ z ML). apply PF. exact Hz. }
    unfold direct_answer, direct_solve_impl. rewrite LEN.
    destruct (LW _ _ (load_v (hp (m_world i)) (m_rhs i)) PD) as (y & Y). rewrite Y. cbn [bind].
    unfold conditions in HC. pose proof unknowns_bound as B.
    destruct (Nat.ltb_spec (unknowns b k) size); cbn [bind]; rewrite HC; cbn [bind]; [eauto|].
    replace (unknowns b k) with size by lia. eauto.
  Qed.

  Lemma stable_iterates dt i x t : can_step k dt -> (exists x0 t0, updated x0 dt t0 i) ->
    exists i', iterate integrate b k c i x dt t = Ok i' /\ exists x0 t0, updated x0 dt t0 i'.
  Proof.
    intros S (x0 & t0 & (E & _)).
    destruct (iterate_updated integrate b k p loads relaxations forceful heated KF KH conds HC HW c i x dt t RN E S) as (i' & J1 & J2).
    eauto.
  Qed.

  Lemma step_positive dt : 0 < dt -> can_step k dt.
  Proof. intros H. unfold can_step. destruct k; auto; lra. Qed.

  Notation d_type := (driver V (method F)).
  Theorem dynamic_stable_runs n u0 v0 out (d : d_type) x0 t0 : fit d -> non_decreasing 0 (requested n out) -> n <> 0%nat ->
    0 < dt_of d -> updated x0 (dt_of d) t0 (inner (d_sv d)) ->
    exists d' l, @dynamic_solve V W (method F) (b_dimension b) (b_count b) nodes (iterate integrate b k c) (direct_answer b k linsolve)
      n u0 v0 out [] d = (d', Ok l).
  Proof.
    intros Ft ND NZ Hdt U.
    apply (dynamic_runs _ _ _ _ _ (fun i => exists x t, updated x (dt_of d) t i) (dt_of d)); eauto.
    - intros i x t H. apply stable_iterates; [apply step_positive; exact Hdt|exact H].
    - intros i g v u (x & t & H). eapply stable_answers; eauto.
  Qed.

  Theorem wave_stable_runs n u0 v0 out (d : d_type) x0 t0 : fit d -> non_decreasing 0 (requested n out) -> n <> 0%nat ->
    0 < dt_of d -> updated x0 (dt_of d) t0 (inner (d_sv d)) ->
    exists d' s l, @wave_solve V W (method F) (b_dimension b) (b_count b) nodes (iterate integrate b k c) (direct_answer b k linsolve)
      n u0 v0 None out [] d = (d', s, Ok l).
  Proof.
    intros Ft ND NZ Hdt U.
    apply (wave_runs _ _ _ _ _ (fun i => exists x t, updated x (dt_of d) t i) (dt_of d)); eauto.
    - intros i x t H. apply stable_iterates; [apply step_positive; exact Hdt|exact H].
    - intros i g v u (x & t & H). eapply stable_answers; eauto.
  Qed.

  Theorem relaxation_stable_runs n b0 u0 out (d : d_type) x0 t0 : fit d -> non_decreasing 0 (requested n out) -> n <> 0%nat ->
    0 < dt_of d -> updated x0 (dt_of d) t0 (inner (d_sv d)) ->
    exists d' l, @relaxation_solve V W (method F) (b_dimension b) (b_count b) nodes (iterate integrate b k c) (direct_answer b k linsolve)
      n b0 u0 out [] d = (d', Ok l).
  Proof.
    intros Ft ND NZ Hdt U.
    apply (relaxation_runs _ _ _ _ _ (fun i => exists x t, updated x (dt_of d) t i) (dt_of d)); eauto.
    - intros i x t H. apply stable_iterates; [apply step_positive; exact Hdt|exact H].
    - intros i g v u (x & t & H). eapply stable_answers; eauto.
  Qed.
End Stable.

(* ------------------------------------------------------- a run on a mesh *)

(* two triangles, free, no loads *)
Definition quad_material : properties := mkProperties 2 (Some (4, 3)) (Some (1, 2)) (Some 5) None None.
Definition free_physics (M E C L : mat) : physics :=
  mkPhysics 4 8 M E C (fun _ _ => 0) L delta delta (fun _ _ => 0) (fun _ _ => 0)
    (fun _ => 0) (fun _ => 0) (fun _ => 0) (fun _ => 0) (fun _ => 0) (fun _ => 0) (fun _ => 0) 1.

Lemma quad_physics : exists ops p,
  triangles 4 quad_nodes quad_els /\ (forall i, (i < 4)%nat -> referenced quad_els i) /\ nonneg_density None /\
  reinitialize_matrices 4 quad_nodes quad_els quad_material None = Ok ops /\
  ph_N p = 4%nat /\ ph_n p = 8%nat /\ mass p = acceleration_operator ops /\ viscosity ops = Some (damping p) /\
  elasticity ops = Some (stiffness p) /\ poisson_operator ops = Some (laplace p) /\ (forall i, StatementSpec.load p i = 0).
Proof.
  assert (D : nonneg_density None) by exact Logic.I.
  destruct (reinitialize_matrices 4 quad_nodes quad_els quad_material None) as [ops|e] eqn:E; [|discriminate E].
  pose proof E as E'. injection E' as E'.
  assert (VE : exists A, elasticity ops = Some A) by (rewrite <- E'; eexists; reflexivity).
  assert (VV : exists A, viscosity ops = Some A) by (rewrite <- E'; eexists; reflexivity).
  assert (VP : exists A, poisson_operator ops = Some A) by (rewrite <- E'; eexists; reflexivity).
  destruct VE as [Em VE], VV as [Cm VV], VP as [Lm VP].
  exists ops, (free_physics (acceleration_operator ops) Em Cm Lm).
  split; [exact quad_triangles|]. split; [exact quad_referenced|]. split; [exact D|]. split; [reflexivity|].
  repeat (split; [reflexivity || assumption|]). reflexivity.
Qed.

Section MeshRuns.
  Variables (ops : FemModel.operators) (p : physics).
  Hypothesis HO : reinitialize_matrices 4 quad_nodes quad_els quad_material None = Ok ops.
  Hypothesis HN : ph_N p = 4%nat.
  Hypothesis Hn : ph_n p = 8%nat.
  Hypothesis HM : mass p = acceleration_operator ops.
  Hypothesis HV : viscosity ops = Some (damping p).
  Hypothesis HE : elasticity ops = Some (stiffness p).
  Hypothesis HP : poisson_operator ops = Some (laplace p).
  Notation b := (laid_out_body p []).
  Notation I := (method (nat * vec)).

  Lemma quad_stable k x dt t : k = DynamicVelocity \/ k = Wave ->
    stable_kind (moment k p (fun _ => StatementSpec.load p) (fun _ => memory p) x dt t) [] k.
  Proof.
    destruct (mass_block_2d 4 quad_nodes quad_els quad_material None ops quad_triangles HO quad_referenced ltac:(cbn; lra)) as [SM PM].
    intros [-> | ->]; cbn [stable_kind moment ph_n ph_N mass damping stiffness laplace]; rewrite ?Hn, ?HN, HM.
    - destruct (viscosity2_all 4 quad_nodes quad_els quad_material None ops 1 2 _ quad_triangles HO eq_refl HV) as (_ & _ & PC & _).
      destruct (elasticity2_all 4 quad_nodes quad_els quad_material None ops quad_triangles HO 4 3 _ eq_refl HE) as (_ & SE & PE & _).
      split; [apply pos_def_free; exact PM|]. split; [apply PC; [lra|lra|exact Logic.I]|apply PE; [lra|lra|exact Logic.I]].
    - destruct (poisson2_all 4 quad_nodes quad_els quad_material None ops 5 _ quad_triangles HO eq_refl HP Logic.I) as (_ & SL & PL & _).
      split; [|exact PL]. apply pos_def_free. apply (pos_def_block 8); [lia|exact PM].
  Qed.

  Lemma quad_setup k : exists i, setup constant_source b k (laid_out p k) no_vectors 1 = Ok i /\
    updated constant_source b k p (fun _ => StatementSpec.load p) (fun _ => memory p) (given_force p k) (given_heat p) [] no_vectors 1 0 i.
  Proof.
    assert (H2 : ph_n p = (2 * ph_N p)%nat) by (rewrite HN, Hn; reflexivity).
    apply setup_updated.
    - apply given_force_kept. exact H2.
    - apply given_heat_kept.
    - reflexivity.
    - apply no_conditions.
    - apply laid_out_equipped. exact H2.
    - destruct k; cbn; auto; lra.
  Qed.

  Lemma quad_dynamic u0 v0 : exists i d l,
    equipped b DynamicVelocity p (fun _ => memory p) (given_force p DynamicVelocity) (given_heat p) (m_world i) /\
    @dynamic_solve R unit I 2 4 (fun _ => 0) (iterate constant_source b DynamicVelocity DynamicGlobal)
      (direct_answer b DynamicVelocity elimination_solver) 3 u0 v0 [1; 3]%Z [] (point_driver i) = (d, Ok l).
  Proof.
    assert (H2 : ph_n p = (2 * ph_N p)%nat) by (rewrite HN, Hn; reflexivity).
    destruct (quad_setup DynamicVelocity) as (i & S & U). exists i.
    edestruct (@dynamic_stable_runs R unit _ constant_source b DynamicVelocity p (fun _ => StatementSpec.load p) (fun _ => memory p)
      (given_force p DynamicVelocity) (given_heat p) [] DynamicGlobal (fun _ => 0) elimination_solver
      (given_force_kept p [] DynamicVelocity H2) (given_heat_kept p []) eq_refl (proj1 (no_conditions _)))
      with (n := 3%nat) (u0 := u0) (v0 := v0) (out := [1; 3]%Z) (d := point_driver i) as (d & l & E).
    - cbn. lia.
    - intros g. eexists. split; reflexivity.
    - exact elimination_works.
    - intros x dt t. apply quad_stable. auto.
    - apply point_fit.
    - cbn. lia.
    - discriminate.
    - cbn. lra.
    - exact U.
    - exists d, l. split; [exact (proj1 U)|].
      cbn [b_count b_dimension laid_out_body] in E. rewrite HN in E. exact E.
  Qed.

  Lemma quad_wave u0 v0 : exists i d s l,
    equipped b Wave p (fun _ => memory p) (given_force p Wave) (given_heat p) (m_world i) /\
    @wave_solve R unit I 2 4 (fun _ => 0) (iterate constant_source b Wave DynamicSchur)
      (direct_answer b Wave elimination_solver) 3 u0 v0 None [1; 3]%Z [] (point_driver i) = (d, s, Ok l).
  Proof.
    assert (H2 : ph_n p = (2 * ph_N p)%nat) by (rewrite HN, Hn; reflexivity).
    destruct (quad_setup Wave) as (i & S & U). exists i.
    edestruct (@wave_stable_runs R unit _ constant_source b Wave p (fun _ => StatementSpec.load p) (fun _ => memory p)
      (given_force p Wave) (given_heat p) [] DynamicSchur (fun _ => 0) elimination_solver
      (given_force_kept p [] Wave H2) (given_heat_kept p []) eq_refl (proj1 (no_conditions _)))
      with (n := 3%nat) (u0 := u0) (v0 := v0) (out := [1; 3]%Z) (d := point_driver i) as (d & s & l & E).
    - cbn. lia.
    - intros g. eexists. split; reflexivity.
    - exact elimination_works.
    - intros x dt t. apply quad_stable. auto.
    - apply point_fit.
    - cbn. lia.
    - discriminate.
    - cbn. lra.
    - exact U.
    - exists d, s, l. split; [exact (proj1 U)|].
      cbn [b_count b_dimension laid_out_body] in E. rewrite HN in E. exact E.
  Qed.
End MeshRuns.
