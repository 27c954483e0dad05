(* Concrete runs: a memory layout for any data, a linear solver that checks its answer, and a mass
   point moving freely. *)
From Coq Require Import Reals List Arith ZArith Bool String Lia Lra.
From Verif Require Import Common PyModel RVec LinAlg DofModel DofSpec DirichletModel DirichletSpec DirichletProofs
  StatementModel StatementSpec StatementProofs StatementValueProofs StatementLawProofs StatementEnergyProofs StatementExamples
  RegistryModel RegistrySpec RegistryProofs DispatchProofs StateModel TimeModel TimeSpec StateLemmas CopyProofs TimeProofs
  RunProofs HistoryProofs SolveProofs MarchProofs TimeTheorems TimeCorollaries MethodModel MethodProofs RunSpec WholeRunProofs
  RunTheorems RunTotal.
Import ListNotations.
Local Open Scope list_scope.
Local Open Scope R_scope.

Section Layout.
  Variable p : physics.
  Variable conds : list condition.
  Variable k : kind.
  Hypothesis Hn : ph_n p = (2 * ph_N p)%nat.

  Definition given_force (f : nat * vec) : Prop := f = (match k with Wave => ph_N p | _ => ph_n p end, StatementSpec.load p).
  Definition given_heat (f : nat * vec) : Prop := f = (ph_N p, heat p).

  Ltac in_heap := repeat split; simpl; try lia; try reflexivity.
  Ltac there := eexists; split; [reflexivity|in_heap].

  Lemma laid_out_equipped :
    equipped (laid_out_body p conds) k p (fun _ => memory p) given_force given_heat (laid_out p k).
  Proof.
    unfold equipped, given_force, given_heat.
    split; [reflexivity|]. split; [exact Hn|]. split; [reflexivity|]. split; [reflexivity|].
    unfold operators, laid_out_body, laid_out, ref_m.
    destruct p as [N n m1 m2 m3 m4 m5 m6 m7 m8 m9 l h b0 u0 v0 th0 ph0 dt]; cbn [ph_n ph_N] in Hn; subst n.
    destruct k; cbn -[Nat.mul].
    - there.
    - split; [auto|]. split; [in_heap|there].
    - there.
    - split; [reflexivity|]. split; [intros t1 t2 _; reflexivity|]. split; [intros tn; discriminate|].
      split; [|there]. exists (fun _ => Ok (fun _ _ _ => 0)). split; [reflexivity|]. intros t. exists (fun _ _ _ => 0). split; reflexivity.
    - split; there.
    - split; [in_heap|]. split; there.
    - split; [in_heap|]. split; [there|]. split; [there|]. eexists; there.
    - split; [auto|]. split; [eexists; there|]. split; [eexists; in_heap|]. eexists; there.
    - split; [there|]. eexists; there.
    - split; [there|]. split; [there|]. eexists; there.
    - split; [in_heap|]. split; [there|]. split; [there|]. eexists; there.
  Qed.

  Lemma given_force_kept : keeps_force constant_source (laid_out_body p conds) k (fun _ => StatementSpec.load p) given_force.
  Proof.
    intros f t E. unfold given_force in E. subst f. split; [|reflexivity]. cbn [constant_source snd].
    unfold force_length. cbn [laid_out_body b_count b_dimension]. rewrite Hn. destruct k; reflexivity.
  Qed.
  Lemma given_heat_kept : keeps_heat constant_source (laid_out_body p conds) p given_heat.
  Proof. intros f E. unfold given_heat in E. subst f. split; reflexivity. Qed.
End Layout.

(* a linear solver for diagonal systems that checks its answer *)
Definition diagonal_solver (n : nat) (A : mat) (r : vec) : result vec :=
  let x := fun i => r i / A i i in
  if forallb (fun i => if Req_EM_T (mv n A x i) (r i) then true else false) (seq 0 n) then Ok x else Err ValueError.

Lemma diagonal_solver_solves n A r x : diagonal_solver n A r = Ok x -> solves n A r x.
Proof.
  unfold diagonal_solver. destruct (forallb _ _) eqn:E; [|discriminate]. intros H. injection H as <-.
  rewrite forallb_forall in E. intros i Hi. specialize (E i). rewrite in_seq in E. specialize (E ltac:(lia)).
  cbv beta in E. destruct (Req_EM_T _ _) as [Q|]; [exact Q|discriminate].
Qed.

Lemma diagonal_solver_works n A r : (forall i j, (i < n)%nat -> (j < n)%nat -> i <> j -> A i j = 0) ->
  (forall i, (i < n)%nat -> A i i <> 0) -> exists x, diagonal_solver n A r = Ok x.
Proof.
  intros H1 H2. unfold diagonal_solver. destruct (forallb _ _) eqn:E; [eauto|]. exfalso.
  assert (T : forallb (fun i => if Req_EM_T (mv n A (fun i => r i / A i i) i) (r i) then true else false) (seq 0 n) = true).
  { apply forallb_forall. intros i Hi. apply in_seq in Hi. destruct (Req_EM_T _ _) as [|Q]; [reflexivity|]. exfalso. apply Q.
    unfold mv. rewrite (sum_ext n _ (fun j => delta i j * r j)).
    - apply sum_delta_l. lia.
    - intros j Hj. unfold delta. destruct (Nat.eqb_spec i j) as [<-|N].
      + field. apply H2. lia.
      + rewrite H1 by (auto; lia). ring. }
  congruence.
Qed.

(* one node with unit mass, no forces *)
Definition mass_point : physics :=
  mkPhysics 1 2 delta (fun _ _ => 0) (fun _ _ => 0) (fun _ _ => 0) (fun _ _ => 0) delta delta (fun _ _ => 0) (fun _ _ => 0)
    (fun _ => 0) (fun _ => 0) (fun _ => 0) (fun _ => 0) (fun _ => 0) (fun _ => 0) (fun _ => 0) 1.
Definition point_body : body := laid_out_body mass_point [].
Definition no_vectors : vectors := mkVectors (fun _ => 0) (fun _ => 0) (fun _ => 0) (fun _ => 0) (fun _ => 0).
Definition point_driver (i : method (nat * vec)) : driver R (method (nat * vec)) :=
  mkDriver (mkStore (repeat (fun _ => 0) 5) []) (mkStepper i 0 1 2 3 4 0 1) 0 1.

Lemma point_fit i : fit (point_driver i).
Proof.
  split.
  - cbn. repeat constructor; cbn; intuition discriminate.
  - cbn. unfold room. cbn. repeat constructor; lia.
Qed.

Notation point_updated k := (updated constant_source point_body k mass_point (fun _ => StatementSpec.load mass_point) (fun _ => memory mass_point)
  (given_force mass_point k) (given_heat mass_point) []).

Lemma point_setup k : exists i, setup constant_source point_body k (laid_out mass_point k) no_vectors 1 = Ok i /\ point_updated k no_vectors 1 0 i.
Proof.
  apply setup_updated.
  - apply given_force_kept. reflexivity.
  - apply given_heat_kept.
  - reflexivity.
  - apply no_conditions.
  - apply laid_out_equipped. reflexivity.
  - destruct k; cbn; auto; lra.
Qed.

Lemma point_answers x t i g v u : point_updated DynamicVelocity x 1 t i ->
  exists y, direct_answer point_body DynamicVelocity diagonal_solver i g v u 1 = Ok (2%nat, y).
Proof.
  intros (_ & LEN & ML & _). unfold direct_answer, direct_solve_impl. rewrite LEN.
  change (unknowns point_body DynamicVelocity) with 2%nat in *.
  destruct (diagonal_solver_works 2 (load_m (hp (m_world i)) (sm_data (m_lhs i))) (load_v (hp (m_world i)) (m_rhs i))) as (y & E).
  - intros a c Ha Hc N. rewrite ML by auto. cbn. unfold delta. destruct (Nat.eqb_spec a c); [contradiction|]. lra.
  - intros a Ha. rewrite ML by auto. cbn. unfold delta. rewrite Nat.eqb_refl. lra.
  - rewrite E. cbn. eexists. reflexivity.
Qed.

(* a run with an iterating class: the answer is that of the checking solver *)
Lemma point_run : exists i d l,
  setup constant_source point_body DynamicVelocity (laid_out mass_point DynamicVelocity) no_vectors 1 = Ok i /\
  @dynamic_solve R unit (method (nat * vec)) 2 1 (fun _ => 0) (iterate constant_source point_body DynamicVelocity DynamicGlobal)
    (direct_answer point_body DynamicVelocity diagonal_solver) 3 (fun _ => 0) (fun _ => 1) [1; 3]%Z [] (point_driver i) = (d, Ok l).
Proof.
  destruct (point_setup DynamicVelocity) as (i & S & U). exists i.
  destruct (@dynamic_runs R unit (method (nat * vec)) 2 1 (fun _ => 0)
    (iterate constant_source point_body DynamicVelocity DynamicGlobal) (direct_answer point_body DynamicVelocity diagonal_solver)
    (fun j => exists x t, point_updated DynamicVelocity x 1 t j) 1) with (n := 3%nat) (u0 := fun _ : nat => 0) (v0 := fun _ : nat => 1)
    (out := [1; 3]%Z) (d := point_driver i) as (d & l & E).
  - intros j x t (x0 & t0 & (E & _)).
    destruct (iterate_updated constant_source point_body DynamicVelocity mass_point (fun _ => StatementSpec.load mass_point)
      (fun _ => memory mass_point) (given_force mass_point DynamicVelocity) (given_heat mass_point)
      (given_force_kept mass_point [] DynamicVelocity eq_refl) (given_heat_kept mass_point []) [] eq_refl
      (proj1 (no_conditions _)) DynamicGlobal j x 1 t) as (j' & J1 & J2).
    + intros g. eexists. split; reflexivity.
    + exact E.
    + cbn. lra.
    + eauto.
  - intros j g v u (x & t & U'). exact (point_answers x t j g v u U').
  - apply point_fit.
  - cbn. lia.
  - discriminate.
  - eauto.
  - reflexivity.
  - exists d, l. split; [exact S|exact E].
Qed.

(* the same with Direct, which never updates *)
Lemma point_direct_run : exists i d l,
  setup constant_source point_body DynamicVelocity (laid_out mass_point DynamicVelocity) no_vectors 1 = Ok i /\
  point_updated DynamicVelocity no_vectors 1 0 i /\
  @dynamic_solve R unit (method (nat * vec)) 2 1 (fun _ => 0) (iterate constant_source point_body DynamicVelocity Direct)
    (direct_answer point_body DynamicVelocity diagonal_solver) 1 (fun _ => 0) (fun _ => 1) [] [] (point_driver i) = (d, Ok l).
Proof.
  destruct (point_setup DynamicVelocity) as (i & S & U). exists i.
  destruct (@dynamic_runs R unit (method (nat * vec)) 2 1 (fun _ => 0)
    (iterate constant_source point_body DynamicVelocity Direct) (direct_answer point_body DynamicVelocity diagonal_solver)
    (fun j => j = i) 1) with (n := 1%nat) (u0 := fun _ : nat => 0) (v0 := fun _ : nat => 1)
    (out := @nil Z) (d := point_driver i) as (d & l & E).
  - intros j x t ->. exists i. split; [|reflexivity]. apply iterate_idle. intros; reflexivity.
  - intros j g v u ->. exact (point_answers _ _ _ g v u U).
  - apply point_fit.
  - cbn. lia.
  - discriminate.
  - reflexivity.
  - reflexivity.
  - exists d, l. split; [exact S|]. split; [exact U|exact E].
Qed.

(* laws of the mass point *)
Lemma point_law t x y : obeys 2 (prescribed []) (law_of (moment DynamicVelocity mass_point (fun _ => StatementSpec.load mass_point)
    (fun _ => memory mass_point) x 1 t) DynamicVelocity) y -> y 0%nat = vec_v x 0%nat.
Proof.
  intros [_ O]. assert (P : forall v, ~ prescribed [] 0 v) by (intros v (sl & c & s & q & [] & _)).
  specialize (O 0%nat ltac:(lia) P). cbn [law_of] in O. unfold dynamic_law, advanced, rate, mv in O. cbn in O.
  unfold delta in O. simpl in O. lra.
Qed.

(* no velocity is ever lost, except with Direct *)
Lemma point_direct_refuted : ~ (forall (V W F : Type) integrate b k p loads relaxations (forceful heated : F -> Prop) conds linsolve nodes
    n u0 v0 out w d d' (l : list (state W)),
  keeps_force integrate b k loads forceful -> keeps_heat integrate b p heated ->
  conditions b k = Ok conds -> well_shaped (unknowns b k) conds -> consistent (prescribed conds) ->
  (forall n A r x, linsolve n A r = Ok x -> solves n A r x) ->
  fit d -> non_decreasing 0 (requested n out) -> current_time (d_sv d) = 0 ->
  equipped b k p relaxations forceful heated w -> setup integrate b k w no_vectors (dt_of d) = Ok (inner (d_sv d)) ->
  can_step k (dt_of d) ->
  @dynamic_solve V W (method F) (b_dimension b) (b_count b) nodes (iterate integrate b k Direct) (direct_answer b k linsolve)
    n u0 v0 out [] d = (d', Ok l) ->
  exists u v, governed (unknowns b k) (prescribed conds)
      (run_law k p loads relaxations (held_vec d b_vector) (held_vec d t_vector) (held_vec d p_vector) (dt_of d))
      (dt_of d) u0 v0 (last_step n out) u v /\
    forall j q (s : state W), nth_error (requested n out) j = Some q -> nth_error l j = Some s ->
      shows (dt_of d) u v (Z.to_nat q) (look (d_mem d') s)).
Proof.
  intros H. destruct point_direct_run as (i & d & l & S & U & E).
  assert (KF := given_force_kept mass_point [] DynamicVelocity eq_refl). assert (KH := given_heat_kept mass_point []).
  assert (NC := no_conditions 2).
  specialize (H R unit (nat * vec)%type constant_source point_body DynamicVelocity mass_point (fun _ => StatementSpec.load mass_point)
    (fun _ => memory mass_point) (given_force mass_point DynamicVelocity) (given_heat mass_point) [] diagonal_solver (fun _ => 0)
    1%nat (fun _ => 0) (fun _ => 1) [] (laid_out mass_point DynamicVelocity) (point_driver i) d l
    KF KH eq_refl (proj1 NC) (proj2 NC) diagonal_solver_solves (point_fit i) ltac:(cbn; lia) eq_refl
    (laid_out_equipped mass_point [] DynamicVelocity eq_refl) S ltac:(cbn; lra) E).
  destruct H as (u & v & (_ & V0 & G) & SH).
  destruct (@dynamic_never_renewed R unit _ constant_source point_body DynamicVelocity mass_point (fun _ => StatementSpec.load mass_point)
    (fun _ => memory mass_point) (given_force mass_point DynamicVelocity) (given_heat mass_point) [] Direct
    (direct_answer point_body DynamicVelocity diagonal_solver) (fun _ => 0) eq_refl (proj1 NC) (proj2 NC)
    (direct_solves constant_source point_body DynamicVelocity mass_point _ _ _ _ [] diagonal_solver diagonal_solver_solves eq_refl (proj1 NC))
    1%nat (fun _ => 0) (fun _ => 1) [] [] (point_driver i) d l no_vectors 0 ltac:(reflexivity) (point_fit i)
    ltac:(constructor) ltac:(cbn; lia) eq_refl U E) as (u' & v' & (_ & _ & G') & LL & SH').
  destruct l as [|s l]; [discriminate|].
  destruct (SH 0%nat 1%Z s eq_refl eq_refl) as (_ & _ & S1). destruct (SH' 0%nat 1%Z s eq_refl eq_refl) as (_ & _ & S2).
  change (Z.to_nat 1) with 1%nat in S1, S2. rewrite S1 in S2.
  destruct (G 0%nat) as [_ G1]; [cbn; lia|]. destruct (G' 0%nat) as [_ G2]; [cbn; lia|].
  apply point_law in G1. apply point_law in G2. rewrite <- S2, G1 in G2. cbn in G2. rewrite V0 in G2. lra.
Qed.
