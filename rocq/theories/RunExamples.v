(* Runs of every driver: a mass point on a spring. *)
From Coq Require Import Reals List Arith ZArith Bool String Lia Lra.
From Verif Require Import Common PyModel RVec LinAlg DofModel DofSpec DirichletModel DirichletSpec DirichletProofs
  StatementModel StatementSpec StatementProofs StatementValueProofs StatementLawProofs StatementEnergyProofs StatementExamples
  RegistryModel RegistrySpec RegistryProofs DispatchProofs StateModel TimeModel TimeSpec StateLemmas CopyProofs TimeProofs
  RunProofs HistoryProofs SolveProofs MarchProofs TimeTheorems TimeCorollaries MethodModel MethodProofs RunSpec WholeRunProofs
  RunTheorems RunTotal RunWitness.
Import ListNotations.
Local Open Scope list_scope.
Local Open Scope R_scope.

(* unit mass, stiffness, memory and load [f] *)
Definition spring (f : R) : physics :=
  mkPhysics 1 2 delta delta (fun _ _ => 0) delta delta delta delta (fun _ _ => 0) (fun _ _ => 0)
    (fun _ => f) (fun _ => 0) (fun _ => 0) (fun _ => 0) (fun _ => 0) (fun _ => 0) (fun _ => 0) 1.
Definition spring_body (f : R) : body := laid_out_body (spring f) [].
Definition spring_loads (f : R) : R -> vec := fun _ => StatementSpec.load (spring f).

Notation spring_updated f k := (updated constant_source (spring_body f) k (spring f) (spring_loads f) (fun _ => memory (spring f))
  (given_force (spring f) k) (given_heat (spring f)) []).
Notation spring_equipped f k := (equipped (spring_body f) k (spring f) (fun _ => memory (spring f))
  (given_force (spring f) k) (given_heat (spring f))).

Lemma spring_setup f k : exists i, setup constant_source (spring_body f) k (laid_out (spring f) k) no_vectors 1 = Ok i /\
  spring_updated f k no_vectors 1 0 i.
Proof.
  apply setup_updated.
  - apply given_force_kept. reflexivity.
  - apply given_heat_kept.
  - reflexivity.
  - apply no_conditions.
  - apply laid_out_equipped. reflexivity.
  - destruct k; cbn; auto; lra.
Qed.

Definition spring_kind (k : kind) : Prop :=
  match k with Wave | StaticDisplacement | QuasistaticRelaxation | DynamicVelocity => True | _ => False end.

Lemma spring_answers f k x t i g v u : spring_kind k -> spring_updated f k x 1 t i ->
  exists y, direct_answer (spring_body f) k diagonal_solver i g v u 1 = Ok (2%nat, y).
Proof.
  intros K (_ & LEN & ML & _). unfold direct_answer, direct_solve_impl. rewrite LEN.
  destruct (diagonal_solver_works (unknowns (spring_body f) k) (load_m (hp (m_world i)) (sm_data (m_lhs i)))
    (load_v (hp (m_world i)) (m_rhs i))) as (y & E).
  - intros a c Ha Hc N. rewrite ML by auto.
    destruct k; try contradiction; cbn; unfold delta; (destruct (Nat.eqb_spec a c); [contradiction|]); lra.
  - intros a Ha. rewrite ML by auto. destruct k; try contradiction; cbn; unfold delta; rewrite Nat.eqb_refl; lra.
  - rewrite E. destruct k; try contradiction; cbn; eexists; reflexivity.
Qed.

(* an update after any other *)
Lemma spring_iterates f k c j x t : spring_kind k -> renews constant_source (spring_body f) k c ->
  (exists x0 t0, spring_updated f k x0 1 t0 j) ->
  exists j', iterate constant_source (spring_body f) k c j x 1 t = Ok j' /\ exists x0 t0, spring_updated f k x0 1 t0 j'.
Proof.
  intros K RN (x0 & t0 & (E & _)).
  destruct (iterate_updated constant_source (spring_body f) k (spring f) (spring_loads f)
      (fun _ => memory (spring f)) (given_force (spring f) k) (given_heat (spring f))
      (given_force_kept (spring f) [] k eq_refl) (given_heat_kept (spring f) []) [] eq_refl
      (proj1 (no_conditions _)) c j x 1 t RN E) as (j' & J1 & J2).
  - destruct k; cbn; auto; lra.
  - eauto.
Qed.

Section Runs.
  Variable f : R.
  Notation held k c := (iterate constant_source (spring_body f) k c).
  Notation asked k := (direct_answer (spring_body f) k diagonal_solver).
  Notation I := (method (nat * vec)).

  Lemma dynamic_renews : renews constant_source (spring_body f) DynamicVelocity DynamicGlobal.
  Proof. intros g. eexists. split; reflexivity. Qed.
  Lemma wave_renews : renews constant_source (spring_body f) Wave DynamicSchur.
  Proof. intros g. eexists. split; reflexivity. Qed.
  Lemma relaxation_renews : renews constant_source (spring_body f) QuasistaticRelaxation RelaxedSchur.
  Proof. intros g. eexists. split; reflexivity. Qed.

  Definition well_begun (k : kind) (i : I) : Prop :=
    setup constant_source (spring_body f) k (laid_out (spring f) k) no_vectors 1 = Ok i /\
    spring_updated f k no_vectors 1 0 i.

  Lemma spring_dynamic : exists i d l, well_begun DynamicVelocity i /\
    @dynamic_solve R unit I 2 1 (fun _ => 0) (held DynamicVelocity DynamicGlobal) (asked DynamicVelocity)
      3 (fun _ => 2) (fun _ => 1) [1; 3]%Z [] (point_driver i) = (d, Ok l).
  Proof.
    destruct (spring_setup f DynamicVelocity) as (i & S & U). exists i.
    destruct (@dynamic_runs R unit I 2 1 (fun _ => 0) (held DynamicVelocity DynamicGlobal) (asked DynamicVelocity)
      (fun j => exists x t, spring_updated f DynamicVelocity x 1 t j) 1) with (n := 3%nat) (u0 := fun _ : nat => 2)
      (v0 := fun _ : nat => 1) (out := [1; 3]%Z) (d := point_driver i) as (d & l & E); eauto.
    - intros j x t H. apply spring_iterates; [exact Logic.I|exact dynamic_renews|exact H].
    - intros j g v u (x & t & H). eapply spring_answers; [exact Logic.I|exact H].
    - apply point_fit.
    - cbn. lia.
    - exists d, l. split; [split; [exact S|exact U]|exact E].
  Qed.

  Lemma spring_wave : exists i d s l, well_begun Wave i /\
    @wave_solve R unit I 2 1 (fun _ => 0) (held Wave DynamicSchur) (asked Wave)
      3 (fun _ => 2) (fun _ => 1) None [1; 3]%Z [] (point_driver i) = (d, s, Ok l).
  Proof.
    destruct (spring_setup f Wave) as (i & S & U). exists i.
    destruct (@wave_runs R unit I 2 1 (fun _ => 0) (held Wave DynamicSchur) (asked Wave)
      (fun j => exists x t, spring_updated f Wave x 1 t j) 1) with (n := 3%nat) (u0 := fun _ : nat => 2)
      (v0 := fun _ : nat => 1) (out := [1; 3]%Z) (d := point_driver i) as (d & s & l & E); eauto.
    - intros j x t H. apply spring_iterates; [exact Logic.I|exact wave_renews|exact H].
    - intros j g v u (x & t & H). eapply spring_answers; [exact Logic.I|exact H].
    - apply point_fit.
    - cbn. lia.
    - exists d, s, l. split; [split; [exact S|exact U]|exact E].
  Qed.

  Lemma spring_relaxation : exists i d l, well_begun QuasistaticRelaxation i /\
    @relaxation_solve R unit I 2 1 (fun _ => 0) (held QuasistaticRelaxation RelaxedSchur) (asked QuasistaticRelaxation)
      3 (fun _ => 2) (fun _ => 1) [1; 3]%Z [] (point_driver i) = (d, Ok l).
  Proof.
    destruct (spring_setup f QuasistaticRelaxation) as (i & S & U). exists i.
    destruct (@relaxation_runs R unit I 2 1 (fun _ => 0) (held QuasistaticRelaxation RelaxedSchur) (asked QuasistaticRelaxation)
      (fun j => exists x t, spring_updated f QuasistaticRelaxation x 1 t j) 1) with (n := 3%nat) (b0 := fun _ : nat => 2)
      (u0 := fun _ : nat => 1) (out := [1; 3]%Z) (d := point_driver i) as (d & l & E); eauto.
    - intros j x t H. apply spring_iterates; [exact Logic.I|exact relaxation_renews|exact H].
    - intros j g v u (x & t & H). eapply spring_answers; [exact Logic.I|exact H].
    - apply point_fit.
    - cbn. lia.
    - exists d, l. split; [split; [exact S|exact U]|exact E].
  Qed.

  (* the static driver with the class Direct *)
  Lemma spring_static : exists i d s, well_begun StaticDisplacement i /\
    @static_solve R unit I 2 1 (fun _ => 0) (held StaticDisplacement Direct) (asked StaticDisplacement)
      (fun _ => 2) [] (point_driver i) = (d, Ok s).
  Proof.
    destruct (spring_setup f StaticDisplacement) as (i & S & U). exists i.
    destruct (@static_runs R unit I 2 1 (fun _ => 0) (held StaticDisplacement Direct) (asked StaticDisplacement)
      (fun j => exists x t, spring_updated f StaticDisplacement x 1 t j) 1) with (u0 := fun _ : nat => 2)
      (d := point_driver i) as (d & s & E); eauto.
    - intros j x t H. exists j. split; [|exact H]. apply iterate_idle. intros; reflexivity.
    - intros j g v u (x & t & H). eapply spring_answers; [exact Logic.I|exact H].
    - apply point_fit.
    - cbn. discriminate.
    - exists d, s. split; [split; [exact S|exact U]|exact E].
  Qed.

  (* what these runs have in common *)
  Lemma spring_facts k :
    keeps_force constant_source (spring_body f) k (spring_loads f) (given_force (spring f) k) /\
    keeps_heat constant_source (spring_body f) (spring f) (given_heat (spring f)) /\
    conditions (spring_body f) k = Ok [] /\ well_shaped (unknowns (spring_body f) k) [] /\ consistent (prescribed []) /\
    solves_held constant_source (spring_body f) k (spring f) (spring_loads f) (fun _ => memory (spring f))
      (given_force (spring f) k) (given_heat (spring f)) [] (asked k).
  Proof.
    split; [apply given_force_kept; reflexivity|]. split; [apply given_heat_kept|]. split; [reflexivity|].
    split; [apply no_conditions|]. split; [apply (no_conditions 0)|].
    apply direct_solves; [exact diagonal_solver_solves|reflexivity|apply no_conditions].
  Qed.

  Lemma spring_fit i : fit (point_driver i) /\ current_time (d_sv (point_driver i)) = 0 /\ dt_of (point_driver i) = 1 /\
    in_stock (d_mem (point_driver i)) [] /\ non_decreasing 0 (requested 3 [1; 3]%Z).
  Proof.
    split; [apply point_fit|]. split; [reflexivity|]. split; [reflexivity|]. split; [constructor|]. cbn. lia.
  Qed.
End Runs.

Lemma spring_forms : symmetric 2 delta /\ pos_semidef 2 delta.
Proof.
  split.
  - intros i j _ _. unfold delta. rewrite Nat.eqb_sym. reflexivity.
  - intros x. unfold qform, dot, mv, delta. cbn.
    assert (0 <= x 0%nat * x 0%nat + x 1%nat * x 1%nat) by nra. lra.
Qed.

Lemma spring_energy_facts : (forall t i, spring_loads 0 t i = 0) /\ homogeneous [] /\
  symmetric (ph_n (spring 0)) (mass (spring 0)) /\ pos_semidef (ph_n (spring 0)) (mass (spring 0)) /\
  stiffness (spring 0) = mass (spring 0) /\ laplace (spring 0) = mass (spring 0) /\
  pos_semidef (ph_n (spring 0)) (damping (spring 0)).
Proof.
  split; [reflexivity|]. split; [intros dd v (sl & c & s & q & [] & _)|].
  split; [apply spring_forms|]. split; [apply spring_forms|]. split; [reflexivity|]. split; [reflexivity|].
  intros x. unfold qform, dot, mv. cbn. lra.
Qed.
