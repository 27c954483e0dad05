(* Energy and uniqueness of the motions in contact computed by the global and the Schur solvers. *)
From Coq Require Import Reals List Arith ZArith Bool String Lia Lra.
From Verif Require Import Common PyModel RVec LinAlg ForcesSpec ContactModel ContactSpec ContactCostProofs ConstrainedSpec ConstrainedProofs DofModel DofSpec DirichletModel
  DirichletSpec DirichletProofs SchurModel SchurSpec
  StatementModel StatementSpec StatementProofs StatementValueProofs StatementLawProofs StatementEnergyProofs StateModel TimeModel TimeSpec StateLemmas CopyProofs TimeProofs
  RegistryModel RunProofs HistoryProofs SolveProofs MarchProofs TimeTheorems TimeCorollaries MethodModel MethodProofs RunSpec WholeRunProofs RunTheorems RunTotal
  OptimisationModel OptimisationProofs ContactRunSpec ContactRunProofs.
Import ListNotations.
Local Open Scope list_scope.
Local Open Scope R_scope.

(* the quasistatic kinds have no inertia *)
Definition inertia (k : kind) (p : physics) : mat :=
  match k with
  | DynamicVelocity | DynamicVelocityWithTemperature | DynamicVelocityWithPiezoelectric => mass p
  | _ => fun _ _ => 0
  end.
(* forces of a step: given ones and those of the held temperature or electric potential *)
Definition run_loads (k : kind) (p : physics) (loads : R -> vec) (vt vp : vec) (t : R) (i : nat) : R :=
  loads t i +
  match k with
  | QuasistaticVelocityWithPiezoelectric => - mv (ph_N p) (mT (coupling p)) vp i
  | DynamicVelocityWithPiezoelectric => mv (ph_N p) (mT (coupling p)) vp i
  | DynamicVelocityWithTemperature => mv (ph_N p) (mT (expansion p)) vt i
  | _ => 0
  end.

Section Form.
  Variable k : kind.
  Variable p : physics.
  Variable loads : R -> vec.
  Variable relaxations : R -> mat.
  Variable dt : R.
  Notation n := (ph_n p).

  Lemma run_forces_form vb vt vp : velocity_kind k -> forall u v t x i,
    run_forces k p loads relaxations vb vt vp dt u v t x i =
      mv n (inertia k p) (fun j => (x j - v j) / dt) i + mv n (damping p) x i + mv n (stiffness p) (fun j => u j + dt * x j) i
      - run_loads k p loads vt vp t i.
  Proof.
    intros VK u v t x i. unfold run_forces, run_loads, inertia.
    assert (Z : forall y, mv n (fun _ _ => 0) y i = 0) by (intros y; apply sum_0; intros; ring).
    destruct k; try contradiction; cbn [imbalance]; unfold moving, creeping, electric_load, thermal_load, rate, advanced, moment, load_moment;
      cbn [ph_n ph_N mass damping stiffness StatementSpec.load coupling expansion ph_u ph_v ph_dt ph_th ph_phi vec_u vec_v vec_t vec_p];
      rewrite ?Z; ring.
  Qed.

  Lemma inertia_symmetric : symmetric n (mass p) -> symmetric n (inertia k p).
  Proof. intros H. unfold inertia. destruct k; auto; intros i j _ _; reflexivity. Qed.

  Lemma inertia_semidef : pos_semidef n (mass p) -> pos_semidef n (inertia k p).
  Proof.
    intros PM. unfold inertia. destruct k; auto; intros x; right; symmetry; apply sum_0; intros i _; unfold mv; rewrite sum_0; intros; ring.
  Qed.

  Lemma run_definite conds : velocity_kind k -> stable_kind p conds k -> 0 < dt ->
    forall z, (forall d v, prescribed conds d v -> z d = 0) -> (exists i, (i < n)%nat /\ z i <> 0) ->
      0 < qform n (inertia k p) z / dt + qform n (damping p) z + dt * qform n (stiffness p) z.
  Proof.
    intros VK ST Hdt z Hz Nz.
    assert (Q : qform n (fun _ _ => 0) z = 0).
    { apply sum_0. intros i _. unfold mv. rewrite sum_0 by (intros; ring). ring. }
    assert (DYN : definite_free n conds (mass p) /\ pos_semidef n (damping p) /\ pos_semidef n (stiffness p) ->
      0 < qform n (mass p) z / dt + qform n (damping p) z + dt * qform n (stiffness p) z).
    { intros (DM & PC & PE). assert (0 < qform n (mass p) z / dt) by (apply Rdiv_lt_0_compat; [apply DM; auto|lra]).
      pose proof (PC z). pose proof (PE z). assert (0 <= dt * qform n (stiffness p) z) by (apply Rmult_le_pos; lra). lra. }
    assert (QUA : definite_free n conds (damping p) /\ pos_semidef n (stiffness p) ->
      0 < qform n (fun _ _ => 0) z / dt + qform n (damping p) z + dt * qform n (stiffness p) z).
    { intros (DC & PE). rewrite Q. pose proof (DC z Hz Nz). pose proof (PE z).
      assert (0 <= dt * qform n (stiffness p) z) by (apply Rmult_le_pos; lra). unfold Rdiv. lra. }
    unfold inertia. destruct k; try contradiction; cbn [stable_kind] in ST; auto.
  Qed.
End Form.

(* the contact energy is least at rest *)
Lemma resisting_energy law nodes normals faces dt s v : resisting_law law dt ->
  contact_energy law nodes normals faces dt s (fun _ _ => 0) <= contact_energy law nodes normals faces dt s v.
Proof.
  intros RL. unfold contact_energy, boundary_sum. apply sum_le. intros ei _. cbv zeta. set (e := nth ei faces []).
  apply Rmult_le_compat_l.
  - pose proof (measure_nonneg nodes e). lra.
  - unfold samples. cbn [lsum]. apply Rplus_le_compat.
    + replace (mean_at e (fun _ _ : nat => 0)) with (fun _ : nat => 0); [apply RL|].
      apply FunctionalExtensionality.functional_extensionality. intros k.
      unfold mean_at. rewrite lsum_0 by reflexivity. unfold Rdiv. ring.
    + rewrite !lsum_map. apply lsum_le. intros a _. apply RL.
Qed.

Section Law.
  Variable b : body.
  Variable k : kind.
  Variable p : physics.
  Variable loads : R -> vec.
  Variable relaxations : R -> mat.
  Variable conds : list condition.
  Variable mesh : contact_mesh.
  Variable law : contact_law.
  Variable dt : R.
  Variables vb vt vp : vec.
  Notation n := (2 * b_count b)%nat.
  Notation M := (inertia k p).
  Notation C := (damping p).
  Notation E := (stiffness p).
  Notation J := (run_contact b mesh law dt).
  Notation motion := (contact_governed n (prescribed conds) (run_forces k p loads relaxations vb vt vp dt) J dt).
  Hypothesis VK : velocity_kind k.
  Hypothesis HN : ph_n p = n.
  Hypothesis Hdt : 0 < dt.

  Lemma run_form u v t x i : run_forces k p loads relaxations vb vt vp dt u v t x i =
      mv n M (fun j => (x j - v j) / dt) i + mv n C x i + mv n E (fun j => u j + dt * x j) i - run_loads k p loads vt vp t i.
  Proof. rewrite <- HN. apply run_forces_form. exact VK. Qed.

  Section Work.
    Hypothesis SM : symmetric n (mass p).
    Hypothesis SE : symmetric n E.
    Hypothesis PM : pos_semidef n (mass p).
    Hypothesis PE : pos_semidef n E.
    Hypothesis H0 : homogeneous conds.

    Theorem run_work u0 v0 m u v : motion u0 v0 m u v -> forall j q, (j <= q <= m)%nat ->
      energy n M E (u q) (v q) + dt * sum (q - j) (fun i => qform n C (v (S (j + i))))
        + dt * sum (q - j) (fun i => J (u (j + i)%nat) (v (S (j + i))) - J (u (j + i)%nat) (fun _ => 0))
      <= energy n M E (u j) (v j) + dt * sum (q - j) (fun i => dot n (v (S (j + i))) (run_loads k p loads vt vp (INR (j + i) * dt))).
    Proof.
      assert (SI : symmetric n M) by (rewrite <- HN in SM |- *; apply inertia_symmetric; exact SM).
      assert (PI : pos_semidef n M) by (rewrite <- HN in PM |- *; apply inertia_semidef; exact PM).
      exact (contact_work n (prescribed conds) M C E dt Hdt (run_loads k p loads vt vp) _ J run_form SI SE PI PE H0 u0 v0 m u v).
    Qed.

    Theorem run_decay u0 v0 m u v : pos_semidef n C -> motion u0 v0 m u v ->
      (forall t i, (i < n)%nat -> run_loads k p loads vt vp t i = 0) -> resisting_law law dt ->
      forall j q, (j <= q <= m)%nat -> energy n M E (u q) (v q) <= energy n M E (u j) (v j).
    Proof.
      intros PC G HF RL.
      assert (HJ : forall w x, J w (fun _ => 0) <= J w x) by (intros w x; apply resisting_energy; exact RL).
      assert (SI : symmetric n M) by (rewrite <- HN in SM |- *; apply inertia_symmetric; exact SM).
      assert (PI : pos_semidef n M) by (rewrite <- HN in PM |- *; apply inertia_semidef; exact PM).
      exact (contact_decay n (prescribed conds) M C E dt Hdt (run_loads k p loads vt vp) _ J run_form SI SE PI PE H0 PC u0 v0 m u v G HF HJ).
    Qed.
  End Work.

  Theorem run_unique u0 v0 m u v u' v' : stable_kind p conds k -> faces_ok 2 (b_count b) (mesh_faces mesh) ->
    motion u0 v0 m u v -> motion u0 v0 m u' v' ->
    forall j, (j <= m)%nat -> veq n (u j) (u' j) /\ veq n (v j) (v' j).
  Proof.
    intros ST HF. apply (contact_unique n (prescribed conds) M C E dt Hdt (run_loads k p loads vt vp) _ J run_form).
    - rewrite <- HN. apply (run_definite k p dt conds); auto.
    - intros w w' x Q. apply contact_energy_at; auto.
  Qed.
End Law.

Lemma run_forces_absement k p loads relaxations vb vb' vt vp dt : velocity_kind k ->
  run_forces k p loads relaxations vb vt vp dt = run_forces k p loads relaxations vb' vt vp dt.
Proof. intros VK. destruct k; try contradiction; reflexivity. Qed.

(* the global and the Schur solver, with whatever optimisers, compute the same motion *)
Section Same.
  Context {V W V' W' F : Type}.
  Variable integrate : F -> R -> F * result (nat * vec).
  Variable b : body.
  Variable k : kind.
  Variable p : physics.
  Variable loads : R -> vec.
  Variable relaxations : R -> mat.
  Variables forceful heated : F -> Prop.
  Variable conds : list condition.
  Variable mesh : contact_mesh.
  Variable law : contact_law.
  Variables minimise minimise' : route -> nat -> (arr -> result R) -> arr -> arr.
  Variables (name name' : string) (maxiter maxiter' : option nat).
  Variables c c' : solver_class.
  Variables nodes nodes' : vec.
  Variable inv : nat -> mat -> result mat.
  Variable dt : R.
  Notation N := (b_count b).
  Notation global := (global_answer (F := F) b k mesh law minimise name maxiter).
  Notation schur := (schur_answer (F := F) b k mesh law minimise' name' maxiter' false).
  Hypothesis HS : contact_setting integrate b k p loads forceful heated conds mesh law dt.
  Hypothesis HG : forall m, reliable (minimise (route_of name) m).
  Hypothesis HR : forall m, reliable (minimise' (route_of name') m).
  Hypothesis HI : inverts inv.
  Hypothesis AP : faces_apart b mesh conds.
  Hypothesis SP : faces_split b mesh conds.
  Hypothesis CN : (mesh_contact_count mesh <= N)%nat.

  Theorem same_run n u0 v0 out given given' (d d' : driver V (method F)) (e e' : driver V' (schur_method F)) l l' w w' x x' :
    velocity_kind k -> renews integrate b k c -> renews integrate b k c' -> schur_class c' ->
    non_decreasing 0 (requested n out) ->
    fit d -> in_stock (d_mem d) given -> current_time (d_sv d) = 0 -> dt_of d = dt ->
    fit e -> in_stock (d_mem e) given' -> current_time (d_sv e) = 0 -> dt_of e = dt ->
    held_vec d t_vector = held_vec e t_vector -> held_vec d p_vector = held_vec e p_vector ->
    equipped b k p relaxations forceful heated w -> setup integrate b k w x dt = Ok (inner (d_sv d)) ->
    equipped b k p relaxations forceful heated w' -> schur_setup integrate b k mesh inv w' x' dt = Ok (inner (d_sv e)) ->
    @dynamic_solve V W (method F) (b_dimension b) N nodes (MethodModel.iterate integrate b k c) global n u0 v0 out given d = (d', Ok l) ->
    @dynamic_solve V' W' (schur_method F) (b_dimension b) N nodes' (schur_iterate integrate b k mesh c') schur n u0 v0 out given' e = (e', Ok l') ->
    forall j s s', nth_error l j = Some s -> nth_error l' j = Some s' ->
    view_time (look (d_mem d') s) = view_time (look (d_mem e') s') /\
    veq (2 * N) (view_displacement (look (d_mem d') s)) (view_displacement (look (d_mem e') s')) /\
    veq (2 * N) (view_velocity (look (d_mem d') s)) (view_velocity (look (d_mem e') s')).
  Proof.
    intros VK RN RN' SCl ND Fd Gd Td Dd Fe Ge Te De ET EP EQ SU EQ' SU' Hd He j s s' Hs Hs'.
    destruct (global_run integrate b k p loads relaxations forceful heated conds mesh law minimise name maxiter c nodes dt HS HG AP
      n u0 v0 out given d d' l w x VK RN Fd Gd ND Td Dd EQ SU Hd) as (u & v & G & LL & SH).
    destruct (schur_run integrate b k p loads relaxations forceful heated conds mesh law minimise' name' maxiter' c' nodes' dt HS HR inv HI SP CN
      n u0 v0 out given' e e' l' w' x' VK RN' SCl (or_intror AP) Fe Ge ND Te De EQ' SU' He) as (u' & v' & G' & LL' & SH').
    rewrite (run_forces_absement k p loads relaxations (held_vec e b_vector) (held_vec d b_vector)), <- ET, <- EP in G' by exact VK.
    destruct (nth_error (requested n out) j) as [q|] eqn:Q.
    2:{ apply nth_error_None in Q. assert (nth_error l j <> None) as X by congruence. apply nth_error_Some in X. lia. }
    destruct (SH j q s Q Hs) as (T1 & U1 & V1). destruct (SH' j q s' Q Hs') as (T2 & U2 & V2).
    rewrite T1, T2, U1, U2, V1, V2. split; [reflexivity|].
    destruct HS as (HB & _ & _ & _ & _ & HF & _ & _ & _ & ST & _ & _ & Hdt & _).
    destruct EQ as (Z1 & Z2 & _).
    refine (run_unique b k p loads relaxations conds mesh law dt _ _ _ VK _ (Hdt VK) u0 v0 (last_step n out) u v u' v' ST HF G G' _ _).
    - rewrite Z2, HB. lia.
    - unfold last_step. pose proof (non_decreasing_last _ _ _ ND (nth_error_In _ _ Q)). lia.
  Qed.
End Same.
