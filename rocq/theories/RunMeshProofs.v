(* The energy of runs on plane meshes: the operators are those that the library assembles. *)
From Coq Require Import Reals List Arith ZArith Bool String Lia Lra.
From Verif Require Import Common PyModel RVec LinAlg MeshModel MeshBuildModel MeshSpec DofModel DofSpec DirichletModel DirichletSpec DirichletProofs
  StatementModel StatementSpec StatementProofs StatementValueProofs StatementLawProofs StatementEnergyProofs
  RegistryModel RegistrySpec StateModel TimeModel TimeSpec StateLemmas CopyProofs TimeProofs
  RunProofs HistoryProofs SolveProofs MarchProofs TimeTheorems TimeCorollaries MethodModel MethodProofs RunSpec WholeRunProofs
  FemModel FemSpec FemPipelineProofs FemFinalProofs RunTheorems.
Import ListNotations.
Local Open Scope list_scope.
Local Open Scope R_scope.

Section Plane.
  Context {V W F : Type}.
  Variable integrate : F -> R -> F * result (nat * vec).
  Variable b : body.
  Variable p : physics.
  Variable relaxations : R -> mat.
  Variable loads : R -> vec.
  Variables forceful heated : F -> Prop.
  Variable conds : list condition.
  Variable c : solver_class.
  Variable answer : method F -> vec -> vec -> vec -> R -> result (nat * vec).
  Variable nodes : vec.
  Notation look := (@look V W).
  Hypothesis HH : homogeneous conds.
  Hypothesis F0 : forall t i, loads t i = 0.
  (* the mesh and its operators *)
  Variables (N : nat) (points : nat -> vec) (els : list (list nat)) (mp : properties) (density : option (nat -> R)) (ops : FemModel.operators).
  Hypothesis HT : triangles N points els.
  Hypothesis HO : reinitialize_matrices N points els mp density = Ok ops.
  Hypothesis HR : forall i, (i < N)%nat -> referenced els i.
  Hypothesis Hm : 0 < mass_density mp.
  Hypothesis HD : nonneg_density density.
  Hypothesis MP : mass p = acceleration_operator ops.

  Theorem dynamic_run_decay_2d th ze mu la n u0 v0 out given d d' l : let k := DynamicVelocity in
    viscous mp = Some (th, ze) -> 0 <= th -> 0 <= ze -> elastic mp = Some (mu, la) -> 0 <= mu -> 0 <= la ->
    ph_n p = (2 * N)%nat -> viscosity ops = Some (damping p) -> elasticity ops = Some (stiffness p) ->
    keeps_force integrate b k loads forceful -> keeps_heat integrate b p heated ->
    conditions b k = Ok conds -> well_shaped (unknowns b k) conds -> renews integrate b k c ->
    solves_held integrate b k p loads relaxations forceful heated conds answer ->
    fit d -> in_stock (d_mem d) given -> non_decreasing 0 (requested n out) -> current_time (d_sv d) = 0 ->
    equipped b k p relaxations forceful heated (m_world (inner (d_sv d))) -> 0 < dt_of d ->
    @dynamic_solve V W (method F) (b_dimension b) (b_count b) nodes (iterate integrate b k c) answer n u0 v0 out given d = (d', Ok l) ->
    let total w := kinetic_and_elastic (ph_n p) (mass p) (stiffness p) w in
    (forall j (s : state W), nth_error l j = Some s ->
       total (look (d_mem d') s) <= energy (ph_n p) (mass p) (stiffness p) u0 v0) /\
    (forall i j (s s' : state W), (i <= j)%nat -> nth_error l i = Some s -> nth_error l j = Some s' ->
       total (look (d_mem d') s') <= total (look (d_mem d') s)).
  Proof.
    intros k HV Ht Hz HE Hmu Hla Hn C E KF KH HC HW RN HA Ft G ND T EQ Hdt H.
    destruct (mass_block_2d N points els mp density ops HT HO HR Hm) as [SM PM].
    destruct (viscosity2_all N points els mp density ops th ze _ HT HO HV C) as (_ & _ & PC & _).
    destruct (elasticity2_all N points els mp density ops HT HO mu la _ HE E) as (_ & SE & PE & _).
    refine (dynamic_run_decay integrate b p relaxations loads forceful heated conds c answer nodes HH F0
      n u0 v0 out given d d' l KF KH HC HW RN HA _ _ _ _ _ Ft G ND T EQ Hdt H);
      rewrite Hn, ?MP; auto. apply pos_def_semidef; auto.
  Qed.

  Theorem wave_run_decay_2d s n u0 v0 out given d d' s0 l : let k := Wave in
    membrane mp = Some s -> ph_N p = N -> poisson_operator ops = Some (laplace p) ->
    keeps_force integrate b k loads forceful -> keeps_heat integrate b p heated ->
    conditions b k = Ok conds -> well_shaped (unknowns b k) conds -> renews integrate b k c ->
    solves_held integrate b k p loads relaxations forceful heated conds answer ->
    fit d -> in_stock (d_mem d) given -> non_decreasing 0 (requested n out) ->
    equipped b k p relaxations forceful heated (m_world (inner (d_sv d))) -> 0 < dt_of d ->
    @wave_solve V W (method F) (b_dimension b) (b_count b) nodes (iterate integrate b k c) answer n u0 v0 None out given d = (d', s0, Ok l) ->
    let total w := kinetic_and_elastic (ph_N p) (mass p) (laplace p) w in
    (forall j (s : state W), nth_error l j = Some s ->
       total (look (d_mem d') s) <= energy (ph_N p) (mass p) (laplace p) u0 v0) /\
    (forall i j (s s' : state W), (i <= j)%nat -> nth_error l i = Some s -> nth_error l j = Some s' ->
       total (look (d_mem d') s') <= total (look (d_mem d') s)).
  Proof.
    intros k Hs HN L KF KH HC HW RN HA Ft G ND EQ Hdt H.
    destruct (mass_block_2d N points els mp density ops HT HO HR Hm) as [SM PM].
    assert (PB : pos_def N (acceleration_operator ops)) by (apply (pos_def_block (2 * N)); [lia|exact PM]).
    destruct (poisson2_all N points els mp density ops s _ HT HO Hs L HD) as (_ & SL & PL & _).
    refine (wave_run_decay integrate b p relaxations loads forceful heated conds c answer nodes HH F0
      n u0 v0 out given d d' s0 l KF KH HC HW RN HA _ _ _ _ Ft G ND EQ Hdt H);
      rewrite HN, ?MP; auto.
    - intros i j Hi Hj. apply SM; lia.
    - apply pos_def_semidef; auto.
  Qed.
End Plane.
