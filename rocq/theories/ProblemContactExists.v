(* A posed problem with contact has motions of any number of steps (no solver involved). *)
From Coq Require Import Reals List Arith ZArith Bool String Lia Lra Classical FunctionalExtensionality.
From Verif Require Import Common PyModel RVec LinAlg MeshModel MeshBuildModel MeshSpec NormalsModel FemModel FemSpec FemAssemblyProofs ForcesModel ForcesSpec
  DofModel DofSpec DirichletModel DirichletSpec DirichletProofs ContactModel ContactSpec ContactCostProofs ConstrainedSpec ConstrainedProofs
  StatementModel StatementSpec StatementProofs StatementValueProofs StatementLawProofs
  RegistryModel StateModel StateLemmas TimeModel TimeSpec TimeProofs MethodModel MethodProofs RunSpec
  OptimisationModel OptimisationProofs ContactRunSpec ContactRunProofs ContactRunTheorems
  ProblemModel ProblemSpec ProblemProofs ProblemReady ProblemTheorems ProblemUnique
  ProblemContactModel ProblemContactSpec ProblemContactProofs ProblemContactTheorems.
Import ListNotations.
Local Open Scope string_scope.
Local Open Scope list_scope.
Local Open Scope R_scope.

Section Exists.
  Variables (pb : problem) (ic id : P2 -> bool) (g : P2 -> R) (fi fo : P2 -> R -> vec) (k : kind) (th ze mu la : R) (law : contact_law).
  Hypothesis CP : contact_posed pb ic id g fi fo k th ze mu la law.
  Variables (bt : built) (density : option (nat -> R)).
  Hypothesis PR : prepared pb bt density.
  Hypothesis PD : positive_density density.
  Hypothesis VK : velocity_kind k.
  Notation m := (bt_mesh bt).
  Notation N := (List.length (m_nodes m)).
  Notation dt := (time_step_of pb).
  Notation J := (contact_cost coord2 zero2 m law (contact_normals m (bt_normals bt)) dt).
  Notation step := (contact_step coord2 zero2 m density id g (mass_density (pr_material pb)) th ze mu la fi fo k).
  Notation no := (fun _ : nat => 0).

  Lemma step_exists u v t : exists x, step t (J u) (fun i => (x i - v i) / dt) x (fun i => u i + dt * x i).
  Proof.
    destruct (posed_ready pb ic id g fi fo k th ze mu la law CP bt density PR PD) as (ops & conds & RD & HP & BC & HS & EQ & AP & SP & CN).
    pose proof (cp_sturdy _ _ _ _ _ _ _ _ _ _ _ _ CP) as SK. pose proof (cp_posed _ _ _ _ _ _ _ _ _ _ _ _ CP) as PO.
    destruct HS as (HB & HC & HW & HK & HMw & HF & SM & SC & SE & ST & KF & KH & Hdt & CV). specialize (Hdt VK).
    set (p := physics_of N ops (fun _ => 0)) in *. set (loads := nodal_load m (bt_basic bt) fi fo) in *.
    assert (UN : unknowns (bt_body bt) k = (2 * N)%nat).
    { unfold unknowns. rewrite HB, BC. destruct SK as (_ & SK). destruct k; try contradiction; reflexivity. }
    rewrite UN in HW. change (ph_n p) with (2 * N)%nat in SM, SC, SE.
    set (M := inertia k p). set (C := damping p). set (K := stiffness p).
    assert (SI : symmetric (2 * N) M) by (apply (inertia_symmetric k p SM)).
    set (A := fun i j => M i j / dt + C i j + dt * K i j).
    set (b := fun i => run_loads k p loads no no t i + mv (2 * N) M v i / dt - mv (2 * N) K u i).
    assert (MA : forall x i, mv (2 * N) A x i = mv (2 * N) M x i / dt + mv (2 * N) C x i + dt * mv (2 * N) K x i).
    { intros x i. unfold mv, A, Rdiv. rewrite <- sum_scal_r, <- sum_scal, <- !sum_plus. apply sum_ext. intros; ring. }
    assert (QA : forall x, qform (2 * N) A x = qform (2 * N) M x / dt + qform (2 * N) C x + dt * qform (2 * N) K x).
    { intros x. unfold qform, dot, Rdiv. rewrite <- sum_scal_r, <- sum_scal, <- !sum_plus. apply sum_ext. intros. rewrite MA. unfold Rdiv. ring. }
    assert (SA : symmetric (2 * N) A) by (intros i j I Jj; unfold A, C, K; rewrite (SI i j I Jj), (SC i j I Jj), (SE i j I Jj); reflexivity).
    assert (DA : definite_among (2 * N) (prescribed conds) A).
    { intros z Hz Nz. rewrite QA. exact (run_definite k p dt conds VK ST Hdt z Hz Nz). }
    assert (FK : faces_ok 2 N (faces_of m "contact")) by (rewrite BC in HF; exact HF).
    destruct (constrained_exactly_one (2 * N) A b conds (J u) HW HK SA DA (contact_energy_convex _ _ _ _ _ _ _ CV) (contact_energy_local _ _ _ _ _ _ _ FK)) as (x & (AD & MN) & _).
    exists x. apply (moving_inequality pb ic id g PO bt density ops RD fi fo conds k th ze mu la dt no no no (J u) t u v x VK SK HP).
    split; [exact AD|]. intros y AY.
    assert (PA : forall z, (forall d w, prescribed conds d w -> z d = 0) -> 0 <= qform (2 * N) A z).
    { intros z Hz. destruct (classic (exists i, (i < 2 * N)%nat /\ z i <> 0)) as [Z|Z]; [left; exact (DA z Hz Z)|right; symmetry; apply sum_0; intros i I].
      destruct (Req_dec (z i) 0) as [-> |NZ]; [ring|exfalso; apply Z; eauto]. }
    assert (Q := proj1 (constrained_inequality (2 * N) A b (prescribed conds) (J u) x SA PA (contact_energy_convex _ _ _ _ _ _ _ CV) AD) MN y AY).
    assert (E : dot (2 * N) (run_forces k p loads (fun _ _ _ => 0) no no no dt u v t x) (fun i => y i - x i) = dot (2 * N) (mv (2 * N) A x) (fun i => y i - x i) - dot (2 * N) b (fun i => y i - x i)).
    { unfold dot. rewrite <- sum_minus. apply sum_ext. intros i I. rewrite (run_forces_form k p loads (fun _ _ _ => 0) dt no no no VK u v t x i), MA. unfold b.
      change (ph_n p) with (2 * N)%nat. fold M. fold C. fold K.
      assert (E1 : mv (2 * N) M (fun j => (x j - v j) / dt) i = mv (2 * N) M x i / dt - mv (2 * N) M v i / dt).
      { unfold mv, Rdiv. rewrite <- !sum_scal_r, <- sum_minus. apply sum_ext. intros; ring. }
      assert (E2 : mv (2 * N) K (fun j => u j + dt * x j) i = mv (2 * N) K u i + dt * mv (2 * N) K x i).
      { unfold mv. rewrite <- sum_scal, <- sum_plus. apply sum_ext. intros; ring. }
      rewrite E1, E2. ring. }
    fold p. fold loads. rewrite E. lra.
  Qed.

  Lemma motion_exists u0 v0 n : exists u v, posed_motion pb bt density id g fi fo k th ze mu la law u0 v0 n u v.
  Proof.
    induction n as [|n (u & v & U0 & V0 & H)].
    - exists (fun _ => u0), (fun _ => v0). split; [reflexivity|]. split; [reflexivity|]. intros j X. lia.
    - destruct (step_exists (u n) (v n) (INR n * dt)) as (x & HX).
      exists (fun j => if (j =? S n)%nat then (fun i => u n i + dt * x i) else u j), (fun j => if (j =? S n)%nat then x else v j).
      split; [exact U0|]. split; [exact V0|]. intros j Hj.
      destruct (Nat.eqb_spec j (S n)) as [E|NE]; [lia|]. destruct (Nat.eqb_spec (S j) (S n)) as [E|NE'].
      + injection E as ->. split; [reflexivity|exact HX].
      + apply H. lia.
  Qed.
End Exists.
