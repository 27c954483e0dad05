(* Proofs of C109: the runs of a body with memory against its creep in continuous time. *)
From Coq Require Import Reals List Arith ZArith Bool String Lia Lra.
From Verif Require Import Common PyModel RVec LinAlg MeshModel MeshBuildModel MeshSpec NormalsModel
  DofModel DofSpec DirichletModel DirichletSpec DirichletProofs
  FemModel FemSpec FemAssemblyProofs FemFormProofs FemBasicProofs FemMeshProofs FemPipelineProofs ForcesModel ForcesSpec
  StatementModel StatementSpec StatementProofs StatementValueProofs StatementLawProofs
  RegistryModel StateModel StateLemmas TimeModel TimeSpec TimeProofs TimeTheorems RunProofs HistoryProofs MethodModel RunSpec
  ProblemModel ProblemSpec ProblemProofs ProblemReady ProblemTheorems ProblemUnique ProblemTotal ProblemFinal ProblemWitness ProblemContactProofs
  FemFinalProofs AlternationProofs CoupledLimitProofs EulerProofs EulerMemoryProofs ConvergenceSpec ConvergenceProofs ConvergenceFinal ConvergenceUnique
  ConvergenceMemorySpec.
Import ListNotations.
Local Open Scope string_scope.
Local Open Scope list_scope.
Local Open Scope R_scope.

(* the relaxation operator changes as slowly as its coefficients *)
Definition table_weight (N : nat) (W : nat -> nat -> mat) : R :=
  sum N (fun p => sum N (fun q => Rabs (W 0%nat 0%nat p q) + Rabs (W 1%nat 1%nat p q) + (Rabs (W 0%nat 1%nat p q) + Rabs (W 1%nat 0%nat p q)))).
Lemma weight_above N W p q : (p < N)%nat -> (q < N)%nat ->
  Rabs (W 0%nat 0%nat p q) + Rabs (W 1%nat 1%nat p q) + (Rabs (W 0%nat 1%nat p q) + Rabs (W 1%nat 0%nat p q)) <= table_weight N W.
Proof.
  intros P Q. set (f := fun p q => Rabs (W 0%nat 0%nat p q) + Rabs (W 1%nat 1%nat p q) + (Rabs (W 0%nat 1%nat p q) + Rabs (W 1%nat 0%nat p q))).
  assert (F : forall p q, 0 <= f p q) by (intros; unfold f; repeat apply Rplus_le_le_0_compat; apply Rabs_pos).
  apply (Rle_trans _ (sum N (f p))).
  - apply (term_below N (f p) q); [intros; apply F|exact Q].
  - apply (term_below N (fun p => sum N (f p)) p); [intros; apply sum_nonneg; intros; apply F|exact P].
Qed.
Lemma weight_above_0 N W : 0 <= table_weight N W.
Proof. apply sum_nonneg; intros; apply sum_nonneg; intros; repeat apply Rplus_le_le_0_compat; apply Rabs_pos. Qed.
Lemma two_terms a b a' b' x y e : Rabs (a - a') <= e -> Rabs (b - b') <= e ->
  Rabs (a * x + b * y - (a' * x + b' * y)) <= e * (Rabs x + Rabs y).
Proof.
  intros A B. replace (a * x + b * y - (a' * x + b' * y)) with ((a - a') * x + (b - b') * y) by ring.
  apply (Rle_trans _ _ _ (Rabs_triang _ _)). rewrite !Rabs_mult.
  assert (Rabs (a - a') * Rabs x <= e * Rabs x) by (apply Rmult_le_compat_r; [apply Rabs_pos|exact A]).
  assert (Rabs (b - b') * Rabs y <= e * Rabs y) by (apply Rmult_le_compat_r; [apply Rabs_pos|exact B]). lra.
Qed.
Lemma relaxation_paced N W (C C' : tensor) e : 0 <= e -> (forall i j k, Rabs (C i j k - C' i j k) <= e) ->
  forall a b, (a < 2 * N)%nat -> (b < 2 * N)%nat -> Rabs (relaxation2 N W C a b - relaxation2 N W C' a b) <= table_weight N W * e.
Proof.
  intros E0 HC a b A B. assert (NZ : N <> 0%nat) by lia. unfold relaxation2, FemModel.block.
  assert (X := weight_above N W (a mod N) (b mod N) (Nat.mod_upper_bound a N NZ) (Nat.mod_upper_bound b N NZ)).
  assert (QA : (a / N < 2)%nat) by (apply Nat.div_lt_upper_bound; lia). assert (QB : (b / N < 2)%nat) by (apply Nat.div_lt_upper_bound; lia).
  set (p := (a mod N)%nat) in *. set (q := (b mod N)%nat) in *.
  assert (P0 := Rabs_pos (W 0%nat 0%nat p q)). assert (P1 := Rabs_pos (W 1%nat 1%nat p q)). assert (P2 := Rabs_pos (W 0%nat 1%nat p q)). assert (P3 := Rabs_pos (W 1%nat 0%nat p q)).
  rewrite (Rmult_comm (table_weight N W)).
  destruct (a / N)%nat as [|[|x]]; [| |lia]; (destruct (b / N)%nat as [|[|y]]; [| |lia]); unfold FemModel.table; cbn [nth]; unfold madd, smul;
    (eapply Rle_trans; [apply (two_terms _ _ _ _ _ _ e); apply HC|apply Rmult_le_compat_l; [exact E0|lra]]).
Qed.

Section Creep.
  Variables (pb : problem) (ic id : P2 -> bool) (g : P2 -> R).
  Hypothesis PO : posed pb ic id g.
  Variables (bt : built) (ops : FemModel.operators).
  Hypothesis RD : ready pb bt None ops.
  Notation m := (bt_mesh bt).
  Notation N := (List.length (m_nodes m)).
  Notation points := (node_table coord2 zero2 (m_nodes m)).
  Variables (fi fo : P2 -> R -> vec) (T mu la : R) (C : R -> tensor).
  Notation loads := (nodal_load m (bt_basic bt) fi fo).
  Notation El := (some_mat (elasticity ops)).
  Notation Me t := (relaxation2 N (w_matrix2 points (m_elements m) None) (C t)).
  Notation given := (fixed_dof id g bt).
  Notation F2 := (fun t z => dot (2 * N) z (loads t)).
  Hypothesis EL : elastic (pr_material pb) = Some (mu, la).

  Lemma creeps_weak t b w : creeps coord2 zero2 m id mu la (C t) (fun p => fi p t) (fun p => fo p t) b w ->
    forall z, free (given 2) z -> bilinear (2 * N) (2 * N) El z w + bilinear (2 * N) (2 * N) (Me t) z b = F2 t z.
  Proof.
    intros MV z Z. destruct (grads pb ic id g PO bt ops RD z) as (G & HG). destruct (grads pb ic id g PO bt ops RD w) as (H & HH). destruct (grads pb ic id g PO bt ops RD b) as (K & HK).
    apply (vanishes_dof id g bt) in Z. assert (E := MV z G H K Z HG HH HK).
    rewrite (elastic_is pb ic id g PO bt ops RD mu la z w G H EL HG HH) in E.
    rewrite (proj1 (relaxation_2d N points (m_elements m) None (C t) (proj1 (plane pb ic id g PO bt None ops RD))) z b G K HG HK).
    unfold memory_density in E. rewrite E. symmetry. apply (loads_dot pb ic id g PO bt ops RD fi fo t z).
  Qed.

  Variables (B L D : R) (Ab U : R -> vec).
  Lemma creep_rate : clamped_mesh pb id -> 0 < mu -> 0 <= la -> 0 <= T -> 0 <= B -> 0 <= L -> 0 <= D ->
    paced_load T L fi -> paced_load T L fo -> paced_tensor T D C -> (forall t G, 0 <= t <= T -> 0 <= memory_density (C t) G G) ->
    derives (2 * N) T Ab U -> paced (2 * N) T B U -> true_creep m id g fi fo T mu la C Ab U ->
    exists ka, 0 <= ka /\ forall dt b0 u0 k ab u, 0 < dt -> motion dt (takes m id 2 g)
        (fun t a w y => creeps coord2 zero2 m id mu la (C t) (fun p => fi p t) (fun p => fo p t) y w) b0 u0 k ab u ->
      veq (2 * N) b0 (Ab 0) -> forall j i, (j <= k)%nat -> INR j * dt <= T -> (i < 2 * N)%nat ->
      Rabs (ab j i - Ab (INR j * dt) i) <= ka * dt /\ ((0 < j)%nat -> Rabs (u j i - U (INR j * dt) i) <= ka * dt).
  Proof.
    intros HU MU LA T0 B0 L0 D0 PI PF PT PC DA LU TC.
    assert (SK := elastic_symmetric pb ic id g PO bt None ops RD mu la EL). assert (PK := elastic_psd pb ic id g PO bt None ops RD I mu la EL (Rlt_le _ _ MU) LA).
    destruct (clamped_body pb ic id g PO bt None ops RD HU) as (conds & MC & HH).
    assert (FD := definite_dof pb ic id g PO bt ops RD 2 conds El MC (elastic_definite_free pb ic id g PO bt None ops RD I conds mu la HH EL MU LA)).
    destruct (component_bound (2 * N) El SK PK (given 2) (fun i v => fixed_dof_range id g bt 2 i v) FD) as (c & C0 & CB).
    destruct (work_paced bt fi fo T (2 * N) L L0 PI PF) as (L' & L1 & LW).
    set (W := w_matrix2 points (m_elements m) None) in *.
    destruct (memory_rate (2 * N) El (fun t => Me t) (given 2) T Ab U F2 PK) with (B := B) (L := L') (D := table_weight N W * D) (c := c) as (ka & K0 & HK); auto.
    - intros t TT. apply (memory_psd pb ic id g PO bt None ops RD I). intros G. exact (PC t G TT).
    - intros t i x TT. exact (proj1 (takes_dof id g bt 2 (U t)) (proj1 (TC t TT)) i x).
    - intros t z TT. exact (creeps_weak t _ _ (proj2 (TC t TT)) z).
    - apply Rmult_le_pos; [apply weight_above_0|exact D0].
    - intros i j s t I J S1 S2. rewrite Rmult_assoc. apply relaxation_paced; auto. apply Rmult_le_pos; lra.
    - exists ka. split; [exact K0|]. intros dt b0 u0 k ab u DT MO A0.
      assert (ST : remembered (2 * N) El (fun t => Me t) (given 2) F2 dt ab u k).
      { destruct MO as (_ & _ & H). intros j J. destruct (H j J) as (H1 & H2 & H3). split; [exact H1|]. split; [apply (takes_dof id g bt 2); exact H2|]. exact (creeps_weak _ _ _ H3). }
      destruct MO as (<- & _ & _). exact (HK dt ab u k DT ST A0).
  Qed.
End Creep.
