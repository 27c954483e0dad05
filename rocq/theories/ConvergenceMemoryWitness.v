(* A body with memory under a constant weight, clamped on the left. *)
From Coq Require Import Reals List Arith ZArith Bool String Sorting.Sorted Lia Lra.
From Verif Require Import ListLemmas MeshBuildProofs Common PyModel RVec LinAlg MeshModel MeshBuildModel MeshSpec MeshFacesProofs NormalsModel
  FemModel FemSpec ForcesSpec ForcesModel DirichletSpec StatementModel StatementSpec StatementValueProofs StateModel RegistryModel
  TimeModel TimeSpec TimeProofs TimeTheorems MethodModel RunSpec RunProofs HistoryProofs
  RunStable ProblemModel ProblemSpec ProblemProofs ProblemReady ProblemTheorems ProblemTotal ProblemFinal ProblemWitness
  CoupledLimitProofs ConvergenceSpec ConvergenceFinal ConvergenceWitness ConvergenceMemorySpec ConvergenceMemoryProofs ConvergenceMemoryFinal.
Import ListNotations.
Local Open Scope string_scope.
Local Open Scope list_scope.
Local Open Scope R_scope.

Section Relaxing.
  Variable rate : R.
  Definition steady (p : P2) : vec := down 1.
  Definition still (p : P2) : vec := fun _ => 0.
  Definition relaxing : problem :=
    mkProblem square_nodes square_elements (mkDescription [("contact", on_line 1); ("dirichlet", on_line 0)] [("dirichlet", fun l i => 0)])
      2 (fun p t => Ok (steady p)) (fun p t => Ok (still p)) None (Some (1 / 2)) (mkProperties 2 (Some (4, 3)) (Some (1, 2)) None None None)
      (Some (fun _ => Ok (proportional rate 4 3))).
  Lemma relaxing_posed : posed relaxing (on_line 1) (on_line 0) (fun _ => 0).
  Proof.
    constructor.
    - repeat constructor.
    - repeat constructor; cbn; intuition discriminate.
    - intros e [<-|[<-|[]]]; unfold det_2d, corners, node_table; cbn; lra.
    - reflexivity.
    - reflexivity.
    - eexists. split; [reflexivity|]. intros l i p H. reflexivity.
  Qed.
  Lemma relaxing_constructs : exists bt, construct relaxing = Ok bt.
  Proof. apply (construct_total _ _ _ _ relaxing_posed); [discriminate|intros name [<-|[<-|[]]]; auto|exact square_separate]. Qed.
  Lemma relaxing_loaded : loaded relaxing 2 (fun p _ => steady p) (fun p _ => still p).
  Proof. repeat split. Qed.
  Lemma relaxing_clamped : clamped_mesh relaxing (on_line 0).
  Proof. exact (square_clamped 2 given_weight None). Qed.

  Variable bt : built.
  Hypothesis PR : construct relaxing = Ok bt.
  Notation m := (bt_mesh bt).
  Notation N := (List.length (m_nodes m)).
  (* the displacement of the same body without memory *)
  Lemma relaxing_static : exists u, takes m (on_line 0) 2 (fun _ => 0) u /\ balances coord2 zero2 m None (on_line 0) 4 3 steady still u.
  Proof.
    destruct (static_total (V:=R) (W:=unit) relaxing _ _ _ relaxing_posed bt None (constructed _ _ PR) (exact_answer (2 * N)) (fun p _ => steady p) (fun p _ => still p) StaticGlobal 4 3 no_memory
      relaxing_loaded eq_refl ltac:(lra) ltac:(lra) Logic.I relaxing_clamped (exact_exactly _ _) (exact_definite _ _) (fun _ => eq_refl)) as (d & _ & H).
    destruct (H (fun _ => 0)) as (d' & s & _ & TU & BU & _). eauto.
  Qed.
  (* it is not zero: the weight does work on a lift of the right side *)
  Definition lifted : vec := fun i => if (i <? N)%nat then 0 else (fst (nth (i - N) (m_nodes m) zero2)) ^ 2.
  Lemma lifted_0 n : (n < N)%nat -> component N lifted 0 n = 0.
  Proof. intros H. unfold component, lifted. cbn [Nat.mul Nat.add]. destruct (Nat.ltb_spec n N); [reflexivity|lia]. Qed.
  Lemma lifted_1 n : component N lifted 1 n = (fst (nth n (m_nodes m) zero2)) ^ 2.
  Proof. unfold component, lifted. replace (1 * N + n)%nat with (N + n)%nat by lia. destruct (Nat.ltb_spec (N + n) N); [lia|]. replace (N + n - N)%nat with n by lia. reflexivity. Qed.
  Lemma relaxing_moves u : balances coord2 zero2 m None (on_line 0) 4 3 steady still u -> ~ veq (2 * N) u (fun _ => 0).
  Proof.
    intros BU UZ. destruct (built_ready _ _ _ _ relaxing_posed bt PR) as (ops & RD & _).
    destruct (grads relaxing _ _ _ relaxing_posed bt ops RD lifted) as (G & HG).
    destruct (plane _ _ _ _ relaxing_posed bt None ops RD) as ((HI & HL & HD) & _ & RE).
    assert (CN : forall e i, In e (m_elements m) -> (i < 3)%nat -> (nth i e 0 < N)%nat).
    { intros e i E I. unfold in_range in HI. rewrite Forall_forall in HI. specialize (HI e E). rewrite Forall_forall in HI. rewrite Forall_forall in HL. specialize (HL e E). change (List.length e = 3%nat) in HL. apply HI, nth_In. lia. }
    assert (HZ : gradients coord2 zero2 m u (fun _ _ _ => 0)).
    { intros k K e E i j I J. unfold component. assert (forall x, (x < 3)%nat -> u (k * N + nth x e 0)%nat = 0) as Z by (intros x X; apply UZ; specialize (CN e x E X); nia).
      rewrite !Z by lia. rewrite sum_0 by (intros; ring). ring. }
    assert (VZ : vanishes m (on_line 0) 2 lifted).
    { intros n k (_ & p & NP & OL) K. apply on_line_true in OL. assert (NN : (n < N)%nat) by (apply nth_error_Some; congruence).
      destruct k as [|[|k]]; [exact (lifted_0 n NN)| |lia]. transitivity (component N lifted 1 n); [reflexivity|]. rewrite lifted_1. rewrite (nth_error_nth _ _ _ NP), OL. ring. }
    specialize (BU lifted G _ VZ HG HZ).
    assert (SZ : stress_work coord2 zero2 m None 4 3 G (fun _ _ _ => 0) = 0).
    { unfold stress_work, mesh_integral, integral. apply lsum_0. intros e _. unfold elastic_density, strain, divergence. cbn [sum]. unfold Rdiv. ring. }
    rewrite SZ in BU. unfold load_work in BU.
    assert (SW : surface_work coord2 zero2 m 2 still lifted = 0).
    { unfold surface_work, face_integral. apply sum_0. intros c _. apply lsum_0. intros f _. rewrite (lsum_0 f); [unfold Rdiv; ring|]. intros n _. unfold at_nodes, still. ring. }
    rewrite SW, Rplus_0_r in BU. unfold volume_work in BU. cbn [sum] in BU. rewrite Rplus_0_l in BU.
    unfold integral in BU. rewrite (lsum_0 (m_elements m) (fun e => element_area _ e * cross_mean 2 e (component N lifted 0) _)), Rplus_0_l in BU.
    2:{ intros e E. unfold cross_mean. cbn [sum]. rewrite !lifted_0 by (apply CN; [exact E|lia]). unfold Rdiv. ring. }
    assert (PE : forall e, In e (m_elements m) -> 0 < element_area (node_table coord2 zero2 (m_nodes m)) e * cross_mean 2 e (component N lifted 1) (at_nodes zero2 m steady 1)).
    { intros e E. specialize (HD e E). unfold cross_mean. cbn [sum]. rewrite !lifted_1. unfold at_nodes, steady, down. cbn [Nat.eqb].
      set (x0 := fst (nth (nth 0 e 0%nat) (m_nodes m) zero2)). set (x1 := fst (nth (nth 1 e 0%nat) (m_nodes m) zero2)). set (x2 := fst (nth (nth 2 e 0%nat) (m_nodes m) zero2)).
      apply Rmult_lt_0_compat.
      - unfold element_area, area. apply Rmult_lt_0_compat; [apply Rabs_pos_lt; exact HD|lra].
      - replace (_ / _) with ((x0 ^ 2 + x1 ^ 2 + x2 ^ 2) / 3) by (cbn [INR]; field).
        destruct (Req_dec x0 0) as [Z0|Z0]; [destruct (Req_dec x1 0) as [Z1|Z1]; [destruct (Req_dec x2 0) as [Z2|Z2]|]|].
        + exfalso. apply HD. unfold det_2d, corners, node_table, coord2. cbn. fold x0 x1 x2. rewrite Z0, Z1, Z2. ring.
        + assert (0 < x2 ^ 2) by (rewrite <- Rsqr_pow2; apply Rsqr_pos_lt; exact Z2). assert (A := pow2_ge_0 x0). assert (B := pow2_ge_0 x1). lra.
        + assert (0 < x1 ^ 2) by (rewrite <- Rsqr_pow2; apply Rsqr_pos_lt; exact Z1). assert (A := pow2_ge_0 x0). assert (B := pow2_ge_0 x2). lra.
        + assert (0 < x0 ^ 2) by (rewrite <- Rsqr_pow2; apply Rsqr_pos_lt; exact Z0). assert (A := pow2_ge_0 x1). assert (B := pow2_ge_0 x2). lra. }
    assert (NP : (0 < N)%nat).
    { pose proof RD as (HB & _). pose proof relaxing_posed as [HR HS HA HC HF (f & Hf & PW)].
      destruct (mesh_node_order P2 vec mean2 zero2 _ _ _ _ 3 _ _ HR HS HC HF HB) as (C & Ne & I & D & [U A K R _ _ _ _ _]).
      rewrite <- (Forall2_length' _ _ _ K).
      assert (Z : In 0%nat (C ++ Ne ++ I ++ D)) by (apply A; exists [0; 1; 3]%nat; cbn; auto).
      destruct (C ++ Ne ++ I ++ D); [destruct Z|cbn; lia]. }
    destruct (RE 0%nat NP) as (e & E & _).
    assert (Z := lsum_nonneg_0 _ _ (fun x X => Rlt_le _ _ (PE x X)) (eq_sym BU) e E). specialize (PE e E). lra.
  Qed.
End Relaxing.
