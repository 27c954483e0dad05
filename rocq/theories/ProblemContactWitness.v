(* A problem on the unit square, clamped on the left, in contact on the right. *)
From Coq Require Import Reals QArith Qreals List Arith ZArith Bool String Sorting.Sorted Lia Lra.
From Verif Require Import Common PyModel RVec LinAlg MeshModel MeshBuildModel MeshSpec MeshFacesProofs MeshMapProofs ListLemmas NormalsModel NormalsSpec NormalsProofs NormalsGeomProofs
  FemModel FemSpec ForcesSpec DirichletSpec ContactModel ContactSpec ContactCostProofs ConstrainedSpec ConstrainedWitness StatementModel StatementSpec StatementValueProofs
  StateModel TimeModel TimeSpec MethodModel RunStable ContactRunSpec ContactRunWitness
  OptimisationModel OptimisationProofs
  ProblemModel ProblemSpec ProblemUnique ProblemTotal ProblemDefaults ProblemFinal ProblemWitness ProblemContactModel ProblemContactSpec ProblemContactTheorems ProblemContactFinal NormalsExamples NormalsCases.
Import ListNotations.
Local Open Scope string_scope.
Local Open Scope list_scope.
Local Open Scope R_scope.

(* the square of ProblemWitness with these loads and these values at the left side *)
Definition bench_boundaries (h : P2 -> R) : @Description P2 vec :=
  mkDescription [("contact", on_line 1); ("dirichlet", on_line 0)] [("dirichlet", fun l i => h (nth i l zero2))].
Definition bench (fi fo : P2 -> R -> vec) (h : P2 -> R) : problem :=
  mkProblem square_nodes square_elements (bench_boundaries h) 2 (fun p t => Ok (fi p t)) (fun p t => Ok (fo p t)) None (Some (1 / 2))
    (mkProperties 2 (Some (4, 3)) (Some (1, 2)) None None None) None.

Section Bench.
  Variables (fi fo : P2 -> R -> vec) (h : P2 -> R).
  Notation pb := (bench fi fo h).

  Lemma bench_well : posed pb (on_line 1) (on_line 0) h.
  Proof.
    constructor.
    - repeat constructor.
    - repeat constructor; cbn; intuition discriminate.
    - intros e [<-|[<-|[]]]; unfold det_2d, corners, node_table; cbn; lra.
    - reflexivity.
    - reflexivity.
    - eexists. split; [reflexivity|]. intros l i p H. rewrite (nth_error_nth _ _ _ H). reflexivity.
  Qed.
  Lemma bench_clamped : clamped_mesh pb (on_line 0).
  Proof. exact (square_clamped 2 given_weight None). Qed.
  Lemma bench_whole : whole_faces pb (on_line 1).
  Proof.
    intros f p q _ P M. apply on_line_true in M. unfold mean2 in M. cbn in M.
    assert (IN : forall x, In x [p; q] -> fst x = 0 \/ fst x = 1).
    { intros x Hx. destruct (Forall2_In_r _ _ _ _ P Hx) as (i & _ & Hi). apply nth_error_In in Hi.
      destruct Hi as [<-|[<-|[<-|[<-|[]]]]]; cbn; auto. }
    destruct (IN p ltac:(cbn; auto)) as [A|A]; destruct (IN q ltac:(cbn; auto)) as [B|B]; rewrite A, B in M; try lra.
    split; apply on_line_true; assumption.
  Qed.
  Lemma bench_posed k : k = StaticDisplacement \/ k = QuasistaticVelocity \/ k = DynamicVelocity ->
    contact_posed pb (on_line 1) (on_line 0) h fi fo k 1 2 4 3 stiff_law.
  Proof.
    intros K. constructor.
    - exact bench_well.
    - repeat split.
    - split; [reflexivity|]. pose proof bench_clamped. destruct K as [->|[->| ->]]; cbn; repeat split; auto; lra.
    - intros _. cbn. lra.
    - apply slope_law_convex. lra.
    - exact square_separate.
    - exact bench_whole.
  Qed.
  Lemma bench_constructs : exists bt, construct pb = Ok bt.
  Proof. apply (construct_total _ _ _ _ bench_well); [discriminate|intros x [<-|[<-|[]]]; auto|exact square_separate]. Qed.

  (* construction on rational coordinates *)
  Definition qline (x : Q) (p : Q2) : bool := Qeq_bool (fst p) x.
  Lemma on_line_q2 x p : on_line (Q2R x) (q2 p) = qline x p.
  Proof.
    unfold on_line, qline, q2. cbn [fst]. destruct (Req_EM_T _ _) as [E|E].
    - symmetry. apply Qeq_bool_iff. now apply eqR_Qeq.
    - destruct (Qeq_bool _ _) eqn:B; auto. exfalso. apply E, Qeq_eqR, Qeq_bool_iff. exact B.
  Qed.
  Definition qsquare : list Q2 := [(0, 0); (1, 0); (1, 1); (0, 1)]%Q.
  Definition qbench : @Description Q2 vec :=
    mkDescription [("contact", qline 1); ("dirichlet", qline 0)] [("dirichlet", fun l i => h (nth i (map q2 l) zero2))].
  Definition bench_mesh : @MeshData P2 vec :=
    map_mesh q2 (match build qmean qzero qsquare square_elements qbench with Ok m => m | Err _ => mkMesh [] [] [] [] [] end).
  Lemma bench_build : build mean2 zero2 square_nodes square_elements (bench_boundaries h) = Ok bench_mesh.
  Proof.
    assert (Z : Q2R 0 = 0) by apply RMicromega.Q2R_0. assert (O : Q2R 1 = 1) by apply RMicromega.Q2R_1.
    replace square_nodes with (map q2 qsquare) by (unfold square_nodes, qsquare, q2; cbn [map fst snd]; rewrite Z, O; reflexivity).
    rewrite zero2_q2. apply build_map with (meanP := qmean) (dp := qbench); auto.
    - apply mean2_q2.
    - repeat constructor; auto; intros p; [rewrite <- O|rewrite <- Z]; apply on_line_q2.
    - repeat constructor; auto.
  Qed.
  Lemma bench_data : faces_of bench_mesh "contact" = [[0; 1]]%nat /\ m_elements bench_mesh = [[0; 2; 3]; [0; 1; 3]]%nat /\
    boundary_surfaces (m_elements bench_mesh) = [[0; 1]; [0; 2]; [1; 3]; [2; 3]]%nat /\ m_nodes bench_mesh = [(1, 0); (1, 1); (0, 0); (0, 1)].
  Proof.
    unfold bench_mesh. split; [vm_compute; reflexivity|]. split; [vm_compute; reflexivity|]. split; [vm_compute; reflexivity|].
    assert (Z : Q2R 0 = 0) by apply RMicromega.Q2R_0. assert (O : Q2R 1 = 1) by apply RMicromega.Q2R_1.
    transitivity (map q2 [(1, 0); (1, 1); (0, 0); (0, 1)]%Q); [vm_compute; reflexivity|].
    unfold q2. cbn [map fst snd]. rewrite Z, O. reflexivity.
  Qed.

  (* the contact face is the first of the boundary *)
  Lemma bench_first f e : boundary_face 3 (m_elements bench_mesh) f -> boundary_face 3 (m_elements bench_mesh) e ->
    face_holds mean2 (m_nodes bench_mesh) (on_line 1) f -> ~ face_holds mean2 (m_nodes bench_mesh) (on_line 1) e -> lex_lt f e.
  Proof.
    destruct bench_data as (_ & DE & DB & DN).
    assert (SI : simplices 3 (m_elements bench_mesh)) by (rewrite DE; repeat constructor; cbn; intuition discriminate).
    intros Hf He Cf Ce. apply (boundary_surfaces_In 3 _ SI) in Hf, He. rewrite DB in Hf, He. rewrite DN in Cf, Ce.
    assert (F : f = [0; 1]%nat).
    { destruct Cf as (ps & P & M). apply (picks_map _ _ _ zero2) in P. apply on_line_true in M. subst ps.
      destruct Hf as [<-|[<-|[<-|[<-|[]]]]]; [reflexivity|exfalso..]; unfold mean2 in M; cbn in M; lra. }
    subst f. destruct He as [<-|[<-|[<-|[<-|[]]]]]; [exfalso| | |].
    - apply Ce. exists [(1, 0); (1, 1)]. split; [repeat constructor|]. apply on_line_true. unfold mean2. cbn. lra.
    - apply lex_tail, lex_head. lia.
    - apply lex_head. lia.
    - apply lex_head. lia.
  Qed.
  Lemma bench_face : nth_error (faces_of bench_mesh "contact") 0 = Some [0; 1]%nat /\ picks [0; 1]%nat (m_nodes bench_mesh) [(1, 0); (1, 1)] /\
    opposing (m_elements bench_mesh) [0; 1]%nat 3 /\ nth_error (m_nodes bench_mesh) 3 = Some (0, 1) /\ side2 (1, 0) (1, 1) (0, 1) <> 0.
  Proof.
    destruct bench_data as (DC & DE & DB & DN). rewrite DC, DE, DN. split; [reflexivity|]. split; [repeat constructor|].
    split; [apply opposing_dec; [apply simplices_dec; reflexivity|vm_compute; auto 10]|].
    split; [reflexivity|]. unfold side2. cbn. lra.
  Qed.
  Lemma bench_is bt density : prepared pb bt density -> bt_mesh bt = bench_mesh.
  Proof.
    intros PR. apply prepared_init in PR. destruct (init2_parts _ _ _ _ _ PR) as [B _].
    pose proof bench_build as B'. cbn [pr_nodes pr_elements pr_boundaries bench] in B. rewrite B' in B. injection B as <-. reflexivity.
  Qed.
End Bench.

(* a motion from rest displacement, without loads *)
Lemma bench_motion : exists bt u v (Gu Gv : nat -> nat -> list nat -> vec), prepared (bench (fun _ _ _ => 0) (fun _ _ _ => 0) (fun _ => 0)) bt None /\
  posed_motion (bench (fun _ _ _ => 0) (fun _ _ _ => 0) (fun _ => 0)) bt None (on_line 0) (fun _ => 0) (fun _ _ _ => 0) (fun _ _ _ => 0)
    DynamicVelocity 1 2 4 3 stiff_law (fun _ => 0) (fun i => INR i) 3 u v /\
  (forall j, (j <= 3)%nat -> gradients coord2 zero2 (bt_mesh bt) (u j) (Gu j) /\ gradients coord2 zero2 (bt_mesh bt) (v j) (Gv j)) /\
  resisting_law stiff_law (1 / 2).
Proof.
  set (z := fun (_ : P2) (_ : R) (_ : nat) => 0). set (pb := bench z z (fun _ => 0)).
  destruct (bench_constructs z z (fun _ => 0)) as (bt & E). fold pb in E. pose proof (constructed _ _ E) as PR.
  destruct minimiser as (find & RF).
  pose proof (bench_posed z z (fun _ => 0) DynamicVelocity ltac:(auto)) as CP. fold pb in CP.
  destruct (global_goes_final (V := R) (W := unit) pb _ _ _ _ _ _ _ _ _ _ _ CP bt None PR Logic.I (fun _ _ => find) "BFGS" None (fun _ => RF) 3 [1; 3]%Z
    Logic.I ltac:(cbn; lia) ltac:(discriminate) no_memory) as (d & S & G).
  destruct (G (fun _ => 0) (fun i => INR i)) as (d' & l & H).
  destruct (global_final (V := R) (W := unit) pb _ _ _ _ _ _ _ _ _ _ _ CP bt None PR Logic.I (fun _ _ => find) "BFGS" None (fun _ => RF) no_memory d d' 3 _ _ [1; 3]%Z [] l
    Logic.I S ltac:(constructor) ltac:(cbn; lia) H) as (u & v & M & _).
  destruct (posed_ready pb _ _ _ _ _ _ _ _ _ _ _ CP bt None PR Logic.I) as (ops & conds & RD & _).
  destruct (finite_choice (fun i H => gradients coord2 zero2 (bt_mesh bt) (u i) H) 3) as (Gu & HU).
  { intros i. exact (vanishing_gradients pb _ _ _ (cp_posed _ _ _ _ _ _ _ _ _ _ _ _ CP) bt None ops RD (u i)). }
  destruct (finite_choice (fun i H => gradients coord2 zero2 (bt_mesh bt) (v i) H) 3) as (Gv & HV).
  { intros i. exact (vanishing_gradients pb _ _ _ (cp_posed _ _ _ _ _ _ _ _ _ _ _ _ CP) bt None ops RD (v i)). }
  exists bt, u, v, Gu, Gv. split; [exact PR|]. split; [exact M|]. split; [intros j Hj; split; auto|]. apply slope_law_resists. lra.
Qed.
