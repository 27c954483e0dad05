(* A problem on the unit square, clamped on the left, with its contact boundary on the right. *)
From Coq Require Import Reals List Arith ZArith Bool String Sorting.Sorted Lia Lra.
From Verif Require Import Common PyModel RVec LinAlg MeshModel MeshBuildModel MeshSpec MeshFacesProofs NormalsModel
  FemModel FemSpec ForcesSpec DirichletSpec StatementModel StatementSpec StatementValueProofs StateModel TimeModel TimeSpec MethodModel
  RunStable ProblemModel ProblemSpec ProblemTotal ProblemDefaults ProblemFinal.
Import ListNotations.
Local Open Scope string_scope.
Local Open Scope list_scope.
Local Open Scope R_scope.

Definition on_line (x : R) (p : P2) : bool := if Req_EM_T (fst p) x then true else false.
Definition square_nodes : list P2 := [(0, 0); (1, 0); (1, 1); (0, 1)].
Definition square_elements : list (list nat) := [[0; 1; 3]; [1; 2; 3]]%nat.
Definition lift (p : P2) : R := snd p / 10.
Definition square_boundaries : @Description P2 vec :=
  mkDescription [("contact", on_line 1); ("dirichlet", on_line 0)]
    [("dirichlet", fun l i => lift (nth i l zero2))].
Definition weight (p : P2) (t : R) : vec := fun k => if (k =? 1)%nat then - fst p else t.
Definition pull (p : P2) (t : R) : vec := fun k => snd p + t.
(* 1/2 of the gradient, as the library stores it *)
Definition square_memory : tensor := fun i j k => if (j =? k)%nat then 1 / 2 else 0.
(* width of the forces, sources of forces and of heat *)
Definition square_problem (width : nat) (inner : load_source) (heat : option (nat * load_source * load_source)) : problem :=
  mkProblem square_nodes square_elements square_boundaries width inner (fun p t => Ok (pull p t)) heat (Some (1 / 2))
    (mkProperties 2 (Some (4, 3)) (Some (1, 2)) (Some 5) None None)
    (Some (fun _ => Ok square_memory)).
Definition given_weight : load_source := fun p t => Ok (weight p t).
Definition given_pull : load_source := fun p t => Ok (pull p t).
Definition square_heat := Some (1%nat, given_weight, given_pull).
Definition square (width : nat) : problem := square_problem width given_weight square_heat.

Lemma on_line_true x p : on_line x p = true <-> fst p = x.
Proof. unfold on_line. destruct (Req_EM_T (fst p) x); split; intros; auto; discriminate. Qed.

Section Square.
  Variables (width : nat) (inner : load_source) (heat : option (nat * load_source * load_source)).
  Notation pb := (square_problem width inner heat).

  Lemma square_posed : posed pb (on_line 1) (on_line 0) lift.
  Proof.
    constructor.
    - repeat constructor.
    - repeat constructor; cbn; intuition discriminate.
    - intros e [<-|[<-|[]]]; unfold det_2d, corners, node_table; cbn; lra.
    - reflexivity.
    - reflexivity.
    - eexists. split; [reflexivity|]. intros l i p H. unfold lift. rewrite (nth_error_nth _ _ _ H). reflexivity.
  Qed.
  Lemma square_boundary i : (i < 4)%nat -> boundary_node 3 (pr_elements pb) i.
  Proof.
    intros H. apply boundary_indices_In; [repeat constructor; cbn; intuition discriminate|].
    do 4 (destruct i; [vm_compute; tauto|]). lia.
  Qed.
  Lemma square_fixed i : i = 0%nat \/ i = 3%nat -> user_fixed pb (on_line 0) i.
  Proof.
    intros H. split; [apply square_boundary; lia|]. destruct H as [-> | ->]; eexists; (split; [reflexivity|]); apply on_line_true; reflexivity.
  Qed.
  Lemma square_clamped : clamped_mesh pb (on_line 0).
  Proof.
    assert (P0 : held (user_fixed pb (on_line 0)) (pr_elements pb) 0) by (apply held_pin, square_fixed; auto).
    assert (P3 : held (user_fixed pb (on_line 0)) (pr_elements pb) 3) by (apply held_pin, square_fixed; auto).
    assert (P1 : held (user_fixed pb (on_line 0)) (pr_elements pb) 1).
    { apply (held_by _ _ [0; 1; 3]%nat 0 3); cbn; auto. }
    intros i Hi _. cbn in Hi. destruct i as [|[|[|[|i]]]]; auto; [|lia].
    apply (held_by _ _ [1; 2; 3]%nat 1 3); cbn; auto.
  Qed.
  Lemma square_grounded : grounded_mesh pb (on_line 0).
  Proof.
    assert (P0 : tied (user_fixed pb (on_line 0)) (pr_elements pb) 0) by (apply tied_pin, square_fixed; auto).
    assert (P3 : tied (user_fixed pb (on_line 0)) (pr_elements pb) 3) by (apply tied_pin, square_fixed; auto).
    intros i Hi _. cbn in Hi. destruct i as [|[|[|[|i]]]]; auto; [| |lia].
    - apply (tied_by _ _ [0; 1; 3]%nat 0); cbn; auto.
    - apply (tied_by _ _ [1; 2; 3]%nat 3); cbn; auto.
  Qed.
  Lemma square_separate : separate (on_line 1) (on_line 0).
  Proof.
    intros p H. apply on_line_true in H. unfold on_line. destruct (Req_EM_T (fst p) 0); [lra|reflexivity].
  Qed.
  Lemma square_names : complete_names pb.
  Proof. intros name [<-|[<-|[]]]; auto. Qed.
  Lemma square_constructs : exists bt, construct pb = Ok bt.
  Proof. apply (construct_total _ _ _ _ square_posed); [discriminate|apply square_names|apply square_separate]. Qed.
End Square.

Lemma square_loaded width heat : loaded (square_problem width given_weight heat) width weight pull.
Proof. repeat split. Qed.
Lemma square_heated width inner : heated (square_problem width inner square_heat) weight pull.
Proof. exists given_weight, given_pull. repeat split. Qed.

(* a step solver that solves the system it holds *)
Definition exact_answer {F} (full : nat) (i : method F) (guess v u : vec) (dt : R) : result (nat * vec) :=
  bind (elimination_solver (v_len (m_rhs i)) (load_m (hp (m_world i)) (sm_data (m_lhs i))) (load_v (hp (m_world i)) (m_rhs i)))
    (fun x => Ok (full, x)).
Lemma exact_exactly {F} size full : @answers_exactly F size (exact_answer full).
Proof.
  intros i guess v u dt len y L H. unfold exact_answer in H. rewrite L in H.
  destruct (elimination_solver _ _ _) as [x|] eqn:E; [|discriminate]. cbn in H. injection H as _ <-. apply elimination_sound. exact E.
Qed.
Lemma exact_definite {F} size full : @answers_definite F size full (exact_answer full).
Proof.
  intros i guess v u dt L P. unfold exact_answer. rewrite L.
  destruct (elimination_works size _ (load_v (hp (m_world i)) (m_rhs i)) P) as (x & ->). cbn. eauto.
Qed.
Definition no_memory : store R := mkStore [] [].
