(* A square that expands when heated and is polarised when strained. *)
From Coq Require Import Reals List Arith ZArith Bool String Sorting.Sorted Lia Lra.
From Verif Require Import Common PyModel RVec LinAlg MeshModel MeshBuildModel MeshSpec MeshFacesProofs NormalsModel
  FemModel FemSpec ForcesSpec DirichletModel DirichletSpec StatementModel StatementSpec StatementValueProofs StateModel TimeModel TimeSpec MethodModel
  RunStable ProblemModel ProblemSpec ProblemTotal ProblemDefaults ProblemFinal ProblemWitness CoupledProblemSpec.
Import ListNotations.
Local Open Scope string_scope.
Local Open Scope list_scope.
Local Open Scope R_scope.

Definition on_floor (p : P2) : bool := if Req_EM_T (snd p) 0 then true else false.
Definition no_volts (p : P2) : R := 0.
Definition volts (p : P2) : R := snd p / 2.
(* the floor is earthed, the potential grows along the right side *)
Definition square_electrodes : list ((P2 -> bool) * (P2 -> R)) := [(on_floor, no_volts); (on_line 1, volts)].
Definition wired_boundaries : @Description P2 vec :=
  mkDescription [("contact", on_line 1); ("dirichlet", on_line 0); ("piezo_dirichlet_0", on_floor); ("piezo_dirichlet_1", on_line 1)]
    [("dirichlet", fun l i => lift (nth i l zero2)); ("piezo_dirichlet_0", fun l i => no_volts (nth i l zero2));
     ("piezo_dirichlet_1", fun l i => volts (nth i l zero2))].
Definition same (x : R) : nat -> nat -> R := fun i j => if (i =? j)%nat then x else 0.
Definition shear_response : nat -> nat -> nat -> R := fun c k l => if (c =? l)%nat then 1 / 4 else 1 / 8.
Definition coupled_square : problem :=
  mkProblem square_nodes square_elements wired_boundaries 2 given_weight given_pull None (Some (1 / 2))
    (mkProperties 2 (Some (4, 3)) (Some (1, 2)) None (Some (same (1 / 2), same 3)) (Some (shear_response, same 2)))
    None.

Lemma coupled_posed : posed coupled_square (on_line 1) (on_line 0) lift.
Proof.
  constructor.
  - repeat constructor.
  - repeat constructor; cbn; intuition discriminate.
  - intros e [<-|[<-|[]]]; unfold det_2d, corners, node_table; cbn; lra.
  - reflexivity.
  - reflexivity.
  - eexists. split; [reflexivity|]. intros l i p H. unfold lift. rewrite (nth_error_nth _ _ _ H). reflexivity.
Qed.
Lemma coupled_fixed i : i = 0%nat \/ i = 3%nat -> user_fixed coupled_square (on_line 0) i.
Proof.
  intros H. split; [apply (square_boundary 2 given_weight None); lia|].
  destruct H as [-> | ->]; eexists; (split; [reflexivity|]); apply on_line_true; reflexivity.
Qed.
Lemma coupled_clamped : clamped_mesh coupled_square (on_line 0).
Proof.
  assert (P0 : held (user_fixed coupled_square (on_line 0)) (pr_elements coupled_square) 0) by (apply held_pin, coupled_fixed; auto).
  assert (P3 : held (user_fixed coupled_square (on_line 0)) (pr_elements coupled_square) 3) by (apply held_pin, coupled_fixed; auto).
  assert (P1 : held (user_fixed coupled_square (on_line 0)) (pr_elements coupled_square) 1).
  { apply (held_by _ _ [0; 1; 3]%nat 0 3); cbn; auto. }
  intros i Hi _. cbn in Hi. destruct i as [|[|[|[|i]]]]; auto; [|lia].
  apply (held_by _ _ [1; 2; 3]%nat 1 3); cbn; auto.
Qed.
Lemma coupled_names : complete_names coupled_square.
Proof. intros name [<-|[<-|[<-|[<-|[]]]]]; auto; right; right; (split; [eexists; reflexivity|reflexivity]). Qed.
Lemma coupled_constructs : exists bt, construct coupled_square = Ok bt.
Proof. apply (construct_total _ _ _ _ coupled_posed); [discriminate|apply coupled_names|apply square_separate]. Qed.
Lemma coupled_loaded : loaded coupled_square 2 weight pull.
Proof. repeat split. Qed.

Lemma coupled_electrodes : electrodes (pr_boundaries coupled_square) square_electrodes.
Proof.
  split; [reflexivity|]. split; [reflexivity|]. split.
  { cbn. repeat constructor; cbn; intuition discriminate. }
  intros [|[|j]] ind g H; cbn in H; [| |destruct j; discriminate]; injection H as <- <-; (split; [reflexivity|]); (eexists; split; [reflexivity|]).
  - intros l i p H. reflexivity.
  - intros l i p H. unfold volts. rewrite (nth_error_nth _ _ _ H). reflexivity.
Qed.

Lemma face_floor : boundary_face 3 square_elements [0; 1]%nat.
Proof.
  split; [repeat constructor|]. split; [reflexivity|]. exists 0%nat, [0; 1; 3]%nat. split; [reflexivity|]. split.
  - intros x H. cbn in *. tauto.
  - intros [|[|k]] e H I; [reflexivity| |destruct k; discriminate]. cbn in H. injection H as <-. exfalso.
    specialize (I 0%nat (or_introl eq_refl)). cbn in I. intuition discriminate.
Qed.
Lemma face_right : boundary_face 3 square_elements [1; 2]%nat.
Proof.
  split; [repeat constructor|]. split; [reflexivity|]. exists 1%nat, [1; 2; 3]%nat. split; [reflexivity|]. split.
  - intros x H. cbn in *. tauto.
  - intros [|[|k]] e H I; [|reflexivity|destruct k; discriminate]. cbn in H. injection H as <-. exfalso.
    specialize (I 2%nat (or_intror (or_introl eq_refl))). cbn in I. intuition discriminate.
Qed.
Lemma on_floor_true p : on_floor p = true <-> snd p = 0.
Proof. unfold on_floor. destruct (Req_EM_T (snd p) 0); split; intros; auto; discriminate. Qed.
Lemma face_floor_holds : face_holds mean2 square_nodes on_floor [0; 1]%nat.
Proof. exists [(0, 0); (1, 0)]. split; [repeat constructor|]. apply on_floor_true. unfold mean2; cbn. lra. Qed.
Lemma face_right_holds : face_holds mean2 square_nodes (on_line 1) [1; 2]%nat.
Proof. exists [(1, 0); (1, 1)]. split; [repeat constructor|]. apply on_line_true. unfold mean2; cbn. lra. Qed.

Lemma square_height i p : nth_error square_nodes i = Some p -> 0 <= snd p.
Proof. intros H. apply nth_error_In in H. repeat (destruct H as [<-|H]; [cbn; lra|]). destruct H. Qed.

(* on a face with its centre on the floor all nodes are *)
Lemma floor_nodes f n p : boundary_face 3 square_elements f -> face_holds mean2 square_nodes on_floor f -> In n f ->
  nth_error square_nodes n = Some p -> snd p = 0.
Proof.
  intros (_ & L & _) (ps & PK & H) I E. apply on_floor_true in H.
  destruct f as [|a [|b [|c f]]]; cbn in L; try lia.
  inversion PK as [|? p1 ? ? E1 PK']; subst. inversion PK' as [|? p2 ? ? E2 PK2]; subst. inversion PK2; subst.
  assert (H1 := square_height _ _ E1). assert (H2 := square_height _ _ E2).
  unfold mean2 in H; cbn in H. assert (snd p1 + snd p2 = 0) by lra.
  destruct I as [<-|[<-|[]]]; rewrite E in *; [injection E1 as ->|injection E2 as ->]; lra.
Qed.

Lemma potential_at n v p : on_electrode square_nodes square_elements square_electrodes n v -> nth_error square_nodes n = Some p -> v = volts p.
Proof.
  intros (ind & g & f & q & I & BF & FH & IN & E & ->) E'. rewrite E in E'. injection E' as ->.
  destruct I as [I|[I|[]]]; injection I as <- <-; [|reflexivity].
  unfold no_volts, volts. rewrite (floor_nodes f n p BF FH IN E). lra.
Qed.

Lemma coupled_meet : electrodes_meet square_nodes square_elements square_electrodes.
Proof.
  split.
  - intros ind g [I|[I|[]]]; injection I as <- <-.
    + exists [0; 1]%nat. split; [apply face_floor|apply face_floor_holds].
    + exists [1; 2]%nat. split; [apply face_right|apply face_right_holds].
  - intros n v v' H H'. pose proof H as (_ & _ & _ & p & _ & _ & _ & _ & E & _).
    rewrite (potential_at n v p H E), (potential_at n v' p H' E). reflexivity.
Qed.

Lemma coupled_wired : wired square_nodes square_elements square_electrodes.
Proof.
  assert (T0 : forall n p, nth_error square_nodes n = Some p -> In n [0; 1]%nat -> tied (fun i => exists v, on_electrode square_nodes square_elements square_electrodes i v) square_elements n).
  { intros n p E I. apply tied_pin. exists (no_volts p), on_floor, no_volts, [0; 1]%nat, p. repeat split; auto; try apply face_floor; try apply face_floor_holds; cbn; auto. }
  assert (T1 : forall n p, nth_error square_nodes n = Some p -> In n [1; 2]%nat -> tied (fun i => exists v, on_electrode square_nodes square_elements square_electrodes i v) square_elements n).
  { intros n p E I. apply tied_pin. exists (volts p), (on_line 1), volts, [1; 2]%nat, p. repeat split; auto; try apply face_right; try apply face_right_holds; cbn; auto. }
  intros n H _. destruct n as [|[|[|[|n]]]]; [eapply T0|eapply T0|eapply T1| |cbn in H; lia]; try (cbn; auto; fail); try reflexivity.
  apply (tied_by _ _ [1; 2; 3]%nat 2); cbn; auto. eapply T1; [reflexivity|cbn; auto].
Qed.

(* the last node is on no electrode *)
Lemma coupled_free v : ~ on_electrode square_nodes square_elements square_electrodes 3 v.
Proof.
  intros (ind & g & f & q & I & BF & FH & IN & E & _). destruct I as [I|[I|[]]]; injection I as <- <-.
  - assert (H := floor_nodes f 3 q BF FH IN E). cbn in E. injection E as <-. cbn in H. lra.
  - destruct BF as (_ & L & _), FH as (ps & PK & H). apply on_line_true in H.
    destruct f as [|a [|b [|c f]]]; cbn in L; try lia.
    inversion PK as [|? p1 ? ? E1 PK']; subst. inversion PK' as [|? p2 ? ? E2 PK2]; subst. inversion PK2; subst.
    assert (B : forall i p, nth_error square_nodes i = Some p -> fst p <= 1).
    { intros i p X. apply nth_error_In in X. repeat (destruct X as [<-|X]; [cbn; lra|]). destruct X. }
    assert (H1 := B _ _ E1). assert (H2 := B _ _ E2). unfold mean2 in H; cbn in H. assert (S : fst p1 + fst p2 = 2) by lra.
    cbn in E. injection E as <-.
    destruct IN as [X|[X|[]]]; rewrite X in *; [cbn in E1; injection E1 as <-|cbn in E2; injection E2 as <-]; cbn in *; lra.
Qed.

Lemma same_psd x v : 0 <= x -> x * sum 2 (fun k => v k * v k) <= sum 2 (fun k => sum 2 (fun l => same x k l * (v k * v l))).
Proof. intros H. unfold same; cbn. lra. Qed.
