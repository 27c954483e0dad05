(* A triangle that expands so strongly that the passes of a step drive it apart. *)
From Coq Require Import Reals QArith Qreals List Arith ZArith Bool String Lia Lra.
From Verif Require Import Common PyModel RVec LinAlg MeshModel MeshBuildModel MeshSpec MeshFacesProofs MeshMapProofs ListLemmas NormalsModel
  FemModel FemSpec ForcesSpec DirichletModel DirichletSpec StatementModel StatementSpec StatementValueProofs StateModel TimeModel TimeSpec MethodModel
  RunStable ProblemModel ProblemSpec ProblemReady ProblemTotal ProblemDefaults ProblemFinal ProblemWitness ProblemContactWitness NormalsExamples NormalsCases CoupledSpec CoupledProblemSpec CoupledWitness.
Import ListNotations.
Local Open Scope string_scope.
Local Open Scope list_scope.
Local Open Scope R_scope.

Definition triangle_nodes : list P2 := [(0, 0); (1, 0); (0, 1)].
Definition triangle_boundaries : @Description P2 vec :=
  mkDescription [("contact", on_line 1); ("dirichlet", on_line 0)] [("dirichlet", fun l i => 0)].
Definition nothing (p : P2) (t : R) : vec := fun _ => 0.
Definition fierce : problem :=
  mkProblem triangle_nodes [[0; 1; 2]]%nat triangle_boundaries 2 (fun p t => Ok (nothing p t)) (fun p t => Ok (nothing p t)) None (Some 1)
    (mkProperties 12 (Some (1 / 4, 1 / 2)) (Some (1 / 4, 1 / 2)) None (Some (same 24, same 2)) None) None.

Lemma fierce_posed : posed fierce (on_line 1) (on_line 0) (fun _ => 0).
Proof.
  constructor.
  - repeat constructor.
  - repeat constructor; cbn; intuition discriminate.
  - intros e [<-|[]]; unfold det_2d, corners, node_table; cbn; lra.
  - reflexivity.
  - reflexivity.
  - eexists. split; [reflexivity|]. intros l i p H. reflexivity.
Qed.
Lemma fierce_constructs : exists bt, construct fierce = Ok bt.
Proof. apply (construct_total _ _ _ _ fierce_posed); [discriminate|intros x [<-|[<-|[]]]; auto|exact square_separate]. Qed.
Lemma fierce_loaded : loaded fierce 2 nothing nothing.
Proof. repeat split. Qed.

Definition qtriangle : list Q2 := [(0, 0); (1, 0); (0, 1)]%Q.
Definition qfierce : @Description Q2 vec :=
  mkDescription [("contact", qline 1); ("dirichlet", qline 0)] [("dirichlet", fun l i => 0)].
Definition fierce_mesh : @MeshData P2 vec :=
  map_mesh q2 (match build qmean qzero qtriangle [[0; 1; 2]]%nat qfierce with Ok m => m | Err _ => mkMesh [] [] [] [] [] end).
Lemma fierce_build : build mean2 zero2 triangle_nodes [[0; 1; 2]]%nat triangle_boundaries = Ok fierce_mesh.
Proof.
  assert (Z : Q2R 0 = 0) by apply RMicromega.Q2R_0. assert (O : Q2R 1 = 1) by apply RMicromega.Q2R_1.
  replace triangle_nodes with (map q2 qtriangle) by (unfold triangle_nodes, qtriangle, q2; cbn [map fst snd]; rewrite Z, O; reflexivity).
  rewrite zero2_q2. apply build_map with (meanP := qmean) (dp := qfierce); auto.
  - apply mean2_q2.
  - repeat constructor; auto; intros p; [rewrite <- O|rewrite <- Z]; apply on_line_q2.
  - repeat constructor; auto.
Qed.
Lemma fierce_data : m_nodes fierce_mesh = [(1, 0); (0, 0); (0, 1)] /\ m_elements fierce_mesh = [[0; 1; 2]]%nat /\
  boundary_surfaces (m_elements fierce_mesh) = [[0; 1]; [0; 2]; [1; 2]]%nat.
Proof.
  unfold fierce_mesh. split; [|split; vm_compute; reflexivity].
  assert (Z : Q2R 0 = 0) by apply RMicromega.Q2R_0. assert (O : Q2R 1 = 1) by apply RMicromega.Q2R_1.
  transitivity (map q2 [(1, 0); (0, 0); (0, 1)]%Q); [vm_compute; reflexivity|].
  unfold q2. cbn [map fst snd]. rewrite Z, O. reflexivity.
Qed.

Section Built.
  Variable bt : built.
  Hypothesis PR : construct fierce = Ok bt.
  Notation m := (bt_mesh bt).
  Lemma built_is : m = fierce_mesh.
  Proof.
    destruct (prepared_ready fierce _ _ _ fierce_posed bt None (constructed fierce bt PR)) as (ops & RD).
    assert (Q := proj1 RD). change (build mean2 zero2 triangle_nodes [[0; 1; 2]]%nat triangle_boundaries = Ok m) in Q. rewrite fierce_build in Q. injection Q as Q. symmetry. exact Q.
  Qed.
  Lemma nodes_are : m_nodes m = [(1, 0); (0, 0); (0, 1)].
  Proof. rewrite built_is. apply fierce_data. Qed.
  Lemma elements_are : m_elements m = [[0; 1; 2]]%nat.
  Proof. rewrite built_is. apply fierce_data. Qed.

  Lemma fixed_is n : fixed_node m (on_line 0) n -> n = 1%nat \/ n = 2%nat.
  Proof.
    intros (_ & p & E & H). rewrite nodes_are in E. apply on_line_true in H.
    destruct n as [|[|[|n]]]; cbn in E; [injection E as <-; cbn in H; lra|auto|auto|destruct n; discriminate].
  Qed.
  Lemma fixed_are n : n = 1%nat \/ n = 2%nat -> fixed_node m (on_line 0) n.
  Proof.
    intros H. split.
    - exists [1; 2]%nat. split; [|destruct H as [->| ->]; cbn; auto].
      assert (SI : simplices 3 (m_elements m)) by (rewrite elements_are; repeat constructor; cbn; intuition discriminate).
      apply (boundary_surfaces_In 3 _ SI). rewrite built_is. rewrite (proj2 (proj2 fierce_data)). cbn. auto.
    - unfold holds_at. rewrite nodes_are. destruct H as [->| ->]; eexists; (split; [reflexivity|]); apply on_line_true; reflexivity.
  Qed.

  Definition slopes (w : vec) : nat -> list nat -> vec := fun c _ l =>
    if (l =? 0)%nat then w (c * 3 + 0)%nat - w (c * 3 + 1)%nat else w (c * 3 + 2)%nat - w (c * 3 + 1)%nat.
  Lemma slopes_are w : gradients coord2 zero2 m w (slopes w).
  Proof.
    unfold gradients. rewrite nodes_are, elements_are. intros c _ e [<-|[]] i j Hi Hj. unfold slopes, corners, node_table, component, coord2. cbn [List.length].
    destruct i as [|[|[|i]]]; try lia; destruct j as [|[|[|j]]]; try lia; cbn [nth sum Nat.eqb fst snd map]; cbn; ring.
  Qed.
  Lemma slope_is w : gradient coord2 zero2 m w (slopes w 0).
  Proof. assert (Q := slopes_are w). unfold gradients in Q. exact (Q 0%nat ltac:(lia)). Qed.
  Lemma area_is : element_area (node_table coord2 zero2 (m_nodes m)) [0; 1; 2]%nat = 1 / 2.
  Proof.
    rewrite nodes_are. unfold element_area, area, det_2d, corners, node_table, coord2. cbn.
    match goal with |- context [Rabs ?x] => replace x with (-(1)) by ring end. rewrite Rabs_Ropp, Rabs_R1. lra.
  Qed.
  Lemma no_load t v : load_work coord2 zero2 m 2 (fun p => nothing p t) (fun p => nothing p t) v = 0.
  Proof.
    unfold load_work, volume_work, surface_work. rewrite !sum_0; [ring| |].
    - intros k _. unfold face_integral. apply lsum_0. intros e _. rewrite lsum_0; [lra|]. intros n _. unfold at_nodes, nothing. ring.
    - intros k _. unfold integral. apply lsum_0. intros e _. unfold cross_mean, at_nodes, nothing. cbn. lra.
  Qed.
  Lemma over_one f : integral (element_area (node_table coord2 zero2 (m_nodes m))) (m_elements m) f = f [0; 1; 2]%nat / 2.
  Proof. unfold integral. rewrite elements_are. cbn [lsum map fold_right]. rewrite area_is. lra. Qed.

  Notation momentum := (momentum_step m (on_line 0) (fun _ => 0) 12 (1 / 4) (1 / 2) (1 / 4) (1 / 2) (same 24) nothing nothing 1).
  Notation heat := (heat_step m (on_line 0) (fun _ => 0) 12 (same 24) (same 2) 1).
  Definition hat : vec := fun i => if (i =? 0)%nat then 1 else 0.
  Definition still : vec := fun _ => 0.

  Lemma held_at width (x : vec) : takes m (on_line 0) width (fun _ => 0) x -> forall n k, n = 1%nat \/ n = 2%nat -> (k < width)%nat -> x (k * 3 + n)%nat = 0.
  Proof.
    intros T n k H K. unfold takes in T. rewrite nodes_are in T. cbn [List.length] in T.
    destruct H as [H|H]; subst n; eapply (T _ k); try exact K; try (apply fixed_are; auto); reflexivity.
  Qed.
  Lemma hat_vanishes width : vanishes m (on_line 0) width hat.
  Proof.
    intros n k F K. rewrite nodes_are. cbn [List.length]. unfold hat. destruct (fixed_is n F) as [->| ->]; destruct (Nat.eqb_spec (k * 3 + 1) 0); destruct (Nat.eqb_spec (k * 3 + 2) 0); try lia; reflexivity.
  Qed.

  Lemma pushed t y x : momentum t still still y x -> x 0%nat = 2 * (y 0%nat + y 1%nat + y 2%nat).
  Proof.
    intros (T & B). assert (E := B hat (slopes hat) (slopes x) (slopes (fun i => still i + 1 * x i)) (hat_vanishes 2) (slopes_are _) (slopes_are _) (slopes_are _)).
    rewrite no_load in E. unfold inertia_work, stress_work, expansion_work, mesh_integral in E. cbn [sum] in E. rewrite !over_one in E.
    rewrite nodes_are in E. unfold mean_product, mean_value, elastic_density, strain, divergence, component, slopes, hat, still, same in E. cbn in E.
    assert (X1 := held_at 2 x T 1 0 ltac:(auto) ltac:(lia)). assert (X2 := held_at 2 x T 2 0 ltac:(auto) ltac:(lia)).
    assert (X4 := held_at 2 x T 1 1 ltac:(auto) ltac:(lia)). assert (X5 := held_at 2 x T 2 1 ltac:(auto) ltac:(lia)). cbn in X1, X2, X4, X5.
    rewrite X1, X2, X4, X5 in E. lra.
  Qed.
  Lemma warmed u x e y : takes m (on_line 0) 2 (fun _ => 0) x -> heat u x e y -> y 0%nat = (e 0%nat + (e 1%nat + e 2%nat) / 2) / 2 - 2 * x 0%nat /\ y 1%nat = 0 /\ y 2%nat = 0.
  Proof.
    intros TX (T & B).
    assert (E := B hat (slopes hat 0) (slopes y 0) (slopes x) (hat_vanishes 1) (slope_is _) (slope_is _) (slopes_are _)).
    unfold inertia_work, conduction_work, expansion_work in E. cbn [sum] in E. rewrite !over_one in E.
    rewrite nodes_are in E. unfold mean_product, mean_value, component, slopes, hat, same in E. cbn in E.
    assert (X1 := held_at 2 x TX 1 0 ltac:(auto) ltac:(lia)). assert (X2 := held_at 2 x TX 2 0 ltac:(auto) ltac:(lia)).
    assert (X4 := held_at 2 x TX 1 1 ltac:(auto) ltac:(lia)). assert (X5 := held_at 2 x TX 2 1 ltac:(auto) ltac:(lia)).
    assert (Y1 := held_at 1 y T 1 0 ltac:(auto) ltac:(lia)). assert (Y2 := held_at 1 y T 2 0 ltac:(auto) ltac:(lia)). cbn in X1, X2, X4, X5, Y1, Y2.
    rewrite X1, X2, X4, X5, Y1, Y2 in E. repeat split; [lra|exact Y1|exact Y2].
  Qed.

  (* where the two equations agree *)
  Lemma rest_is t xs ys : balanced momentum heat 1 t still still hat xs ys -> ys 0%nat = 1 / 10.
  Proof.
    intros (F & S1). assert (X := pushed _ _ _ F). destruct (warmed _ _ _ _ (proj1 F) S1) as (Y & Y1 & Y2). rewrite X, Y1, Y2 in Y. unfold hat in Y. cbn in Y. lra.
  Qed.

  Lemma pass_is t r x y : turns momentum heat 1 t still still hat r x y ->
    forall i, (i <= r)%nat -> y i 0%nat = 1 / 10 + 9 / 10 * (-4) ^ i /\ y i 1%nat = 0 /\ y i 2%nat = 0.
  Proof.
    intros (Y0 & TU). induction i as [|i IH]; intros L; [rewrite Y0; unfold hat; cbn; repeat split; lra|].
    destruct (IH ltac:(lia)) as (A & B & C). destruct (TU i ltac:(lia)) as (F & S1). assert (X := pushed _ _ _ F).
    destruct (warmed _ _ _ _ (proj1 F) S1) as (Y & Y1 & Y2). split; [|split; assumption]. rewrite Y, X, A, B, C. unfold hat. cbn [Nat.eqb pow]. lra.
  Qed.
  Lemma passes_ten t r x y : turns momentum heat 1 t still still hat r x y -> stops 6 3 r x y -> r = 10%nat.
  Proof.
    intros TU (B & ST & L). destruct (Nat.eq_dec r 10) as [|NE]; [assumption|]. exfalso.
    destruct L as [L|L]; [lia|]. unfold change in L.
    destruct (pass_is t r x y TU r (le_n r)) as (A & _). destruct (pass_is t r x y TU (r - 1) ltac:(lia)) as (A' & _).
    assert (G : 1 <= Rsqr (y (S (r - 1)) 0%nat - y (r - 1)%nat 0%nat)).
    { replace (S (r - 1)) with r by lia. rewrite A, A'. replace r with (S (r - 1)) at 1 by lia.
      replace (1 / 10 + 9 / 10 * (-4) ^ S (r - 1) - (1 / 10 + 9 / 10 * (-4) ^ (r - 1))) with (- (9 / 2) * (-4) ^ (r - 1)) by (cbn [pow]; field).
      unfold Rsqr. replace (- (9 / 2) * (-4) ^ (r - 1) * (- (9 / 2) * (-4) ^ (r - 1))) with (81 / 4 * ((-4) ^ (r - 1) * (-4) ^ (r - 1))) by field.
      rewrite <- Rpow_mult_distr. replace (-4 * -4) with 16 by ring. assert (1 <= 16 ^ (r - 1)) by (apply pow_R1_Rle; lra). lra. }
    assert (M : 1 <= sqrt (sum 6 (fun c => Rsqr (x (S (r - 1)) c - x (r - 1)%nat c)) + sum 3 (fun c => Rsqr (y (S (r - 1)) c - y (r - 1)%nat c)))).
    { rewrite <- sqrt_1 at 1. apply sqrt_le_1_alt. assert (0 <= sum 6 (fun c => Rsqr (x (S (r - 1)) c - x (r - 1)%nat c))) by (apply sum_nonneg; intros; apply Rle_0_sqr).
      set (a := sum 6 _) in *. cbn [sum]. assert (Q1 := Rle_0_sqr (y (S (r - 1)) 1%nat - y (r - 1)%nat 1%nat)). assert (Q2 := Rle_0_sqr (y (S (r - 1)) 2%nat - y (r - 1)%nat 2%nat)). lra. }
    lra.
  Qed.

  Lemma fierce_step u v e : heated_motion m (on_line 0) (fun _ => 0) 12 (1 / 4) (1 / 2) (1 / 4) (1 / 2) (same 24) (same 2) nothing nothing 1 still still hat 1 u v e ->
    e 1%nat 0%nat = 943718.5.
  Proof.
    intros (U & V & E & MO). destruct (MO 0%nat ltac:(lia)) as (_ & r & x & y & TU & ST & VX & EY). rewrite U, V, E in TU.
    rewrite nodes_are in ST. cbn [List.length Nat.mul Nat.add] in ST. assert (R10 := passes_ten _ r x y TU ST). subst r.
    rewrite EY. destruct (pass_is _ _ x y TU 10%nat (le_n _)) as (A & _). rewrite A. cbn [pow]. lra.
  Qed.
End Built.

Lemma fierce_stable : pos_semidef 2 (same 2).
Proof. intros v. unfold qform, dot, mv, same. cbn. assert (0 <= v 0%nat * v 0%nat) by apply Rle_0_sqr. assert (0 <= v 1%nat * v 1%nat) by apply Rle_0_sqr. lra. Qed.
