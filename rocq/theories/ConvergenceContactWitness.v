(* Bodies next to an obstacle that pushes back with a cushion: one falls along it, one is carried away from it. *)
From Coq Require Import Reals QArith Qreals List Arith ZArith Bool String Sorting.Sorted Lia Lra Psatz.
From Verif Require Import Common PyModel RVec LinAlg MeshModel MeshBuildModel MeshSpec MeshFacesProofs MeshMapProofs ListLemmas NormalsModel NormalsSpec NormalsProofs NormalsGeomProofs
  FemModel FemSpec ForcesSpec DirichletSpec ContactModel ContactSpec ContactLawProofs ContactCostProofs ConstrainedSpec ConstrainedWitness StatementModel StatementSpec StatementValueProofs
  StateModel TimeModel TimeSpec MethodModel RunStable ContactRunSpec ContactRunWitness
  OptimisationModel OptimisationProofs
  ProblemModel ProblemSpec ProblemUnique ProblemTotal ProblemDefaults ProblemFinal ProblemWitness ProblemContactModel ProblemContactSpec ProblemContactTheorems ProblemContactFinal NormalsExamples NormalsCases
  CoupledLimitProofs ProblemContactWitness ConvergenceSpec ConvergenceFinal ConvergenceWitness ConvergenceContactSpec.
Import ListNotations.
Local Open Scope string_scope.
Local Open Scope list_scope.
Local Open Scope R_scope.

(* a cushion: resists the approach, and the more the deeper the body already is *)
Definition cushion : contact_law :=
  mkLaw (fun v s h => potential_normal_direction (make_slope_contact_law 3) v s h + 2 * Rmax 0 s * v) (fun _ _ _ => 0) (fun _ _ _ => 1) (fun _ _ _ => 1) None.

Lemma cushion_convex h : convex_law cushion h.
Proof.
  intros n s x y t Ht. unfold density. rewrite along_between.
  cbn [normal_bound tangential_bound potential_tangential_direction potential_normal_direction cushion].
  pose proof (slope_convex 3 (along n s) h ltac:(lra) (along n x) (along n y) t Ht) as C. cbv beta in C. lra.
Qed.
Lemma along_size n v : Rabs (along n v) <= (Rabs (n 0%nat) + Rabs (n 1%nat)) * sized2 v.
Proof.
  unfold along, inner_product, sized2. cbn [sum]. rewrite Rplus_0_l. eapply Rle_trans; [apply Rabs_triang|]. rewrite !Rabs_mult.
  pose proof (Rabs_pos (n 0%nat)). pose proof (Rabs_pos (n 1%nat)). pose proof (Rabs_pos (v 0%nat)). pose proof (Rabs_pos (v 1%nat)). nra.
Qed.
Lemma along_minus n v w : along n (fun i => v i - w i) = along n v - along n w.
Proof. unfold along, inner_product. cbn [sum]. ring. Qed.
Lemma clip_lipschitz x y : Rabs (Rmax 0 x - Rmax 0 y) <= Rabs (x - y).
Proof. unfold Rmax. destruct (Rle_dec 0 x), (Rle_dec 0 y); unfold Rabs; repeat destruct Rcase_abs; lra. Qed.
Lemma cushion_tame : tame cushion.
Proof.
  intros n. set (c := Rabs (n 0%nat) + Rabs (n 1%nat)). assert (C : 0 <= c) by (unfold c; pose proof (Rabs_pos (n 0%nat)); pose proof (Rabs_pos (n 1%nat)); lra).
  exists (2 * c * c). split; [nra|]. intros h s s' v w HP. unfold law_density, density.
  cbn [normal_bound tangential_bound potential_tangential_direction potential_normal_direction cushion make_slope_contact_law].
  set (f := fun x => if leb x 0 then 0 else 0.5 * 3 * x ^ 2).
  change (if leb (along n v) 0 then 0 else 0.5 * 3 * along n v ^ 2) with (f (along n v)).
  change (if leb (along n w) 0 then 0 else 0.5 * 3 * along n w ^ 2) with (f (along n w)).
  pose proof (along_size n (fun i => s i - s' i)) as A1. pose proof (along_size n (fun i => v i - w i)) as A2. fold c in A1, A2. rewrite along_minus in A1, A2.
  pose proof (clip_lipschitz (along n s) (along n s')) as A3.
  set (a := Rmax 0 (along n s)) in *. set (b := Rmax 0 (along n s')) in *.
  match goal with |- ?l <= _ => replace l with (2 * ((a - b) * (along n v - along n w))) by ring end.
  set (S1 := sized2 (fun i => s i - s' i)) in *. set (S2 := sized2 (fun i => v i - w i)) in *.
  assert (P2' : 0 <= S2) by (unfold S2, sized2; pose proof (Rabs_pos (v 0%nat - w 0%nat)); pose proof (Rabs_pos (v 1%nat - w 1%nat)); lra).
  assert (P1 : 0 <= S1) by (unfold S1, sized2; pose proof (Rabs_pos (s 0%nat - s' 0%nat)); pose proof (Rabs_pos (s 1%nat - s' 1%nat)); lra).
  assert (B : (a - b) * (along n v - along n w) <= (c * S1) * (c * S2)).
  { eapply Rle_trans; [apply Rle_abs|]. rewrite Rabs_mult. apply Rmult_le_compat; try apply Rabs_pos; lra. }
  assert (0 <= c * c * S2 * h) by (repeat apply Rmult_le_pos; lra). nra.
Qed.

(* the cushion is idle while the body does not lean on it *)
Section Idle.
  Context {V : Type}.
  Variables (m : @MeshData P2 V) (normals : list P2).
  Hypothesis FC : faces_of m "contact" = [[0; 1]]%nat.
  Hypothesis NX : 0 <= fst (nth 0 normals zero2).
  Hypothesis NY : snd (nth 0 normals zero2) = 0.
  Notation nv := (coord2 (nth 0 normals zero2)).
  Lemma along_x v : along nv v = v 0%nat * fst (nth 0 normals zero2).
  Proof. unfold along, inner_product, coord2. cbn [sum nth]. rewrite NY. ring. Qed.
  Lemma mean_x (v : nat -> vec) : mean_at [0; 1]%nat v 0%nat = (v 0%nat 0%nat + v 1%nat 0%nat) / 2.
  Proof. unfold mean_at. cbn [lsum List.length INR]. field. Qed.
  Lemma idle_cost u w : u 0%nat <= 0 -> u 1%nat <= 0 -> 0 <= contact_cost coord2 zero2 m cushion normals 0 u w /\
    (w 0%nat <= 0 -> w 1%nat <= 0 -> contact_cost coord2 zero2 m cushion normals 0 u w = 0).
  Proof.
    intros U0 U1. unfold contact_cost, contact_energy. rewrite FC.
    set (N := List.length (m_nodes m)).
    assert (D : forall p, density (normal_bound cushion) (potential_normal_direction cushion) (tangential_bound cushion) (potential_tangential_direction cushion) 0 nv p (mean_at [0; 1]%nat (nodal N u))
      = if leb (along nv p) 0 then 0 else 0.5 * 3 * along nv p ^ 2).
    { intros p. unfold density. cbn [normal_bound tangential_bound potential_tangential_direction potential_normal_direction cushion make_slope_contact_law].
      rewrite (Rmax_left 0 (along nv (mean_at _ _))); [ring|]. rewrite along_x, mean_x. unfold nodal. cbn [Nat.mul Nat.add]. nra. }
    unfold boundary_sum. cbn [List.length sum nth]. cbv zeta. unfold samples. cbn [map lsum]. rewrite !D.
    pose proof (measure_nonneg (node_table coord2 zero2 (m_nodes m)) [0; 1]%nat) as MN.
    split.
    - assert (Q : forall p, 0 <= (if leb (along nv p) 0 then 0 else 0.5 * 3 * along nv p ^ 2)).
      { intros p. destruct (leb _ 0); [lra|]. pose proof (pow2_ge_0 (along nv p)). lra. }
      pose proof (Q (mean_at [0; 1]%nat (nodal N w))). pose proof (Q (nodal N w 0%nat)). pose proof (Q (nodal N w 1%nat)).
      rewrite Rplus_0_l. apply Rmult_le_pos; lra.
    - intros W0 W1. assert (Q : forall p, p 0%nat <= 0 -> (if leb (along nv p) 0 then 0 else 0.5 * 3 * along nv p ^ 2) = 0).
      { intros p P. unfold leb. destruct (Rle_dec _ 0) as [_|F]; [reflexivity|]. exfalso. apply F. rewrite along_x. nra. }
      rewrite !Q; [ring| | |]; [exact W1|exact W0|]. rewrite mean_x. unfold nodal. cbn [Nat.mul Nat.add]. lra.
  Qed.
End Idle.

(* normal of the side x = 1 of the square *)
Lemma side_normal n : outward2 (1, 0) (1, 1) (0, 1) n -> 0 <= fst n /\ snd n = 0.
Proof. intros (U & O & D). unfold dot2, sub2 in *. cbn in *. lra. Qed.

(* the falling body along the obstacle x = 1 *)
Section Fall.
  Variable a : R -> R.
  Notation pb := (fall_problem a).
  Lemma fall_contact h : 0 < h -> contact_posed (with_step pb h) (on_line 1) never (fun _ => 0) (drag a) calm DynamicVelocity 1 2 4 3 cushion.
  Proof.
    intros HP. constructor.
    - apply posed_step, fall_posed.
    - repeat split.
    - split; [reflexivity|]. cbn. repeat split; lra.
    - intros _. exact HP.
    - apply cushion_convex.
    - intros p _. reflexivity.
    - exact (bench_whole calm calm (fun _ => 0)).
  Qed.
  Definition qfall : @Description Q2 vec := mkDescription [("contact", qline 1); ("dirichlet", fun _ => false)] [("dirichlet", fun l i => 0)].
  Definition fall_mesh : @MeshData P2 vec :=
    map_mesh q2 (match build qmean qzero qsquare square_elements qfall with Ok m => m | Err _ => mkMesh [] [] [] [] [] end).
  Lemma fall_build : build mean2 zero2 square_nodes square_elements (pr_boundaries pb) = Ok fall_mesh.
  Proof.
    assert (Z : Q2R 0 = 0) by apply RMicromega.Q2R_0. assert (O : Q2R 1 = 1) by apply RMicromega.Q2R_1.
    replace square_nodes with (map q2 qsquare) by (unfold square_nodes, qsquare, q2; cbn [map fst snd]; rewrite Z, O; reflexivity).
    rewrite zero2_q2. apply build_map with (meanP := qmean) (dp := qfall); auto.
    - apply mean2_q2.
    - repeat constructor; auto; intros p; rewrite <- O; apply on_line_q2.
    - repeat constructor; auto.
  Qed.
  Lemma fall_data : faces_of fall_mesh "contact" = [[0; 1]]%nat /\ m_elements fall_mesh = m_elements (bench_mesh (fun _ => 0)) /\ m_nodes fall_mesh = m_nodes (bench_mesh (fun _ => 0)).
  Proof. unfold fall_mesh, bench_mesh. split; [vm_compute; reflexivity|]. split; vm_compute; reflexivity. Qed.
  Variable bt : built.
  Hypothesis PR : construct pb = Ok bt.
  Lemma fall_is : bt_mesh bt = fall_mesh.
  Proof.
    pose proof (prepared_init _ _ _ (constructed _ _ PR)) as PI. destruct (init2_parts _ _ _ _ _ PI) as [B _].
    pose proof fall_build as B'. cbn [pr_nodes pr_elements pr_boundaries fall_problem] in B, B'. rewrite B' in B. injection B as <-. reflexivity.
  Qed.
  Notation normals := (contact_normals (bt_mesh bt) (bt_normals bt)).
  Lemma fall_normal : 0 <= fst (nth 0 normals zero2) /\ snd (nth 0 normals zero2) = 0.
  Proof.
    apply side_normal. destruct fall_data as (DC & DE & DN). destruct (bench_face (fun _ => 0)) as (B1 & B2 & B3 & B4 & B5).
    apply (contact_outward pb (on_line 1) never (fun _ => 0) bt None (fall_posed a) ltac:(intros p _; reflexivity) (constructed _ _ PR)) with (f := [0; 1]%nat) (oi := 3%nat);
      rewrite ?fall_is, ?DC, ?DE, ?DN; auto.
    exact (bench_first (fun _ => 0)).
  Qed.
  Lemma fall_slides T (v u : R -> R) : true_contact pb bt never (fun _ => 0) (drag a) calm DynamicVelocity 1 2 4 3 cushion T
    (fun t => alike_all bt (u t)) (fun t => alike_all bt (v t)) (fun t => alike_all bt (a t)).
  Proof.
    intros t _. cbn [contact_step]. split; [apply fall_takes|]. intros w G H K TW HG HH HK.
    destruct fall_data as (DC & DE & DN). destruct fall_normal as (NX & NY).
    assert (FC : faces_of (bt_mesh bt) "contact" = [[0; 1]]%nat) by (rewrite fall_is; exact DC).
    assert (L : List.length (m_nodes (bt_mesh bt)) = 4%nat) by (rewrite fall_is, DN; destruct (bench_data (fun _ => 0)) as (_ & _ & _ & ->); reflexivity).
    assert (Z : forall c i, (i < 4)%nat -> alike_all bt c i = 0) by (intros c i I; unfold alike_all; rewrite L, Nat.div_small by exact I; reflexivity).
    assert (IC := fun y => idle_cost (bt_mesh bt) normals FC NX NY (alike_all bt (u t)) y ltac:(rewrite Z by lia; lra) ltac:(rewrite Z by lia; lra)).
    destruct (IC w) as (C1 & _). destruct (IC (alike_all bt (v t))) as (_ & C2). rewrite C2 by (rewrite Z by lia; lra).
    assert (E := fall_moves a bt PR t (v t) (u t) (fun i => w i - alike_all bt (v t) i) G H K).
    specialize (E ltac:(intros n k (_ & q & _ & F); discriminate) HG HH HK). cbn [mass_density pr_material fall_problem]. lra.
  Qed.
End Fall.

(* a body whose clamped side is carried away from the obstacle *)
Notation leaving := (bench calm calm (fun _ => -1)).
Lemma leaving_contact h k : 0 < h -> k = QuasistaticVelocity \/ k = DynamicVelocity ->
  contact_posed (with_step leaving h) (on_line 1) (on_line 0) (fun _ => -1) calm calm k 1 2 4 3 cushion.
Proof.
  intros HP K. constructor.
  - apply posed_step, bench_well.
  - repeat split.
  - split; [reflexivity|]. pose proof (bench_clamped calm calm (fun _ => -1)). destruct K as [->| ->]; cbn; repeat split; auto; lra.
  - intros _. exact HP.
  - apply cushion_convex.
  - exact square_separate.
  - exact (bench_whole calm calm (fun _ => -1)).
Qed.
Lemma leaving_true bt T k : k = QuasistaticVelocity \/ k = DynamicVelocity -> construct leaving = Ok bt ->
  true_contact leaving bt (on_line 0) (fun _ => -1) calm calm k 1 2 4 3 cushion T (fun t _ => - t) (fun _ _ => -1) (fun _ _ => 0).
Proof.
  intros KK PR t (T0 & _). pose proof (constructed _ _ PR) as PP. assert (PO := bench_well calm calm (fun _ => -1)).
  assert (BI := bench_is _ _ _ _ _ PP). destruct (bench_data (fun _ => -1)) as (DC & _).
  destruct (bench_face (fun _ => -1)) as (B1 & B2 & B3 & B4 & B5).
  set (normals := contact_normals (bt_mesh bt) (bt_normals bt)).
  assert (NN : 0 <= fst (nth 0 normals zero2) /\ snd (nth 0 normals zero2) = 0).
  { apply side_normal. apply (contact_outward leaving (on_line 1) (on_line 0) (fun _ => -1) bt None PO square_separate PP) with (f := [0; 1]%nat) (oi := 3%nat); rewrite ?BI; auto.
    exact (bench_first (fun _ => -1)). }
  destruct NN as (NX & NY). rewrite <- BI in DC.
  assert (IC := fun y => idle_cost (bt_mesh bt) normals DC NX NY (fun _ => - t) y ltac:(lra) ltac:(lra)).
  destruct (built_ready _ _ _ _ PO bt PR) as (ops & RD & _).
  assert (W : forall w G H K, gradients coord2 zero2 (bt_mesh bt) (fun i => w i - -1) G -> gradients coord2 zero2 (bt_mesh bt) (fun _ => -1) H -> gradients coord2 zero2 (bt_mesh bt) (fun _ => - t) K ->
    stress_work coord2 zero2 (bt_mesh bt) None 1 2 G H + stress_work coord2 zero2 (bt_mesh bt) None 4 3 G K = 0).
  { intros w G H K HG HH HK.
    assert (LG : forall c, gradients coord2 zero2 (bt_mesh bt) (fun _ => c) (fun _ _ _ => 0)) by (intros c; apply level_gradients).
    rewrite (viscous_is _ _ _ _ PO bt ops RD 1 2 _ _ G H eq_refl HG HH), (elastic_is _ _ _ _ PO bt ops RD 4 3 _ _ G K eq_refl HG HK).
    rewrite <- (viscous_is _ _ _ _ PO bt ops RD 1 2 _ _ G _ eq_refl HG (LG (-1))), <- (elastic_is _ _ _ _ PO bt ops RD 4 3 _ _ G _ eq_refl HG (LG (- t))).
    assert (Z : forall p q, stress_work coord2 zero2 (bt_mesh bt) None p q G (fun _ _ _ => 0) = 0).
    { intros p q. unfold stress_work, mesh_integral, integral. apply lsum_0. intros e _. unfold elastic_density, strain, divergence. cbn [sum]. unfold Rdiv. ring. }
    rewrite !Z. ring. }
  assert (IW : forall y, inertia_work coord2 zero2 (bt_mesh bt) 2 2 (fun _ => 0) y = 0).
  { intros y. unfold inertia_work, integral. rewrite sum_0; [ring|]. intros c _. apply lsum_0. intros e _. unfold mean_product, component. cbn [sum]. unfold Rdiv. ring. }
  destruct (IC (fun _ => -1)) as (_ & C2). specialize (C2 ltac:(lra) ltac:(lra)).
  destruct KK as [->| ->]; cbn [contact_step]; (split; [intros n k p _ _ _; reflexivity|]); intros w G H K TW HG HH HK; fold normals;
    rewrite C2, calm_work; pose proof (W w G H K HG HH HK); destruct (IC w) as (C1 & _); cbn [mass_density pr_material bench]; rewrite ?IW; lra.
Qed.

(* which laws of the library are tame *)
Lemma slope_tame slope : tame (make_slope_contact_law slope).
Proof.
  intros n. exists 0. split; [lra|]. intros h s s' v w _. unfold law_density, density.
  cbn [normal_bound tangential_bound potential_tangential_direction potential_normal_direction make_slope_contact_law]. lra.
Qed.
Lemma const_tame r : tame (make_const_contact_law r).
Proof.
  intros n. set (c := Rabs (n 0%nat) + Rabs (n 1%nat)). assert (C : 0 <= c) by (unfold c; pose proof (Rabs_pos (n 0%nat)); pose proof (Rabs_pos (n 1%nat)); lra).
  exists (Rabs r * (c * c)). pose proof (Rabs_pos r) as R0. split; [apply Rmult_le_pos; nra|]. intros h s s' v w HP. unfold law_density, density.
  cbn [normal_bound tangential_bound potential_tangential_direction potential_normal_direction make_const_contact_law].
  assert (F : forall x y, (if leb x 0 then 0 * y else r * x * y) = r * Rmax 0 x * y).
  { intros x y. unfold leb, Rmax. destruct (Rle_dec x 0), (Rle_dec 0 x); try lra. replace x with 0 by lra. ring. }
  rewrite !F. pose proof (along_size n (fun i => s i - s' i)) as A1. pose proof (along_size n (fun i => v i - w i)) as A2. fold c in A1, A2. rewrite along_minus in A1, A2.
  pose proof (clip_lipschitz (along n v) (along n w)) as A3.
  set (a := Rmax 0 (along n v)) in *. set (b := Rmax 0 (along n w)) in *.
  match goal with |- ?l <= _ => replace l with (r * ((a - b) * (along n s - along n s'))) by ring end.
  set (S1 := sized2 (fun i => s i - s' i)) in *. set (S2 := sized2 (fun i => v i - w i)) in *.
  assert (P2' : 0 <= S2) by (unfold S2, sized2; pose proof (Rabs_pos (v 0%nat - w 0%nat)); pose proof (Rabs_pos (v 1%nat - w 1%nat)); lra).
  eapply Rle_trans; [apply Rle_abs|]. rewrite !Rabs_mult.
  assert (B : Rabs (a - b) * Rabs (along n s - along n s') <= (c * S2) * (c * S1)) by (apply Rmult_le_compat; try apply Rabs_pos; lra).
  assert (B2 : Rabs (a - b) * Rabs (along n s - along n s') <= c * c * ((S1 + h) * S2)).
  { assert (0 <= c * c * (h * S2)) by (apply Rmult_le_pos; [nra|apply Rmult_le_pos; lra]). nra. }
  replace (Rabs r * (c * c) * (S1 + h) * S2) with (Rabs r * (c * c * ((S1 + h) * S2))) by ring. apply Rmult_le_compat_l; assumption.
Qed.
(* the damped law jumps when the obstacle is reached *)
Lemma damped_not_tame level kappa beta : 0 <= kappa -> 0 < beta -> ~ tame (make_damped_norm_compl level kappa beta).
Proof.
  intros KP BP TA. destruct (TA (fun k => if (k =? 0)%nat then 1 else 0)) as (lam & L0 & H).
  set (n := fun k => if (k =? 0)%nat then 1 else 0) in *. set (e := Rmin 1 (beta / (8 * (lam + 1)))).
  assert (E0 : 0 < e) by (apply Rmin_glb_lt; [lra|apply Rdiv_lt_0_compat; lra]).
  assert (E1 : 8 * (lam + 1) * e <= beta).
  { apply Rle_trans with (8 * (lam + 1) * (beta / (8 * (lam + 1)))); [apply Rmult_le_compat_l; [lra|apply Rmin_r]|right; field; lra]. }
  (* time step 0 uses s' below the level, the time step e uses s at the level *)
  specialize (H e (fun k => if (k =? 0)%nat then level else 0) (fun k => if (k =? 0)%nat then level - e else 0) (fun k => if (k =? 0)%nat then 1 else 0) (fun _ => 0) E0).
  unfold law_density, density, sized2 in H.
  cbn [normal_bound tangential_bound potential_tangential_direction potential_normal_direction make_damped_norm_compl] in H.
  unfold along, inner_product, n in H. cbn [sum Nat.eqb] in H.
  unfold ltb in H.
  repeat match type of H with context [Rlt_dec ?x ?y] => destruct (Rlt_dec x y); try lra end.
  replace (level - (level - e)) with e in H by ring. replace (1 - 0) with 1 in H by ring. replace (0 - 0) with 0 in H by ring.
  rewrite Rabs_R1, Rabs_R0, (Rabs_pos_eq e) in H by lra. assert (0 <= kappa * e) by (apply Rmult_le_pos; lra). nra.
Qed.
