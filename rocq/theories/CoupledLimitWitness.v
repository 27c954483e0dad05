(* The square of CoupledWitness is coupled weakly, the triangle of FierceWitness strongly. *)
From Coq Require Import Reals List Arith ZArith Bool String Lia Lra.
From Verif Require Import Common PyModel RVec LinAlg MeshModel MeshBuildModel MeshSpec NormalsModel FemModel FemSpec ForcesModel ForcesSpec
  DirichletModel DirichletSpec StatementModel StatementSpec StatementValueProofs RegistryModel RegistrySpec RegistryProofs DispatchProofs
  StateModel StateLemmas CopyProofs TimeModel TimeSpec TimeProofs RunProofs HistoryProofs SolveProofs MarchProofs MethodModel MethodProofs
  RunSpec RunStable WholeRunProofs RunTheorems
  ProblemModel ProblemSpec ProblemProofs ProblemTheorems ProblemUnique ProblemTotal ProblemDefaults ProblemFinal ProblemWitness
  CoupledMethodModel CoupledSpec CoupledProblemSpec CoupledProblemFinal CoupledWitness CoupledLimitSpec CoupledLimitFinal CoupledLimitTheorems FierceWitness.
Import ListNotations.
Local Open Scope string_scope.
Local Open Scope list_scope.
Local Open Scope R_scope.

Lemma density_trace mu la (H : nat -> vec) : 0 <= mu ->
  (mu + la) * (H 0%nat 0%nat + H 1%nat 1%nat) ^ 2 + mu * (H 0%nat 1%nat + H 1%nat 0%nat) ^ 2 <= elastic_density 2 mu la H H.
Proof.
  intros M. unfold elastic_density, strain, divergence. cbn [sum]. 
  assert (0 <= mu * (H 0%nat 0%nat - H 1%nat 1%nat) ^ 2) by (apply Rmult_le_pos; [exact M|apply pow2_ge_0]). lra.
Qed.

Lemma isotropic_bounded a th ze mu la dt : 0 <= th -> 0 <= mu -> 0 < dt -> 0 < th + ze + dt * (mu + la) ->
  expansion_bounded (same a) th ze mu la dt (a ^ 2 / (th + ze + dt * (mu + la))).
Proof.
  intros T M DT P H. assert (D1 := density_trace th ze H T). assert (D2 := density_trace mu la H M).
  set (d := th + ze + dt * (mu + la)) in *. set (D := elastic_density 2 th ze H H + dt * elastic_density 2 mu la H H).
  unfold same. cbn [sum Nat.eqb]. set (t := H 0%nat 0%nat + H 1%nat 1%nat) in *.
  assert (Q : d * t ^ 2 <= D).
  { unfold D. assert (0 <= th * (H 0%nat 1%nat + H 1%nat 0%nat) ^ 2) by (apply Rmult_le_pos; [exact T|apply pow2_ge_0]).
    assert (0 <= mu * (H 0%nat 1%nat + H 1%nat 0%nat) ^ 2) by (apply Rmult_le_pos; [exact M|apply pow2_ge_0]).
    assert (dt * ((mu + la) * t ^ 2) <= dt * elastic_density 2 mu la H H) by (apply Rmult_le_compat_l; lra). unfold d. lra. }
  replace (0 + (0 + a * H 0%nat 0%nat + 0 * H 0%nat 1%nat) + (0 + 0 * H 1%nat 0%nat + a * H 1%nat 1%nat)) with (a * t) by (unfold t; ring).
  rewrite Rpow_mult_distr. replace (a ^ 2 * t ^ 2) with (a ^ 2 / d * (d * t ^ 2)) by (field; lra).
  apply Rmult_le_compat_l; [|exact Q]. apply Rmult_le_pos; [apply pow2_ge_0|left; apply Rinv_0_lt_compat; exact P].
Qed.

Lemma square_expansion : expansion_bounded (same (1 / 2)) 1 2 4 3 (1 / 2) (1 / 26).
Proof.
  assert (Q := isotropic_bounded (1 / 2) 1 2 4 3 (1 / 2) ltac:(lra) ltac:(lra) ltac:(lra) ltac:(lra)).
  replace (1 / 26) with ((1 / 2) ^ 2 / (1 + 2 + 1 / 2 * (4 + 3))) by field. exact Q.
Qed.
Lemma square_response : piezo_bounded shear_response (same 2) 1 2 4 3 (1 / 2) (1 / 32).
Proof.
  intros G H. assert (D1 := density_trace 1 2 H ltac:(lra)). assert (D2 := density_trace 4 3 H ltac:(lra)).
  set (D := elastic_density 2 1 2 H H + 1 / 2 * elastic_density 2 4 3 H H).
  set (t := H 0%nat 0%nat + H 1%nat 1%nat) in *. set (s := H 0%nat 1%nat + H 1%nat 0%nat) in *.
  assert (Q : 4 * t ^ 2 + 1 * s ^ 2 <= D) by (assert (P1 := pow2_ge_0 t); assert (P2 := pow2_ge_0 s); unfold D; lra).
  set (b := 1 / 4 * t + 1 / 8 * s). set (a := G 0%nat + G 1%nat).
  unfold shear_response, same. cbn [sum Nat.eqb].
  match goal with |- ?l ^ 2 <= _ * _ * ?r => replace l with (a * b) by (unfold a, b, t, s; field); replace r with (2 * (G 0%nat ^ 2 + G 1%nat ^ 2)) by ring end.
  assert (A : a ^ 2 <= 2 * (G 0%nat ^ 2 + G 1%nat ^ 2)) by (assert (P1 := pow2_ge_0 (G 0%nat - G 1%nat)); unfold a; lra).
  assert (B : b ^ 2 <= 1 / 32 * D). { assert (P1 := pow2_ge_0 (1 / 4 * t - 1 / 8 * s)). unfold b. lra. }
  rewrite Rpow_mult_distr, Rmult_comm. apply Rmult_le_compat; [apply pow2_ge_0|apply pow2_ge_0|exact B|exact A].
Qed.

Lemma square_motion bt : construct coupled_square = Ok bt ->
  exists u v e, heated_motion (bt_mesh bt) (on_line 0) lift 2 1 2 4 3 (same (1 / 2)) (same 3) weight pull (1 / 2) still still (fun i => INR i) 4 u v e.
Proof.
  intros E. set (N := List.length (m_nodes (bt_mesh bt))).
  assert (P3 : forall v, 0 <= sum 2 (fun k => sum 2 (fun l => same 3 k l * (v k * v l)))).
  { intros v. refine (Rle_trans _ _ _ _ (same_psd 3 v ltac:(lra))). cbn. nra. }
  assert (TS : 0 < time_step_of coupled_square) by (cbn; lra). assert (RM : 0 < mass_density (pr_material coupled_square)) by (cbn; lra).
  assert (Q := heated_total (V:=R) (W:=unit) coupled_square (on_line 1) (on_line 0) lift coupled_posed bt E (exact_answer (2 * N)) (exact_answer N) weight pull "schur" DynamicSchur
    1 2 4 3 (same (1 / 2)) (same 3) no_memory 4 coupled_loaded eq_refl eq_refl eq_refl RM ltac:(lra) ltac:(lra) ltac:(lra) ltac:(lra) P3 TS
    (exact_exactly _ _) (exact_exactly _ _) (exact_definite _ _) (exact_definite _ _) eq_refl ltac:(discriminate)).
  destruct Q as (mm & s1 & s2 & CS & H).
  assert (ND : non_decreasing 0 (requested 4 [4]%Z)) by (cbn; repeat split; lia).
  destruct (H still still (fun i => INR i) [4]%Z ND) as (w' & l & u & v & e & RU & MO & _). exists u, v, e. exact MO.
Qed.

Lemma strong_refuted : forall bt, construct fierce = Ok bt ->
  let N := List.length (m_nodes (bt_mesh bt)) in
  (exists mm s1 s2 w' (s : state unit) y,
    coupled_solvers fierce bt DynamicVelocityWithTemperature Temperature no_memory = Ok (mm, s1, s2) /\
    coupled_run bt true DynamicVelocityWithTemperature Temperature DynamicSchur (exact_answer (2 * N)) (exact_answer N) 1 still still hat
      [1]%Z mm s1 s2 = Some (w', Ok [s]) /\
    map (StateModel.load (p_mem w')) (extra_refs (extra s)) = [y] /\ y 0%nat = 943718.5) /\
  (exists xs ys, balanced (momentum_step (bt_mesh bt) (on_line 0) (fun _ => 0) 12 (1 / 4) (1 / 2) (1 / 4) (1 / 2) (same 24) nothing nothing 1)
    (heat_step (bt_mesh bt) (on_line 0) (fun _ => 0) 12 (same 24) (same 2) 1) 1 (INR 1 * 1) still still hat xs ys /\ ys 0%nat = 1 / 10).
Proof.
  intros bt E N.
  assert (P2 : forall v, 0 <= sum 2 (fun k => sum 2 (fun l => same 2 k l * (v k * v l)))).
  { intros v. refine (Rle_trans _ _ _ _ (same_psd 2 v ltac:(lra))). cbn. nra. }
  assert (TS : 0 < time_step_of fierce) by (cbn; lra). assert (RM : 0 < mass_density (pr_material fierce)) by (cbn; lra).
  split.
  - assert (Q := heated_total (V:=R) (W:=unit) fierce (on_line 1) (on_line 0) (fun _ => 0) fierce_posed bt E (exact_answer (2 * N)) (exact_answer N) nothing nothing "schur" DynamicSchur
      (1 / 4) (1 / 2) (1 / 4) (1 / 2) (same 24) (same 2) no_memory 1 fierce_loaded eq_refl eq_refl eq_refl RM ltac:(lra) ltac:(lra) ltac:(lra) ltac:(lra) P2 TS
      (exact_exactly _ _) (exact_exactly _ _) (exact_definite _ _) (exact_definite _ _) eq_refl ltac:(discriminate)).
    destruct Q as (mm & s1 & s2 & CS & H).
    assert (ND : non_decreasing 0 (requested 1 [1]%Z)) by (cbn; repeat split; lia).
    destruct (H still still hat [1]%Z ND) as (w' & l & u & v & e & RU & MO & LE & SH).
    cbn in LE. destruct l as [|s [|s' l]]; cbn in LE; try discriminate.
    destruct (SH 0%nat 1%Z s eq_refl eq_refl) as (_ & _ & _ & XE).
    exists mm, s1, s2, w', s, (e 1%nat). split; [exact CS|]. split; [exact RU|]. split; [exact XE|].
    exact (fierce_step bt E u v e MO).
  - destruct (heated_balanced fierce (on_line 1) (on_line 0) (fun _ => 0) fierce_posed bt E nothing nothing (1 / 4) (1 / 2) (1 / 4) (1 / 2) eq_refl eq_refl (same 24) (same 2) eq_refl
      (INR 1 * 1) still still hat RM ltac:(lra) ltac:(lra) ltac:(lra) ltac:(lra) P2 TS) as (xs & ys & B & _).
    exists xs, ys. split; [exact B|]. exact (rest_is bt E _ xs ys B).
Qed.
