(* C105: the passes of posed problems. *)
From Coq Require Import Reals List Arith ZArith Bool String Lia Lra.
From Verif Require Import Common PyModel RVec LinAlg MeshModel MeshBuildModel MeshSpec NormalsModel
  DofModel DofSpec DirichletModel DirichletSpec DirichletProofs
  FemModel FemSpec FemAssemblyProofs FemFormProofs FemBasicProofs FemMeshProofs FemPipelineProofs ForcesModel ForcesSpec
  StatementModel StatementSpec StatementProofs StatementValueProofs StatementLawProofs TimeSpec
  ProblemModel ProblemSpec ProblemProofs ProblemReady ProblemTheorems ProblemUnique ProblemFinal
  CoupledSpec CoupledProblemSpec ElectrodeProofs ElectrodeUserProofs CoupledProblemTheorems CoupledProblemTotal AlternationProofs CoupledLimitSpec CoupledLimitProofs CoupledLimitFinal.
Import ListNotations.
Local Open Scope string_scope.
Local Open Scope list_scope.
Local Open Scope R_scope.

Lemma pow_mono q i j : 0 <= q -> q <= 1 -> (i <= j)%nat -> q ^ j <= q ^ i.
Proof.
  intros Q0 Q1 H. replace j with (i + (j - i))%nat by lia. rewrite pow_add. rewrite <- (Rmult_1_r (q ^ i)) at 2.
  apply Rmult_le_compat_l; [apply pow_le; exact Q0|]. rewrite <- (pow1 (j - i)). apply pow_incr. lra.
Qed.
Lemma dot_mv n k A z (e e' : vec) : veq k e e' -> dot n z (fun i => mv k A e i) = dot n z (fun i => mv k A e' i).
Proof. intros E. apply sum_ext. intros i _. f_equal. apply sum_ext. intros j Hj. rewrite (E j Hj). reflexivity. Qed.
Lemma mv_same k A (e e' : vec) i : veq k e e' -> mv k A e i = mv k A e' i.
Proof. intros E. apply sum_ext. intros j Hj. rewrite (E j Hj). reflexivity. Qed.

Section Theorems.
  Variables (pb : problem) (ic id : P2 -> bool) (g : P2 -> R).
  Hypothesis PO : posed pb ic id g.
  Variable bt : built.
  Hypothesis PR : construct pb = Ok bt.
  Notation m := (bt_mesh bt).
  Notation N := (List.length (m_nodes m)).
  Notation dt := (time_step_of pb).
  Notation rho := (mass_density (pr_material pb)).
  Variables fi fo : P2 -> R -> vec.
  Variables (th ze mu la : R).
  Hypothesis EL : elastic (pr_material pb) = Some (mu, la).
  Hypothesis VI : viscous (pr_material pb) = Some (th, ze).

  Lemma ready_here : exists ops, ready pb bt None ops.
  Proof. exact (prepared_ready pb ic id g PO bt None (constructed pb bt PR)). Qed.

  Section Heated.
  Variables ex co : nat -> nat -> R.
  Hypothesis TH : thermal (pr_material pb) = Some (ex, co).
  Notation momentum := (momentum_step m id g rho th ze mu la ex fi fo dt).
  Notation heat := (heat_step m id g rho ex co dt).

  Lemma heated_balanced t u v e : 0 < rho -> 0 <= mu -> 0 <= la -> 0 <= th -> 0 <= ze ->
    (forall v, 0 <= sum 2 (fun k => sum 2 (fun l => co k l * (v k * v l)))) -> 0 < dt ->
    exists x y, balanced momentum heat dt t u v e x y /\
    forall x' y', balanced momentum heat dt t u v e x' y' -> veq (2 * N) x x' /\ veq N y y'.
  Proof.
    intros RM M L T Z PC DT. destruct ready_here as (ops & RD).
    destruct (motion_definite pb ic id g PO bt th ze mu la EL VI M L T Z DT ops RD RM) as (DA & _).
    destruct (heat_definite pb ic id g PO bt DT ops RD ex co TH RM PC) as (DB & _).
    destruct (both_solvable (2 * N) N (motion_matrix pb ops) (heat_matrix pb ops) (some_mat (thermal_expansion ops)) (fixed_dof id g bt 2) (fixed_dof id g bt 1)
      1 (-1) 1 1 ltac:(lra) ltac:(lra) ltac:(lra) DA DB (fixed_dof_range id g bt 2)
      ltac:(intros i w Q; assert (R0 := fixed_dof_range id g bt 1 i w Q); lia) (fixed_dof_one id g bt 2) (fixed_dof_one id g bt 1)
      (momentum_load pb bt ops fi fo t u v) (heat_load pb bt ops e)) as (x & y & F & S1).
    exists x, y. split.
    - split; [apply (proj2 (momentum_weak pb ic id g PO bt ops RD fi fo th ze mu la EL VI ex co TH t u v y x)); exact F|].
      apply (proj2 (heat_weak pb ic id g PO bt ops RD ex co TH _ x e y)). exact S1.
    - intros x' y' (F' & S').
      apply (proj1 (momentum_weak pb ic id g PO bt ops RD fi fo th ze mu la EL VI ex co TH t u v y' x')) in F'.
      apply (proj1 (heat_weak pb ic id g PO bt ops RD ex co TH _ x' e y')) in S'.
      exact (both_unique _ _ _ _ _ _ _ 1 (-1) 1 1 ltac:(lra) ltac:(lra) ltac:(lra) DA DB _ _ x y x' y' F S1 F' S').
  Qed.

  Lemma heated_settles ka t u v e r x y xs ys : 0 < rho -> 0 <= mu -> 0 <= la -> 0 <= th -> 0 <= ze ->
    (forall v, 0 <= sum 2 (fun k => sum 2 (fun l => co k l * (v k * v l)))) -> 0 < dt -> 0 <= ka ->
    expansion_bounded ex th ze mu la dt ka ->
    turns momentum heat dt t u v e r x y -> balanced momentum heat dt t u v e xs ys ->
    forall E0, heat_energy m rho co dt (fun c => e c - ys c) E0 ->
    forall i, (i <= r)%nat ->
    (forall E, heat_energy m rho co dt (fun c => y i c - ys c) E -> E <= ((ka * dt / rho) ^ 2) ^ i * E0) /\
    ((i < r)%nat -> forall E, motion_energy m rho th ze mu la dt (fun c => x (S i) c - xs c) E -> E <= ka * dt / rho * (((ka * dt / rho) ^ 2) ^ i * E0)).
  Proof.
    intros RM M L T Z PC DT K0 XB (Y0 & TU) (F & S1) E0 HE i Hi. destruct ready_here as (ops & RD).
    destruct (motion_definite pb ic id g PO bt th ze mu la EL VI M L T Z DT ops RD RM) as (_ & PA).
    destruct (heat_definite pb ic id g PO bt DT ops RD ex co TH RM PC) as (_ & PB).
    apply (proj1 (heat_energy_is pb ic id g PO bt ops RD ex co TH _ E0)) in HE.
    assert (C0 : 0 <= ka * dt / rho) by (apply Rmult_le_pos; [apply Rmult_le_pos; lra|left; apply Rinv_0_lt_compat; exact RM]).
    assert (Q := passes_settle (2 * N) N (motion_matrix pb ops) (heat_matrix pb ops) (some_mat (thermal_expansion ops)) (fixed_dof id g bt 2) (fixed_dof id g bt 1)
      1 (-1) (ka * dt / rho) (fun z => dot (2 * N) z (momentum_load pb bt ops fi fo t u v)) (fun z => dot N z (heat_load pb bt ops e)) xs ys x y r
      (heated_dominated pb ic id g PO bt th ze mu la EL VI M L T Z DT ops RD ex co ka TH RM K0 PC XB) PA PB C0
      (proj1 (momentum_weak pb ic id g PO bt ops RD fi fo th ze mu la EL VI ex co TH t u v ys xs) F)
      (proj1 (heat_weak pb ic id g PO bt ops RD ex co TH _ xs e ys) S1)
      (fun j Hj => conj (proj1 (momentum_weak pb ic id g PO bt ops RD fi fo th ze mu la EL VI ex co TH t u v _ _) (proj1 (TU j Hj)))
                        (proj1 (heat_weak pb ic id g PO bt ops RD ex co TH _ _ e _) (proj2 (TU j Hj)))) i Hi).
    cbv zeta in Q. rewrite Y0 in Q. change (minus e ys) with (fun c => e c - ys c) in Q. rewrite <- HE in Q.
    replace (1 ^ 2 * (ka * dt / rho)) with (ka * dt / rho) in Q by ring.
    replace (ka * dt / rho * ((-1) ^ 2 * (ka * dt / rho))) with ((ka * dt / rho) ^ 2) in Q by ring.
    split.
    - intros E EE. apply (proj1 (heat_energy_is pb ic id g PO bt ops RD ex co TH _ E)) in EE. rewrite EE. exact (proj1 Q).
    - intros IR E EE. apply (proj1 (motion_energy_is pb ic id g PO bt ops RD th ze mu la EL VI _ E)) in EE. rewrite EE. exact (proj2 Q IR).
  Qed.

  Lemma heated_alone u0 v0 e0 n u v e u' v' e' : 0 < rho -> 0 <= mu -> 0 <= la -> 0 <= th -> 0 <= ze ->
    (forall v, 0 <= sum 2 (fun k => sum 2 (fun l => co k l * (v k * v l)))) -> 0 < dt ->
    heated_motion m id g rho th ze mu la ex co fi fo dt u0 v0 e0 n u v e -> heated_motion m id g rho th ze mu la ex co fi fo dt u0 v0 e0 n u' v' e' ->
    forall j, (j <= n)%nat -> veq (2 * N) (u j) (u' j) /\ veq (2 * N) (v j) (v' j) /\ veq N (e j) (e' j).
  Proof.
    intros RM M L T Z PC DT. destruct ready_here as (ops & RD).
    destruct (motion_definite pb ic id g PO bt th ze mu la EL VI M L T Z DT ops RD RM) as (DA & _).
    destruct (heat_definite pb ic id g PO bt DT ops RD ex co TH RM PC) as (DB & _).
    apply coupled_unique.
    - intros t u1 v1 y1 x1 u2 v2 y2 x2 U V Y F F'.
      apply (proj1 (momentum_weak pb ic id g PO bt ops RD fi fo th ze mu la EL VI ex co TH t u1 v1 y1 x1)) in F.
      apply (proj1 (momentum_weak pb ic id g PO bt ops RD fi fo th ze mu la EL VI ex co TH t u2 v2 y2 x2)) in F'.
      apply (first_determined _ _ _ _ _ _ _ _ _ _ _ _ DA) with (3 := F) (4 := F'); [|exact Y].
      intros z. cbv beta. apply sum_ext. intros i _. f_equal. unfold momentum_load.
      rewrite (mv_same _ _ v1 v2 i V), (mv_same _ _ u1 u2 i U). reflexivity.
    - intros u1 u2 x1 e1 y1 x2 e2 y2 U X E F F'.
      apply (proj1 (heat_weak pb ic id g PO bt ops RD ex co TH _ x1 e1 y1)) in F.
      apply (proj1 (heat_weak pb ic id g PO bt ops RD ex co TH _ x2 e2 y2)) in F'.
      apply (second_determined _ _ _ _ _ _ _ _ _ _ _ _ DB) with (3 := F) (4 := F'); [|exact X].
      intros z. cbv beta. apply sum_ext. intros i _. f_equal. unfold heat_load. rewrite (mv_same _ _ e1 e2 i E). reflexivity.
  Qed.

  Lemma heated_near ka u0 v0 e0 n u v e : 0 < rho -> 0 <= mu -> 0 <= la -> 0 <= th -> 0 <= ze ->
    (forall v, 0 <= sum 2 (fun k => sum 2 (fun l => co k l * (v k * v l)))) -> 0 < dt -> 0 <= ka -> ka * dt <= rho ->
    expansion_bounded ex th ze mu la dt ka ->
    heated_motion m id g rho th ze mu la ex co fi fo dt u0 v0 e0 n u v e ->
    forall j xs ys, (j < n)%nat -> balanced momentum heat dt (INR (S j) * dt) (u j) (v j) (e j) xs ys ->
    forall E0, heat_energy m rho co dt (fun c => e j c - ys c) E0 ->
    (forall E, heat_energy m rho co dt (fun c => e (S j) c - ys c) E -> E <= (ka * dt / rho) ^ 10 * E0) /\
    (forall E, motion_energy m rho th ze mu la dt (fun c => v (S j) c - xs c) E -> E <= (ka * dt / rho) ^ 9 * E0).
  Proof.
    intros RM M L T Z PC DT K0 K1 XB (_ & _ & _ & MO) j xs ys Hj BA E0 HE.
    destruct (MO j Hj) as (_ & r & x & y & TU & ST & VX & EY). destruct ST as ((S5 & _) & _).
    assert (C0 : 0 <= ka * dt / rho) by (apply Rmult_le_pos; [apply Rmult_le_pos; lra|left; apply Rinv_0_lt_compat; exact RM]).
    assert (C1 : ka * dt / rho <= 1) by (apply Rmult_le_reg_r with rho; [exact RM|]; unfold Rdiv; rewrite Rmult_assoc, Rinv_l by lra; lra).
    assert (EP : 0 <= E0).
    { destruct HE as (G & HG & ->). apply Rplus_le_le_0_compat.
      - apply Rmult_le_pos; [|left; apply Rinv_0_lt_compat; exact DT]. unfold inertia_work. apply Rmult_le_pos; [lra|]. apply sum_nonneg. intros c _.
        apply lsum_nonneg. intros el _. apply Rmult_le_pos; [apply area_nonneg|]. eapply Rle_trans; [|apply mean_square]. apply pow2_ge_0.
      - apply lsum_nonneg. intros el _. apply Rmult_le_pos; [apply area_nonneg|apply PC]. }
    set (c := ka * dt / rho) in *.
    assert (SE := heated_settles ka _ _ _ _ r x y xs ys RM M L T Z PC DT K0 XB TU BA E0 HE).
    rewrite VX, EY. split; intros E EE.
    - eapply Rle_trans; [exact (proj1 (SE r (le_n r)) E EE)|]. fold c. apply Rmult_le_compat_r; [exact EP|]. rewrite <- pow_mult. apply pow_mono; [exact C0|exact C1|lia].
    - destruct (SE (r - 1)%nat ltac:(lia)) as (_ & Q). replace (S (r - 1)) with r in Q by lia. eapply Rle_trans; [exact (Q ltac:(lia) E EE)|]. fold c.
      rewrite <- Rmult_assoc, <- pow_mult. apply Rmult_le_compat_r; [exact EP|]. change (c * c ^ (2 * (r - 1))) with (c ^ (S (2 * (r - 1)))). apply pow_mono; [exact C0|exact C1|lia].
  Qed.
  End Heated.

  Section Polarised.
  Variable es : list ((P2 -> bool) * (P2 -> R)).
  Hypothesis ES : electrodes (pr_boundaries pb) es.
  Hypothesis EM : electrodes_meet (pr_nodes pb) (pr_elements pb) es.
  Variables (pz : nat -> nat -> nat -> R) (pm : nat -> nat -> R).
  Hypothesis PZ : piezo (pr_material pb) = Some (pz, pm).
  Notation creep := (creep_step m id g th ze mu la pz fi fo dt).
  Notation motion := (motion_step m id g rho th ze mu la fi fo dt).
  Notation potential := (potential_step m es pz pm).

  Lemma potential_definite ops c : ready pb bt None ops -> wired (pr_nodes pb) (pr_elements pb) es -> 0 < c ->
    (forall v, c * sum 2 (fun k => v k * v k) <= sum 2 (fun k => sum 2 (fun l => pm k l * (v k * v l)))) ->
    free_definite N (some_mat (permittivity ops)) (at_electrode m es).
  Proof.
    intros RD WI C0 PC. assert (EF := electrodes_built pb ic id g m es PO (proj1 RD) EM).
    destruct (electrode_conditions pb ic id g m es PO (proj1 RD) ES EF) as (conds2 & MC2 & WS2 & CN2 & HP2).
    assert (D := permittivity_definite pb ic id g PO bt ops RD es pz pm c conds2 PZ C0 PC (wires_built pb ic id g m es PO (proj1 RD) WI) HP2).
    intros x H0 Hx. apply D; [|exact Hx]. intros d w Q. apply (H0 d w). apply HP2. exact Q.
  Qed.
  Lemma permittivity_psd c : 0 < c ->
    (forall v : vec, c * sum 2 (fun k => v k * v k) <= sum 2 (fun k => sum 2 (fun l => pm k l * (v k * v l)))) ->
    forall v : vec, 0 <= sum 2 (fun k => sum 2 (fun l => pm k l * (v k * v l))).
  Proof. intros C0 PC v. eapply Rle_trans; [|apply PC]. apply Rmult_le_pos; [lra|]. apply sum_nonneg. intros k _. apply Rle_0_sqr. Qed.
  Lemma potential_psd ops : ready pb bt None ops -> (forall v : vec, 0 <= sum 2 (fun k => sum 2 (fun l => pm k l * (v k * v l)))) ->
    pos_semidef N (some_mat (permittivity ops)).
  Proof.
    intros RD PC y. destruct (grad pb ic id g PO bt ops RD y) as (G & HG).
    rewrite <- (proj1 (potential_energy_is pb ic id g PO bt ops RD pz pm PZ y _) (ex_intro _ G (conj HG eq_refl))).
    apply lsum_nonneg. intros e _. apply Rmult_le_pos; [apply area_nonneg|apply PC].
  Qed.

  Lemma polarised_balanced c t u v e : clamped_mesh pb id -> wired (pr_nodes pb) (pr_elements pb) es -> 0 <= mu -> 0 <= la -> 0 < th -> 0 <= ze -> 0 < c ->
    (forall v, c * sum 2 (fun k => v k * v k) <= sum 2 (fun k => sum 2 (fun l => pm k l * (v k * v l)))) -> 0 < dt ->
    exists x y, balanced creep potential dt t u v e x y /\
    forall x' y', balanced creep potential dt t u v e x' y' -> veq (2 * N) x x' /\ veq N y y'.
  Proof.
    intros HU WI M L T Z C0 PC DT. destruct ready_here as (ops & RD).
    assert (DA := creep_definite pb ic id g PO bt th ze mu la EL VI M L Z DT ops RD HU T).
    assert (DB := potential_definite ops c RD WI C0 PC).
    assert (EF := electrodes_built pb ic id g m es PO (proj1 RD) EM).
    destruct (both_solvable (2 * N) N (creep_matrix pb ops) (some_mat (permittivity ops)) (some_mat (piezoelectricity ops)) (fixed_dof id g bt 2) (at_electrode m es)
      (-1) dt dt 1 DT ltac:(lra) ltac:(lra) DA DB (fixed_dof_range id g bt 2) (electrode_range bt es) (fixed_dof_one id g bt 2) (proj2 EF)
      (creep_load bt ops fi fo t u) (potential_load bt ops u)) as (x & y & F & S1).
    exists x, y. split.
    - split; [apply (proj2 (creep_weak pb ic id g PO bt ops RD fi fo th ze mu la EL VI pz pm PZ t u v y x)); exact F|].
      apply (proj2 (potential_weak pb ic id g PO bt ops RD pz pm PZ es u x e y)). exact S1.
    - intros x' y' (F' & S').
      apply (proj1 (creep_weak pb ic id g PO bt ops RD fi fo th ze mu la EL VI pz pm PZ t u v y' x')) in F'.
      apply (proj1 (potential_weak pb ic id g PO bt ops RD pz pm PZ es u x' e y')) in S'.
      exact (both_unique _ _ _ _ _ _ _ (-1) dt dt 1 DT ltac:(lra) ltac:(lra) DA DB _ _ x y x' y' F S1 F' S').
  Qed.

  Lemma polarised_settles ka t u v e r x y xs ys : 0 <= mu -> 0 <= la -> 0 <= th -> 0 <= ze ->
    (forall v, 0 <= sum 2 (fun k => sum 2 (fun l => pm k l * (v k * v l)))) -> 0 < dt -> 0 <= ka ->
    piezo_bounded pz pm th ze mu la dt ka ->
    turns creep potential dt t u v e r x y -> balanced creep potential dt t u v e xs ys ->
    forall E0, potential_energy m pm (fun c => e c - ys c) E0 ->
    forall i, (i <= r)%nat ->
    (forall E, potential_energy m pm (fun c => y i c - ys c) E -> E <= ((ka * dt) ^ 2) ^ i * E0) /\
    ((i < r)%nat -> forall E, creep_energy m th ze mu la dt (fun c => x (S i) c - xs c) E -> E <= ka * (((ka * dt) ^ 2) ^ i * E0)).
  Proof.
    intros M L T Z PC DT K0 XB (Y0 & TU) (F & S1) E0 HE i Hi. destruct ready_here as (ops & RD).
    assert (PA := creep_psd pb ic id g PO bt th ze mu la EL VI M L T Z DT ops RD).
    assert (PB := potential_psd ops RD PC).
    apply (proj1 (potential_energy_is pb ic id g PO bt ops RD pz pm PZ _ E0)) in HE.
    assert (Q := passes_settle (2 * N) N (creep_matrix pb ops) (some_mat (permittivity ops)) (some_mat (piezoelectricity ops)) (fixed_dof id g bt 2) (at_electrode m es)
      (-1) dt ka (fun z => dot (2 * N) z (creep_load bt ops fi fo t u)) (fun z => dot N z (potential_load bt ops u)) xs ys x y r
      (polarised_dominated pb ic id g PO bt th ze mu la EL VI M L T Z DT ops RD pz pm ka PZ K0 PC XB) PA PB K0
      (proj1 (creep_weak pb ic id g PO bt ops RD fi fo th ze mu la EL VI pz pm PZ t u v ys xs) F)
      (proj1 (potential_weak pb ic id g PO bt ops RD pz pm PZ es u xs e ys) S1)
      (fun j Hj => conj (proj1 (creep_weak pb ic id g PO bt ops RD fi fo th ze mu la EL VI pz pm PZ t u v _ _) (proj1 (TU j Hj)))
                        (proj1 (potential_weak pb ic id g PO bt ops RD pz pm PZ es u _ e _) (proj2 (TU j Hj)))) i Hi).
    cbv zeta in Q. rewrite Y0 in Q. change (minus e ys) with (fun c => e c - ys c) in Q. rewrite <- HE in Q.
    replace ((-1) ^ 2 * ka) with ka in Q by ring. replace (ka * (dt ^ 2 * ka)) with ((ka * dt) ^ 2) in Q by ring.
    split.
    - intros E EE. apply (proj1 (potential_energy_is pb ic id g PO bt ops RD pz pm PZ _ E)) in EE. rewrite EE. exact (proj1 Q).
    - intros IR E EE. apply (proj1 (creep_energy_is pb ic id g PO bt ops RD th ze mu la EL VI _ E)) in EE. rewrite EE. exact (proj2 Q IR).
  Qed.

  Lemma potential_determined ops c : ready pb bt None ops -> wired (pr_nodes pb) (pr_elements pb) es -> 0 < c ->
    (forall v, c * sum 2 (fun k => v k * v k) <= sum 2 (fun k => sum 2 (fun l => pm k l * (v k * v l)))) ->
    forall (u1 u2 x1 e1 y1 x2 e2 y2 : vec), veq (2 * N) u1 u2 -> veq (2 * N) x1 x2 -> veq N e1 e2 ->
    potential (fun c => u1 c + dt * x1 c) x1 e1 y1 -> potential (fun c => u2 c + dt * x2 c) x2 e2 y2 -> veq N y1 y2.
  Proof.
    intros RD WI C0 PC u1 u2 x1 e1 y1 x2 e2 y2 U X E F F'. assert (DB := potential_definite ops c RD WI C0 PC).
    apply (proj1 (potential_weak pb ic id g PO bt ops RD pz pm PZ es u1 x1 e1 y1)) in F.
    apply (proj1 (potential_weak pb ic id g PO bt ops RD pz pm PZ es u2 x2 e2 y2)) in F'.
    apply (second_determined _ _ _ _ _ _ _ _ _ _ _ _ DB) with (3 := F) (4 := F'); [|exact X].
    intros z. cbv beta. apply sum_ext. intros i _. f_equal. unfold potential_load. rewrite (mv_same _ _ u1 u2 i U). reflexivity.
  Qed.

  Lemma polarised_alone c u0 v0 e0 n u v e u' v' e' : clamped_mesh pb id -> wired (pr_nodes pb) (pr_elements pb) es ->
    0 <= mu -> 0 <= la -> 0 < th -> 0 <= ze -> 0 < c ->
    (forall v, c * sum 2 (fun k => v k * v k) <= sum 2 (fun k => sum 2 (fun l => pm k l * (v k * v l)))) -> 0 < dt ->
    polarised_motion m id g th ze mu la es pz pm fi fo dt u0 v0 e0 n u v e -> polarised_motion m id g th ze mu la es pz pm fi fo dt u0 v0 e0 n u' v' e' ->
    forall j, (j <= n)%nat -> veq (2 * N) (u j) (u' j) /\ veq (2 * N) (v j) (v' j) /\ veq N (e j) (e' j).
  Proof.
    intros HU WI M L T Z C0 PC DT. destruct ready_here as (ops & RD).
    assert (DA := creep_definite pb ic id g PO bt th ze mu la EL VI M L Z DT ops RD HU T).
    apply coupled_unique.
    - intros t u1 v1 y1 x1 u2 v2 y2 x2 U V Y F F'.
      apply (proj1 (creep_weak pb ic id g PO bt ops RD fi fo th ze mu la EL VI pz pm PZ t u1 v1 y1 x1)) in F.
      apply (proj1 (creep_weak pb ic id g PO bt ops RD fi fo th ze mu la EL VI pz pm PZ t u2 v2 y2 x2)) in F'.
      apply (first_determined _ _ _ _ _ _ _ _ _ _ _ _ DA) with (3 := F) (4 := F'); [|exact Y].
      intros z. cbv beta. apply sum_ext. intros i _. f_equal. unfold creep_load. rewrite (mv_same _ _ u1 u2 i U). reflexivity.
    - exact (potential_determined ops c RD WI C0 PC).
  Qed.

  Lemma polarised_near ka u0 v0 e0 n u v e : 0 <= mu -> 0 <= la -> 0 <= th -> 0 <= ze ->
    (forall v, 0 <= sum 2 (fun k => sum 2 (fun l => pm k l * (v k * v l)))) -> 0 < dt -> 0 <= ka -> ka * dt <= 1 ->
    piezo_bounded pz pm th ze mu la dt ka ->
    polarised_motion m id g th ze mu la es pz pm fi fo dt u0 v0 e0 n u v e ->
    forall j xs ys, (j < n)%nat -> balanced creep potential dt (INR (S j) * dt) (u j) (v j) (e j) xs ys ->
    forall E0, potential_energy m pm (fun c => e j c - ys c) E0 ->
    (forall E, potential_energy m pm (fun c => e (S j) c - ys c) E -> E <= (ka * dt) ^ 10 * E0) /\
    (forall E, creep_energy m th ze mu la dt (fun c => v (S j) c - xs c) E -> E <= ka * (ka * dt) ^ 8 * E0).
  Proof.
    intros M L T Z PC DT K0 K1 XB (_ & _ & _ & MO) j xs ys Hj BA E0 HE.
    destruct (MO j Hj) as (_ & r & x & y & TU & ST & VX & EY). destruct ST as ((S5 & _) & _).
    assert (C0 : 0 <= ka * dt) by (apply Rmult_le_pos; lra).
    assert (EP : 0 <= E0).
    { destruct HE as (G & HG & ->). apply lsum_nonneg. intros el _. apply Rmult_le_pos; [apply area_nonneg|apply PC]. }
    assert (SE := polarised_settles ka _ _ _ _ r x y xs ys M L T Z PC DT K0 XB TU BA E0 HE).
    rewrite VX, EY. split; intros E EE.
    - eapply Rle_trans; [exact (proj1 (SE r (le_n r)) E EE)|]. apply Rmult_le_compat_r; [exact EP|]. rewrite <- pow_mult. apply pow_mono; [exact C0|exact K1|lia].
    - destruct (SE (r - 1)%nat ltac:(lia)) as (_ & Q). replace (S (r - 1)) with r in Q by lia. eapply Rle_trans; [exact (Q ltac:(lia) E EE)|].
      rewrite <- pow_mult. rewrite Rmult_assoc. apply Rmult_le_compat_l; [exact K0|]. apply Rmult_le_compat_r; [exact EP|]. apply pow_mono; [exact C0|exact K1|lia].
  Qed.

  (* the dynamic problem: the passes repeat the first one *)
  Lemma sensed_exact u0 v0 e0 n u v e : sensed_motion m id g rho th ze mu la es pz pm fi fo dt u0 v0 e0 n u v e ->
    forall j, (j < n)%nat -> balanced motion potential dt (INR (S j) * dt) (u j) (v j) (e j) (v (S j)) (e (S j)).
  Proof.
    intros (_ & _ & _ & MO) j Hj. destruct (MO j Hj) as (_ & r & x & y & (_ & TU) & ((S5 & _) & _) & VX & EY).
    destruct (TU (r - 1)%nat ltac:(lia)) as (F & S1). replace (S (r - 1)) with r in F, S1 by lia. rewrite VX, EY. split; [exact F|exact S1].
  Qed.

  Lemma motion_determined ops : ready pb bt None ops -> 0 < rho -> 0 <= mu -> 0 <= la -> 0 <= th -> 0 <= ze -> 0 < dt ->
    forall t u1 v1 y1 x1 u2 v2 y2 x2, veq (2 * N) u1 u2 -> veq (2 * N) v1 v2 -> motion t u1 v1 y1 x1 -> motion t u2 v2 y2 x2 -> veq (2 * N) x1 x2.
  Proof.
    intros RD RM M L T Z DT t u1 v1 y1 x1 u2 v2 y2 x2 U V F F'.
    destruct (motion_definite pb ic id g PO bt th ze mu la EL VI M L T Z DT ops RD RM) as (DA & _).
    apply (proj1 (motion_weak pb ic id g PO bt ops RD fi fo th ze mu la EL VI t u1 v1 y1 x1)) in F.
    apply (proj1 (motion_weak pb ic id g PO bt ops RD fi fo th ze mu la EL VI t u2 v2 y2 x2)) in F'.
    destruct F as (G & E). destruct F' as (G' & E').
    apply (first_determined (2 * N) 0 (motion_matrix pb ops) (fun _ _ => 0) (fixed_dof id g bt 2) 0
      (fun z => dot (2 * N) z (momentum_load pb bt ops fi fo t u1 v1)) (fun z => dot (2 * N) z (momentum_load pb bt ops fi fo t u2 v2)) (fun _ => 0) (fun _ => 0) x1 x2 DA).
    - intros z. apply sum_ext. intros i _. f_equal. unfold momentum_load. rewrite (mv_same _ _ v1 v2 i V), (mv_same _ _ u1 u2 i U). reflexivity.
    - intros i _; reflexivity.
    - split; [exact G|]. intros z VZ. cbv beta. specialize (E z VZ). cbv beta in E. lra.
    - split; [exact G'|]. intros z VZ. cbv beta. specialize (E' z VZ). cbv beta in E'. lra.
  Qed.

  Lemma sensed_five c t u v e r x y : wired (pr_nodes pb) (pr_elements pb) es ->
    0 < rho -> 0 <= mu -> 0 <= la -> 0 <= th -> 0 <= ze -> 0 < c ->
    (forall v, c * sum 2 (fun k => v k * v k) <= sum 2 (fun k => sum 2 (fun l => pm k l * (v k * v l)))) -> 0 < dt ->
    turns motion potential dt t u v e r x y -> stops (2 * N) N r x y -> r = 5%nat.
  Proof.
    intros WI RM M L T Z C0 PC DT (_ & TU) (B & ST & _). destruct ready_here as (ops & RD).
    destruct (Nat.eq_dec r 5) as [|NE]; [assumption|]. exfalso.
    assert (C := ST 5%nat ltac:(lia)). cbn [Nat.sub] in C.
    destruct (TU 4%nat ltac:(lia)) as (F & S1). destruct (TU 3%nat ltac:(lia)) as (F' & S1').
    assert (X : veq (2 * N) (x 5%nat) (x 4%nat)) by (eapply (motion_determined ops RD RM M L T Z DT t u v _ _ u v); [intros i _; reflexivity|intros i _; reflexivity|exact F|exact F']).
    assert (Y : veq N (y 5%nat) (y 4%nat)) by (eapply (potential_determined ops c RD WI C0 PC u u (x 5%nat) e _ (x 4%nat) e); [intros i _; reflexivity|exact X|intros i _; reflexivity|exact S1|exact S1']).
    assert (change (2 * N) N x y 4 = 0); [|lra]. unfold change. rewrite <- sqrt_0. f_equal.
    rewrite (sum_0 (2 * N)), (sum_0 N); [ring| |]; intros i Hi; [rewrite (Y i Hi)|rewrite (X i Hi)]; unfold Rsqr; ring.
  Qed.

  Lemma sensed_alone c u0 v0 e0 n u v e u' v' e' : wired (pr_nodes pb) (pr_elements pb) es ->
    0 < rho -> 0 <= mu -> 0 <= la -> 0 <= th -> 0 <= ze -> 0 < c ->
    (forall v, c * sum 2 (fun k => v k * v k) <= sum 2 (fun k => sum 2 (fun l => pm k l * (v k * v l)))) -> 0 < dt ->
    sensed_motion m id g rho th ze mu la es pz pm fi fo dt u0 v0 e0 n u v e -> sensed_motion m id g rho th ze mu la es pz pm fi fo dt u0 v0 e0 n u' v' e' ->
    forall j, (j <= n)%nat -> veq (2 * N) (u j) (u' j) /\ veq (2 * N) (v j) (v' j) /\ veq N (e j) (e' j).
  Proof.
    intros WI RM M L T Z C0 PC DT. destruct ready_here as (ops & RD). apply coupled_unique.
    - intros t u1 v1 y1 x1 u2 v2 y2 x2 U V _ F F'. exact (motion_determined ops RD RM M L T Z DT t u1 v1 y1 x1 u2 v2 y2 x2 U V F F').
    - exact (potential_determined ops c RD WI C0 PC).
  Qed.
  End Polarised.
End Theorems.
