(* The runs of posed problems with a second field. *)
From Coq Require Import Reals List Arith ZArith Bool String Permutation Lia Lra FunctionalExtensionality Classical.
From Verif Require Import Common PyModel RVec LinAlg MeshModel MeshBuildModel MeshSpec ListLemmas MeshBuildProofs NormalsModel
  DofModel DofSpec DirichletModel DirichletSpec DirichletProofs DirichletMeshProofs
  FemModel FemSpec FemAssemblyProofs FemFormProofs FemBasicProofs FemMeshProofs FemBuildProofs FemOperatorProofs FemPipelineProofs FemFinalProofs
  ForcesModel ForcesSpec ForcesProofs ForcesLoadProofs
  StatementModel StatementSpec StatementProofs StatementValueProofs StatementLawProofs StatementCacheProofs
  RegistryModel RegistrySpec RegistryProofs DispatchProofs StateModel StateLemmas CopyProofs TimeModel TimeSpec TimeProofs RunProofs HistoryProofs SolveProofs MarchProofs
  CoupledTheorems MethodModel MethodProofs
  RunSpec WholeRunProofs RunTheorems ProblemModel ProblemSpec ProblemProofs ProblemReady ProblemTheorems
  CoupledMethodModel CoupledSpec CoupledMethodProofs CoupledProblemSpec ElectrodeProofs.
Import ListNotations.
Local Open Scope string_scope.
Local Open Scope list_scope.
Local Open Scope R_scope.

Lemma NoDup_both {A} (l l' : list A) : NoDup l -> NoDup l' -> (forall x, In x l -> In x l' -> False) -> NoDup (l ++ l').
Proof.
  induction l as [|a l IH]; intros H H' D; [exact H'|]. inversion H; subst. cbn [app]. constructor.
  - intros X. apply in_app_or in X. destruct X as [X|X]; [contradiction|]. exact (D a (or_introl eq_refl) X).
  - apply IH; auto. intros x Hx. apply D. right. exact Hx.
Qed.

Lemma rectangle_sum n k A v u : bilinear n k A v u = sum n (fun i => v i * mv k A u i).
Proof. rewrite bilinear_dot. reflexivity. Qed.
Lemma rectangle_transposed n k A v u : bilinear n k A v u = sum k (fun i => u i * mv n (mT A) v i).
Proof.
  unfold bilinear, mv, mT. rewrite sum_swap. apply sum_ext. intros i _. rewrite <- sum_scal. apply sum_ext. intros j _. ring.
Qed.

(* a coupled motion with weaker laws *)
Lemma coupled_motion_mono size nodes (f f' : R -> vec -> vec -> vec -> vec -> Prop) (s s' : vec -> vec -> vec -> vec -> Prop) dt u0 v0 e0 n u v e :
  (forall t u v y x, f t u v y x -> f' t u v y x) -> (forall u x e y, s u x e y -> s' u x e y) ->
  coupled_motion size nodes f s dt u0 v0 e0 n u v e -> coupled_motion size nodes f' s' dt u0 v0 e0 n u v e.
Proof.
  intros F S (C1 & C2 & C3 & C). split; [exact C1|]. split; [exact C2|]. split; [exact C3|]. intros j Hj.
  destruct (C j Hj) as (C4 & r & x & y & (T1 & T2) & ST & C5 & C6). split; [exact C4|]. exists r, x, y.
  split; [|auto]. split; [exact T1|]. intros i Hi. destruct (T2 i Hi) as [A B]. split; [exact (F _ _ _ _ _ A)|exact (S _ _ _ _ B)].
Qed.

Lemma library_prompt {F} (integrate : F -> R -> F * result (nat * vec)) b p name c k :
  get_by_name installed name (mro p) = Ok c -> statement_kind p k -> p <> RelaxationQuasistaticProblem ->
  prompt integrate b c k.
Proof.
  intros G K P. unfold prompt.
  assert (X : (forall g, iterate_variables c g <> None) \/ (forall g, iterate_variables c g = None)).
  { destruct c; ((left; intros g; discriminate) || (right; intros g; reflexivity)). }
  destruct X as [X|X]; [left|right; exact X].
  apply (library_renews integrate b p name c k G K); [|exact X].
  intros ->. apply library_lookup in G. destruct G as (d & D & O). apply dynamism_of_spec in D.
  assert (E : d = "quasistatic relaxation").
  { clear - O. inversion O; subst; try discriminate;
    repeat match goal with H : In _ _ |- _ => cbn in H end;
    repeat match goal with H : _ \/ _ |- _ => destruct H as [H|H] end; try contradiction; try congruence. }
  subst d. destruct p; try (vm_compute in D; discriminate D). contradiction.
Qed.

Section Body.
  Variables (pb : problem) (ic id : P2 -> bool) (g : P2 -> R).
  Hypothesis PO : posed pb ic id g.
  Variables (bt : built) (ops : FemModel.operators).
  Hypothesis RD : ready pb bt None ops.
  Notation m := (bt_mesh bt).
  Notation b := (bt_body bt).
  Notation N := (List.length (m_nodes m)).
  Notation points := (node_table coord2 zero2 (m_nodes m)).
  Notation els := (m_elements m).
  Notation integrate := (integrate_forces m (bt_basic bt)).
  Notation I := (method forces).

  Definition provided (k : kind) : Prop :=
    match k with
    | DynamicVelocity => viscosity ops <> None /\ elasticity ops <> None
    | DynamicVelocityWithTemperature => viscosity ops <> None /\ elasticity ops <> None /\ thermal_expansion ops <> None
    | QuasistaticVelocityWithPiezoelectric => viscosity ops <> None /\ elasticity ops <> None /\ piezoelectricity ops <> None
    | Temperature => thermal_expansion ops <> None /\ thermal_conductivity ops <> None
    | Piezoelectric => permittivity ops <> None /\ piezoelectricity ops <> None
    | _ => False
    end.

  Lemma provide k (forceful : forces -> Prop) :
    provided k -> (asks_force k -> forceful (w_force (bt_world bt))) ->
    equipped b k (physics_of N ops (fun _ => 0)) (fun _ _ _ => 0) forceful (fun _ => False) (bt_world bt).
  Proof.
    intros F HF. destruct (body_is pb bt None ops RD) as (D & C & _).
    destruct RD as (_ & _ & _ & (refs & E & IP) & _).
    assert (O : b_ops b = refs) by (rewrite E; reflexivity).
    destruct IP as (P0 & P1 & P2 & P3 & P4 & P5 & P6 & _).
    assert (Q1 : elasticity ops <> None -> has_op (hp (bt_world bt)) (o_elasticity refs) (2, 2)%nat (2 * N) (2 * N) (some_mat (elasticity ops))).
    { intros X. destruct (elasticity ops); [|contradiction]. apply P1. reflexivity. }
    assert (Q2 : viscosity ops <> None -> has_op (hp (bt_world bt)) (o_viscosity refs) (2, 2)%nat (2 * N) (2 * N) (some_mat (viscosity ops))).
    { intros X. destruct (viscosity ops); [|contradiction]. apply P2. reflexivity. }
    assert (Q3 : thermal_expansion ops <> None -> has_op (hp (bt_world bt)) (o_thermal_expansion refs) (1, 2)%nat N (2 * N) (some_mat (thermal_expansion ops))).
    { intros X. destruct (thermal_expansion ops); [|contradiction]. apply P3. reflexivity. }
    assert (Q4 : thermal_conductivity ops <> None -> has_op (hp (bt_world bt)) (o_thermal_conductivity refs) (1, 1)%nat N N (some_mat (thermal_conductivity ops))).
    { intros X. destruct (thermal_conductivity ops); [|contradiction]. apply P4. reflexivity. }
    assert (Q5 : piezoelectricity ops <> None -> has_op (hp (bt_world bt)) (o_piezoelectricity refs) (2, 2)%nat N (2 * N) (some_mat (piezoelectricity ops))).
    { intros X. destruct (piezoelectricity ops); [|contradiction]. apply P5. reflexivity. }
    assert (Q6 : permittivity ops <> None -> has_op (hp (bt_world bt)) (o_permittivity refs) (1, 1)%nat N N (some_mat (permittivity ops))).
    { intros X. destruct (permittivity ops); [|contradiction]. apply P6. reflexivity. }
    unfold equipped, MethodProofs.operators. rewrite D, C, O.
    split; [reflexivity|]. split; [reflexivity|]. split; [exact HF|].
    split; [intros ->; destruct F|].
    cbn [mass stiffness damping laplace expansion conduction coupling dielectric physics_of].
    destruct k; cbn [provided] in F; try contradiction; intuition eauto.
  Qed.

  Context {V W : Type}.

  Lemma both_begun k k2 p p2 loads loads2 forceful forceful2 conds conds2 (m0 mm : store V) s1 s2 :
    keeps_force integrate b k loads forceful -> keeps_heat integrate b p (fun _ => False) ->
    StatementValueProofs.conditions b k = Ok conds -> well_shaped (unknowns b k) conds ->
    equipped b k p (fun _ _ _ => 0) forceful (fun _ => False) (bt_world bt) -> can_step k (time_step_of pb) ->
    keeps_force integrate b k2 loads2 forceful2 -> keeps_heat integrate b p2 (fun _ => False) ->
    StatementValueProofs.conditions b k2 = Ok conds2 -> well_shaped (unknowns b k2) conds2 ->
    equipped b k2 p2 (fun _ _ _ => 0) forceful2 (fun _ => False) (bt_world bt) -> can_step k2 (time_step_of pb) ->
    coupled_solvers pb bt k k2 m0 = Ok (mm, s1, s2) ->
    apart_solvers mm s1 s2 /\ time_step s1 = time_step_of pb /\ time_step s2 = time_step_of pb /\ current_time s1 = 0 /\
    equipped b k p (fun _ _ _ => 0) forceful (fun _ => False) (m_world (inner s1)) /\
    equipped b k2 p2 (fun _ _ _ => 0) forceful2 (fun _ => False) (m_world (inner s2)).
  Proof.
    intros KF KH HC HW E S KF2 KH2 HC2 HW2 E2 S2 H. unfold coupled_solvers in H.
    destruct (step_solver pb bt k m0) as [d|e] eqn:H1; [|discriminate]. cbn [bind] in H.
    destruct (step_solver pb bt k2 (d_mem d)) as [d2|e] eqn:H2; [|discriminate]. cbn [bind] in H. injection H as <- <- <-.
    destruct (solver_begun pb bt k p loads (fun _ _ _ => 0) forceful (fun _ => False) conds m0 d KF KH HC HW E S H1) as ((F1 & F1') & CT & DT & _ & EQ).
    destruct (solver_begun pb bt k2 p2 loads2 (fun _ _ _ => 0) forceful2 (fun _ => False) conds2 (d_mem d) d2 KF2 KH2 HC2 HW2 E2 S2 H2) as ((F2 & F2') & CT2 & DT2 & _ & EQ2).
    split; [|repeat split; [exact DT|exact DT2|exact CT| | | | | | | | | |]; apply EQ || apply EQ2].
    assert (X : (room (d_mem d) <= room (d_mem d2))%nat /\ Forall (fun r => (room (d_mem d) <= r)%nat) (solver_refs (d_sv d2))).
    { clear - H2. unfold step_solver, new_solver in H2.
      repeat match type of H2 with context [let '(_, _) := alloc ?mm ?x in _] => unfold alloc at 1 in H2; cbv beta iota in H2 end.
      match type of H2 with context [setup ?a1 ?a2 ?a3 ?a4 ?a5 ?a6] => destruct (setup a1 a2 a3 a4 a5 a6) as [i|e]; [|discriminate] end.
      injection H2 as <-. cbn [d_mem d_sv]. unfold room, solver_refs. cbn [cells b_vector u_vector v_vector t_vector p_vector].
      rewrite !app_length. cbn [List.length]. split; [lia|]. repeat constructor; lia. }
    destruct X as [X1 X2]. rewrite Forall_forall in F1', F2', X2. split.
    - apply NoDup_both; [exact F1|exact F2|]. intros r R1 R2. specialize (F1' r R1). specialize (X2 r R2). lia.
    - apply Forall_app. split; apply Forall_forall; intros r Hr; [specialize (F1' r Hr); lia|exact (F2' r Hr)].
  Qed.

  Lemma expansion_some ex co : thermal (pr_material pb) = Some (ex, co) -> thermal_expansion ops <> None /\ thermal_conductivity ops <> None.
  Proof. intros E. rewrite (operators_are pb ic id g PO bt None ops RD). cbn [thermal_expansion thermal_conductivity get_dynamics2]. rewrite E. split; discriminate. Qed.
  Lemma piezo_some pz pm : piezo (pr_material pb) = Some (pz, pm) -> piezoelectricity ops <> None /\ permittivity ops <> None.
  Proof. intros E. rewrite (operators_are pb ic id g PO bt None ops RD). cbn [piezoelectricity permittivity get_dynamics2]. rewrite E. split; discriminate. Qed.

  Lemma expansion_is ex co y u H : thermal (pr_material pb) = Some (ex, co) -> gradients coord2 zero2 m u H ->
    bilinear N (2 * N) (some_mat (thermal_expansion ops)) y u = expansion_work coord2 zero2 m ex y H.
  Proof.
    intros E HG. destruct (expansion_some _ _ E) as [X _]. destruct (thermal_expansion ops) as [K|] eqn:EK; [|contradiction]. cbn [some_mat].
    destruct RD as (_ & _ & HO & _).
    exact (expansion2_is N points els _ None ops (proj1 (plane pb ic id g PO bt None ops RD)) HO ex co K E EK y u H HG).
  Qed.
  Lemma conduction_is ex co y x G H : thermal (pr_material pb) = Some (ex, co) -> gradient coord2 zero2 m y G -> gradient coord2 zero2 m x H ->
    bilinear N N (some_mat (thermal_conductivity ops)) y x = conduction_work coord2 zero2 m co G H.
  Proof.
    intros E HG HH. destruct (expansion_some _ _ E) as [_ X]. destruct (thermal_conductivity ops) as [K|] eqn:EK; [|contradiction]. cbn [some_mat].
    destruct RD as (_ & _ & HO & _).
    exact (conductivity2_is N points els _ None ops (proj1 (plane pb ic id g PO bt None ops RD)) HO ex co K E EK y x G H HG HH).
  Qed.
  Lemma piezo_is pz pm y u G H : piezo (pr_material pb) = Some (pz, pm) -> gradient coord2 zero2 m y G -> gradients coord2 zero2 m u H ->
    bilinear N (2 * N) (some_mat (piezoelectricity ops)) y u = piezo_work coord2 zero2 m pz G H.
  Proof.
    intros E HG HH. destruct (piezo_some _ _ E) as [X _]. destruct (piezoelectricity ops) as [K|] eqn:EK; [|contradiction]. cbn [some_mat].
    destruct RD as (_ & _ & HO & _).
    exact (piezo2_is N points els _ None ops (proj1 (plane pb ic id g PO bt None ops RD)) HO pz pm K E EK y u G H HG HH).
  Qed.
  Lemma permittivity_is pz pm y x G H : piezo (pr_material pb) = Some (pz, pm) -> gradient coord2 zero2 m y G -> gradient coord2 zero2 m x H ->
    bilinear N N (some_mat (permittivity ops)) y x = conduction_work coord2 zero2 m pm G H.
  Proof.
    intros E HG HH. destruct (piezo_some _ _ E) as [_ X]. destruct (permittivity ops) as [K|] eqn:EK; [|contradiction]. cbn [some_mat].
    destruct RD as (_ & _ & HO & _).
    exact (permittivity2_is N points els _ None ops (proj1 (plane pb ic id g PO bt None ops RD)) HO pz pm K E EK y x G H HG HH).
  Qed.

  Variables answer second_answer : I -> vec -> vec -> vec -> R -> result (nat * vec).
  Variable cls : solver_class.
  Variable name : string.
  Variables fi fo : P2 -> R -> vec.
  Notation loads := (nodal_load m (bt_basic bt) fi fo).
  Notation dt := (time_step_of pb).
  Notation sound_answer := (sound_answer bt).

  (* a step of the momentum balance, with an extra nodal load *)
  Lemma momentum_works th ze mu la p t u v x conds (extra : vec) :
    elastic (pr_material pb) = Some (mu, la) -> viscous (pr_material pb) = Some (th, ze) ->
    ph_n p = (2 * N)%nat -> ph_dt p = dt -> ph_u p = u -> ph_v p = v -> mass p = acceleration_operator ops ->
    damping p = some_mat (viscosity ops) -> stiffness p = some_mat (elasticity ops) -> StatementSpec.load p = loads t ->
    (forall dof v, prescribed conds dof v <->
        exists n k p, fixed_node m id n /\ (k < 2)%nat /\ nth_error (m_nodes m) n = Some p /\
          dof = (k * N + n)%nat /\ v = g p) ->
    obeys (2 * N) (prescribed conds) (dynamic_law p extra) x ->
    takes m id 2 g x /\
    forall z G H K, vanishes m id 2 z -> gradients coord2 zero2 m z G -> gradients coord2 zero2 m x H ->
      gradients coord2 zero2 m (fun i => u i + dt * x i) K ->
      inertia_work coord2 zero2 m 2 (mass_density (pr_material pb)) (fun i => (x i - v i) / dt) z
      + stress_work coord2 zero2 m None th ze G H + stress_work coord2 zero2 m None mu la G K
      = load_work coord2 zero2 m 2 (fun p => fi p t) (fun p => fo p t) z + sum (2 * N) (fun i => z i * extra i).
  Proof.
    intros EL VI P1 P2 P3 P4 P5 P6 P7 P8 HP O. split; [exact (takes_fixed id g bt 2 conds _ _ HP O)|].
    intros z G H K VN HG HH HK.
    rewrite <- (mass_work pb ic id g PO bt None ops RD), <- (loads_work pb ic id g PO bt None ops RD 2 fi fo t z).
    rewrite <- (viscous_work pb ic id g PO bt None ops RD th ze z x G H VI HG HH).
    rewrite <- (elastic_work pb ic id g PO bt None ops RD mu la z _ G K EL HG HK).
    rewrite <- !sum_plus.
    rewrite (sum_ext (2 * N) (fun i => _ + _ + _) (fun i => z i * (
        mv (2 * N) (acceleration_operator ops) (fun a => (x a - v a) / dt) i
        + mv (2 * N) (some_mat (viscosity ops)) x i + mv (2 * N) (some_mat (elasticity ops)) (fun i => u i + dt * x i) i)));
      [|intros i _; ring].
    rewrite (sum_ext (2 * N) (fun i => z i * _ + _) (fun i => z i * (loads t i + extra i))); [|intros i _; ring].
    apply (free_work (2 * N) (prescribed conds) _ _ _ x z O); [|exact (vanishes_fixed id g bt 2 conds z HP VN)].
    intros i L. unfold dynamic_law, advanced, rate in L. rewrite P1, P2, P3, P4, P5, P6, P7, P8 in L. exact L.
  Qed.

  Lemma heated_posed th ze mu la ex co (m0 mm : store V) s1 s2 n u0 v0 e0 out w' (l : list (state W)) :
    loaded pb 2 fi fo -> elastic (pr_material pb) = Some (mu, la) -> viscous (pr_material pb) = Some (th, ze) ->
    thermal (pr_material pb) = Some (ex, co) -> dt <> 0 ->
    sound_answer DynamicVelocityWithTemperature answer -> sound_answer Temperature second_answer ->
    get_by_name installed name (mro TemperatureDynamicProblem) = Ok cls ->
    coupled_solvers pb bt DynamicVelocityWithTemperature Temperature m0 = Ok (mm, s1, s2) -> non_decreasing 0 (requested n out) ->
    coupled_run bt true DynamicVelocityWithTemperature Temperature cls answer second_answer n u0 v0 e0 out mm s1 s2 = Some (w', Ok l) ->
    exists u v e, heated_motion m id g (mass_density (pr_material pb)) th ze mu la ex co fi fo dt u0 v0 e0 (TimeTheorems.last_step n out) u v e /\
      List.length l = List.length (requested n out) /\
      forall j q (s : state W), nth_error (requested n out) j = Some q -> nth_error l j = Some s ->
        shows_coupled dt u v e (Z.to_nat q) (look (p_mem w') s) (map (StateModel.load (p_mem w')) (extra_refs (extra s))).
  Proof.
    intros LD EL VI TH DT SA SA2 GB CS ND H. set (k := DynamicVelocityWithTemperature) in *. set (k2 := Temperature) in *.
    destruct (body_is pb bt None ops RD) as (D & C & _).
    destruct (fixed_conds pb ic id g PO bt None ops RD 2) as (conds & MC & WS & CN & HP).
    destruct (fixed_size pb bt None ops RD k conds ltac:(discriminate) MC WS) as (HC & HW).
    destruct (fixed_conds pb ic id g PO bt None ops RD 1) as (conds2 & MC2 & WS2 & CN2 & HP2).
    destruct (fixed_size pb bt None ops RD k2 conds2 ltac:(discriminate) MC2 WS2) as (HC2 & HW2).
    assert (FL : (2 * N)%nat = force_length b k) by (unfold force_length, k; rewrite D, C; reflexivity).
    destruct (keeps_nodal pb ic id g PO bt None ops RD k 2 fi fo LD FL) as (KF & AF).
    assert (KH : keeps_heat integrate b (physics_of N ops (fun _ => 0)) (fun _ => False)) by (intros f []).
    assert (KF2 : keeps_force integrate b k2 (fun _ _ => 0) (fun _ => False)) by (intros f t []).
    destruct (expansion_some _ _ TH) as [X1 X2].
    assert (EQ := provide k (answers m (pr_inner pb) (pr_outer pb) 2)
      (conj (viscous_some pb ic id g PO bt None ops RD _ _ VI) (conj (elastic_some pb ic id g PO bt None ops RD _ _ EL) X1)) (fun _ => AF)).
    assert (EQ2 := provide k2 (fun _ => False) (conj X1 X2) (fun F : asks_force k2 => match F with end)).
    destruct (both_begun k k2 _ _ loads (fun _ _ => 0) _ _ conds conds2 m0 mm s1 s2 KF KH HC HW EQ DT KF2 KH HC2 HW2 EQ2 DT CS)
      as (AP & T1 & T2 & CT & E1 & E2).
    assert (P1 : prompt integrate b cls k) by (apply (library_prompt _ _ _ _ _ _ GB); [left; reflexivity|discriminate]).
    assert (P2 : prompt integrate b cls k2) by (apply (library_prompt _ _ _ _ _ _ GB); [right; reflexivity|discriminate]).
    unfold coupled_run in H.
    rewrite <- T1 in DT |- *.
    destruct (coupled_governed integrate b k k2 _ _ loads (fun _ _ => 0) _ _ _ _ _ _ conds conds2 answer second_answer true
      KF KH HC HW KF2 KH HC2 HW2 ltac:(discriminate) (or_introl eq_refl)
      (fun i _ _ _ y => holds_solution b k i y) (fun i _ _ _ y => holds_solution b k2 i y)
      (SA _ _ _ _ _ _ HC HW) (SA2 _ _ _ _ _ _ HC2 HW2) cls (start_positions bt) n u0 v0 e0 out mm s1 s2 w' l AP ND
      (eq_trans T1 (eq_sym T2)) CT DT DT E1 E2 P1 P2 H) as (u & v & e & MO & LL & SH).
    exists u, v, e. split; [|split; [exact LL|exact SH]]. rewrite D, C in MO. rewrite T1 in MO |- *.
    revert MO. apply coupled_motion_mono.
    - intros t u1 v1 y x (i & U & A).
      apply (accepted_obeys integrate b k _ _ _ _ _ conds HC HW CN _ _ _ _ _ U) in A.
      unfold unknowns in A. rewrite D, C in A. unfold k, law_of in A. cbv iota in A.
      assert (Q := fun A1 A2 A3 A4 A5 A6 A7 A8 => momentum_works th ze mu la _ t u1 v1 x conds _ EL VI A1 A2 A3 A4 A5 A6 A7 A8 HP A).
      destruct (Q eq_refl eq_refl eq_refl eq_refl eq_refl eq_refl eq_refl eq_refl) as [Q1 Q2].
      split; [exact Q1|]. intros z G Hh K VN HG HH HK. rewrite (Q2 z G Hh K VN HG HH HK). f_equal.
      unfold thermal_load. cbn [moment ph_N ph_th expansion physics_of].
      rewrite <- (expansion_is ex co y z G TH HG), rectangle_transposed. reflexivity.
    - intros u1 x e1 y (j & th' & ph' & ov & ou & <- & U & A).
      apply (accepted_obeys integrate b k2 _ _ _ _ _ conds2 HC2 HW2 CN2 _ _ _ _ _ U) in A.
      unfold unknowns in A. rewrite C in A. unfold k2, law_of in A. cbv iota in A. rewrite <- (Nat.mul_1_l N) in A.
      split; [exact (takes_fixed id g bt 1 conds2 _ _ HP2 A)|]. intros z G Hh K VN HG HH HK.
      rewrite <- (mass_work_scalar pb ic id g PO bt None ops RD), <- (conduction_is ex co z y G Hh TH HG HH), <- (expansion_is ex co z x K TH HK).
      rewrite !rectangle_sum. rewrite <- sum_plus.
      rewrite (sum_ext N (fun i => _ + _) (fun i => z i * (mv N (acceleration_operator ops) (fun a => (y a - th' a) / dt) i
        + mv N (some_mat (thermal_conductivity ops)) y i))); [|intros i _; ring].
      rewrite Nat.mul_1_l in A.
      transitivity (sum N (fun i => z i * - mv (2 * N) (some_mat (thermal_expansion ops)) x i)).
      { exact (free_work N (prescribed conds2) _ _ _ y z A (fun i L => L) (vanishes_fixed id g bt 1 conds2 z HP2 VN)). }
      rewrite <- sum_opp. apply sum_ext. intros i _. ring.
  Qed.

  Lemma creep_works th ze mu la p t u x conds (extra : vec) :
    elastic (pr_material pb) = Some (mu, la) -> viscous (pr_material pb) = Some (th, ze) ->
    ph_n p = (2 * N)%nat -> ph_dt p = dt -> ph_u p = u ->
    damping p = some_mat (viscosity ops) -> stiffness p = some_mat (elasticity ops) -> StatementSpec.load p = loads t ->
    (forall dof v, prescribed conds dof v <->
        exists n k p, fixed_node m id n /\ (k < 2)%nat /\ nth_error (m_nodes m) n = Some p /\
          dof = (k * N + n)%nat /\ v = g p) ->
    obeys (2 * N) (prescribed conds) (quasistatic_law p extra) x ->
    takes m id 2 g x /\
    forall z G H K, vanishes m id 2 z -> gradients coord2 zero2 m z G -> gradients coord2 zero2 m x H ->
      gradients coord2 zero2 m (fun i => u i + dt * x i) K ->
      stress_work coord2 zero2 m None th ze G H + stress_work coord2 zero2 m None mu la G K
      = load_work coord2 zero2 m 2 (fun p => fi p t) (fun p => fo p t) z + sum (2 * N) (fun i => z i * extra i).
  Proof.
    intros EL VI P1 P2 P3 P6 P7 P8 HP O. split; [exact (takes_fixed id g bt 2 conds _ _ HP O)|].
    intros z G H K VN HG HH HK.
    rewrite <- (loads_work pb ic id g PO bt None ops RD 2 fi fo t z).
    rewrite <- (viscous_work pb ic id g PO bt None ops RD th ze z x G H VI HG HH).
    rewrite <- (elastic_work pb ic id g PO bt None ops RD mu la z _ G K EL HG HK).
    rewrite <- !sum_plus.
    rewrite (sum_ext (2 * N) (fun i => _ * mv _ _ _ _ + _) (fun i => z i * (
        mv (2 * N) (some_mat (viscosity ops)) x i + mv (2 * N) (some_mat (elasticity ops)) (fun i => u i + dt * x i) i)));
      [|intros i _; ring].
    rewrite (sum_ext (2 * N) (fun i => z i * nodal_load _ _ _ _ _ _ + _) (fun i => z i * (loads t i + extra i))); [|intros i _; ring].
    apply (free_work (2 * N) (prescribed conds) _ _ _ x z O); [|exact (vanishes_fixed id g bt 2 conds z HP VN)].
    intros i L. unfold quasistatic_law, advanced in L. rewrite P1, P2, P3, P6, P7, P8 in L. exact L.
  Qed.

  Variable es : list ((P2 -> bool) * (P2 -> R)).

  Lemma electrode_size conds : mesh_conditions m 1 "piezo_dirichlet" = Ok conds -> well_shaped N conds ->
    StatementValueProofs.conditions b Piezoelectric = Ok conds /\ well_shaped (unknowns b Piezoelectric) conds.
  Proof.
    intros H W0. destruct (body_is pb bt None ops RD) as (D & C & M). unfold StatementValueProofs.conditions, unknowns. rewrite D, C, M. auto.
  Qed.

  Lemma potential_works pz pm p u y conds :
    piezo (pr_material pb) = Some (pz, pm) -> ph_N p = N -> ph_n p = (2 * N)%nat -> ph_u p = u ->
    dielectric p = some_mat (permittivity ops) -> coupling p = some_mat (piezoelectricity ops) ->
    (forall dof v, prescribed conds dof v <-> at_electrode m es dof v) ->
    obeys N (prescribed conds) (potential_law p) y ->
    (forall n w, at_electrode m es n w -> y n = w) /\
    polarises coord2 zero2 m (fun n => exists w, at_electrode m es n w) pz pm u y.
  Proof.
    intros PZ P1 P2 P3 P4 P5 HP O. split.
    { intros n w H. apply (proj1 O). apply HP. exact H. }
    intros z G H K VN HG HH HK.
    rewrite <- (permittivity_is pz pm z y G H PZ HG HH), <- (piezo_is pz pm z u G K PZ HG HK), !rectangle_sum.
    apply sum_ext. intros i Hi. destruct (classic (exists w, at_electrode m es i w)) as [A|A].
    - rewrite (VN i Hi A). ring.
    - f_equal. destruct O as [_ O]. assert (L : potential_law p y i) by (apply O; [exact Hi|]; intros w Hw; apply A; exists w; apply HP; exact Hw).
      unfold potential_law in L. rewrite P1, P2, P3, P4, P5 in L. exact L.
  Qed.

  Hypothesis ES : electrodes (pr_boundaries pb) es.
  Hypothesis EF : electrodes_fit m es.

  Lemma polarised_posed th ze mu la pz pm (m0 mm : store V) s1 s2 n u0 v0 e0 out w' (l : list (state W)) :
    loaded pb 2 fi fo -> elastic (pr_material pb) = Some (mu, la) -> viscous (pr_material pb) = Some (th, ze) ->
    piezo (pr_material pb) = Some (pz, pm) -> dt <> 0 ->
    sound_answer QuasistaticVelocityWithPiezoelectric answer -> sound_answer Piezoelectric second_answer ->
    get_by_name installed name (mro PiezoelectricQuasistaticProblem) = Ok cls ->
    coupled_solvers pb bt QuasistaticVelocityWithPiezoelectric Piezoelectric m0 = Ok (mm, s1, s2) -> non_decreasing 0 (requested n out) ->
    coupled_run bt false QuasistaticVelocityWithPiezoelectric Piezoelectric cls answer second_answer n u0 v0 e0 out mm s1 s2 = Some (w', Ok l) ->
    exists u v e, polarised_motion m id g th ze mu la es pz pm fi fo dt u0 v0 e0 (TimeTheorems.last_step n out) u v e /\
      List.length l = List.length (requested n out) /\
      forall j q (s : state W), nth_error (requested n out) j = Some q -> nth_error l j = Some s ->
        shows_coupled dt u v e (Z.to_nat q) (look (p_mem w') s) (map (StateModel.load (p_mem w')) (extra_refs (extra s))).
  Proof.
    intros LD EL VI PZ DT SA SA2 GB CS ND H. set (k := QuasistaticVelocityWithPiezoelectric) in *. set (k2 := Piezoelectric) in *.
    destruct (body_is pb bt None ops RD) as (D & C & _).
    destruct (fixed_conds pb ic id g PO bt None ops RD 2) as (conds & MC & WS & CN & HP).
    destruct (fixed_size pb bt None ops RD k conds ltac:(discriminate) MC WS) as (HC & HW).
    destruct (electrode_conditions pb ic id g m es PO (proj1 RD) ES EF) as (conds2 & MC2 & WS2 & CN2 & HP2).
    destruct (electrode_size conds2 MC2 WS2) as (HC2 & HW2). fold k2 in HC2, HW2.
    assert (FL : (2 * N)%nat = force_length b k) by (unfold force_length, k; rewrite D, C; reflexivity).
    destruct (keeps_nodal pb ic id g PO bt None ops RD k 2 fi fo LD FL) as (KF & AF).
    assert (KH : keeps_heat integrate b (physics_of N ops (fun _ => 0)) (fun _ => False)) by (intros f []).
    assert (KF2 : keeps_force integrate b k2 (fun _ _ => 0) (fun _ => False)) by (intros f t []).
    destruct (piezo_some _ _ PZ) as [X1 X2].
    assert (EQ := provide k (answers m (pr_inner pb) (pr_outer pb) 2)
      (conj (viscous_some pb ic id g PO bt None ops RD _ _ VI) (conj (elastic_some pb ic id g PO bt None ops RD _ _ EL) X1)) (fun _ => AF)).
    assert (EQ2 := provide k2 (fun _ => False) (conj X2 X1) (fun F : asks_force k2 => match F with end)).
    destruct (both_begun k k2 _ _ loads (fun _ _ => 0) _ _ conds conds2 m0 mm s1 s2 KF KH HC HW EQ DT KF2 KH HC2 HW2 EQ2 Logic.I CS)
      as (AP & T1 & T2 & CT & E1 & E2).
    assert (P1 : prompt integrate b cls k) by (apply (library_prompt _ _ _ _ _ _ GB); [left; reflexivity|discriminate]).
    assert (P2 : prompt integrate b cls k2) by (apply (library_prompt _ _ _ _ _ _ GB); [right; reflexivity|discriminate]).
    unfold coupled_run in H.
    rewrite <- T1 in DT |- *.
    destruct (coupled_governed integrate b k k2 _ _ loads (fun _ _ => 0) _ _ _ _ _ _ conds conds2 answer second_answer false
      KF KH HC HW KF2 KH HC2 HW2 ltac:(discriminate) (or_intror eq_refl)
      (fun i _ _ _ y => holds_solution b k i y) (fun i _ _ _ y => holds_solution b k2 i y)
      (SA _ _ _ _ _ _ HC HW) (SA2 _ _ _ _ _ _ HC2 HW2) cls (start_positions bt) n u0 v0 e0 out mm s1 s2 w' l AP ND
      (eq_trans T1 (eq_sym T2)) CT DT Logic.I E1 E2 P1 P2 H) as (u & v & e & MO & LL & SH).
    exists u, v, e. split; [|split; [exact LL|exact SH]]. rewrite D, C in MO. rewrite T1 in MO |- *.
    revert MO. apply coupled_motion_mono.
    - intros t u1 v1 y x (i & U & A).
      apply (accepted_obeys integrate b k _ _ _ _ _ conds HC HW CN _ _ _ _ _ U) in A.
      unfold unknowns in A. rewrite D, C in A. unfold k, law_of in A. cbv iota in A.
      assert (Q := fun A1 A2 A3 A6 A7 A8 => creep_works th ze mu la _ t u1 x conds _ EL VI A1 A2 A3 A6 A7 A8 HP A).
      destruct (Q eq_refl eq_refl eq_refl eq_refl eq_refl eq_refl) as [Q1 Q2].
      split; [exact Q1|]. intros z G Hh K Y VN HG HH HK HY. rewrite (Q2 z G Hh K VN HG HH HK).
      unfold electric_load. cbn [moment ph_N ph_phi coupling physics_of].
      rewrite <- (piezo_is pz pm y z Y G PZ HY HG), rectangle_transposed.
      rewrite (sum_ext (2 * N) (fun i => z i * - _) (fun i => - (z i * mv N (mT (some_mat (piezoelectricity ops))) y i))) by (intros a _; cbn [vec_p]; ring).
      rewrite sum_opp. ring.
    - intros u1 x e1 y (j & th' & ph' & ov & ou & EX & U & A).
      apply (accepted_obeys integrate b k2 _ _ _ _ _ conds2 HC2 HW2 CN2 _ _ _ _ _ U) in A.
      unfold unknowns in A. rewrite C in A. unfold k2, law_of in A. cbv iota in A.
      assert (Q := fun A1 A2 A3 A4 A5 => potential_works pz pm _ u1 y conds2 PZ A1 A2 A3 A4 A5 HP2 A).
      exact (Q eq_refl eq_refl eq_refl eq_refl eq_refl).
  Qed.

  Lemma sensed_posed th ze mu la pz pm (m0 mm : store V) s1 s2 n u0 v0 e0 out w' (l : list (state W)) :
    loaded pb 2 fi fo -> elastic (pr_material pb) = Some (mu, la) -> viscous (pr_material pb) = Some (th, ze) ->
    piezo (pr_material pb) = Some (pz, pm) -> dt <> 0 ->
    sound_answer DynamicVelocity answer -> sound_answer Piezoelectric second_answer ->
    get_by_name installed name (mro PiezoelectricDynamicProblem) = Ok cls ->
    coupled_solvers pb bt DynamicVelocity Piezoelectric m0 = Ok (mm, s1, s2) -> non_decreasing 0 (requested n out) ->
    coupled_run bt false DynamicVelocity Piezoelectric cls answer second_answer n u0 v0 e0 out mm s1 s2 = Some (w', Ok l) ->
    exists u v e, sensed_motion m id g (mass_density (pr_material pb)) th ze mu la es pz pm fi fo dt u0 v0 e0 (TimeTheorems.last_step n out) u v e /\
      List.length l = List.length (requested n out) /\
      forall j q (s : state W), nth_error (requested n out) j = Some q -> nth_error l j = Some s ->
        shows_coupled dt u v e (Z.to_nat q) (look (p_mem w') s) (map (StateModel.load (p_mem w')) (extra_refs (extra s))).
  Proof.
    intros LD EL VI PZ DT SA SA2 GB CS ND H. set (k := DynamicVelocity) in *. set (k2 := Piezoelectric) in *.
    destruct (body_is pb bt None ops RD) as (D & C & _).
    destruct (fixed_conds pb ic id g PO bt None ops RD 2) as (conds & MC & WS & CN & HP).
    destruct (fixed_size pb bt None ops RD k conds ltac:(discriminate) MC WS) as (HC & HW).
    destruct (electrode_conditions pb ic id g m es PO (proj1 RD) ES EF) as (conds2 & MC2 & WS2 & CN2 & HP2).
    destruct (electrode_size conds2 MC2 WS2) as (HC2 & HW2). fold k2 in HC2, HW2.
    assert (FL : (2 * N)%nat = force_length b k) by (unfold force_length, k; rewrite D, C; reflexivity).
    destruct (keeps_nodal pb ic id g PO bt None ops RD k 2 fi fo LD FL) as (KF & AF).
    assert (KH : keeps_heat integrate b (physics_of N ops (fun _ => 0)) (fun _ => False)) by (intros f []).
    assert (KF2 : keeps_force integrate b k2 (fun _ _ => 0) (fun _ => False)) by (intros f t []).
    destruct (piezo_some _ _ PZ) as [X1 X2].
    assert (EQ := provide k (answers m (pr_inner pb) (pr_outer pb) 2)
      (conj (viscous_some pb ic id g PO bt None ops RD _ _ VI) (elastic_some pb ic id g PO bt None ops RD _ _ EL)) (fun _ => AF)).
    assert (EQ2 := provide k2 (fun _ => False) (conj X2 X1) (fun F : asks_force k2 => match F with end)).
    destruct (both_begun k k2 _ _ loads (fun _ _ => 0) _ _ conds conds2 m0 mm s1 s2 KF KH HC HW EQ DT KF2 KH HC2 HW2 EQ2 Logic.I CS)
      as (AP & T1 & T2 & CT & E1 & E2).
    assert (P1 : prompt integrate b cls k) by (apply (library_prompt _ _ _ _ _ _ GB); [left; reflexivity|discriminate]).
    assert (P2 : prompt integrate b cls k2) by (apply (library_prompt _ _ _ _ _ _ GB); [right; reflexivity|discriminate]).
    unfold coupled_run in H.
    rewrite <- T1 in DT |- *.
    destruct (coupled_governed integrate b k k2 _ _ loads (fun _ _ => 0) _ _ _ _ _ _ conds conds2 answer second_answer false
      KF KH HC HW KF2 KH HC2 HW2 ltac:(discriminate) (or_intror eq_refl)
      (fun i _ _ _ y => holds_solution b k i y) (fun i _ _ _ y => holds_solution b k2 i y)
      (SA _ _ _ _ _ _ HC HW) (SA2 _ _ _ _ _ _ HC2 HW2) cls (start_positions bt) n u0 v0 e0 out mm s1 s2 w' l AP ND
      (eq_trans T1 (eq_sym T2)) CT DT Logic.I E1 E2 P1 P2 H) as (u & v & e & MO & LL & SH).
    exists u, v, e. split; [|split; [exact LL|exact SH]]. rewrite D, C in MO. rewrite T1 in MO |- *.
    revert MO. apply coupled_motion_mono.
    - intros t u1 v1 y x (i & U & A).
      apply (accepted_obeys integrate b k _ _ _ _ _ conds HC HW CN _ _ _ _ _ U) in A.
      unfold unknowns in A. rewrite D, C in A. unfold k, law_of in A. cbv iota in A.
      assert (Q := fun A1 A2 A3 A4 A5 A6 A7 A8 => momentum_works th ze mu la _ t u1 v1 x conds _ EL VI A1 A2 A3 A4 A5 A6 A7 A8 HP A).
      destruct (Q eq_refl eq_refl eq_refl eq_refl eq_refl eq_refl eq_refl eq_refl) as [Q1 Q2].
      split; [exact Q1|]. intros z G Hh K VN HG HH HK. rewrite (Q2 z G Hh K VN HG HH HK).
      rewrite (sum_0 (2 * N) (fun i => z i * 0)) by (intros; ring). ring.
    - intros u1 x e1 y (j & th' & ph' & ov & ou & EX & U & A).
      apply (accepted_obeys integrate b k2 _ _ _ _ _ conds2 HC2 HW2 CN2 _ _ _ _ _ U) in A.
      unfold unknowns in A. rewrite C in A. unfold k2, law_of in A. cbv iota in A.
      assert (Q := fun A1 A2 A3 A4 A5 => potential_works pz pm _ u1 y conds2 PZ A1 A2 A3 A4 A5 HP2 A).
      exact (Q eq_refl eq_refl eq_refl eq_refl eq_refl).
  Qed.
End Body.
