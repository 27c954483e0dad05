(* Runs of problems with a second field do not raise. *)
From Coq Require Import Reals List Arith ZArith Bool String Lia Lra.
From Verif Require Import Common PyModel RVec LinAlg MeshModel MeshBuildModel MeshSpec NormalsModel
  DofModel DofSpec DirichletModel DirichletSpec DirichletProofs DirichletMeshProofs
  FemModel FemSpec FemFormProofs FemMeshProofs FemOperatorProofs FemPipelineProofs FemFinalProofs FemKornProofs
  ForcesModel ForcesSpec ForcesProofs ForcesLoadProofs
  StatementModel StatementSpec StatementProofs StatementValueProofs StatementLawProofs StatementCacheProofs StatementMeshProofs
  RegistryModel RegistrySpec StateModel TimeModel TimeSpec SolveProofs MethodModel MethodProofs
  RunSpec WholeRunProofs RunTheorems ProblemModel ProblemSpec ProblemProofs ProblemReady ProblemTheorems ProblemUnique ProblemTotal
  CoupledMethodModel CoupledSpec CoupledMethodProofs CoupledProblemSpec ElectrodeProofs CoupledProblemTheorems CoupledGoes.
Import ListNotations.
Local Open Scope string_scope.
Local Open Scope list_scope.
Local Open Scope R_scope.

Section Body.
  Variables (pb : problem) (ic id : P2 -> bool) (g : P2 -> R).
  Hypothesis PO : posed pb ic id g.
  Variables (bt : built) (ops : FemModel.operators).
  Hypothesis RD : ready pb bt None ops.
  Notation m := (bt_mesh bt).
  Notation b := (bt_body bt).
  Notation N := (List.length (m_nodes m)).
  Notation points := (node_table coord2 zero2 (m_nodes m)).
  Notation els := (m_elements m).
  Notation integrate := (integrate_forces m (bt_basic bt)).
  Notation dt := (time_step_of pb).
  Context {V W : Type}.
  Variables answer second_answer : method forces -> vec -> vec -> vec -> R -> result (nat * vec).
  Variable cls : solver_class.

  Section Kinds.
  Variables (k k2 : kind) (p p2 : physics) (loads loads2 : R -> vec) (forceful forceful2 : forces -> Prop) (conds conds2 : list condition).
  Hypothesis KF : keeps_force integrate b k loads forceful.
  Hypothesis KH : keeps_heat integrate b p (fun _ => False).
  Hypothesis HC : StatementValueProofs.conditions b k = Ok conds.
  Hypothesis HW : well_shaped (unknowns b k) conds.
  Hypothesis E1 : equipped b k p (fun _ _ _ => 0) forceful (fun _ => False) (bt_world bt).
  Hypothesis KF2 : keeps_force integrate b k2 loads2 forceful2.
  Hypothesis KH2 : keeps_heat integrate b p2 (fun _ => False).
  Hypothesis HC2 : StatementValueProofs.conditions b k2 = Ok conds2.
  Hypothesis HW2 : well_shaped (unknowns b k2) conds2.
  Hypothesis E2 : equipped b k2 p2 (fun _ _ _ => 0) forceful2 (fun _ => False) (bt_world bt).
  Hypothesis MO : momentary k.
  Hypothesis TL : timeless k2.
  Hypothesis Q1 : prompt integrate b cls k.
  Hypothesis Q2 : prompt integrate b cls k2.
  Hypothesis Hdt : 0 < dt.
  Hypothesis S1 : can_step k dt.
  Hypothesis S2 : can_step k2 dt.
  Hypothesis ST : forall x dt t, stable_kind (moment k p loads (fun _ _ _ => 0) x dt t) conds k.
  Hypothesis ST2 : forall x dt t, stable_kind (moment k2 p2 loads2 (fun _ _ _ => 0) x dt t) conds2 k2.
  Hypothesis AD : answers_definite (unknowns b k) (2 * N) answer.
  Hypothesis AD2 : answers_definite (unknowns b k2) N second_answer.
  Notation updated := (updated integrate b k p loads (fun _ _ _ => 0) forceful (fun _ => False) conds).
  Notation updated2 := (MethodProofs.updated integrate b k2 p2 loads2 (fun _ _ _ => 0) forceful2 (fun _ => False) conds2).

  Lemma kinds_run thermal (m0 : store V) n : n <> 0%nat ->
    exists mm s1 s2, coupled_solvers pb bt k k2 m0 = Ok (mm, s1, s2) /\ forall u0 v0 e0 out, exists w' (l : list (state W)),
      coupled_run bt thermal k k2 cls answer second_answer n u0 v0 e0 out mm s1 s2 = Some (w', Ok l).
  Proof.
    intros NZ. destruct (body_is pb bt None ops RD) as (D & C & _).
    destruct (solver_total pb bt k p loads (fun _ _ _ => 0) forceful (fun _ => False) conds m0 KF KH HC HW E1 S1) as (d & HS & _).
    destruct (solver_total pb bt k2 p2 loads2 (fun _ _ _ => 0) forceful2 (fun _ => False) conds2 (d_mem d) KF2 KH2 HC2 HW2 E2 S2) as (d2 & HS2 & _).
    exists (d_mem d2), (d_sv d), (d_sv d2). split; [unfold coupled_solvers; rewrite HS; cbn [bind]; rewrite HS2; reflexivity|].
    destruct (solver_begun pb bt k p loads (fun _ _ _ => 0) forceful (fun _ => False) conds m0 d KF KH HC HW E1 S1 HS) as (_ & _ & T1 & (x1 & U1) & _).
    destruct (solver_begun pb bt k2 p2 loads2 (fun _ _ _ => 0) forceful2 (fun _ => False) conds2 (d_mem d) d2 KF2 KH2 HC2 HW2 E2 S2 HS2) as (_ & _ & T2 & (x2 & U2) & _).
    intros u0 v0 e0 out. unfold coupled_run.
    assert (SZ : (b_dimension b * b_count b = 2 * N)%nat) by (rewrite D, C; reflexivity).
    apply (coupled_goes (b_dimension b) (b_count b) (start_positions bt) thermal _ _ _ _ _ _
      (fun i => exists x t, updated x dt t i) (fun i => exists x t, updated2 x dt t i) dt dt).
    - intros i u v y t (x & t0 & U).
      destruct (renew_updated integrate b k p loads (fun _ _ _ => 0) forceful (fun _ => False) conds KF KH HC HW i u v y dt t MO (proj1 U) S1) as (i' & B1 & B2).
      exists i'. split; [exact B1|]. split; [eauto|]. intros gu v1 u1. rewrite SZ.
      exact (answer_total bt k p loads (fun _ _ _ => 0) forceful (fun _ => False) conds HW ST answer _ AD _ _ _ _ gu v1 u1 (or_introl Hdt) B2).
    - intros i u v th ph (x & t0 & U).
      destruct (second_renew_updated integrate b k2 p2 loads2 (fun _ _ _ => 0) forceful2 (fun _ => False) conds2 KF2 KH2 HC2 HW2 i u v th ph dt TL (proj1 U) S2) as (i' & B1 & B2).
      exists i'. split; [exact B1|]. split; [eauto|]. intros gu v1 u1. rewrite C.
      exact (answer_total bt k2 p2 loads2 (fun _ _ _ => 0) forceful2 (fun _ => False) conds2 HW2 ST2 second_answer _ AD2 _ _ _ _ gu v1 u1 (or_introl Hdt) B2).
    - intros i x t H. exact (iterate_kept bt k p loads (fun _ _ _ => 0) forceful (fun _ => False) conds KF KH HC HW cls dt i x t Q1 S1 H).
    - intros i x t H. exact (iterate_kept bt k2 p2 loads2 (fun _ _ _ => 0) forceful2 (fun _ => False) conds2 KF2 KH2 HC2 HW2 cls dt i x t Q2 S2 H).
    - rewrite SZ. rewrite Nat.mul_comm. apply Nat.mod_mul. discriminate.
    - exact NZ.
    - exact T1.
    - exact T2.
    - change (time_step (d_sv d)) with (dt_of d) in *. rewrite <- T1. eauto.
    - change (time_step (d_sv d2)) with (dt_of d2) in *. rewrite <- T2. eauto.
  Qed.
  End Kinds.

  Variable name : string.
  Variables fi fo : P2 -> R -> vec.

  Lemma conduction_psd ex co : thermal (pr_material pb) = Some (ex, co) ->
    (forall v, 0 <= sum 2 (fun k => sum 2 (fun l => co k l * (v k * v l)))) -> pos_semidef N (some_mat (thermal_conductivity ops)).
  Proof.
    intros E P. destruct (expansion_some pb ic id g PO bt ops RD _ _ E) as [_ X]. destruct (thermal_conductivity ops) as [K|] eqn:EK; [|contradiction].
    destruct RD as (_ & _ & HO & _).
    destruct (conductivity2_all N points els _ None ops ex co K (proj1 (plane pb ic id g PO bt None ops RD)) HO E EK) as (_ & _ & Q).
    apply Q; [exact Logic.I|exact P].
  Qed.

  Lemma heated_goes th ze mu la ex co (m0 : store V) n :
    loaded pb 2 fi fo -> elastic (pr_material pb) = Some (mu, la) -> viscous (pr_material pb) = Some (th, ze) ->
    thermal (pr_material pb) = Some (ex, co) -> 0 < mass_density (pr_material pb) -> 0 <= mu -> 0 <= la -> 0 <= th -> 0 <= ze ->
    (forall v, 0 <= sum 2 (fun k => sum 2 (fun l => co k l * (v k * v l)))) -> 0 < dt ->
    answers_definite (2 * N) (2 * N) answer -> answers_definite N N second_answer ->
    get_by_name installed name (mro TemperatureDynamicProblem) = Ok cls -> n <> 0%nat ->
    exists mm s1 s2, coupled_solvers pb bt DynamicVelocityWithTemperature Temperature m0 = Ok (mm, s1, s2) /\
      forall u0 v0 e0 out, exists w' (l : list (state W)),
      coupled_run bt true DynamicVelocityWithTemperature Temperature cls answer second_answer n u0 v0 e0 out mm s1 s2 = Some (w', Ok l).
  Proof.
    intros LD EL VI TH RM M L T Z PC DT AD AD2 GB NZ. set (k := DynamicVelocityWithTemperature) in *. set (k2 := Temperature) in *.
    destruct (body_is pb bt None ops RD) as (D & C & _).
    destruct (fixed_conds pb ic id g PO bt None ops RD 2) as (conds & MC & WS & CN & HP).
    destruct (fixed_size pb bt None ops RD k conds ltac:(discriminate) MC WS) as (HC & HW).
    destruct (fixed_conds pb ic id g PO bt None ops RD 1) as (conds2 & MC2 & WS2 & CN2 & HP2).
    destruct (fixed_size pb bt None ops RD k2 conds2 ltac:(discriminate) MC2 WS2) as (HC2 & HW2).
    assert (FL : (2 * N)%nat = force_length b k) by (unfold force_length, k; rewrite D, C; reflexivity).
    destruct (keeps_nodal pb ic id g PO bt None ops RD k 2 fi fo LD FL) as (KF & AF).
    assert (KH : keeps_heat integrate b (physics_of N ops (fun _ => 0)) (fun _ => False)) by (intros f []).
    assert (KF2 : keeps_force integrate b k2 (fun _ _ => 0) (fun _ => False)) by (intros f t []).
    destruct (expansion_some pb ic id g PO bt ops RD _ _ TH) as [X1 X2].
    assert (EQ := provide pb bt ops RD k (answers m (pr_inner pb) (pr_outer pb) 2)
      (conj (viscous_some pb ic id g PO bt None ops RD _ _ VI) (conj (elastic_some pb ic id g PO bt None ops RD _ _ EL) X1)) (fun _ => AF)).
    assert (EQ2 := provide pb bt ops RD k2 (fun _ => False) (conj X1 X2) (fun F : asks_force k2 => match F with end)).
    apply (kinds_run k k2 _ _ _ (fun _ _ => 0) _ _ conds conds2 KF KH HC HW EQ KF2 KH HC2 HW2 EQ2); auto.
    - discriminate.
    - left. reflexivity.
    - apply (library_prompt _ _ _ _ _ _ GB); [left; reflexivity|discriminate].
    - apply (library_prompt _ _ _ _ _ _ GB); [right; reflexivity|discriminate].
    - unfold k, can_step. lra.
    - unfold k2, can_step. lra.
    - intros. cbn [stable_kind k moment ph_n ph_N mass damping stiffness physics_of].
      split; [apply (mass_definite pb ic id g PO bt None ops RD conds RM)|].
      split; [apply (viscous_psd pb ic id g PO bt None ops RD Logic.I th ze VI T Z)|apply (elastic_psd pb ic id g PO bt None ops RD Logic.I mu la EL M L)].
    - intros. cbn [stable_kind k2 moment ph_n ph_N mass conduction physics_of].
      split; [apply (mass_definite pb ic id g PO bt None ops RD conds2 RM)|exact (conduction_psd ex co TH PC)].
    - unfold unknowns, k. rewrite D, C. exact AD.
    - unfold unknowns, k2. rewrite C. exact AD2.
  Qed.

  Variable es : list ((P2 -> bool) * (P2 -> R)).
  Hypothesis ES : electrodes (pr_boundaries pb) es.
  Hypothesis EF : electrodes_fit m es.

  Definition wired_built : Prop := forall n, (n < N)%nat -> tied (fun i => exists v, at_electrode m es i v) els n.

  Lemma permittivity_definite pz pm c conds : piezo (pr_material pb) = Some (pz, pm) -> 0 < c ->
    (forall v, c * sum 2 (fun k => v k * v k) <= sum 2 (fun k => sum 2 (fun l => pm k l * (v k * v l)))) -> wired_built ->
    (forall dof v, prescribed conds dof v <-> at_electrode m es dof v) ->
    definite_free N conds (some_mat (permittivity ops)).
  Proof.
    intros E C0 P WI HP x H0 Hx. destruct (piezo_some pb ic id g PO bt ops RD _ _ E) as [_ X]. destruct (permittivity ops) as [K|] eqn:EK; [|contradiction].
    destruct RD as (_ & _ & HO & _).
    apply (permittivity2_definite N points els _ None ops pz pm K c (proj1 (plane pb ic id g PO bt None ops RD)) HO E EK Logic.I C0 P _ WI); [|exact Hx].
    intros i (w & A). apply (H0 i w). apply HP. exact A.
  Qed.

  Lemma polarised_goes th ze mu la pz pm c (m0 : store V) n :
    loaded pb 2 fi fo -> elastic (pr_material pb) = Some (mu, la) -> viscous (pr_material pb) = Some (th, ze) ->
    piezo (pr_material pb) = Some (pz, pm) -> clamped_mesh pb id -> wired_built -> 0 <= mu -> 0 <= la -> 0 < th -> 0 <= ze -> 0 < c ->
    (forall v, c * sum 2 (fun k => v k * v k) <= sum 2 (fun k => sum 2 (fun l => pm k l * (v k * v l)))) -> 0 < dt ->
    answers_definite (2 * N) (2 * N) answer -> answers_definite N N second_answer ->
    get_by_name installed name (mro PiezoelectricQuasistaticProblem) = Ok cls -> n <> 0%nat ->
    exists mm s1 s2, coupled_solvers pb bt QuasistaticVelocityWithPiezoelectric Piezoelectric m0 = Ok (mm, s1, s2) /\
      forall u0 v0 e0 out, exists w' (l : list (state W)),
      coupled_run bt false QuasistaticVelocityWithPiezoelectric Piezoelectric cls answer second_answer n u0 v0 e0 out mm s1 s2 = Some (w', Ok l).
  Proof.
    intros LD EL VI PZ HU WI M L T Z C0 PC DT AD AD2 GB NZ. set (k := QuasistaticVelocityWithPiezoelectric) in *. set (k2 := Piezoelectric) in *.
    destruct (body_is pb bt None ops RD) as (D & C & _).
    destruct (clamped_body pb ic id g PO bt None ops RD HU) as (conds0 & MC0 & HH).
    destruct (fixed_conds pb ic id g PO bt None ops RD 2) as (conds & MC & WS & CN & HP).
    rewrite MC0 in MC; injection MC as ->; rename MC0 into MC.
    destruct (fixed_size pb bt None ops RD k conds ltac:(discriminate) MC WS) as (HC & HW).
    destruct (electrode_conditions pb ic id g m es PO (proj1 RD) ES EF) as (conds2 & MC2 & WS2 & CN2 & HP2).
    destruct (electrode_size pb bt ops RD conds2 MC2 WS2) as (HC2 & HW2). fold k2 in HC2, HW2.
    assert (FL : (2 * N)%nat = force_length b k) by (unfold force_length, k; rewrite D, C; reflexivity).
    destruct (keeps_nodal pb ic id g PO bt None ops RD k 2 fi fo LD FL) as (KF & AF).
    assert (KH : keeps_heat integrate b (physics_of N ops (fun _ => 0)) (fun _ => False)) by (intros f []).
    assert (KF2 : keeps_force integrate b k2 (fun _ _ => 0) (fun _ => False)) by (intros f t []).
    destruct (piezo_some pb ic id g PO bt ops RD _ _ PZ) as [X1 X2].
    assert (EQ := provide pb bt ops RD k (answers m (pr_inner pb) (pr_outer pb) 2)
      (conj (viscous_some pb ic id g PO bt None ops RD _ _ VI) (conj (elastic_some pb ic id g PO bt None ops RD _ _ EL) X1)) (fun _ => AF)).
    assert (EQ2 := provide pb bt ops RD k2 (fun _ => False) (conj X2 X1) (fun F : asks_force k2 => match F with end)).
    apply (kinds_run k k2 _ _ _ (fun _ _ => 0) _ _ conds conds2 KF KH HC HW EQ KF2 KH HC2 HW2 EQ2); auto.
    - discriminate.
    - right. reflexivity.
    - apply (library_prompt _ _ _ _ _ _ GB); [left; reflexivity|discriminate].
    - apply (library_prompt _ _ _ _ _ _ GB); [right; reflexivity|discriminate].
    - unfold k, can_step. lra.
    - exact Logic.I.
    - intros. cbn [stable_kind k moment ph_n ph_N mass damping stiffness physics_of].
      split; [apply (viscous_definite_free pb ic id g PO bt None ops RD Logic.I conds th ze HH VI T Z)|apply (elastic_psd pb ic id g PO bt None ops RD Logic.I mu la EL M L)].
    - intros. cbn [stable_kind k2 moment ph_n ph_N dielectric physics_of]. exact (permittivity_definite pz pm c conds2 PZ C0 PC WI HP2).
    - unfold unknowns, k. rewrite D, C. exact AD.
    - unfold unknowns, k2. rewrite C. exact AD2.
  Qed.

  Lemma sensed_goes th ze mu la pz pm c (m0 : store V) n :
    loaded pb 2 fi fo -> elastic (pr_material pb) = Some (mu, la) -> viscous (pr_material pb) = Some (th, ze) ->
    piezo (pr_material pb) = Some (pz, pm) -> 0 < mass_density (pr_material pb) -> wired_built -> 0 <= mu -> 0 <= la -> 0 <= th -> 0 <= ze -> 0 < c ->
    (forall v, c * sum 2 (fun k => v k * v k) <= sum 2 (fun k => sum 2 (fun l => pm k l * (v k * v l)))) -> 0 < dt ->
    answers_definite (2 * N) (2 * N) answer -> answers_definite N N second_answer ->
    get_by_name installed name (mro PiezoelectricDynamicProblem) = Ok cls -> n <> 0%nat ->
    exists mm s1 s2, coupled_solvers pb bt DynamicVelocity Piezoelectric m0 = Ok (mm, s1, s2) /\
      forall u0 v0 e0 out, exists w' (l : list (state W)),
      coupled_run bt false DynamicVelocity Piezoelectric cls answer second_answer n u0 v0 e0 out mm s1 s2 = Some (w', Ok l).
  Proof.
    intros LD EL VI PZ RM WI M L T Z C0 PC DT AD AD2 GB NZ. set (k := DynamicVelocity) in *. set (k2 := Piezoelectric) in *.
    destruct (body_is pb bt None ops RD) as (D & C & _).
    destruct (fixed_conds pb ic id g PO bt None ops RD 2) as (conds & MC & WS & CN & HP).
    destruct (fixed_size pb bt None ops RD k conds ltac:(discriminate) MC WS) as (HC & HW).
    destruct (electrode_conditions pb ic id g m es PO (proj1 RD) ES EF) as (conds2 & MC2 & WS2 & CN2 & HP2).
    destruct (electrode_size pb bt ops RD conds2 MC2 WS2) as (HC2 & HW2). fold k2 in HC2, HW2.
    assert (FL : (2 * N)%nat = force_length b k) by (unfold force_length, k; rewrite D, C; reflexivity).
    destruct (keeps_nodal pb ic id g PO bt None ops RD k 2 fi fo LD FL) as (KF & AF).
    assert (KH : keeps_heat integrate b (physics_of N ops (fun _ => 0)) (fun _ => False)) by (intros f []).
    assert (KF2 : keeps_force integrate b k2 (fun _ _ => 0) (fun _ => False)) by (intros f t []).
    destruct (piezo_some pb ic id g PO bt ops RD _ _ PZ) as [X1 X2].
    assert (EQ := provide pb bt ops RD k (answers m (pr_inner pb) (pr_outer pb) 2)
      (conj (viscous_some pb ic id g PO bt None ops RD _ _ VI) (elastic_some pb ic id g PO bt None ops RD _ _ EL)) (fun _ => AF)).
    assert (EQ2 := provide pb bt ops RD k2 (fun _ => False) (conj X2 X1) (fun F : asks_force k2 => match F with end)).
    apply (kinds_run k k2 _ _ _ (fun _ _ => 0) _ _ conds conds2 KF KH HC HW EQ KF2 KH HC2 HW2 EQ2); auto.
    - discriminate.
    - right. reflexivity.
    - apply (library_prompt _ _ _ _ _ _ GB); [left; reflexivity|discriminate].
    - apply (library_prompt _ _ _ _ _ _ GB); [right; reflexivity|discriminate].
    - unfold k, can_step. lra.
    - exact Logic.I.
    - intros. cbn [stable_kind k moment ph_n ph_N mass damping stiffness physics_of].
      split; [apply (mass_definite pb ic id g PO bt None ops RD conds RM)|].
      split; [apply (viscous_psd pb ic id g PO bt None ops RD Logic.I th ze VI T Z)|apply (elastic_psd pb ic id g PO bt None ops RD Logic.I mu la EL M L)].
    - intros. cbn [stable_kind k2 moment ph_n ph_N dielectric physics_of]. exact (permittivity_definite pz pm c conds2 PZ C0 PC WI HP2).
    - unfold unknowns, k. rewrite D, C. exact AD.
    - unfold unknowns, k2. rewrite C. exact AD2.
  Qed.
End Body.
