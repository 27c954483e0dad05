(* C104 for bodies constructed from a problem. *)
From Coq Require Import Reals List Arith ZArith Bool String Lia Lra.
From Verif Require Import Common PyModel RVec LinAlg MeshModel MeshBuildModel MeshSpec NormalsModel
  DofModel DofSpec DirichletModel DirichletSpec DirichletProofs
  FemModel FemSpec ForcesModel ForcesSpec
  StatementModel StatementSpec StatementProofs StatementValueProofs StatementLawProofs StatementMeshProofs
  RegistryModel RegistrySpec RegistryProofs DispatchProofs StateModel StateLemmas CopyProofs TimeModel TimeSpec TimeProofs RunProofs HistoryProofs SolveProofs MarchProofs MethodModel MethodProofs
  RunSpec WholeRunProofs RunTheorems ProblemModel ProblemSpec ProblemProofs ProblemReady ProblemTheorems ProblemUnique ProblemTotal ProblemFinal
  CoupledMethodModel CoupledSpec CoupledMethodProofs CoupledProblemSpec ElectrodeProofs ElectrodeUserProofs
  CoupledProblemTheorems CoupledGoes CoupledProblemTotal.
Import ListNotations.
Local Open Scope string_scope.
Local Open Scope list_scope.
Local Open Scope R_scope.

Lemma second_direct_solves {F} (integrate : F -> R -> F * result (nat * vec)) b k p loads relaxations forceful heated conds linsolve :
  (forall n A r x, linsolve n A r = Ok x -> solves n A r x) ->
  StatementValueProofs.conditions b k = Ok conds -> well_shaped (unknowns b k) conds ->
  solves_held integrate b k p loads relaxations forceful heated conds (second_direct_answer b k linsolve).
Proof.
  intros LS HC HW x dt t i g v u len y U H.
  destruct U as (_ & LEN & ML & VR & _).
  unfold second_direct_answer, direct_solve_impl in H. rewrite LEN in H.
  destruct (linsolve _ _ _) as [z|e] eqn:E; [|discriminate]. cbn [bind] in H. apply LS in E.
  unfold StatementValueProofs.conditions in HC.
  set (z' := if (unknowns b k <? b_count b)%nat then fun j => if (j <? unknowns b k)%nat then z j else 0 else z).
  assert (Z : veq (unknowns b k) z' z).
  { intros j Hj. unfold z'. destruct (_ <? _)%nat; [|reflexivity]. destruct (Nat.ltb_spec j (unknowns b k)); [reflexivity|lia]. }
  assert (Y : y = overwrite_all conds z').
  { unfold z'. destruct (_ <? b_count b)%nat; cbn [bind] in H; rewrite HC in H; cbn [bind] in H; injection H as _ <-; reflexivity. }
  clear H. subst y.
  assert (S : solves (unknowns b k) (lhs (final b (moment k p loads relaxations x dt t) k conds))
                (rhs (final b (moment k p loads relaxations x dt t) k conds)) z').
  { assert (S0 : solves (unknowns b k) (lhs (final b (moment k p loads relaxations x dt t) k conds))
      (rhs (final b (moment k p loads relaxations x dt t) k conds)) z) by (eapply solves_ext; [exact ML|exact VR|exact E]).
    intros j Hj. rewrite <- (S0 j Hj). apply sum_ext. intros a Ha. rewrite Z by exact Ha. reflexivity. }
  assert (O := overwrite_solution (unknowns b k) _ _ conds z' HW S).
  unfold holds_solution, solved; cbn [fst snd]. intros j Hj. rewrite <- (E j Hj). unfold mv. apply sum_ext. intros a Ha. rewrite (O a Ha), (Z a Ha). reflexivity.
Qed.

Section Final.
  Context {V W : Type}.
  Variables (pb : problem) (ic id : P2 -> bool) (g : P2 -> R).
  Hypothesis PO : posed pb ic id g.
  Variable bt : built.
  Hypothesis PR : construct pb = Ok bt.
  Notation N := (List.length (m_nodes (bt_mesh bt))).
  Notation b := (bt_body bt).
  Notation m := (bt_mesh bt).
  Notation dt := (time_step_of pb).
  Notation rho := (mass_density (pr_material pb)).
  Variables answer second_answer : method forces -> vec -> vec -> vec -> R -> result (nat * vec).
  Variable linsolve : nat -> mat -> vec -> result vec.
  Variables fi fo : P2 -> R -> vec.
  Variables (name : string) (cls : solver_class).
  Notation shown u v e w' n out l := (List.length l = List.length (requested n out) /\
      forall j q (s : state W), nth_error (requested n out) j = Some q -> nth_error l j = Some s ->
        shows_coupled dt u v e (Z.to_nat q) (look (p_mem w') s) (map (StateModel.load (p_mem w')) (extra_refs (extra s)))).

  Lemma constructed_ready : exists ops, ready pb bt None ops.
  Proof. exact (prepared_ready pb ic id g PO bt None (constructed pb bt PR)). Qed.

  Lemma exact_pair ops k k2 : ready pb bt None ops -> unknowns b k = (b_dimension b * b_count b)%nat -> unknowns b k2 = b_count b ->
    answers_exactly (2 * N) answer -> answers_exactly N second_answer -> sound_answer bt k answer /\ sound_answer bt k2 second_answer.
  Proof.
    intros RD K K2 A A2. destruct (body_is pb bt None ops RD) as (D & C & _).
    split; apply exact_sound; [rewrite K, D, C; exact A|rewrite K2, C; exact A2].
  Qed.

  Lemma heated_final th ze mu la ex co (m0 mm : store V) s1 s2 n u0 v0 e0 out w' (l : list (state W)) :
    loaded pb 2 fi fo -> elastic (pr_material pb) = Some (mu, la) -> viscous (pr_material pb) = Some (th, ze) ->
    thermal (pr_material pb) = Some (ex, co) -> dt <> 0 ->
    answers_exactly (2 * N) answer -> answers_exactly N second_answer ->
    get_by_name installed name (mro TemperatureDynamicProblem) = Ok cls ->
    coupled_solvers pb bt DynamicVelocityWithTemperature Temperature m0 = Ok (mm, s1, s2) -> non_decreasing 0 (requested n out) ->
    coupled_run bt true DynamicVelocityWithTemperature Temperature cls answer second_answer n u0 v0 e0 out mm s1 s2 = Some (w', Ok l) ->
    exists u v e, heated_motion m id g rho th ze mu la ex co fi fo dt u0 v0 e0 (TimeTheorems.last_step n out) u v e /\ shown u v e w' n out l.
  Proof.
    intros LD EL VI TH DT A A2. destruct constructed_ready as (ops & RD).
    destruct (exact_pair ops DynamicVelocityWithTemperature Temperature RD eq_refl eq_refl A A2) as (S & S2).
    apply (heated_posed pb ic id g PO bt ops RD answer second_answer cls name fi fo); assumption.
  Qed.

  Lemma heated_direct_final th ze mu la ex co (m0 mm : store V) s1 s2 n u0 v0 e0 out w' (l : list (state W)) :
    loaded pb 2 fi fo -> elastic (pr_material pb) = Some (mu, la) -> viscous (pr_material pb) = Some (th, ze) ->
    thermal (pr_material pb) = Some (ex, co) -> dt <> 0 ->
    (forall n A r x, linsolve n A r = Ok x -> solves n A r x) ->
    coupled_solvers pb bt DynamicVelocityWithTemperature Temperature m0 = Ok (mm, s1, s2) -> non_decreasing 0 (requested n out) ->
    coupled_run bt true DynamicVelocityWithTemperature Temperature Direct
      (direct_answer b DynamicVelocityWithTemperature linsolve) (second_direct_answer b Temperature linsolve) n u0 v0 e0 out mm s1 s2 = Some (w', Ok l) ->
    exists u v e, heated_motion m id g rho th ze mu la ex co fi fo dt u0 v0 e0 (TimeTheorems.last_step n out) u v e /\ shown u v e w' n out l.
  Proof.
    intros LD EL VI TH DT A. destruct constructed_ready as (ops & RD).
    apply (heated_posed pb ic id g PO bt ops RD _ _ Direct "direct" fi fo); auto.
    - apply direct_sound. exact A.
    - intros p loads relaxations forceful hot conds HC HW. apply second_direct_solves; assumption.
  Qed.

  Lemma heated_total th ze mu la ex co (m0 : store V) n :
    loaded pb 2 fi fo -> elastic (pr_material pb) = Some (mu, la) -> viscous (pr_material pb) = Some (th, ze) ->
    thermal (pr_material pb) = Some (ex, co) -> 0 < rho -> 0 <= mu -> 0 <= la -> 0 <= th -> 0 <= ze ->
    (forall v, 0 <= sum 2 (fun k => sum 2 (fun l => co k l * (v k * v l)))) -> 0 < dt ->
    answers_exactly (2 * N) answer -> answers_exactly N second_answer ->
    answers_definite (2 * N) (2 * N) answer -> answers_definite N N second_answer ->
    get_by_name installed name (mro TemperatureDynamicProblem) = Ok cls -> n <> 0%nat ->
    exists mm s1 s2, coupled_solvers pb bt DynamicVelocityWithTemperature Temperature m0 = Ok (mm, s1, s2) /\
      forall u0 v0 e0 out, non_decreasing 0 (requested n out) -> exists w' (l : list (state W)) u v e,
      coupled_run bt true DynamicVelocityWithTemperature Temperature cls answer second_answer n u0 v0 e0 out mm s1 s2 = Some (w', Ok l) /\
      heated_motion m id g rho th ze mu la ex co fi fo dt u0 v0 e0 (TimeTheorems.last_step n out) u v e /\ shown u v e w' n out l.
  Proof.
    intros LD EL VI TH RM M L T Z PC DT A A2 AD AD2 GB NZ. destruct constructed_ready as (ops & RD).
    destruct (heated_goes (V:=V) (W:=W) pb ic id g PO bt ops RD answer second_answer cls name fi fo th ze mu la ex co m0 n LD EL VI TH RM M L T Z PC DT AD AD2 GB NZ)
      as (mm & s1 & s2 & CS & GO).
    exists mm, s1, s2. split; [exact CS|]. intros u0 v0 e0 out ND. destruct (GO u0 v0 e0 out) as (w' & l & RU).
    destruct (heated_final th ze mu la ex co m0 mm s1 s2 n u0 v0 e0 out w' l LD EL VI TH ltac:(lra) A A2 GB CS ND RU) as (u & v & e & Q).
    exists w', l, u, v, e. split; [exact RU|exact Q].
  Qed.

  Lemma heated_direct_total th ze mu la ex co (m0 : store V) n :
    loaded pb 2 fi fo -> elastic (pr_material pb) = Some (mu, la) -> viscous (pr_material pb) = Some (th, ze) ->
    thermal (pr_material pb) = Some (ex, co) -> 0 < rho -> 0 <= mu -> 0 <= la -> 0 <= th -> 0 <= ze ->
    (forall v, 0 <= sum 2 (fun k => sum 2 (fun l => co k l * (v k * v l)))) -> 0 < dt ->
    (forall n A r x, linsolve n A r = Ok x -> solves n A r x) -> (forall n A r, pos_def n A -> exists x, linsolve n A r = Ok x) -> n <> 0%nat ->
    exists mm s1 s2, coupled_solvers pb bt DynamicVelocityWithTemperature Temperature m0 = Ok (mm, s1, s2) /\
      forall u0 v0 e0 out, non_decreasing 0 (requested n out) -> exists w' (l : list (state W)) u v e,
      coupled_run bt true DynamicVelocityWithTemperature Temperature Direct
        (direct_answer b DynamicVelocityWithTemperature linsolve) (second_direct_answer b Temperature linsolve) n u0 v0 e0 out mm s1 s2 = Some (w', Ok l) /\
      heated_motion m id g rho th ze mu la ex co fi fo dt u0 v0 e0 (TimeTheorems.last_step n out) u v e /\ shown u v e w' n out l.
  Proof.
    intros LD EL VI TH RM M L T Z PC DT LS LW NZ. destruct constructed_ready as (ops & RD).
    destruct (body_is pb bt None ops RD) as (D & C & MC).
    assert (AD := direct_definite pb ic id g PO bt None (constructed pb bt PR) DynamicVelocityWithTemperature linsolve ltac:(discriminate) LW).
    unfold unknowns in AD at 1. rewrite D, C in AD.
    assert (AD2 : answers_definite (F:=forces) N N (second_direct_answer b Temperature linsolve)).
    { intros i guess v u t LEN PD. unfold second_direct_answer, direct_solve_impl. rewrite LEN, C, Nat.ltb_irrefl.
      destruct (LW _ _ (load_v (hp (m_world i)) (m_rhs i)) PD) as (y & Y). rewrite Y. cbn [bind].
      destruct (fixed_conds pb ic id g PO bt None ops RD 1) as (conds & FC & _).
      assert (X : b_conditions b (dimension_in Temperature (b_dimension b)) (dirichlet_cond_name Temperature) = Ok conds) by (rewrite D, MC; exact FC).
      rewrite X. cbn [bind]. eauto. }
    destruct (heated_goes (V:=V) (W:=W) pb ic id g PO bt ops RD _ _ Direct "direct" fi fo th ze mu la ex co m0 n LD EL VI TH RM M L T Z PC DT AD AD2 eq_refl NZ)
      as (mm & s1 & s2 & CS & GO).
    exists mm, s1, s2. split; [exact CS|]. intros u0 v0 e0 out ND. destruct (GO u0 v0 e0 out) as (w' & l & RU).
    destruct (heated_direct_final th ze mu la ex co m0 mm s1 s2 n u0 v0 e0 out w' l LD EL VI TH ltac:(lra) LS CS ND RU) as (u & v & e & Q).
    exists w', l, u, v, e. split; [exact RU|exact Q].
  Qed.

  Variable es : list ((P2 -> bool) * (P2 -> R)).
  Hypothesis ES : electrodes (pr_boundaries pb) es.
  Hypothesis EM : electrodes_meet (pr_nodes pb) (pr_elements pb) es.

  Lemma polarised_final th ze mu la pz pm (m0 mm : store V) s1 s2 n u0 v0 e0 out w' (l : list (state W)) :
    loaded pb 2 fi fo -> elastic (pr_material pb) = Some (mu, la) -> viscous (pr_material pb) = Some (th, ze) ->
    piezo (pr_material pb) = Some (pz, pm) -> dt <> 0 ->
    answers_exactly (2 * N) answer -> answers_exactly N second_answer ->
    get_by_name installed name (mro PiezoelectricQuasistaticProblem) = Ok cls ->
    coupled_solvers pb bt QuasistaticVelocityWithPiezoelectric Piezoelectric m0 = Ok (mm, s1, s2) -> non_decreasing 0 (requested n out) ->
    coupled_run bt false QuasistaticVelocityWithPiezoelectric Piezoelectric cls answer second_answer n u0 v0 e0 out mm s1 s2 = Some (w', Ok l) ->
    exists u v e, polarised_motion m id g th ze mu la es pz pm fi fo dt u0 v0 e0 (TimeTheorems.last_step n out) u v e /\ shown u v e w' n out l.
  Proof.
    intros LD EL VI PZ DT A A2. destruct constructed_ready as (ops & RD).
    destruct (exact_pair ops QuasistaticVelocityWithPiezoelectric Piezoelectric RD eq_refl eq_refl A A2) as (S & S2).
    apply (polarised_posed pb ic id g PO bt ops RD answer second_answer cls name fi fo es ES (electrodes_built pb ic id g m es PO (proj1 RD) EM)); assumption.
  Qed.

  Lemma polarised_total th ze mu la pz pm c (m0 : store V) n :
    loaded pb 2 fi fo -> elastic (pr_material pb) = Some (mu, la) -> viscous (pr_material pb) = Some (th, ze) ->
    piezo (pr_material pb) = Some (pz, pm) -> clamped_mesh pb id -> wired (pr_nodes pb) (pr_elements pb) es ->
    0 <= mu -> 0 <= la -> 0 < th -> 0 <= ze -> 0 < c ->
    (forall v, c * sum 2 (fun k => v k * v k) <= sum 2 (fun k => sum 2 (fun l => pm k l * (v k * v l)))) -> 0 < dt ->
    answers_exactly (2 * N) answer -> answers_exactly N second_answer ->
    answers_definite (2 * N) (2 * N) answer -> answers_definite N N second_answer ->
    get_by_name installed name (mro PiezoelectricQuasistaticProblem) = Ok cls -> n <> 0%nat ->
    exists mm s1 s2, coupled_solvers pb bt QuasistaticVelocityWithPiezoelectric Piezoelectric m0 = Ok (mm, s1, s2) /\
      forall u0 v0 e0 out, non_decreasing 0 (requested n out) -> exists w' (l : list (state W)) u v e,
      coupled_run bt false QuasistaticVelocityWithPiezoelectric Piezoelectric cls answer second_answer n u0 v0 e0 out mm s1 s2 = Some (w', Ok l) /\
      polarised_motion m id g th ze mu la es pz pm fi fo dt u0 v0 e0 (TimeTheorems.last_step n out) u v e /\ shown u v e w' n out l.
  Proof.
    intros LD EL VI PZ HU WI M L T Z C0 PC DT A A2 AD AD2 GB NZ. destruct constructed_ready as (ops & RD).
    destruct (polarised_goes (V:=V) (W:=W) pb ic id g PO bt ops RD answer second_answer cls name fi fo es ES (electrodes_built pb ic id g m es PO (proj1 RD) EM)
      th ze mu la pz pm c m0 n LD EL VI PZ HU (wires_built pb ic id g m es PO (proj1 RD) WI) M L T Z C0 PC DT AD AD2 GB NZ)
      as (mm & s1 & s2 & CS & GO).
    exists mm, s1, s2. split; [exact CS|]. intros u0 v0 e0 out ND. destruct (GO u0 v0 e0 out) as (w' & l & RU).
    destruct (polarised_final th ze mu la pz pm m0 mm s1 s2 n u0 v0 e0 out w' l LD EL VI PZ ltac:(lra) A A2 GB CS ND RU) as (u & v & e & Q).
    exists w', l, u, v, e. split; [exact RU|exact Q].
  Qed.

  Lemma sensed_final th ze mu la pz pm (m0 mm : store V) s1 s2 n u0 v0 e0 out w' (l : list (state W)) :
    loaded pb 2 fi fo -> elastic (pr_material pb) = Some (mu, la) -> viscous (pr_material pb) = Some (th, ze) ->
    piezo (pr_material pb) = Some (pz, pm) -> dt <> 0 ->
    answers_exactly (2 * N) answer -> answers_exactly N second_answer ->
    get_by_name installed name (mro PiezoelectricDynamicProblem) = Ok cls ->
    coupled_solvers pb bt DynamicVelocity Piezoelectric m0 = Ok (mm, s1, s2) -> non_decreasing 0 (requested n out) ->
    coupled_run bt false DynamicVelocity Piezoelectric cls answer second_answer n u0 v0 e0 out mm s1 s2 = Some (w', Ok l) ->
    exists u v e, sensed_motion m id g rho th ze mu la es pz pm fi fo dt u0 v0 e0 (TimeTheorems.last_step n out) u v e /\ shown u v e w' n out l.
  Proof.
    intros LD EL VI PZ DT A A2. destruct constructed_ready as (ops & RD).
    destruct (exact_pair ops DynamicVelocity Piezoelectric RD eq_refl eq_refl A A2) as (S & S2).
    apply (sensed_posed pb ic id g PO bt ops RD answer second_answer cls name fi fo es ES (electrodes_built pb ic id g m es PO (proj1 RD) EM)); assumption.
  Qed.

  Lemma sensed_total th ze mu la pz pm c (m0 : store V) n :
    loaded pb 2 fi fo -> elastic (pr_material pb) = Some (mu, la) -> viscous (pr_material pb) = Some (th, ze) ->
    piezo (pr_material pb) = Some (pz, pm) -> 0 < rho -> wired (pr_nodes pb) (pr_elements pb) es ->
    0 <= mu -> 0 <= la -> 0 <= th -> 0 <= ze -> 0 < c ->
    (forall v, c * sum 2 (fun k => v k * v k) <= sum 2 (fun k => sum 2 (fun l => pm k l * (v k * v l)))) -> 0 < dt ->
    answers_exactly (2 * N) answer -> answers_exactly N second_answer ->
    answers_definite (2 * N) (2 * N) answer -> answers_definite N N second_answer ->
    get_by_name installed name (mro PiezoelectricDynamicProblem) = Ok cls -> n <> 0%nat ->
    exists mm s1 s2, coupled_solvers pb bt DynamicVelocity Piezoelectric m0 = Ok (mm, s1, s2) /\
      forall u0 v0 e0 out, non_decreasing 0 (requested n out) -> exists w' (l : list (state W)) u v e,
      coupled_run bt false DynamicVelocity Piezoelectric cls answer second_answer n u0 v0 e0 out mm s1 s2 = Some (w', Ok l) /\
      sensed_motion m id g rho th ze mu la es pz pm fi fo dt u0 v0 e0 (TimeTheorems.last_step n out) u v e /\ shown u v e w' n out l.
  Proof.
    intros LD EL VI PZ RM WI M L T Z C0 PC DT A A2 AD AD2 GB NZ. destruct constructed_ready as (ops & RD).
    destruct (sensed_goes (V:=V) (W:=W) pb ic id g PO bt ops RD answer second_answer cls name fi fo es ES (electrodes_built pb ic id g m es PO (proj1 RD) EM)
      th ze mu la pz pm c m0 n LD EL VI PZ RM (wires_built pb ic id g m es PO (proj1 RD) WI) M L T Z C0 PC DT AD AD2 GB NZ)
      as (mm & s1 & s2 & CS & GO).
    exists mm, s1, s2. split; [exact CS|]. intros u0 v0 e0 out ND. destruct (GO u0 v0 e0 out) as (w' & l & RU).
    destruct (sensed_final th ze mu la pz pm m0 mm s1 s2 n u0 v0 e0 out w' l LD EL VI PZ ltac:(lra) A A2 GB CS ND RU) as (u & v & e & Q).
    exists w', l, u, v, e. split; [exact RU|exact Q].
  Qed.

  Lemma sensed_direct_final th ze mu la pz pm (m0 mm : store V) s1 s2 n u0 v0 e0 out w' (l : list (state W)) :
    loaded pb 2 fi fo -> elastic (pr_material pb) = Some (mu, la) -> viscous (pr_material pb) = Some (th, ze) ->
    piezo (pr_material pb) = Some (pz, pm) -> dt <> 0 ->
    (forall n A r x, linsolve n A r = Ok x -> solves n A r x) ->
    coupled_solvers pb bt DynamicVelocity Piezoelectric m0 = Ok (mm, s1, s2) -> non_decreasing 0 (requested n out) ->
    coupled_run bt false DynamicVelocity Piezoelectric Direct
      (direct_answer b DynamicVelocity linsolve) (second_direct_answer b Piezoelectric linsolve) n u0 v0 e0 out mm s1 s2 = Some (w', Ok l) ->
    exists u v e, sensed_motion m id g rho th ze mu la es pz pm fi fo dt u0 v0 e0 (TimeTheorems.last_step n out) u v e /\ shown u v e w' n out l.
  Proof.
    intros LD EL VI PZ DT A. destruct constructed_ready as (ops & RD).
    apply (sensed_posed pb ic id g PO bt ops RD _ _ Direct "direct" fi fo es ES (electrodes_built pb ic id g m es PO (proj1 RD) EM)); auto.
    - apply direct_sound. exact A.
    - intros p loads relaxations forceful hot conds HC HW. apply second_direct_solves; assumption.
  Qed.

  Lemma sensed_direct_total th ze mu la pz pm c (m0 : store V) n :
    loaded pb 2 fi fo -> elastic (pr_material pb) = Some (mu, la) -> viscous (pr_material pb) = Some (th, ze) ->
    piezo (pr_material pb) = Some (pz, pm) -> 0 < rho -> wired (pr_nodes pb) (pr_elements pb) es ->
    0 <= mu -> 0 <= la -> 0 <= th -> 0 <= ze -> 0 < c ->
    (forall v, c * sum 2 (fun k => v k * v k) <= sum 2 (fun k => sum 2 (fun l => pm k l * (v k * v l)))) -> 0 < dt ->
    (forall n A r x, linsolve n A r = Ok x -> solves n A r x) -> (forall n A r, pos_def n A -> exists x, linsolve n A r = Ok x) -> n <> 0%nat ->
    exists mm s1 s2, coupled_solvers pb bt DynamicVelocity Piezoelectric m0 = Ok (mm, s1, s2) /\
      forall u0 v0 e0 out, non_decreasing 0 (requested n out) -> exists w' (l : list (state W)) u v e,
      coupled_run bt false DynamicVelocity Piezoelectric Direct
        (direct_answer b DynamicVelocity linsolve) (second_direct_answer b Piezoelectric linsolve) n u0 v0 e0 out mm s1 s2 = Some (w', Ok l) /\
      sensed_motion m id g rho th ze mu la es pz pm fi fo dt u0 v0 e0 (TimeTheorems.last_step n out) u v e /\ shown u v e w' n out l.
  Proof.
    intros LD EL VI PZ RM WI M L T Z C0 PC DT LS LW NZ. destruct constructed_ready as (ops & RD).
    destruct (body_is pb bt None ops RD) as (D & C & MC). assert (EF := electrodes_built pb ic id g m es PO (proj1 RD) EM).
    assert (AD := direct_definite pb ic id g PO bt None (constructed pb bt PR) DynamicVelocity linsolve ltac:(discriminate) LW).
    unfold unknowns in AD at 1. rewrite D, C in AD.
    assert (AD2 : answers_definite (F:=forces) N N (second_direct_answer b Piezoelectric linsolve)).
    { intros i guess v u t LEN PD. unfold second_direct_answer, direct_solve_impl. rewrite LEN, C, Nat.ltb_irrefl.
      destruct (LW _ _ (load_v (hp (m_world i)) (m_rhs i)) PD) as (y & Y). rewrite Y. cbn [bind].
      destruct (electrode_conditions pb ic id g m es PO (proj1 RD) ES EF) as (conds & FC & _).
      assert (X : b_conditions b (dimension_in Piezoelectric (b_dimension b)) (dirichlet_cond_name Piezoelectric) = Ok conds) by (rewrite D, MC; exact FC).
      rewrite X. cbn [bind]. eauto. }
    destruct (sensed_goes (V:=V) (W:=W) pb ic id g PO bt ops RD _ _ Direct "direct" fi fo es ES EF
      th ze mu la pz pm c m0 n LD EL VI PZ RM (wires_built pb ic id g m es PO (proj1 RD) WI) M L T Z C0 PC DT AD AD2 eq_refl NZ)
      as (mm & s1 & s2 & CS & GO).
    exists mm, s1, s2. split; [exact CS|]. intros u0 v0 e0 out ND. destruct (GO u0 v0 e0 out) as (w' & l & RU).
    destruct (sensed_direct_final th ze mu la pz pm m0 mm s1 s2 n u0 v0 e0 out w' l LD EL VI PZ ltac:(lra) LS CS ND RU) as (u & v & e & Q).
    exists w', l, u, v, e. split; [exact RU|exact Q].
  Qed.
End Final.
