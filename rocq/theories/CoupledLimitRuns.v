(* C105: runs of the same problem with different classes and solvers show the same fields. *)
From Coq Require Import Reals List Arith ZArith Bool String Lia Lra.
From Verif Require Import Common PyModel RVec LinAlg MeshModel MeshBuildModel MeshSpec NormalsModel FemModel FemSpec ForcesModel ForcesSpec
  DirichletModel DirichletSpec StatementModel StatementSpec StatementValueProofs RegistryModel RegistrySpec RegistryProofs DispatchProofs
  StateModel StateLemmas CopyProofs TimeModel TimeSpec TimeProofs RunProofs HistoryProofs SolveProofs MarchProofs MethodModel MethodProofs
  RunSpec RunStable WholeRunProofs RunTheorems
  ProblemModel ProblemSpec ProblemProofs ProblemTheorems ProblemUnique ProblemTotal ProblemDefaults ProblemFinal
  CoupledMethodModel CoupledSpec CoupledProblemSpec CoupledProblemFinal CoupledLimitSpec CoupledLimitFinal CoupledLimitTheorems.
Import ListNotations.
Local Open Scope string_scope.
Local Open Scope list_scope.
Local Open Scope R_scope.

Definition alike_states {V W} (size nodes : nat) (h h' : store V) (s s' : state W) : Prop :=
  alike size nodes (look h s) (look h' s') (map (StateModel.load h) (extra_refs (extra s))) (map (StateModel.load h') (extra_refs (extra s'))).
Lemma Forall2_by_index {A B} (P : A -> B -> Prop) l l' : List.length l = List.length l' ->
  (forall j a b, nth_error l j = Some a -> nth_error l' j = Some b -> P a b) -> Forall2 P l l'.
Proof.
  revert l'. induction l as [|a l IH]; intros [|b l'] L H; try discriminate; constructor.
  - exact (H 0%nat a b eq_refl eq_refl).
  - apply IH; [cbn in L; lia|]. intros j x y. exact (H (S j) x y).
Qed.

Section Runs.
  Context {V W : Type}.
  Variables (pb : problem) (ic id : P2 -> bool) (g : P2 -> R).
  Hypothesis PO : posed pb ic id g.
  Variable bt : built.
  Hypothesis PR : construct pb = Ok bt.
  Notation m := (bt_mesh bt).
  Notation N := (List.length (m_nodes m)).
  Notation dt := (time_step_of pb).
  Notation rho := (mass_density (pr_material pb)).
  Variables fi fo : P2 -> R -> vec.

  Lemma shown_alike n out (h h' : store V) (l l' : list (state W)) u v e u' v' e' :
    non_decreasing 0 (requested n out) ->
    (forall j, (j <= TimeTheorems.last_step n out)%nat -> veq (2 * N) (u j) (u' j) /\ veq (2 * N) (v j) (v' j) /\ veq N (e j) (e' j)) ->
    (forall j q (s : state W), nth_error (requested n out) j = Some q -> nth_error l j = Some s ->
        shows_coupled dt u v e (Z.to_nat q) (look h s) (map (StateModel.load h) (extra_refs (extra s)))) ->
    (forall j q (s : state W), nth_error (requested n out) j = Some q -> nth_error l' j = Some s ->
        shows_coupled dt u' v' e' (Z.to_nat q) (look h' s) (map (StateModel.load h') (extra_refs (extra s)))) ->
    List.length l = List.length (requested n out) -> List.length l' = List.length (requested n out) -> Forall2 (alike_states (2 * N) N h h') l l'.
  Proof.
    intros ND EQ S1 S2 L1 L2. apply Forall2_by_index; [congruence|]. intros j s s' H H'.
    destruct (nth_error (requested n out) j) as [q|] eqn:Q; [|exfalso; apply nth_error_None in Q; assert (j < List.length l)%nat by (apply nth_error_Some; congruence); lia].
    destruct (S1 j q s Q H) as (A1 & A2 & A3 & A4). destruct (S2 j q s' Q H') as (B1 & B2 & B3 & B4).
    assert (LQ : (Z.to_nat q <= TimeTheorems.last_step n out)%nat).
    { unfold TimeTheorems.last_step. pose proof (TimeTheorems.non_decreasing_last _ _ _ ND (nth_error_In _ _ Q)). lia. }
    destruct (EQ _ LQ) as (E1 & E2 & E3). unfold alike_states, alike. rewrite A1, A2, A3, A4, B1, B2, B3, B4. repeat split; auto.
  Qed.

  Variables (answer second_answer answer' second_answer' : method forces -> vec -> vec -> vec -> R -> result (nat * vec)).
  Variables (name name' : string) (cls cls' : solver_class).
  Variables (th ze mu la : R).

  Lemma heated_alike ex co (m0 mm m0' mm' : store V) s1 s2 s1' s2' n u0 v0 e0 out w w' (l l' : list (state W)) :
    loaded pb 2 fi fo -> elastic (pr_material pb) = Some (mu, la) -> viscous (pr_material pb) = Some (th, ze) ->
    thermal (pr_material pb) = Some (ex, co) -> 0 < rho -> 0 <= mu -> 0 <= la -> 0 <= th -> 0 <= ze ->
    (forall v, 0 <= sum 2 (fun k => sum 2 (fun l => co k l * (v k * v l)))) -> 0 < dt ->
    answers_exactly (2 * N) answer -> answers_exactly N second_answer -> answers_exactly (2 * N) answer' -> answers_exactly N second_answer' ->
    get_by_name installed name (mro TemperatureDynamicProblem) = Ok cls -> get_by_name installed name' (mro TemperatureDynamicProblem) = Ok cls' ->
    coupled_solvers pb bt DynamicVelocityWithTemperature Temperature m0 = Ok (mm, s1, s2) ->
    coupled_solvers pb bt DynamicVelocityWithTemperature Temperature m0' = Ok (mm', s1', s2') -> non_decreasing 0 (requested n out) ->
    coupled_run bt true DynamicVelocityWithTemperature Temperature cls answer second_answer n u0 v0 e0 out mm s1 s2 = Some (w, Ok l) ->
    coupled_run bt true DynamicVelocityWithTemperature Temperature cls' answer' second_answer' n u0 v0 e0 out mm' s1' s2' = Some (w', Ok l') ->
    Forall2 (alike_states (2 * N) N (p_mem w) (p_mem w')) l l'.
  Proof.
    intros LD EL VI TH RM M L T Z PC DT A1 A2 A1' A2' GB GB' CS CS' ND RU RU'.
    destruct (heated_final pb ic id g PO bt PR answer second_answer fi fo name cls th ze mu la ex co m0 mm s1 s2 n u0 v0 e0 out w l LD EL VI TH ltac:(lra) A1 A2 GB CS ND RU) as (u & v & e & MO & LE & SH).
    destruct (heated_final pb ic id g PO bt PR answer' second_answer' fi fo name' cls' th ze mu la ex co m0' mm' s1' s2' n u0 v0 e0 out w' l' LD EL VI TH ltac:(lra) A1' A2' GB' CS' ND RU') as (u' & v' & e' & MO' & LE' & SH').
    exact (shown_alike n out (p_mem w) (p_mem w') l l' u v e u' v' e' ND (heated_alone pb ic id g PO bt PR fi fo th ze mu la EL VI ex co TH u0 v0 e0 _ u v e u' v' e' RM M L T Z PC DT MO MO') SH SH' LE LE').
  Qed.

  Variable es : list ((P2 -> bool) * (P2 -> R)).
  Hypothesis ES : electrodes (pr_boundaries pb) es.
  Hypothesis EM : electrodes_meet (pr_nodes pb) (pr_elements pb) es.

  Lemma polarised_alike pz pm c (m0 mm m0' mm' : store V) s1 s2 s1' s2' n u0 v0 e0 out w w' (l l' : list (state W)) :
    loaded pb 2 fi fo -> elastic (pr_material pb) = Some (mu, la) -> viscous (pr_material pb) = Some (th, ze) ->
    piezo (pr_material pb) = Some (pz, pm) -> clamped_mesh pb id -> wired (pr_nodes pb) (pr_elements pb) es ->
    0 <= mu -> 0 <= la -> 0 < th -> 0 <= ze -> 0 < c ->
    (forall v, c * sum 2 (fun k => v k * v k) <= sum 2 (fun k => sum 2 (fun l => pm k l * (v k * v l)))) -> 0 < dt ->
    answers_exactly (2 * N) answer -> answers_exactly N second_answer -> answers_exactly (2 * N) answer' -> answers_exactly N second_answer' ->
    get_by_name installed name (mro PiezoelectricQuasistaticProblem) = Ok cls -> get_by_name installed name' (mro PiezoelectricQuasistaticProblem) = Ok cls' ->
    coupled_solvers pb bt QuasistaticVelocityWithPiezoelectric Piezoelectric m0 = Ok (mm, s1, s2) ->
    coupled_solvers pb bt QuasistaticVelocityWithPiezoelectric Piezoelectric m0' = Ok (mm', s1', s2') -> non_decreasing 0 (requested n out) ->
    coupled_run bt false QuasistaticVelocityWithPiezoelectric Piezoelectric cls answer second_answer n u0 v0 e0 out mm s1 s2 = Some (w, Ok l) ->
    coupled_run bt false QuasistaticVelocityWithPiezoelectric Piezoelectric cls' answer' second_answer' n u0 v0 e0 out mm' s1' s2' = Some (w', Ok l') ->
    Forall2 (alike_states (2 * N) N (p_mem w) (p_mem w')) l l'.
  Proof.
    intros LD EL VI PZ HU WI M L T Z C0 PC DT A1 A2 A1' A2' GB GB' CS CS' ND RU RU'.
    destruct (polarised_final pb ic id g PO bt PR answer second_answer fi fo name cls es ES EM th ze mu la pz pm m0 mm s1 s2 n u0 v0 e0 out w l LD EL VI PZ ltac:(lra) A1 A2 GB CS ND RU) as (u & v & e & MO & LE & SH).
    destruct (polarised_final pb ic id g PO bt PR answer' second_answer' fi fo name' cls' es ES EM th ze mu la pz pm m0' mm' s1' s2' n u0 v0 e0 out w' l' LD EL VI PZ ltac:(lra) A1' A2' GB' CS' ND RU') as (u' & v' & e' & MO' & LE' & SH').
    exact (shown_alike n out (p_mem w) (p_mem w') l l' u v e u' v' e' ND (polarised_alone pb ic id g PO bt PR fi fo th ze mu la EL VI es ES EM pz pm PZ c u0 v0 e0 _ u v e u' v' e' HU WI M L T Z C0 PC DT MO MO') SH SH' LE LE').
  Qed.

  Lemma sensed_alike pz pm c (m0 mm m0' mm' : store V) s1 s2 s1' s2' n u0 v0 e0 out w w' (l l' : list (state W)) :
    loaded pb 2 fi fo -> elastic (pr_material pb) = Some (mu, la) -> viscous (pr_material pb) = Some (th, ze) ->
    piezo (pr_material pb) = Some (pz, pm) -> wired (pr_nodes pb) (pr_elements pb) es ->
    0 < rho -> 0 <= mu -> 0 <= la -> 0 <= th -> 0 <= ze -> 0 < c ->
    (forall v, c * sum 2 (fun k => v k * v k) <= sum 2 (fun k => sum 2 (fun l => pm k l * (v k * v l)))) -> 0 < dt ->
    answers_exactly (2 * N) answer -> answers_exactly N second_answer -> answers_exactly (2 * N) answer' -> answers_exactly N second_answer' ->
    get_by_name installed name (mro PiezoelectricDynamicProblem) = Ok cls -> get_by_name installed name' (mro PiezoelectricDynamicProblem) = Ok cls' ->
    coupled_solvers pb bt DynamicVelocity Piezoelectric m0 = Ok (mm, s1, s2) ->
    coupled_solvers pb bt DynamicVelocity Piezoelectric m0' = Ok (mm', s1', s2') -> non_decreasing 0 (requested n out) ->
    coupled_run bt false DynamicVelocity Piezoelectric cls answer second_answer n u0 v0 e0 out mm s1 s2 = Some (w, Ok l) ->
    coupled_run bt false DynamicVelocity Piezoelectric cls' answer' second_answer' n u0 v0 e0 out mm' s1' s2' = Some (w', Ok l') ->
    Forall2 (alike_states (2 * N) N (p_mem w) (p_mem w')) l l'.
  Proof.
    intros LD EL VI PZ WI RM M L T Z C0 PC DT A1 A2 A1' A2' GB GB' CS CS' ND RU RU'.
    destruct (sensed_final pb ic id g PO bt PR answer second_answer fi fo name cls es ES EM th ze mu la pz pm m0 mm s1 s2 n u0 v0 e0 out w l LD EL VI PZ ltac:(lra) A1 A2 GB CS ND RU) as (u & v & e & MO & LE & SH).
    destruct (sensed_final pb ic id g PO bt PR answer' second_answer' fi fo name' cls' es ES EM th ze mu la pz pm m0' mm' s1' s2' n u0 v0 e0 out w' l' LD EL VI PZ ltac:(lra) A1' A2' GB' CS' ND RU') as (u' & v' & e' & MO' & LE' & SH').
    exact (shown_alike n out (p_mem w) (p_mem w') l l' u v e u' v' e' ND (sensed_alone pb ic id g PO bt PR fi fo th ze mu la EL VI es ES EM pz pm PZ c u0 v0 e0 _ u v e u' v' e' WI RM M L T Z C0 PC DT MO MO') SH SH' LE LE').
  Qed.
End Runs.
