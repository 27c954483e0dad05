(* What the drivers pick, what the solvers hand over to the statements, and what the statements of
   piezoelectric problems depend on. *)
From Coq Require Import Reals List Arith Bool String Ascii Lia Lra.
From Verif Require Import Common PyModel RVec DofModel DofSpec DirichletModel DirichletSpec DirichletProofs
  StatementModel StatementSpec StatementProofs StatementValueProofs StatementLawProofs StatementEnergyProofs
  StatementExamples RegistryModel RegistrySpec RegistryProofs.
Import ListNotations.
Local Open Scope string_scope.
Local Open Scope list_scope.

(* ------------------------------------------------------------- picking *)

Section Picking.
  Context {L : Type}.
  Variables law law_2 : option L.
  Variable base_init : kind -> result unit.
  Variable rest_init : solver_class -> kind -> option L -> result unit.
  Variable p : cls.
  Notation construct := (construct base_init rest_init).
  Notation set_step := (set_step_solver installed (mro p) law base_init rest_init).
  Notation set_second := (set_second_step_solver installed (mro p) law_2 base_init rest_init).
  Notation set_method := (set_solving_method installed (mro p) law law_2 base_init rest_init).
  Notation refresh := (refresh_solvers installed (mro p) law law_2 base_init rest_init).

  Lemma construct_ok c k contact s : construct c k contact = Ok s -> s = (c, k).
  Proof.
    unfold RegistryModel.construct. destruct (base_init k) as [[]|e]; cbn [bind]; [|discriminate].
    destruct (is_optimization c), contact as [l|]; try discriminate;
      (destruct (rest_init c k _) as [[]|e]; cbn [bind]; [|discriminate]); intros H; injection H as <-; reflexivity.
  Qed.

  (* the classes and statements picked are those of the method and of the problem *)
  Lemma set_method_ok name q q' : set_method name q = (q', Ok tt) ->
    exists c k1 k2, get_by_name installed name (mro p) = Ok c /\
      statement_of (mro p) = Ok k1 /\ second_statement_of (mro p) = Ok k2 /\
      q' = mkPicked (option_map (pair c) k1) (option_map (pair c) k2) /\
      (forall k, k1 = Some k -> construct c k law = Ok (c, k)) /\
      (forall k, k2 = Some k -> construct c k law_2 = Ok (c, k)).
  Proof.
    unfold set_solving_method, set_step_solver, set_second_step_solver.
    destruct (get_by_name installed name (mro p)) as [c|e]; [|discriminate].
    destruct (statement_of (mro p)) as [[k1|]|e] eqn:S1; [| |discriminate].
    - destruct (construct c k1 law) as [s|e] eqn:C1; [|discriminate].
      destruct (second_statement_of (mro p)) as [[k2|]|e] eqn:S2; [| |discriminate].
      + destruct (construct c k2 law_2) as [s'|e] eqn:C2; [|discriminate]. intros H. injection H as <-.
        pose proof (construct_ok _ _ _ _ C1). pose proof (construct_ok _ _ _ _ C2). subst.
        exists c, (Some k1), (Some k2). repeat (split; [reflexivity|]). split; intros k E; injection E as <-; auto.
      + intros H. injection H as <-. pose proof (construct_ok _ _ _ _ C1). subst.
        exists c, (Some k1), None. repeat (split; [reflexivity|]). split; intros k E; [injection E as <-; auto|discriminate].
    - destruct (second_statement_of (mro p)) as [[k2|]|e] eqn:S2; [| |discriminate].
      + destruct (construct c k2 law_2) as [s'|e] eqn:C2; [|discriminate]. intros H. injection H as <-.
        pose proof (construct_ok _ _ _ _ C2). subst.
        exists c, None, (Some k2). repeat (split; [reflexivity|]). split; intros k E; [discriminate|injection E as <-; auto].
      + intros H. injection H as <-. exists c, None, None. repeat (split; [reflexivity|]). split; discriminate.
  Qed.

  Lemma set_method_again name q q' r : set_method name q = (q', Ok tt) ->
    forall c, get_by_name installed name (mro p) = Ok c -> forall other, get_by_name installed other (mro p) = Ok c ->
    set_method other r = (q', Ok tt).
  Proof.
    intros H c Hc other Ho. destruct (set_method_ok _ _ _ H) as (c' & k1 & k2 & G & S1 & S2 & -> & C1 & C2).
    rewrite Hc in G. injection G as <-.
    unfold set_solving_method, set_step_solver, set_second_step_solver. rewrite Ho, S1, S2.
    destruct k1 as [k1|]; [rewrite (C1 k1 eq_refl)|]; (destruct k2 as [k2|]; [rewrite (C2 k2 eq_refl)|]); reflexivity.
  Qed.

  (* refreshing keeps the classes when the problem has a first statement *)
  Lemma refresh_same name q q' : set_method name q = (q', Ok tt) -> p_first q' <> None ->
    refresh q' = (q', Ok tt).
  Proof.
    intros H F. destruct (set_method_ok _ _ _ H) as (c & k1 & k2 & G & S1 & S2 & E & C1 & C2).
    pose proof (library_reported _ _ _ G) as R.
    destruct k1 as [k1|]; [|subst; contradiction]. subst q'. cbn [option_map] in *.
    assert (M : solving_method (mkPicked (Some (c, k1)) (option_map (pair c) k2)) = str_of c) by reflexivity.
    unfold refresh_solvers. rewrite M. unfold set_step_solver, set_second_step_solver.
    rewrite R, S1, (C1 k1 eq_refl), S2. cbn [p_first p_second solving_method]. rewrite R.
    destruct k2 as [k2|]; [rewrite (C2 k2 eq_refl)|]; reflexivity.
  Qed.

  Lemma refresh_none name q q' : set_method name q = (q', Ok tt) -> p_first q' = None ->
    refresh q' = (q', Err (KeyError "none")).
  Proof.
    intros H F. destruct (set_method_ok _ _ _ H) as (c & k1 & k2 & G & S1 & S2 & E & C1 & C2).
    unfold refresh_solvers, solving_method, set_step_solver. rewrite F.
    apply library_lookup in G. destruct G as (d & D & _).
    rewrite (library_missing p "None" d D); [reflexivity|].
    intros c' H'. cbn in H'. inversion H' as [| |? ? ? H1|? ? ? H1]; subst; cbn in H1;
      repeat destruct H1 as [H1|H1]; try contradiction; discriminate.
  Qed.

  (* no law, no optimisation *)
  Lemma optimisation_needs_law name q c k : get_by_name installed name (mro p) = Ok c -> is_optimization c = true ->
    second_statement_of (mro p) = Ok (Some k) -> law_2 = None -> base_init k = Ok tt ->
    set_second name q = (q, Err AttributeError).
  Proof.
    intros G O S -> B. unfold set_second_step_solver, RegistryModel.construct. rewrite G, S, B. cbn [bind]. rewrite O. reflexivity.
  Qed.
End Picking.

Lemma poisson_offers name c : get_by_name installed name (mro PoissonProblem) = Ok c ->
  lower name = "direct" \/ is_optimization c = true.
Proof.
  rewrite library_lookup. intros (d & _ & [| |d' n' c' H1 H2|d' n' c' H1 H2]); auto; right;
    cbn in H2; repeat destruct H2 as [H2|H2]; try contradiction; injection H2 as _ <-; reflexivity.
Qed.

(* ------------------------------------------------------------- hand-over *)

Section HandOver.
  Context {F : Type}.
  Variable integrate : F -> R -> F * result (nat * vec).
  Variable b : body.

  (* the statements of a class of the library *)
  Definition statement_kind (p : cls) (k : kind) : Prop :=
    statement_of (mro p) = Ok (Some k) \/ second_statement_of (mro p) = Ok (Some k).

  Lemma handed_over p name c k g var : get_by_name installed name (mro p) = Ok c -> statement_kind p k ->
    iterate_variables c g = Some var -> c <> RelaxedGlobal ->
    forall w, update integrate b k var w = update integrate b k (initial_variables g) w.
  Proof.
    intros G K V N w. apply library_lookup in G. destruct G as (d & D & O). apply dynamism_of_spec in D.
    assert (E : In (d, c) [("quasistatic", QuasistaticGlobal); ("dynamic", DynamicGlobal);
        ("quasistatic", QuasistaticSchur); ("quasistatic relaxation", RelaxedSchur); ("dynamic", DynamicSchur)]).
    { destruct O as [| |d' n' c' H1 H2|d' n' c' H1 H2]; try discriminate; cbn in H2 |- *;
        repeat destruct H2 as [H2|H2]; try contradiction; injection H2 as <- <-; try discriminate; try contradiction; tauto. }
    clear O. unfold statement_kind in K.
    destruct p; vm_compute in D; try discriminate D; injection D as <-;
      vm_compute in K; destruct K as [K|K]; try discriminate K; injection K as <-;
      cbn [In] in E; repeat destruct E as [E|E]; try contradiction; try discriminate E; injection E as <-;
      cbn [iterate_variables] in V; injection V as <-; reflexivity.
  Qed.

  (* relaxation with the global method: the time is missing *)
  Lemma relaxed_global_fails g var : iterate_variables RelaxedGlobal g = Some var ->
    forall w, exists w' e, update integrate b QuasistaticRelaxation var w = (w', Err e).
  Proof.
    cbn [iterate_variables]. intros H. injection H as <-. intros w. unfold update.
    assert (R : forall w1, right_hand_side integrate b QuasistaticRelaxation
       (mkVariables (Some (g_b g)) (Some (g_u g)) None None None (Some (g_dt g)) None) w1 = (w1, Err AssertionError)).
    { intros w1. reflexivity. }
    unfold StatementModel.mbind at 1.
    destruct (left_hand_side b QuasistaticRelaxation _ w) as [w1 [l|e]]; [|eauto].
    unfold StatementModel.mbind at 1. rewrite R. eauto.
  Qed.
End HandOver.

(* ------------------------------------------------------------- piezoelectric problems *)

Local Open Scope R_scope.

(* the same variables with another electric potential *)
Definition with_potential (var : variables) (x : option vref) : variables :=
  mkVariables (absement var) (displacement var) (velocity var) (temperature var) x (time_step var) (time var).
(* the same problem with another electric potential *)
Definition at_potential (p : physics) (phi : vec) : physics :=
  mkPhysics (ph_N p) (ph_n p) (mass p) (stiffness p) (damping p) (memory p) (laplace p) (conduction p)
    (dielectric p) (expansion p) (coupling p) (load p) (heat p) (ph_b p) (ph_u p) (ph_v p) (ph_th p) phi (ph_dt p).

Lemma dynamic_piezo_statement : statement_of (mro PiezoelectricDynamicProblem) = Ok (Some DynamicVelocity).
Proof. reflexivity. Qed.
Lemma quasistatic_piezo_statement :
  statement_of (mro PiezoelectricQuasistaticProblem) = Ok (Some QuasistaticVelocityWithPiezoelectric).
Proof. reflexivity. Qed.

Lemma dynamic_uncoupled {F} (integrate : F -> R -> F * result (nat * vec)) b var x y w :
  update integrate b DynamicVelocity (with_potential var x) w = update integrate b DynamicVelocity (with_potential var y) w.
Proof. reflexivity. Qed.

(* no class of the library uses the coupled dynamic statement *)
Lemma dynamic_coupling_unused : forall p k, statement_kind p k -> k <> DynamicVelocityWithPiezoelectric.
Proof.
  intros p k [H|H] ->; destruct p; vm_compute in H; discriminate.
Qed.

Lemma coupled_alone :
  let b := laid_out_body coupled [] in
  (exists x, step_solved constant_source b DynamicVelocity coupled x) /\
  (forall x, step_solved constant_source b DynamicVelocity coupled x -> x 0%nat = 0).
Proof.
  intros b. assert (P : forall d v, ~ prescribed [] d v) by (intros d v (sl & c & s & q & [] & _)). split.
  - exists (fun _ => 0). apply canonical_step; [reflexivity|simpl; lra|apply no_conditions|apply (no_conditions 0)|].
    split; [intros d v H; destruct (P d v H)|]. intros i Hi _. change (i < 2)%nat in Hi.
    cbn [law_of]. unfold dynamic_law, advanced, rate, mv, mT. cbn -[Nat.ltb]. unfold delta.
    destruct i as [|[|i]]; [| |lia]; simpl; lra.
  - intros x H.
    assert (O : obeys 2 (prescribed []) (law_of coupled DynamicVelocity) x).
    { apply (step_obeys constant_source b [] DynamicVelocity coupled x eq_refl); auto; apply (no_conditions 2). }
    destruct O as [_ O]. specialize (O 0%nat ltac:(lia) (P 0%nat)).
    cbn [law_of] in O. unfold dynamic_law, advanced, rate, mv, mT in O. cbn in O. unfold delta in O. simpl in O. lra.
Qed.

(* two potentials with different loads at a free dof have no common solution *)
Lemma quasistatic_coupled {F} (integrate : F -> R -> F * result (nat * vec)) b conds p phi psi x i :
  conditions b QuasistaticVelocityWithPiezoelectric = Ok conds ->
  well_shaped (unknowns b QuasistaticVelocityWithPiezoelectric) conds -> consistent (prescribed conds) ->
  step_solved integrate b QuasistaticVelocityWithPiezoelectric (at_potential p phi) x ->
  step_solved integrate b QuasistaticVelocityWithPiezoelectric (at_potential p psi) x ->
  (i < ph_n p)%nat -> (forall v, ~ prescribed conds i v) ->
  electric_load (at_potential p phi) i = electric_load (at_potential p psi) i.
Proof.
  intros HC HW HK H1 H2 Hi Hf.
  destruct (step_obeys _ _ _ _ _ _ HC HW HK H1) as [S1 [_ O1]].
  destruct (step_obeys _ _ _ _ _ _ HC HW HK H2) as [S2 [_ O2]].
  assert (U : (i < unknowns b QuasistaticVelocityWithPiezoelectric)%nat).
  { destruct S1 as [_ S1]. unfold unknowns. cbn in S1. rewrite <- S1. exact Hi. }
  specialize (O1 i U Hf). specialize (O2 i U Hf). cbn [law_of] in O1, O2. unfold quasistatic_law in O1, O2.
  cbn [ph_n damping stiffness load at_potential] in O1, O2.
  change (advanced (at_potential p phi)) with (advanced p) in O1.
  change (advanced (at_potential p psi)) with (advanced p) in O2.
  change (ph_u (at_potential p phi)) with (ph_u p) in O1. change (ph_u (at_potential p psi)) with (ph_u p) in O2. lra.
Qed.
