(* C50-C52, C80: the registry of solvers, the variables they hand over, the statements of the
   problem classes. *)
From Coq Require Import Reals List Arith Bool String.
From Verif Require Import Common PyModel RVec DirichletModel DirichletSpec DirichletProofs
  StatementModel StatementSpec StatementValueProofs StatementLawProofs StatementEnergyProofs StatementExamples
  RegistryModel RegistrySpec RegistryProofs DispatchProofs DispatchExamples.
Import ListNotations.
Local Open Scope string_scope.
Local Open Scope list_scope.

(* ------------------------------------------------------------------ C50 *)

(* when a registration succeeds: no name is taken, no name is given twice *)
Theorem C50_register : forall C (reg : registry C) d names c,
  snd (register reg d names c) = Ok tt <->
  (forall e, meant d e -> known reg e) /\ NoDup (map lower names) /\
  forall e n, meant d e -> In n (map lower names) -> forall v, ~ holds reg e n v.
Proof. exact @register_ok. Qed.
Print Assumptions C50_register.

(* nothing is overwritten, whatever is registered later *)
Theorem C50_never_overwritten : forall C l (reg : registry C) d n v, holds reg d n v -> holds (register_all reg l) d n v.
Proof. exact @register_all_keeps. Qed.
Print Assumptions C50_never_overwritten.

(* what was registered is found ever after *)
Theorem C50_resolves : forall C (l1 : list (registration C)) x l2 (reg : registry C) d n,
  snd (register (register_all reg l1) (r_dynamism x) (r_names x) (r_class x)) = Ok tt ->
  meant (r_dynamism x) d -> In n (r_names x) ->
  holds (register_all reg (l1 ++ x :: l2)) d (lower n) (r_class x).
Proof. exact @register_all_resolves. Qed.
Print Assumptions C50_resolves.

(* and only what was registered *)
Theorem C50_origin : forall C l (reg : registry C) d n v, holds (register_all reg l) d n v ->
  holds reg d n v \/ exists (x : registration C) m, In x l /\ r_class x = v /\ meant (r_dynamism x) d /\
    In m (r_names x) /\ n = lower m.
Proof. exact @register_all_origin. Qed.
Print Assumptions C50_origin.

(* "*" is not every dynamism: what is registered for it is not found by relaxation problems *)
Theorem C50_star_refuted : forall C (reg : registry C) names c n v,
  holds (fst (register reg "*" names c)) "quasistatic relaxation" n v <-> holds reg "quasistatic relaxation" n v.
Proof. exact @star_not_relaxation. Qed.
Print Assumptions C50_star_refuted.

(* look-ups do not see the case of letters *)
Theorem C50_case : forall C (reg : registry C) s t l, same_name s t -> get_by_name reg s l = get_by_name reg t l.
Proof. exact @get_by_name_case. Qed.
Print Assumptions C50_case.

(* the look-up of the library: exactly the methods offered for the dynamism of the problem *)
Theorem C50_lookup : forall p name c,
  get_by_name installed name (mro p) = Ok c <-> exists d, has_dynamism p d /\ offered d (lower name) c.
Proof. exact library_lookup. Qed.
Print Assumptions C50_lookup.

Theorem C50_missing : forall p name d, has_dynamism p d -> (forall c, ~ offered d (lower name) c) ->
  get_by_name installed name (mro p) = Err (KeyError (lower name)).
Proof. exact library_missing. Qed.
Print Assumptions C50_missing.

(* a solver found can be found again by the name it reports *)
Theorem C50_reported : forall p name c, get_by_name installed name (mro p) = Ok c ->
  get_by_name installed (str_of c) (mro p) = Ok c.
Proof. exact library_reported. Qed.
Print Assumptions C50_reported.

(* the class order behind "isinstance": Python's rules for method resolution *)
Theorem C50_order : forall c, NoDup (mro c) /\ hd_error (mro c) = Some c /\
  (forall a b, before (bases c) a b -> before (mro c) a b) /\
  (forall p a b, In p (bases c) -> before (mro p) a b -> before (mro c) a b).
Proof. exact mro_rules. Qed.
Print Assumptions C50_order.

Theorem C50_isinstance : forall c a, isinstance (mro c) a = true <-> derives c a.
Proof. exact isinstance_derives. Qed.
Print Assumptions C50_isinstance.

(* refresh_solvers picks the same solvers again, if there is a first one *)
Theorem C50_refresh : forall L (law law_2 : option L) base_init rest_init p name q q',
  set_solving_method installed (mro p) law law_2 base_init rest_init name q = (q', Ok tt) -> p_first q' <> None ->
  refresh_solvers installed (mro p) law law_2 base_init rest_init q' = (q', Ok tt).
Proof. exact @refresh_same. Qed.
Print Assumptions C50_refresh.

(* otherwise (Poisson problems) it fails *)
Theorem C50_refresh_poisson_refuted : forall L (law law_2 : option L) base_init rest_init p name q q',
  set_solving_method installed (mro p) law law_2 base_init rest_init name q = (q', Ok tt) -> p_first q' = None ->
  refresh_solvers installed (mro p) law law_2 base_init rest_init q' = (q', Err (KeyError "none")).
Proof. exact @refresh_none. Qed.
Print Assumptions C50_refresh_poisson_refuted.

(* 'optimization', which the documentation of every solver names, is no name of a solver *)
Theorem C50_documented_refuted : forall p c, get_by_name installed "optimization" (mro p) <> Ok c.
Proof. exact optimization_unknown. Qed.
Print Assumptions C50_documented_refuted.

(* 'direct', which the documentation of quasistatic and relaxation solvers names, is not theirs *)
Theorem C50_direct_quasistatic_refuted : forall p c, derives p QuasistaticProblem ->
  get_by_name installed "direct" (mro p) <> Ok c.
Proof. exact direct_not_quasistatic. Qed.
Print Assumptions C50_direct_quasistatic_refuted.

Example C50_example :
  get_by_name installed "ScHuR" (mro StaticDisplacementProblem) = Ok StaticSchur /\
  get_by_name installed "global" (mro PiezoelectricQuasistaticProblem) = Ok QuasistaticGlobal /\
  same_name "ScHuR" "schur" /\
  snd (register installed "*" ["New"; "newer"] Direct) = Ok tt /\
  snd (register installed "static" ["fresh"; "DIRECT"] Direct) = Err AssertionError /\
  derives RelaxationQuasistaticProblem QuasistaticProblem.
Proof. exact registry_example. Qed.

Example C50_refresh_example :
  set_solving_method installed (mro StaticDisplacementProblem) (Some tt) None (fun _ => Ok tt) (fun _ _ _ => Ok tt)
    "Schur" (mkPicked None None) = (mkPicked (Some (StaticSchur, StaticDisplacement)) None, Ok tt) /\
  set_solving_method installed (mro PoissonProblem) None (@None unit) (fun _ => Ok tt) (fun _ _ _ => Ok tt)
    "direct" (mkPicked None None) = (mkPicked None (Some (Direct, StaticPoisson)), Ok tt).
Proof. exact refresh_example. Qed.

(* ------------------------------------------------------------------ C51 *)

(* for every problem class and every method found for it: the update made from the variables of
   iterate is the update made from those of the constructor, which has them all *)
Theorem C51_handed_over : forall F (integrate : F -> R -> F * result (nat * vec)) b p name c k g var,
  get_by_name installed name (mro p) = Ok c -> statement_kind p k -> iterate_variables c g = Some var ->
  c <> RelaxedGlobal ->
  forall w, update integrate b k var w = update integrate b k (initial_variables g) w.
Proof. exact @handed_over. Qed.
Print Assumptions C51_handed_over.

(* the exception: relaxation with the global method hands over no time *)
Theorem C51_relaxation_refuted : forall F (integrate : F -> R -> F * result (nat * vec)) b g var,
  iterate_variables RelaxedGlobal g = Some var ->
  forall w, exists w' e, update integrate b QuasistaticRelaxation var w = (w', Err e).
Proof. exact @relaxed_global_fails. Qed.
Print Assumptions C51_relaxation_refuted.

Example C51_example :
  get_by_name installed "schur" (mro RelaxationQuasistaticProblem) = Ok RelaxedSchur /\
  statement_kind RelaxationQuasistaticProblem QuasistaticRelaxation /\
  get_by_name installed "Global" (mro RelaxationQuasistaticProblem) = Ok RelaxedGlobal /\
  iterate_variables RelaxedSchur (mkGiven (mkVref 0 2) (mkVref 1 2) (mkVref 2 2) (mkVref 3 1) (mkVref 4 1) 1%R 0%R) <> None.
Proof. exact handed_example. Qed.

(* ------------------------------------------------------------------ C52 *)

(* the quasistatic problem is coupled: potentials with different loads have different answers *)
Theorem C52_quasistatic_coupled : forall F (integrate : F -> R -> F * result (nat * vec)) b conds p phi psi x i,
  conditions b QuasistaticVelocityWithPiezoelectric = Ok conds ->
  well_shaped (unknowns b QuasistaticVelocityWithPiezoelectric) conds -> consistent (prescribed conds) ->
  step_solved integrate b QuasistaticVelocityWithPiezoelectric (at_potential p phi) x ->
  step_solved integrate b QuasistaticVelocityWithPiezoelectric (at_potential p psi) x ->
  (i < ph_n p)%nat -> (forall v, ~ prescribed conds i v) ->
  electric_load (at_potential p phi) i = electric_load (at_potential p psi) i.
Proof. exact @quasistatic_coupled. Qed.
Print Assumptions C52_quasistatic_coupled.

Theorem C52_quasistatic_statement :
  statement_of (mro PiezoelectricQuasistaticProblem) = Ok (Some QuasistaticVelocityWithPiezoelectric).
Proof. exact quasistatic_piezo_statement. Qed.
Print Assumptions C52_quasistatic_statement.

(* the dynamic problem gets a statement that does not look at the potential *)
Theorem C52_dynamic_refuted :
  statement_of (mro PiezoelectricDynamicProblem) = Ok (Some DynamicVelocity) /\
  forall F (integrate : F -> R -> F * result (nat * vec)) b var x y w,
    update integrate b DynamicVelocity (with_potential var x) w = update integrate b DynamicVelocity (with_potential var y) w.
Proof. exact dynamic_piezo_uncoupled. Qed.
Print Assumptions C52_dynamic_refuted.

(* the coupled dynamic statement is used by no class of the library *)
Theorem C52_dynamic_coupling_unused : forall p k, statement_kind p k -> k <> DynamicVelocityWithPiezoelectric.
Proof. exact dynamic_coupling_unused. Qed.
Print Assumptions C52_dynamic_coupling_unused.

(* a case where this matters: the answer of the coupled law is 1, that of the statement used 0 *)
Example C52_example :
  (exists x, step_solved constant_source (laid_out_body coupled []) DynamicVelocity coupled x) /\
  (forall x, step_solved constant_source (laid_out_body coupled []) DynamicVelocity coupled x -> x 0%nat = 0%R) /\
  (forall x, obeys 2 (prescribed []) (law_of coupled DynamicVelocityWithPiezoelectric) x -> x 0%nat = 1%R).
Proof. exact coupling_example. Qed.

(* ------------------------------------------------------------------ C80 *)

(* an optimisation method without contact law raises before it asks whether there is a law *)
Theorem C80_law_refuted : forall L (law_2 : option L) base_init rest_init p name q c k,
  get_by_name installed name (mro p) = Ok c -> is_optimization c = true ->
  second_statement_of (mro p) = Ok (Some k) -> law_2 = None -> base_init k = Ok tt ->
  set_second_step_solver installed (mro p) law_2 base_init rest_init name q = (q, Err AttributeError).
Proof. exact @optimisation_needs_law. Qed.
Print Assumptions C80_law_refuted.

(* so for Poisson problems without law only 'direct' is left *)
Theorem C80_poisson : forall name c, get_by_name installed name (mro PoissonProblem) = Ok c ->
  lower name = "direct" \/ is_optimization c = true.
Proof. exact poisson_offers. Qed.
Print Assumptions C80_poisson.

Example C80_example :
  get_by_name installed "schur" (mro PoissonProblem) = Ok StaticSchur /\
  second_statement_of (mro PoissonProblem) = Ok (Some StaticPoisson) /\ is_optimization StaticSchur = true.
Proof. exact poisson_example. Qed.
