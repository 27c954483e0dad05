(* Names that are not found, and the concrete cases of the registry. *)
From Coq Require Import Reals List Arith Bool String Ascii Lia Lra.
From Verif Require Import Common PyModel RVec DirichletModel DirichletSpec DirichletProofs
  StatementModel StatementSpec StatementProofs StatementValueProofs StatementLawProofs StatementEnergyProofs
  StatementExamples RegistryModel RegistrySpec RegistryProofs DispatchProofs.
Import ListNotations.
Local Open Scope string_scope.
Local Open Scope list_scope.

Lemma optimization_unknown p c : get_by_name installed "optimization" (mro p) <> Ok c.
Proof.
  intros H. apply library_lookup in H. destruct H as (d & _ & O). change (lower "optimization") with "optimization" in O.
  inversion O as [| |d' n' c' H1 H2|d' n' c' H1 H2]; subst; cbn in H1; repeat destruct H1 as [H1|H1]; try contradiction; discriminate.
Qed.

Lemma direct_not_quasistatic p c : derives p QuasistaticProblem -> get_by_name installed "direct" (mro p) <> Ok c.
Proof.
  intros D H. apply library_lookup in H. destruct H as (d & K & O). change (lower "direct") with "direct" in O.
  assert (E : d = "quasistatic" \/ d = "quasistatic relaxation").
  { destruct (derives_dec p RelaxationQuasistaticProblem) as [R|R].
    - right. apply (dynamism_unique p); [exact K|constructor; exact R].
    - left. apply (dynamism_unique p); [exact K|constructor; assumption]. }
  destruct E as [-> | ->]; inversion O as [| |d' n' c' H1 H2|d' n' c' H1 H2]; subst; cbn in H1;
    repeat destruct H1 as [H1|H1]; try contradiction; discriminate.
Qed.

Lemma registry_example :
  get_by_name installed "ScHuR" (mro StaticDisplacementProblem) = Ok StaticSchur /\
  get_by_name installed "global" (mro PiezoelectricQuasistaticProblem) = Ok QuasistaticGlobal /\
  same_name "ScHuR" "schur" /\
  snd (register installed "*" ["New"; "newer"] Direct) = Ok tt /\
  snd (register installed "static" ["fresh"; "DIRECT"] Direct) = Err AssertionError /\
  derives RelaxationQuasistaticProblem QuasistaticProblem.
Proof.
  split; [vm_compute; reflexivity|]. split; [vm_compute; reflexivity|].
  split; [apply same_name_lower; reflexivity|].
  split; [vm_compute; reflexivity|]. split; [vm_compute; reflexivity|].
  apply isinstance_derives. vm_compute. reflexivity.
Qed.

Lemma refresh_example :
  set_solving_method installed (mro StaticDisplacementProblem) (Some tt) None (fun _ => Ok tt) (fun _ _ _ => Ok tt)
    "Schur" (mkPicked None None) = (mkPicked (Some (StaticSchur, StaticDisplacement)) None, Ok tt) /\
  set_solving_method installed (mro PoissonProblem) None (@None unit) (fun _ => Ok tt) (fun _ _ _ => Ok tt)
    "direct" (mkPicked None None) = (mkPicked None (Some (Direct, StaticPoisson)), Ok tt).
Proof. split; vm_compute; reflexivity. Qed.

Lemma handed_example :
  get_by_name installed "schur" (mro RelaxationQuasistaticProblem) = Ok RelaxedSchur /\
  statement_kind RelaxationQuasistaticProblem QuasistaticRelaxation /\
  get_by_name installed "Global" (mro RelaxationQuasistaticProblem) = Ok RelaxedGlobal /\
  iterate_variables RelaxedSchur (mkGiven (mkVref 0 2) (mkVref 1 2) (mkVref 2 2) (mkVref 3 1) (mkVref 4 1) 1%R 0%R) <> None.
Proof.
  split; [vm_compute; reflexivity|]. split; [left; reflexivity|].
  split; [vm_compute; reflexivity|discriminate].
Qed.

Lemma dynamic_piezo_uncoupled :
  statement_of (mro PiezoelectricDynamicProblem) = Ok (Some DynamicVelocity) /\
  forall F (integrate : F -> R -> F * result (nat * vec)) b var x y w,
    update integrate b DynamicVelocity (with_potential var x) w = update integrate b DynamicVelocity (with_potential var y) w.
Proof. split; [exact dynamic_piezo_statement|intros; apply dynamic_uncoupled]. Qed.

Lemma coupling_example :
  (exists x, step_solved constant_source (laid_out_body coupled []) DynamicVelocity coupled x) /\
  (forall x, step_solved constant_source (laid_out_body coupled []) DynamicVelocity coupled x -> x 0%nat = 0%R) /\
  (forall x, obeys 2 (prescribed []) (law_of coupled DynamicVelocityWithPiezoelectric) x -> x 0%nat = 1%R).
Proof. destruct coupled_alone as [H1 H2]. split; [exact H1|split; [exact H2|exact coupled_dynamic]]. Qed.

Lemma poisson_example :
  get_by_name installed "schur" (mro PoissonProblem) = Ok StaticSchur /\
  second_statement_of (mro PoissonProblem) = Ok (Some StaticPoisson) /\ is_optimization StaticSchur = true.
Proof. repeat split; vm_compute; reflexivity. Qed.
