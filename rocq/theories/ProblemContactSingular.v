(* A free block that cannot be inverted (C89). *)
From Coq Require Import Reals List Arith ZArith Bool String Lia Lra.
From Verif Require Import Common PyModel RVec LinAlg MeshModel MeshBuildModel MeshSpec NormalsModel FemModel FemSpec ForcesModel ForcesSpec
  DirichletModel DirichletSpec ContactModel ContactSpec ContactCostProofs ConstrainedSpec SchurModel SchurSpec StatementModel StatementSpec StatementValueProofs
  RegistryModel StateModel StateLemmas CopyProofs TimeModel TimeSpec TimeProofs RunProofs HistoryProofs SolveProofs MarchProofs TimeTheorems MethodModel MethodProofs
  RunSpec WholeRunProofs RunTheorems OptimisationModel OptimisationProofs ContactRunSpec ContactRunProofs ContactRunTheorems
  ProblemModel ProblemSpec ProblemProofs ProblemReady ProblemTheorems ProblemUnique ProblemTotal
  ProblemContactModel ProblemContactSpec ProblemContactProofs ProblemContactTheorems SchurWitness.
Import ListNotations.
Local Open Scope string_scope.
Local Open Scope list_scope.
Local Open Scope R_scope.

Lemma setup_singular F integrate b k mesh inv0 inv (w : StatementModel.world F) x dt i e : (forall n A, inv n A = Err e) ->
  schur_setup integrate b k mesh inv0 w x dt = Ok i -> schur_setup integrate b k mesh inv w x dt = Err e.
Proof.
  intros HE H. unfold schur_setup in *. destruct (setup integrate b k w x dt) as [j|]; [|discriminate]. cbn [bind] in *.
  unfold init, calculate_schur_complement_matrices in *. destruct (part _ _) as [q|]; [|discriminate]. cbn [bind] in *. rewrite HE. reflexivity.
Qed.
Lemma solver_singular V pb ic id g fi fo k th ze mu la law bt density inv e : contact_posed pb ic id g fi fo k th ze mu la law -> prepared pb bt density -> positive_density density ->
  (forall n A, inv n A = Err e) -> forall m0 : store V, schur_step_solver pb bt k inv m0 = Err e.
Proof.
  intros CP PR PD HE m0. destruct inverter as (inv0 & HI). destruct (schur_made pb ic id g fi fo k th ze mu la law CP bt density PR PD inv0 HI m0) as (d & S).
  unfold schur_step_solver in *. unfold new_solver in *.
  repeat match goal with |- context [let '(_, _) := alloc ?mm ?x in _] => unfold alloc at 1; cbv beta iota end.
  repeat match type of S with context [let '(_, _) := alloc ?mm ?x in _] => unfold alloc at 1 in S; cbv beta iota in S end.
  match type of S with context [schur_setup ?a ?b ?c ?d ?e ?f ?x ?t] => destruct (schur_setup a b c d e f x t) as [i|] eqn:E; [|discriminate] end.
  rewrite (setup_singular _ _ _ _ _ inv0 inv _ _ _ i e HE E). reflexivity.
Qed.
