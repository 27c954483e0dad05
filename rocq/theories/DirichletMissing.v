(* Boundaries without conditions (C15). *)
From Coq Require Import Reals List Arith ZArith String Bool Lia.
From Verif Require Import Common PyModel MeshModel MeshBuildModel MeshSpec DofModel DofSpec RVec DirichletModel DirichletSpec DirichletProofs DirichletMeshProofs.
Import ListNotations.
Local Open Scope string_scope.
Local Open Scope list_scope.

(* a boundary without condition under a name in use *)
Lemma look_up_all_needs bnds N dim names conds : look_up_all bnds N dim names = Ok conds ->
  forall name, In name names -> exists bd c, dict_get bnds name = Some bd /\ b_condition bd = Some c.
Proof.
  revert conds. induction names as [|a names IH]; intros conds H name [].
  - subst a. cbn [look_up_all] in H. unfold look_up, dict_item in H. destruct (dict_get bnds name) as [bd|]; [|discriminate]. cbn [bind] in H.
    destruct (boundary_slices bd N dim); [|discriminate]. cbn [bind] in H. destruct (b_condition bd) as [c|] eqn:E; [eauto|discriminate].
  - cbn [look_up_all] in H. destruct (look_up bnds N dim a); [|discriminate]. cbn [bind] in H.
    destruct (look_up_all bnds N dim names) as [r|]; [|discriminate]. exact (IH r eq_refl name H0).
Qed.
Lemma missing_condition {P} (m : @MeshData P vec) dim name bd : dict_get (m_boundaries m) name = Some bd -> b_condition bd = None ->
  exists e, mesh_conditions m dim name = Err e.
Proof.
  intros G C. destruct (mesh_conditions m dim name) as [conds|e] eqn:E; [|eauto]. exfalso. unfold mesh_conditions in E.
  destruct (find_conditions_spec (m_boundaries m) name) as (F1 & _). rewrite F1 in E by (unfold dict_in; rewrite G; reflexivity).
  destruct (look_up_all_needs _ _ _ _ _ E name (or_introl eq_refl)) as (bd' & c & G' & C'). congruence.
Qed.
Lemma missing_numbered {P} (m : @MeshData P vec) dim name j bd : dict_in (m_boundaries m) name = false ->
  (forall i, (i <= j)%nat -> dict_in (m_boundaries m) (numbered name i) = true) ->
  dict_get (m_boundaries m) (numbered name j) = Some bd -> b_condition bd = None ->
  exists e, mesh_conditions m dim name = Err e.
Proof.
  intros N0 A G C. destruct (mesh_conditions m dim name) as [conds|e] eqn:E; [|eauto]. exfalso. unfold mesh_conditions in E.
  destruct (find_conditions_spec (m_boundaries m) name) as (_ & F2). destruct (F2 N0) as (k & F & _ & K). rewrite F in E.
  assert (J : (j < k)%nat) by (destruct (Nat.lt_ge_cases j k) as [L|L]; [exact L|rewrite (A k L) in K; discriminate]).
  destruct (look_up_all_needs _ _ _ _ _ E (numbered name j)) as (bd' & c & G' & C'); [|congruence].
  apply in_map. apply in_seq. lia.
Qed.
