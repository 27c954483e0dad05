(* A prepared body is equipped for its statements. *)
From Coq Require Import Reals List Arith ZArith Bool String Permutation Lia Lra FunctionalExtensionality.
From Verif Require Import Common PyModel RVec LinAlg MeshModel MeshBuildModel MeshSpec ListLemmas MeshBuildProofs NormalsModel
  DofModel DofSpec DirichletModel DirichletSpec DirichletProofs DirichletMeshProofs
  FemModel FemSpec FemBasicProofs FemMeshProofs FemBuildProofs FemPipelineProofs FemFinalProofs
  ForcesModel ForcesSpec ForcesProofs ForcesLoadProofs
  StatementModel StatementSpec StatementProofs StatementValueProofs StatementLawProofs
  RegistryModel StateModel TimeModel TimeSpec TimeProofs RunProofs SolveProofs MethodModel MethodProofs
  ProblemModel ProblemSpec ProblemProofs.
Import ListNotations.
Local Open Scope string_scope.
Local Open Scope list_scope.
Local Open Scope R_scope.

Section Ready.
  Variables (pb : problem) (ic id : P2 -> bool) (g : P2 -> R).
  Hypothesis PO : posed pb ic id g.

  Section Body.
  Variables (bt : built) (density : option (nat -> R)).
  Let m := bt_mesh bt.
  Let N := List.length (m_nodes m).
  Let points := node_table coord2 zero2 (m_nodes m).
  Let els := m_elements m.

  Definition ready (ops : FemModel.operators) : Prop :=
    build mean2 zero2 (pr_nodes pb) (pr_elements pb) (pr_boundaries pb) = Ok m /\
    bt_basic bt = basic2 points els /\
    reinitialize_matrices N points els (pr_material pb) density = Ok ops /\
    (exists refs, bt_body bt = mkBody 2 N (mesh_conditions m) refs (pr_relaxation pb) (relaxation_of m density) /\
       in_place N (hp (bt_world bt)) refs ops) /\
    answers m (pr_inner pb) (pr_outer pb) (pr_width pb) (w_force (bt_world bt)) /\
    (forall width i o, pr_heat pb = Some (width, i, o) -> answers m i o width (w_temperature (bt_world bt))).
  End Body.

  Lemma built_plane m : build mean2 zero2 (pr_nodes pb) (pr_elements pb) (pr_boundaries pb) = Ok m ->
    triangles (List.length (m_nodes m)) (node_table coord2 zero2 (m_nodes m)) (m_elements m) /\
    faces_ok 2 (List.length (m_nodes m)) (faces_of m "neumann") /\
    (forall i, (i < List.length (m_nodes m))%nat -> referenced (m_elements m) i).
  Proof.
    intros HB. destruct PO as [HR HS HA HC HD _].
    split; [|split].
    - exact (proj1 (built_triangles mean2 zero2 _ _ _ m 1 ic id coord2 HR HS HC HD HB eq_refl HA)).
    - exact (built_faces P2 vec mean2 zero2 _ _ _ m 1 ic id HR HS HC HD HB "neumann" ltac:(cbn; auto)).
    - exact (built_referenced mean2 zero2 _ _ _ m 1 ic id HR HS HC HD HB).
  Qed.

  Lemma basic_is N points els B : triangles N points els -> get_basic_matrices points els = Ok B -> B = basic2 points els.
  Proof.
    intros (_ & HL & _) H. destruct els as [|e l]; [discriminate|]. inversion HL; subst.
    unfold get_basic_matrices in H. rewrite H2 in H. change ((3 - 1 =? 2)%nat) with true in H. cbv iota zeta in H. congruence.
  Qed.

  Lemma reinitialize_inv m density h B b h' : build mean2 zero2 (pr_nodes pb) (pr_elements pb) (pr_boundaries pb) = Ok m ->
    reinitialize pb m density h = Ok (B, b, h') ->
    let points := node_table coord2 zero2 (m_nodes m) in let N := List.length (m_nodes m) in
    B = basic2 points (m_elements m) /\
    exists ops refs, reinitialize_matrices N points (m_elements m) (pr_material pb) density = Ok ops /\
      b = mkBody 2 N (mesh_conditions m) refs (pr_relaxation pb) (relaxation_of m density) /\
      hext h h' /\ in_place N h' refs ops.
  Proof.
    intros HB H points N. unfold reinitialize in H. change (fun i => coord2 (nth i (m_nodes m) zero2)) with points in H.
    fold N in H. destruct (get_basic_matrices points (m_elements m)) as [B0|e] eqn:EB; [|discriminate]. cbn [bind] in H.
    destruct (reinitialize_matrices N points (m_elements m) (pr_material pb) density) as [ops|e] eqn:EO; [|discriminate]. cbn [bind] in H.
    destruct (install m h ops) as [h1 refs] eqn:EI. injection H as <- <- <-.
    destruct (install_in_place _ _ _ _ _ EI) as [X I].
    split; [exact (basic_is _ _ _ _ (proj1 (built_plane m HB)) EB)|]. exists ops, refs. auto.
  Qed.

  Lemma asked_answers m B si so (gi go : P2 -> R -> vec) width a b :
    (forall p t, si p t = Ok (gi p t)) -> (forall p t, so p t = Ok (go p t)) ->
    faces_ok 2 (List.length (m_nodes m)) (faces_of m "neumann") ->
    asked m B a b -> answers m si so width a -> answers m si so width b.
  Proof.
    intros Hi Ho HF A. induction A as [a|a b t A IH]; auto. intros H.
    exact (proj2 (integrate_answers m B gi go si so Hi Ho HF width b t (IH H))).
  Qed.
  Lemma asked_heat m B si so width a b :
    faces_ok 2 (List.length (m_nodes m)) (faces_of m "neumann") ->
    asked m B a b -> answers m si so width a -> answers m si so width b.
  Proof.
    intros HF A. induction A as [a|a b t A IH]; auto. intros H. specialize (IH H). clear H A.
    destruct IH as (E1 & CI & CO). destruct b as [w bf]. cbn [fst snd] in *. subst w.
    unfold integrate_forces, ForcesModel.integrate, integrated_inner, integrated_outer.
    change (fun i => coord2 (nth i (m_nodes m) zero2)) with (node_table coord2 zero2 (m_nodes m)).
    destruct (node_source_coherent same_time same_time_sound (ForcesModel.inner bf) si (m_nodes m) t CI) as (CI' & _).
    destruct (node_source_coherent same_time same_time_sound (outer bf) so (m_nodes m) t CO) as (CO' & _).
    destruct (node_source same_time (ForcesModel.inner bf) (m_nodes m) t) as [i ri]. cbn [fst] in CI'.
    destruct ri as [c|e]; cbn [bind]; [|split; [reflexivity|split; assumption]].
    destruct c as [l|]; cbn [fst snd]; [|split; [reflexivity|split; assumption]].
    destruct (surface_per_node _ _ _ _); cbn [fst snd]; [|split; [reflexivity|split; assumption]].
    cbn [outer ForcesModel.inner].
    destruct (node_source same_time (outer bf) (m_nodes m) t) as [o ro]. cbn [fst] in CO'.
    cbn [fst snd]. split; [reflexivity|]. split; assumption.
  Qed.

  Lemma prepared_ready bt density : prepared pb bt density -> exists ops, ready bt density ops.
  Proof.
    intros H. induction H as [bt H|bt density w rho bt' H IH U HU].
    - unfold construct in H. destruct (mesh_init2 _ _ _) as [[m ns]|e] eqn:EM; [|discriminate]. cbn [bind] in H.
      assert (HB : build mean2 zero2 (pr_nodes pb) (pr_elements pb) (pr_boundaries pb) = Ok m).
      { unfold mesh_init2, mesh_init in EM. destruct (build _ _ _ _ _) as [m1|]; [|discriminate]. cbn [bind] in EM.
        destruct (mesh_normals _ _ _ _ _ _); [|discriminate]. cbn [bind] in EM. congruence. }
      destruct (reinitialize pb m None (mkHeap [] [])) as [[[B b] h]|e] eqn:ER; [|discriminate]. cbn [bind] in H.
      injection H as <-. destruct (reinitialize_inv _ _ _ _ _ _ HB ER) as (EB & ops & refs & EO & Eb & X & IP).
      exists ops. unfold ready. cbn [bt_mesh bt_basic bt_body bt_world hp w_force w_temperature].
      split; [exact HB|]. split; [exact EB|]. split; [exact EO|]. split; [eauto|]. split.
      + apply fresh_answers.
      + intros width i o E. rewrite E. apply fresh_answers.
    - destruct IH as (ops0 & HB & EB0 & _ & _ & AN & AH).
      unfold update_density in HU. cbn [with_world bt_world bt_mesh] in HU.
      destruct (reinitialize pb (bt_mesh bt) (Some rho) (hp w)) as [[[B b] h]|e] eqn:ER; [|discriminate]. cbn [bind] in HU.
      injection HU as <-. destruct (reinitialize_inv _ _ _ _ _ _ HB ER) as (EB & ops & refs & EO & Eb & X & IP).
      destruct U as (_ & U1 & U2). destruct (built_plane _ HB) as (_ & HF & _).
      exists ops. unfold ready. cbn [bt_mesh bt_basic bt_body bt_world hp w_force w_temperature with_world].
      split; [exact HB|]. split; [exact EB|]. split; [exact EO|]. split; [eauto|]. split.
      + eapply asked_heat; eauto.
      + intros width i o E. eapply asked_heat; eauto.
  Qed.
End Ready.
