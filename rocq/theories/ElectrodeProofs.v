(* The conditions of the electric potential on a built mesh. *)
From Coq Require Import Reals List Arith ZArith String Bool Lia Lra Sorted.
From Verif Require Import Common PyModel MeshModel MeshBuildModel MeshSpec DofModel DofSpec RVec
  ListLemmas MeshFacesProofs MeshOrderProofs MeshBuildProofs DofProofs
  DirichletModel DirichletSpec DirichletProofs DirichletMeshProofs NormalsModel ProblemModel ProblemSpec CoupledProblemSpec.
Import ListNotations.
Local Open Scope string_scope.
Local Open Scope list_scope.

Section Others.
  Context {P V : Type}.
  Variable mean : list P -> P.
  Variable zero : P.

  Lemma other_boundaries_present surfaces nodes (conds : dict (list P -> V)) inds others name ind :
    other_boundaries mean zero surfaces nodes conds inds = Ok others ->
    In (name, ind) inds -> name <> "contact" -> name <> "dirichlet" ->
    extract_unique_indices (apply_predicate_to_surfaces mean zero surfaces nodes ind) <> [] ->
    dict_in others name = true.
  Proof.
    revert others. induction inds as [|[nm i] inds IH]; intros others H I N1 N2 X; [destruct I|]. cbn [other_boundaries] in H.
    destruct I as [I|I].
    - injection I as -> ->. destruct (String.eqb_spec name "contact"); [contradiction|].
      destruct (String.eqb_spec name "dirichlet"); [contradiction|]. cbn [orb] in H. cbv zeta in H.
      destruct (extract_unique_indices _) as [|a l] eqn:E in H; [rewrite E in X; contradiction|].
      destruct (dict_item conds name); [|discriminate]. cbn [bind] in H.
      destruct (other_boundaries _ _ _ _ _ inds); [|discriminate]. cbn [bind] in H. injection H as <-.
      unfold dict_in. cbn [dict_get]. rewrite String.eqb_refl. reflexivity.
    - destruct (String.eqb nm "contact" || String.eqb nm "dirichlet")%bool; [eapply IH; eauto|]. cbv zeta in H.
      destruct (extract_unique_indices _) as [|a l] in H; [eapply IH; eauto|].
      destruct (dict_item conds nm); [|discriminate]. cbn [bind] in H.
      destruct (other_boundaries _ _ _ _ _ inds) as [more|] eqn:EM; [|discriminate]. cbn [bind] in H. injection H as <-.
      specialize (IH _ eq_refl I N1 N2 X). unfold dict_in in *. cbn [dict_get]. destruct (String.eqb name nm); auto.
  Qed.
End Others.

Lemma dict_get_unique {A} (d : dict A) name x y : NoDup (map fst d) -> dict_get d name = Some x -> In (name, y) d -> x = y.
Proof.
  induction d as [|[n z] d IH]; cbn [map fst dict_get]; intros ND H I; [destruct I|]. inversion ND; subst.
  destruct (String.eqb_spec name n) as [E|E].
  - subst n. injection H as ->. destruct I as [I|I]; [congruence|]. exfalso. apply H2. apply in_map_iff. exists (name, y). auto.
  - destruct I as [I|I]; [congruence|]. auto.
Qed.

Lemma dict_get_absent {A} (d : dict A) name : dict_get d name = None -> forall x, ~ In (name, x) d.
Proof.
  induction d as [|[n z] d IH]; cbn [dict_get]; intros H x I; [destruct I|].
  destruct (String.eqb_spec name n) as [E|E]; [discriminate|]. destruct I as [I|I]; [congruence|]. exact (IH H x I).
Qed.

Lemma electrode_name j : numbered "piezo_dirichlet" j <> "contact" /\ numbered "piezo_dirichlet" j <> "neumann" /\
  numbered "piezo_dirichlet" j <> "dirichlet".
Proof. repeat split; cbn; discriminate. Qed.

Section Built.
  Variables (pb : problem) (ic id : P2 -> bool) (g : P2 -> R) (m : @MeshData P2 vec).
  Variable es : list ((P2 -> bool) * (P2 -> R)).
  Hypothesis PO : posed pb ic id g.
  Hypothesis HB : build mean2 zero2 (pr_nodes pb) (pr_elements pb) (pr_boundaries pb) = Ok m.
  Hypothesis EL : electrodes (pr_boundaries pb) es.
  Hypothesis EF : electrodes_fit m es.
  Notation d := (pr_boundaries pb).
  Notation N := (List.length (m_nodes m)).

  Lemma boundaries_absent name : name <> "contact" -> name <> "neumann" -> name <> "dirichlet" ->
    dict_get (indicators d) name = None -> dict_in (m_boundaries m) name = false.
  Proof.
    intros N1 N2 N3 H. destruct PO as [HR HS HA HC HD _].
    unfold dict_in. destruct (dict_get (m_boundaries m) name) as [bd|] eqn:E; [|reflexivity].
    destruct (named_good mean2 zero2 _ _ _ m 3 ic id HR HS HC HD HB name bd N1 N2 N3 E) as (ind & cond & I & _).
    destruct (dict_get_absent _ _ H _ I).
  Qed.

  Lemma faces_in_range f : boundary_face 3 (m_elements m) f -> forall i, In i f -> (i < N)%nat.
  Proof.
    destruct PO as [HR HS HA HC HD _]. intros Hf i Hi.
    destruct (build_built mean2 zero2 _ _ _ m 3 HR HS HB) as (keep & nn1 & e1 & ic' & id' & B).
    pose proof (bt_ren _ _ _ _ _ _ _ _ _ _ _ B) as HREN.
    pose proof (ob_simplices _ _ _ _ _ _ 3 _ _ _ _ _ HS B) as HS1.
    pose proof (ren_simplices _ _ _ _ _ HREN 3 HS1) as HS2.
    pose proof (ren_in_range _ _ _ _ _ HREN) as HR2.
    rewrite <- (ren_nodes_length _ _ _ _ _ HREN) in HR2.
    eapply boundary_node_lt; eauto. exists f; eauto.
  Qed.

  Lemma faces_listed f : boundary_face 3 (m_elements m) f -> In f (boundary_surfaces (m_elements m)).
  Proof.
    destruct PO as [HR HS HA HC HD _]. intros Hf.
    destruct (build_built mean2 zero2 _ _ _ m 3 HR HS HB) as (keep & nn1 & e1 & ic' & id' & B).
    pose proof (bt_ren _ _ _ _ _ _ _ _ _ _ _ B) as HREN.
    pose proof (ob_simplices _ _ _ _ _ _ 3 _ _ _ _ _ HS B) as HS1.
    pose proof (ren_simplices _ _ _ _ _ HREN 3 HS1) as HS2.
    apply (boundary_surfaces_In 3); assumption.
  Qed.

  Lemma electrode_present j ind gv : nth_error es j = Some (ind, gv) -> dict_in (m_boundaries m) (numbered "piezo_dirichlet" j) = true.
  Proof.
    intros Hj. destruct (electrode_name j) as (N1 & N2 & N3). destruct EL as (_ & _ & _ & EJ). destruct (EJ _ _ _ Hj) as (GI & _).
    destruct PO as [HR HS HA HC HD _].
    destruct (built_boundaries mean2 zero2 _ _ d m ic id HC HD HB) as (bc & bn & dir & f' & o & E & _ & _ & _ & EO).
    assert (X : dict_in o (numbered "piezo_dirichlet" j) = true).
    { apply (other_boundaries_present mean2 zero2 _ _ _ _ _ _ ind EO); auto.
      { apply dict_get_In. exact GI. }
      destruct EF as [EF1 _]. destruct (EF1 ind gv (nth_error_In _ _ Hj)) as (f & F1 & F2).
      assert (FI : In f (apply_predicate_to_surfaces mean2 zero2 (boundary_surfaces (m_elements m)) (m_nodes m) ind)).
      { rewrite apply_predicate_filter. apply filter_In. split; [exact (faces_listed f F1)|].
        apply (face_holds_spec mean2 zero2) in F2; [exact F2|]. exact (faces_in_range f F1). }
      pose proof F1 as (_ & L & _). destruct f as [|a f]; [discriminate|].
      intros Z. assert (IA : In a (extract_unique_indices (apply_predicate_to_surfaces mean2 zero2 (boundary_surfaces (m_elements m)) (m_nodes m) ind))).
      { unfold extract_unique_indices. rewrite unique_nat_In, in_concat. exists (a :: f). split; [exact FI|left; reflexivity]. }
      rewrite Z in IA. destruct IA. }
    rewrite E. unfold dict_in in *. cbn [dict_get].
    destruct (String.eqb_spec (numbered "piezo_dirichlet" j) "contact"); [reflexivity|].
    destruct (String.eqb_spec (numbered "piezo_dirichlet" j) "neumann"); [reflexivity|].
    destruct (String.eqb_spec (numbered "piezo_dirichlet" j) "dirichlet"); [reflexivity|]. exact X.
  Qed.

  Lemma electrode_conditions : exists conds, mesh_conditions m 1 "piezo_dirichlet" = Ok conds /\ well_shaped N conds /\
    consistent (prescribed conds) /\ forall dof v, prescribed conds dof v <-> at_electrode m es dof v.
  Proof.
    pose proof EL as (E0 & E1 & END & EJ).
    destruct PO as [HR HS HA HC HD HV].
    destruct (mesh_numbered mean2 zero2 _ _ _ m 3 ic id HR HS HC HD HB 1 "piezo_dirichlet") as (k & conds & K1 & K2 & K3 & K4 & K5).
    { apply boundaries_absent; try discriminate. exact E0. }
    { exact electrode_name. }
    assert (KE : k = List.length es).
    { destruct (lt_eq_lt_dec k (List.length es)) as [[L|E]|L]; [|exact E|].
      - exfalso. destruct (nth_error es k) as [[ind gv]|] eqn:Q; [|apply nth_error_None in Q; lia].
        rewrite (electrode_present _ _ _ Q) in K2. discriminate.
      - exfalso. specialize (K1 (List.length es) L).
        destruct (electrode_name (List.length es)) as (N1 & N2 & N3). rewrite (boundaries_absent _ N1 N2 N3 E1) in K1. discriminate. }
    assert (PE : forall dof v, prescribed conds dof v <-> at_electrode m es dof v).
    { intros dof v. rewrite K5. split.
      - intros (j & bd & c & q & J & HGt & BC & (a & n & A1 & A2 & A3) & EV).
        assert (a = 0)%nat by lia. subst a. rewrite Nat.mul_0_l, Nat.add_0_r in A3. subst dof.
        destruct (nth_error es j) as [[ind gv]|] eqn:Q; [|apply nth_error_None in Q; lia].
        destruct (EJ _ _ _ Q) as (GI & c0 & GC & PW). destruct (electrode_name j) as (N1 & N2 & N3).
        destruct (named_good mean2 zero2 _ _ _ m 3 ic id HR HS HC HD HB _ bd N1 N2 N3 HGt) as (ind' & cond & I1 & I2 & I3 & I4 & _ & I6).
        assert (ind = ind') by (eapply dict_get_unique; eauto). subst ind'. rewrite GC in I2. injection I2 as ->.
        rewrite BC in I6. injection I6 as ->.
        pose proof (nth_error_In _ _ A2) as IN. apply I4 in IN. destruct IN as (f & F1 & F2 & F3).
        pose proof (faces_in_range f F1 n F3) as LN.
        exists ind, gv, f, (nth n (m_nodes m) zero2).
        split; [exact (nth_error_In _ _ Q)|]. split; [exact F1|]. split; [exact F2|]. split; [exact F3|].
        split; [apply nth_error_nth'; exact LN|]. rewrite EV. apply PW. rewrite nth_error_map, A2. reflexivity.
      - intros (ind & gv & f & p & I & F1 & F2 & F3 & HN & EV).
        apply In_nth_error in I. destruct I as (j & Q).
        assert (JL : (j < k)%nat) by (rewrite KE; apply nth_error_Some; congruence).
        pose proof (electrode_present _ _ _ Q) as PR. unfold dict_in in PR.
        destruct (dict_get (m_boundaries m) (numbered "piezo_dirichlet" j)) as [bd|] eqn:HGt; [|discriminate].
        destruct (EJ _ _ _ Q) as (GI & c0 & GC & PW). destruct (electrode_name j) as (N1 & N2 & N3).
        destruct (named_good mean2 zero2 _ _ _ m 3 ic id HR HS HC HD HB _ bd N1 N2 N3 HGt) as (ind' & cond & I1 & I2 & I3 & I4 & _ & I6).
        assert (ind = ind') by (eapply dict_get_unique; eauto). subst ind'. rewrite GC in I2. injection I2 as ->.
        assert (IN : In dof (index_nodes (b_indices bd))) by (apply I4; exists f; auto).
        apply In_nth_error in IN. destruct IN as (q & A2).
        exists j, bd, (cond (map (fun k => nth k (m_nodes m) zero2) (index_nodes (b_indices bd)))), q.
        split; [exact JL|]. split; [exact HGt|]. split; [exact I6|]. split; [exists 0%nat, dof; split; [lia|]; split; [exact A2|lia]|].
        rewrite EV. symmetry. apply PW. rewrite nth_error_map, A2. cbn [option_map]. f_equal. apply nth_error_nth. exact HN. }
    exists conds. split; [exact K3|]. split; [rewrite Nat.mul_1_l in K4; exact K4|]. split; [|exact PE].
    intros dof v w H1 H2. apply PE in H1, H2. exact (proj2 EF dof v w H1 H2).
  Qed.
End Built.
