(* Meshes of tetrahedra from their tables to the problems solved on them. *)
From Coq Require Import Reals List Arith ZArith Bool String Permutation Lia Lra FunctionalExtensionality.
From Verif Require Import Common PyModel RVec LinAlg MeshModel MeshBuildModel MeshSpec MeshTotalProofs DofModel DofSpec
  DirichletModel DirichletSpec DirichletProofs DirichletMeshProofs
  FemModel FemSpec FemPipelineProofs FemFinalProofs FemBuildProofs
  StatementModel StatementSpec StatementProofs StatementValueProofs StatementLawProofs StatementMeshProofs
  CrossModel CrossSpec CrossTheorems CrossBuiltProofs SolidSpec SolidProofs ZooModel ZooSpec.
Import ListNotations.
Local Open Scope string_scope.
Local Open Scope list_scope.
Local Open Scope R_scope.

(* ------------------------------------------------------------- renumbered constraints *)

Lemma fastened_relabelled old els els' (pin pin' : nat -> Prop) :
  NoDup old -> relabelled_unordered old els els' ->
  (forall n o, nth_error old n = Some o -> pin o -> pin' n) ->
  forall i, fastened pin els i -> forall n, nth_error old n = Some i -> fastened pin' els' n.
Proof.
  intros U HR HP i H. induction H as [i Hi|e i j k l He Ii Ij Ik D1 D2 D3 Il Hi IHi Hj IHj Hk IHk]; intros n Hn.
  - apply fastened_pin. eauto.
  - destruct (relabelled_element old els els' e HR He) as (e' & He' & K).
    destruct (K i Ii) as (ni & Ini & Ei). destruct (K j Ij) as (nj & Inj & Ej). destruct (K k Ik) as (nk & Ink & Ek).
    destruct (K l Il) as (nl & Inl & El).
    assert (n = nl).
    { apply (proj1 (NoDup_nth_error old) U); [apply nth_error_Some; congruence|congruence]. }
    subst nl. apply (fastened_by pin' els' e' ni nj nk n); auto; intros ->; congruence.
Qed.

Section BuiltConditions.
  Context {P : Type}.
  Variables (mean : list P -> P) (zero : P) (nodes : list P) (els : list (list nat)) (d : @Description P vec) (m : @MeshData P vec)
    (w : nat) (ic id : P -> bool) (f : list P -> vec).
  Hypothesis HR : in_range (List.length nodes) els.
  Hypothesis HS : simplices w els.
  Hypothesis HC : dict_get (indicators d) "contact" = Some ic.
  Hypothesis HD : dict_get (indicators d) "dirichlet" = Some id.
  Hypothesis Hf : dict_get (MeshBuildModel.conditions d) "dirichlet" = Some f.
  Hypothesis HB : build mean zero nodes els d = Ok m.

  Lemma built_fastened : (forall i, (i < List.length nodes)%nat -> referenced els i ->
      fastened (fun i => boundary_node w els i /\ holds_at nodes id i) els i) ->
    exists conds, mesh_conditions m 3 "dirichlet" = Ok conds /\ well_shaped (3 * List.length (m_nodes m)) conds /\
      forall i, (i < List.length (m_nodes m))%nat -> fastened (clamped3 (List.length (m_nodes m)) conds) (m_elements m) i.
  Proof.
    intros HH.
    destruct (mesh_dirichlet mean zero nodes els d m w ic id HR HS HC HD HB 3 f Hf)
      as (C & Ne & I & D & conds & HO & HM & HW & HN & HP).
    exists conds. split; [exact HM|]. split; [exact HW|]. cbv zeta in HP.
    set (N := List.length (m_nodes m)) in *. set (first := List.length (C ++ Ne ++ I)) in *.
    assert (Eo : List.length (C ++ Ne ++ I ++ D) = N) by (rewrite HN; unfold first; rewrite !app_length; lia).
    intros n Hn. destruct (nth_error (C ++ Ne ++ I ++ D) n) as [o|] eqn:E; [|apply nth_error_None in E; lia].
    destruct HO as [U A K R NC NN NI ND _].
    assert (Ro : referenced els o) by (apply A; eapply nth_error_In; eauto).
    assert (Lo : (o < List.length nodes)%nat).
    { destruct Ro as (e & He & Hoe). unfold in_range in HR. rewrite Forall_forall in HR. specialize (HR e He).
      rewrite Forall_forall in HR. auto. }
    refine (fastened_relabelled _ els _ _ _ U R _ o (HH o Lo Ro) n E).
    clear n Hn o E Ro Lo. intros n o E Ho. apply ND in Ho.
    assert (Hn : (first <= n < N)%nat).
    { split; [|rewrite <- Eo; apply nth_error_Some; congruence].
      destruct (Nat.lt_ge_cases n first) as [L|]; auto. exfalso.
      replace (C ++ Ne ++ I ++ D) with ((C ++ Ne ++ I) ++ D) in * by (rewrite <- !app_assoc; auto).
      rewrite nth_error_app1 in E by auto. apply nth_error_In in E.
      clear - U E Ho. induction (C ++ Ne ++ I) as [|x l IH]; [destruct E|]. inversion U; subst. destruct E as [->|E]; auto.
      apply H1. apply in_or_app. auto. }
    intros c Hc. eexists. apply HP. exists n, c. repeat split; try lia.
  Qed.

  (* what is prescribed belongs to nodes where the user's predicate holds *)
  Lemma built_prescribed conds dof v : mesh_conditions m 3 "dirichlet" = Ok conds -> prescribed conds dof v ->
    exists c n r, (c < 3)%nat /\ (n < List.length (m_nodes m))%nat /\ dof = (c * List.length (m_nodes m) + n)%nat /\
      nth_error (m_nodes m) n = Some r /\ id r = true.
  Proof.
    intros HM' Hp.
    destruct (mesh_dirichlet mean zero nodes els d m w ic id HR HS HC HD HB 3 f Hf)
      as (C & Ne & I & D & conds' & HO & HM & HW & HN & HP). rewrite HM in HM'. injection HM' as <-.
    cbv zeta in HP. apply HP in Hp. destruct Hp as (n & k & Hn & Hk & -> & _).
    set (first := List.length (C ++ Ne ++ I)) in *.
    destruct HO as [U A K R NC NN NI ND _].
    assert (Eo : List.length (C ++ Ne ++ I ++ D) = List.length (m_nodes m)) by (rewrite HN; unfold first; rewrite !app_length; lia).
    destruct (nth_error (C ++ Ne ++ I ++ D) n) as [o|] eqn:E; [|apply nth_error_None in E; lia].
    assert (Ho : In o D).
    { replace (C ++ Ne ++ I ++ D) with ((C ++ Ne ++ I) ++ D) in E by (rewrite <- !app_assoc; auto).
      rewrite nth_error_app2 in E by (fold first; lia). eapply nth_error_In; eauto. }
    apply ND in Ho. destruct Ho as [_ (r & Er & Hr)].
    exists k, n, r. split; auto. split; [lia|]. split; [lia|]. split; auto.
    clear - K E Er. unfold picks in K. revert n E. induction K as [|x y l l' H K IH]; intros [|n] E; try discriminate; cbn in *.
    - congruence.
    - auto.
  Qed.
End BuiltConditions.

(* ------------------------------------------------------------- moving a mesh *)

Lemma moved_by_table v nodes nodes' : moved_by v nodes nodes' -> forall i c, (i < List.length nodes)%nat -> (c < 3)%nat ->
  table_of nodes' i c = table_of nodes i c + v c.
Proof.
  intros H. unfold table_of. induction H as [|r r' l l' (L & ->) H IH]; intros i c Hi Hc; cbn in Hi; [lia|].
  destruct i as [|i]; [|apply IH; auto; lia]. destruct c as [|[|[|c]]]; [reflexivity|reflexivity|reflexivity|lia].
Qed.
Lemma moved_by_length v nodes nodes' : moved_by v nodes nodes' -> List.length nodes' = List.length nodes.
Proof. intros H. induction H; cbn; congruence. Qed.
Lemma moved_by_det v nodes nodes' e : moved_by v nodes nodes' -> List.length e = 4%nat ->
  Forall (fun i => (i < List.length nodes)%nat) e ->
  det_3d (corners (table_of nodes') e) = det_3d (corners (table_of nodes) e).
Proof.
  intros M L F. destruct e as [|a [|b [|c [|d [|]]]]]; try discriminate.
  inversion F as [|? ? Fa F1]; subst. inversion F1 as [|? ? Fb F2]; subst. inversion F2 as [|? ? Fc F3]; subst. inversion F3 as [|? ? Fd _]; subst.
  unfold det_3d, corners. cbn [nth]. rewrite !(moved_by_table v nodes nodes' M) by (auto; lia). ring.
Qed.
Lemma moved_by_rows v nodes nodes' r : moved_by v nodes nodes' ->
  In r nodes' <-> exists q, In q nodes /\ r = [nth 0 q 0 + v 0%nat; nth 1 q 0 + v 1%nat; nth 2 q 0 + v 2%nat].
Proof.
  intros H. induction H as [|q q' l l' (L & ->) H IH]; cbn [In].
  - split; [intros []|intros (q & [] & _)].
  - rewrite IH. split.
    + intros [<-|(p & P & ->)]; eauto.
    + intros (p & [->|P] & ->); eauto.
Qed.

Lemma table_row3 rows : node_table row_coord [0; 0; 0] rows = table_of rows.
Proof.
  apply functional_extensionality. intros i. apply functional_extensionality. intros c.
  unfold node_table, table_of, row_coord. destruct (Nat.lt_ge_cases i (List.length rows)) as [H|H].
  - rewrite (nth_indep _ [0; 0; 0] []) by auto. reflexivity.
  - rewrite !nth_overflow with (n := i) by auto. destruct c as [|[|[|c]]]; auto. cbn. destruct c; reflexivity.
Qed.

Lemma lowest_unique nodes k a b : lowest nodes k a -> lowest nodes k b -> a = b.
Proof. intros [(r & Hr & <-) A] [(q & Hq & <-) B]. apply Rle_antisym; auto. Qed.

Lemma build_raw_moved nodes els pos v : Forall (fun r => List.length r = 3%nat) nodes -> nodes <> [] -> placed_by nodes pos v ->
  exists nodes', build_raw (nodes, els) pos = Ok (nodes', els) /\ moved_by v nodes nodes'.
Proof.
  intros HR HN HP. unfold build_raw. cbn [fst snd]. destruct HP as [[-> Z]|(p & -> & L & Low)].
  - exists nodes. split; [reflexivity|]. 
    clear HN. induction HR as [|r l H HR IH]; constructor; auto. split; auto.
    rewrite !Z by lia. rewrite !Rplus_0_r. destruct r as [|a [|b [|c [|]]]]; try discriminate. reflexivity.
  - destruct (translate_to 3 nodes HR HN p (fun k => nth k p 0)) as (nodes' & o & E & O & F); [auto| |].
    { intros k _. rewrite L. reflexivity. }
    exists nodes'. rewrite E. split; [reflexivity|].
    assert (Q : forall k, (k < 3)%nat -> nth k p 0 - o k = v k).
    { intros k Hk. pose proof (lowest_unique nodes k _ _ (O k Hk) (Low k Hk)). lra. }
    clear - F Q HR. induction F as [|r r' l l' [Lr H] F IH]; constructor.
    + inversion HR; subst. split; auto. destruct r' as [|a [|b [|c [|]]]]; try discriminate.
      pose proof (H 0%nat ltac:(lia)) as H0. pose proof (H 1%nat ltac:(lia)) as H1. pose proof (H 2%nat ltac:(lia)) as H2'. cbn in H0, H1, H2'.
      rewrite <- !Q by lia. f_equal; [lra|]. f_equal; [lra|]. f_equal. lra.
    + inversion HR; subst. apply IH; auto.
Qed.

Lemma placed_exists nodes pos : Forall (fun r => List.length r = 3%nat) nodes -> nodes <> [] ->
  (pos = None \/ exists p, pos = Some p /\ List.length p = 3%nat) -> exists v, placed_by nodes pos v.
Proof.
  intros HR HN [->|(p & -> & L)].
  - exists (fun _ => 0). left. auto.
  - destruct (min_rows_lowest 3 nodes HR HN) as (o & _ & _ & Low). exists (fun c => nth c p 0 - nth c o 0). right. exists p.
    split; auto. split; auto. intros c Hc. replace (nth c p 0 - (nth c p 0 - nth c o 0)) with (nth c o 0) by ring. auto.
Qed.

Section Placed.
  Variables (nodes : list (list R)) (els : list (list nat)).
  Hypothesis G : solid_grid nodes els.
  Hypothesis NE : els <> [].

  Lemma solid_element e : In e els -> List.length e = 4%nat /\ Forall (fun i => (i < List.length nodes)%nat) e.
  Proof.
    intros He. pose proof (solid_range _ _ G) as R. pose proof (solid_shape _ _ G) as S.
    unfold in_range, simplices in *. rewrite Forall_forall in R, S. split; [apply S; auto|apply R; auto].
  Qed.
  Lemma solid_nonempty : nodes <> [].
  Proof.
    assert (X : exists e, In e els) by (clear - NE; destruct els as [|e l]; [contradiction|exists e; left; auto]).
    destruct X as (e & He). destruct (solid_element e He) as [L F].
    intros Z. destruct e as [|i e]; [discriminate|]. pose proof (Forall_inv F) as Hi. rewrite Z in Hi. cbn in Hi. lia.
  Qed.

  Variables (pos : option (list R)) (v : vec).
  Hypothesis HP : placed_by nodes pos v.

  Lemma solid_total (zeros : list (list R) -> vec) kwargs :
    Forall (fun '(key, (_, cond)) => key = "contact" \/ key = "dirichlet" \/ (cond <> None /\ reserved key = false)) kwargs ->
    exists m, solid_mesh (nodes, els) pos (make_description zeros kwargs) = Ok m.
  Proof.
    intros HK. destruct (build_raw_moved nodes els pos v (solid_rows _ _ G) solid_nonempty HP) as (nodes' & B & _).
    unfold solid_mesh. rewrite B. cbn [bind]. apply build_from_keywords. auto.
  Qed.

  Section Built.
    Variables (d : @Description (list R) vec) (m : @MeshData (list R) vec) (ic id : list R -> bool).
    Hypothesis HC : dict_get (indicators d) "contact" = Some ic.
    Hypothesis HD : dict_get (indicators d) "dirichlet" = Some id.
    Hypothesis HB : solid_mesh (nodes, els) pos d = Ok m.

    Lemma built_from : exists nodes', moved_by v nodes nodes' /\ build mean_row3 [0; 0; 0] nodes' els d = Ok m /\
      in_range (List.length nodes') els /\
      (forall e, In e els -> det_3d (corners (node_table row_coord [0; 0; 0] nodes') e) <> 0).
    Proof.
      destruct (build_raw_moved nodes els pos v (solid_rows _ _ G) solid_nonempty HP) as (nodes' & B & M).
      unfold solid_mesh in HB. rewrite B in HB. cbn [bind] in HB. exists nodes'. split; auto. split; auto. split.
      - rewrite (moved_by_length _ _ _ M). apply (solid_range _ _ G).
      - intros e He. destruct (solid_element e He) as [L F]. rewrite table_row3, (moved_by_det v nodes nodes' e M L F).
        pose proof (solid_oriented _ _ G e He). lra.
    Qed.

    Lemma built_solid : let N := List.length (m_nodes m) in
      N = List.length nodes /\
      tetrahedra N (table_of (m_nodes m)) (m_elements m) /\
      (forall i, (i < N)%nat -> referenced (m_elements m) i) /\
      lsum (m_elements m) (element_volume (table_of (m_nodes m))) = lsum els (element_volume (table_of nodes)) /\
      forall row, In row (m_nodes m) <->
        exists q, In q nodes /\ row = [nth 0 q 0 + v 0%nat; nth 1 q 0 + v 1%nat; nth 2 q 0 + v 2%nat].
    Proof.
      cbv zeta. destruct built_from as (nodes' & M & HB' & HR & HN). pose proof (solid_shape _ _ G) as HS.
      destruct (built_tetrahedra mean_row3 [0; 0; 0] nodes' els d m 2%nat ic id row_coord HR HS HC HD HB' eq_refl HN) as [HT HA].
      rewrite !table_row3 in *.
      destruct (built_order mean_row3 [0; 0; 0] nodes' els d m 2%nat ic id HR HS HC HD HB') as (C & Ne & I & D & [U A K R NC NN NI ND _]).
      set (old := C ++ Ne ++ I ++ D) in *.
      assert (Po : Permutation old (seq 0 (List.length nodes))).
      { apply NoDup_Permutation; auto; [apply seq_NoDup|]. intros i. rewrite A, in_seq. split.
        - intros (e & He & Hi). split; [lia|]. destruct (solid_element e He) as [_ F]. rewrite Forall_forall in F. cbn. auto.
        - intros [_ Hi]. apply (solid_used _ _ G). cbn in Hi. auto. }
      assert (Ln : List.length (m_nodes m) = List.length nodes).
      { transitivity (List.length old); [|rewrite (Permutation_length Po), seq_length; auto].
        clear - K. unfold picks in K. induction K; cbn; congruence. }
      split; [exact Ln|]. split; [exact HT|]. split.
      { intros i Hi. exact (built_referenced mean_row3 [0; 0; 0] nodes' els d m 2%nat ic id HR HS HC HD HB' i Hi). }
      split.
      - rewrite HA. clear HA HT HN.
        assert (X : forall l, (forall e, In e l -> In e els) -> lsum l (element_volume (table_of nodes')) = lsum l (element_volume (table_of nodes))).
        { induction l as [|e l IH]; intros S; cbn [lsum]; auto. rewrite IH by (intros; apply S; right; auto). f_equal.
          unfold element_volume, volume. destruct (solid_element e (S e (or_introl eq_refl))) as [L F].
          rewrite (moved_by_det v nodes nodes' e M L F). reflexivity. }
        apply X. auto.
      - intros row. rewrite <- (moved_by_rows v nodes nodes' row M).
        split.
        + intros H. apply In_nth_error in H. destruct H as (n & H).
          assert (X : exists o, nth_error nodes' o = Some row).
          { clear - K H. unfold picks in K. revert n H. induction K as [|o r l l' E K IH]; intros [|n] H; try discriminate.
            - injection H as ->. eauto.
            - eauto. }
          destruct X as (o & X). eapply nth_error_In; eauto.
        + intros H. apply In_nth_error in H. destruct H as (o & H).
          assert (Io : In o old).
          { apply (Permutation_in _ (Permutation_sym Po)). apply in_seq. split; [lia|]. cbn.
            rewrite <- (moved_by_length _ _ _ M). apply nth_error_Some. congruence. }
          clear - K H Io. unfold picks in K. induction K as [|o' r l l' E K IH]; [destruct Io|].
          destruct Io as [->|Io]; [left; congruence|right; auto].
    Qed.

    (* a boundary face with the condition at its three corners clamps the mesh *)
    Lemma built_clamped3 f face : dict_get (MeshBuildModel.conditions d) "dirichlet" = Some f ->
      boundary_face 4 els face ->
      (forall k, In k face -> exists q, nth_error nodes k = Some q /\ id [nth 0 q 0 + v 0%nat; nth 1 q 0 + v 1%nat; nth 2 q 0 + v 2%nat] = true) ->
      exists conds, mesh_conditions m 3 "dirichlet" = Ok conds /\ well_shaped (3 * List.length (m_nodes m)) conds /\
        forall i, (i < List.length (m_nodes m))%nat -> fastened (clamped3 (List.length (m_nodes m)) conds) (m_elements m) i.
    Proof.
      intros Hf HF HI. destruct built_from as (nodes' & M & HB' & HR & _).
      apply (built_fastened mean_row3 [0; 0; 0] nodes' els d m 4%nat ic id f HR (solid_shape _ _ G) HC HD Hf HB').
      intros i Hi _. rewrite (moved_by_length _ _ _ M) in Hi.
      apply (solid_rigid _ _ G) with (f := face); auto. intros k Hk. split; [exists face; auto|].
      destruct (HI k Hk) as (q & Eq & Iq). exists [nth 0 q 0 + v 0%nat; nth 1 q 0 + v 1%nat; nth 2 q 0 + v 2%nat]. split; auto.
      clear - M Eq. revert k Eq. induction M as [|r r' l l' [_ ->] M IH]; intros [|k] Eq; try discriminate; cbn in *.
      - congruence.
      - auto.
    Qed.

    Section Problems.
      Variables (f : list (list R) -> vec) (face : list nat) (mp : properties) (density : option (nat -> R)) (ops : operators) (ph : physics).
      Hypothesis Hf : dict_get (MeshBuildModel.conditions d) "dirichlet" = Some f.
      Hypothesis HO : reinitialize_matrices (List.length (m_nodes m)) (table_of (m_nodes m)) (m_elements m) mp density = Ok ops.
      Hypothesis Hn : ph_n ph = (3 * List.length (m_nodes m))%nat.

      Lemma solid_stable mu la : boundary_face 4 els face ->
        (forall k, In k face -> exists q, nth_error nodes k = Some q /\ id [nth 0 q 0 + v 0%nat; nth 1 q 0 + v 1%nat; nth 2 q 0 + v 2%nat] = true) ->
        elastic mp = Some (mu, la) -> elasticity ops = Some (stiffness ph) ->
        exists conds, mesh_conditions m 3 "dirichlet" = Ok conds /\ well_shaped (3 * List.length (m_nodes m)) conds /\
          (0 < la <= mu -> stable_kind ph conds StaticDisplacement) /\
          (forall k th ze, quasistatic_kind k -> viscous mp = Some (th, ze) -> 0 < ze <= th -> 0 <= la <= mu ->
             viscosity ops = Some (damping ph) -> stable_kind ph conds k).
      Proof.
        intros HF HI HE E. destruct (built_clamped3 f face Hf HF HI) as (conds & C1 & C2 & C3).
        destruct built_solid as (_ & HT & _). exists conds. split; auto. split; auto. split.
        - intros HM. exact (static_3d _ _ _ mp density ops ph conds HT HO Hn mu la C3 HE HM E).
        - intros k th ze Hk HV HZ HM HV'.
          exact (quasistatic_3d _ _ _ mp density ops ph conds HT HO Hn k th ze mu la Hk C3 HV HZ HE HM HV' E).
      Qed.
      Lemma solid_dynamic k th ze mu la conds : dynamic_kind k -> 0 < mass_density mp ->
        viscous mp = Some (th, ze) -> 0 <= ze <= th -> elastic mp = Some (mu, la) -> 0 <= la <= mu ->
        mass ph = acceleration_operator ops -> viscosity ops = Some (damping ph) -> elasticity ops = Some (stiffness ph) ->
        stable_kind ph conds k.
      Proof.
        intros Hk Hm HV HZ HE HM M C E. destruct built_solid as (_ & HT & HU & _).
        exact (dynamic_3d _ _ _ mp density ops ph conds HT HO Hn k th ze mu la Hk HU Hm HV HZ HE HM M C E).
      Qed.
    End Problems.
  End Built.

  (* nothing assumed to succeed *)
  Lemma solid_whole (d : @Description (list R) vec) id f face mp mu la :
    (exists c, dict_get (indicators d) "contact" = Some c) ->
    dict_get (indicators d) "dirichlet" = Some id -> dict_get (MeshBuildModel.conditions d) "dirichlet" = Some f ->
    (forall name, In name (map fst (indicators d)) -> name <> "contact" -> name <> "dirichlet" ->
       (exists c, dict_get (MeshBuildModel.conditions d) name = Some c) /\ reserved name = false) ->
    boundary_face 4 els face ->
    (forall k, In k face -> exists q, nth_error nodes k = Some q /\ id [nth 0 q 0 + v 0%nat; nth 1 q 0 + v 1%nat; nth 2 q 0 + v 2%nat] = true) ->
    elastic mp = Some (mu, la) -> 0 < la <= mu -> piezo mp = None ->
    exists m ops E conds, solid_mesh (nodes, els) pos d = Ok m /\
      let N := List.length (m_nodes m) in
      reinitialize_matrices N (table_of (m_nodes m)) (m_elements m) mp None = Ok ops /\
      elasticity ops = Some E /\ mesh_conditions m 3 "dirichlet" = Ok conds /\ well_shaped (3 * N) conds /\
      symmetric (3 * N) E /\ definite_free (3 * N) conds E.
  Proof.
    intros [ic HC] HD Hf HK HF HI HE HM HZ.
    destruct (build_raw_moved nodes els pos v (solid_rows _ _ G) solid_nonempty HP) as (nodes' & B & M).
    destruct (build_total mean_row3 [0; 0; 0] nodes' els d) as [m Em]; eauto.
    assert (HB : solid_mesh (nodes, els) pos d = Ok m) by (unfold solid_mesh; rewrite B; exact Em).
    destruct (built_solid d m ic id HC HD HB) as (HN & HT & HU & _).
    destruct (built_clamped3 d m ic id HC HD HB f face Hf HF HI) as (conds & C1 & C2 & C3).
    assert (NE' : m_elements m <> []).
    { intros E. assert (L : (0 < List.length (m_nodes m))%nat) by (rewrite HN; pose proof solid_nonempty; destruct nodes; [contradiction|cbn; lia]).
      destruct (HU 0%nat L) as (e & He & _). rewrite E in He. destruct He. }
    pose proof (dispatch_3d _ _ _ mp None HT NE') as DI. cbv beta iota in DI. rewrite HZ in DI. destruct DI as (ops & HO & PE & _).
    destruct (elasticity ops) as [E|] eqn:EE.
    2:{ destruct PE as [_ PE]. rewrite PE in HE by auto. discriminate. }
    exists m, ops, E, conds. split; auto. cbv zeta. split; auto. split; auto. split; auto. split; auto.
    pose proof (elasticity3_is _ _ _ mp None ops HT HO mu la E HE EE) as EI.
    destruct (elasticity3_all _ _ _ HT mu la E EI) as (HFo & HS). split; [exact HS|].
    exact (free3 _ _ _ conds HT mu la E HFo HM C3).
  Qed.
End Placed.
