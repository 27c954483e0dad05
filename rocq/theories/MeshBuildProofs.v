(* Proofs about the Mesh object as a whole (C04, C05, C06, C10). *)
From Coq Require Import List Arith ZArith String Bool Lia Sorted Permutation.
From Verif Require Import Common PyModel MeshModel MeshBuildModel MeshSpec ListLemmas
  MeshRemoveProofs MeshReorderProofs MeshFacesProofs MeshOrderProofs MeshEdgesProofs.
Import ListNotations.
Open Scope string_scope.
Open Scope list_scope.

Lemma cleaned_simplices {P} keep (nodes nodes' : list P) els els' w :
  cleaned keep nodes nodes' els els' -> simplices w els -> simplices w els'.
Proof.
  intros (K1 & _ & _ & K4). apply reb_simplices with (old := keep).
  - now apply sorted_lt_NoDup.
  - eapply Forall2_impl_strong; [exact K4|]. intros e e' _ _ H. exists e. split; auto.
Qed.

Lemma relabelled_compose keep old els els1 els2 :
  relabelled keep els els1 -> relabelled_unordered old els1 els2 ->
  relabelled_unordered (map (fun j => nth j keep 0) old) els els2.
Proof.
  unfold relabelled, relabelled_unordered. intros H. revert els2.
  induction H as [|e e1 els els1 He H IH]; intros els2 H2; inversion H2; subst; constructor; auto.
  destruct H3 as [f0 [Hp Hf]]. exists (map (fun j => nth j keep 0) f0). split.
  - rewrite <- (Permutation_map (fun j => nth j keep 0) Hp).
    replace (map (fun j => nth j keep 0) e1) with e; auto.
    clear -He. induction He; simpl; auto. f_equal; auto. symmetry. now apply nth_error_nth.
  - apply Forall2_map_l. clear -Hf. induction Hf; constructor; auto.
    now rewrite nth_error_map, H.
Qed.

Lemma picks_compose {P} keep old (l l1 l2 : list P) :
  picks keep l l1 -> picks old l1 l2 ->
  picks (map (fun j => nth j keep 0) old) l l2.
Proof.
  unfold picks. intros H1 H2. apply Forall2_map_l.
  eapply Forall2_impl_strong; [exact H2|]. intros j p _ _ Hj.
  destruct (Forall2_nth_error_r _ _ _ _ _ H1 Hj) as [i [Hi Hp]].
  now rewrite (nth_error_nth _ _ _ Hi).
Qed.

Lemma sorted_map_nth keep l :
  StronglySorted lt keep -> StronglySorted lt l -> (forall j, In j l -> j < List.length keep) ->
  StronglySorted lt (map (fun j => nth j keep 0) l).
Proof.
  intros HK HL. induction HL as [|x l Hs IH Hf]; intros HB; simpl; constructor.
  - apply IH. intros; apply HB; simpl; auto.
  - rewrite Forall_forall in *. intros y Hy. apply in_map_iff in Hy.
    destruct Hy as [z [<- Hz]].
    assert (Hx : x < List.length keep) by (apply HB; simpl; auto).
    assert (Hz' : z < List.length keep) by (apply HB; simpl; auto).
    specialize (Hf z Hz). clear -HK Hf Hx Hz'.
    revert x z Hf Hx Hz'. induction HK as [|k keep HK IH HF]; intros x z; simpl; [lia|].
    rewrite Forall_forall in HF.
    destruct x, z; try lia; intros.
    + apply HF. apply nth_In. lia.
    + apply IH; lia.
Qed.

(* ------------------------------------------------------------------ slices *)

Lemma py_slice_mid {A} (a b c : list A) x y :
  x = Z.of_nat (List.length a) -> y = Z.of_nat (List.length (a ++ b)) ->
  py_slice x y (a ++ b ++ c) = b.
Proof.
  intros -> ->. unfold py_slice, clip_bound.
  rewrite !app_length.
  destruct (Z.ltb_spec (Z.of_nat (List.length a)) 0); [lia|].
  destruct (Z.ltb_spec (Z.of_nat (List.length a + List.length b)) 0); [lia|].
  rewrite !Z.min_l by lia.
  rewrite Nat2Z.id. rewrite skipn_app, skipn_all, Nat.sub_diag. simpl.
  replace (Z.to_nat _) with (List.length b + 0) by lia.
  now rewrite firstn_app_2, firstn_O, app_nil_r.
Qed.

Lemma py_slice_nil {A} (l : list A) x y : (0 <= y <= x)%Z -> py_slice x y l = [].
Proof.
  intros H. unfold py_slice, clip_bound.
  destruct (Z.ltb_spec x 0); [lia|]. destruct (Z.ltb_spec y 0); [lia|].
  replace (Z.to_nat _) with 0 by lia. reflexivity.
Qed.

(* ------------------------------------------------ face lists of a boundary *)

Lemma apply_predicate_filter {P} mean (zero : P) surfaces nodes pred :
  apply_predicate_to_surfaces mean zero surfaces nodes pred =
  filter (fun s => pred (mean (map (fun i => nth i nodes zero) s))) surfaces.
Proof. apply select_mask_filter. Qed.

Lemma filter_length_split2 {A} (f g : A -> bool) l :
  List.length (filter f l) =
  List.length (filter (fun x => f x && g x) l) + List.length (filter (fun x => f x && negb (g x)) l).
Proof.
  induction l as [|x l IH]; simpl; auto.
  destruct (f x), (g x); simpl; lia.
Qed.

Section BuildProofs.
  Context {P V : Type}.
  Variables (mean : list P -> P) (zero : P).

  (* what Mesh construction produces, on the cleaned mesh *)
  Record built (nodes0 : list P) (els0 : list (list nat)) (d : @Description P V)
      (m : @MeshData P V) (keep : list nat) (nodes1 : list P) (els1 : list (list nat))
      (ic id : P -> bool) : Prop := mkBuilt {
    bt_clean : cleaned keep nodes0 nodes1 els0 els1;
    bt_ic : dict_get (indicators d) "contact" = Some ic;
    bt_id : dict_get (indicators d) "dirichlet" = Some id;
    bt_ren : renumbering_unordered (final_order zero nodes1 els1 ic id) nodes1 (m_nodes m)
               els1 (m_elements m);
    bt_bc : boundary_nodes_count m =
            Z.of_nat (List.length (filter (on_boundary els1) (seq 0 (List.length nodes1))));
    bt_cc : contact_nodes_count m =
            Z.of_nat (List.length (filter (fun i => on_boundary els1 i && ic (nth i nodes1 zero))
                                     (seq 0 (List.length nodes1))));
    bt_dc : dirichlet_nodes_count m =
            Z.of_nat (List.length (filter (fun i => on_boundary els1 i && id (nth i nodes1 zero))
                                     (seq 0 (List.length nodes1))));
    bt_fc : faces_of m "contact" =
            apply_predicate_to_surfaces mean zero (boundary_surfaces (m_elements m)) (m_nodes m) ic;
    bt_fd : faces_of m "dirichlet" =
            apply_predicate_to_surfaces mean zero (boundary_surfaces (m_elements m)) (m_nodes m) id;
    bt_fn : faces_of m "neumann" =
            apply_predicate_to_surfaces mean zero (boundary_surfaces (m_elements m)) (m_nodes m)
              (fun p => negb (ic p) && negb (id p));
    bt_int : m_internal m = boundary_internal_indices (m_elements m);
    bt_edges : m_edges m = get_edges_list (List.length (m_nodes m)) (get_edges_matrix (m_elements m))
  }.

  Lemma sort_nat_sorted_id l : StronglySorted le l -> sort_nat l = l.
  Proof.
    induction 1 as [|x l Hs IH Hf]; simpl; auto. rewrite IH.
    destruct l as [|y l]; simpl; auto. inversion Hf; subst.
    destruct (Nat.leb_spec x y); [reflexivity|lia].
  Qed.

  Lemma sort_elements_idem els : sort_elements (sort_elements els) = sort_elements els.
  Proof.
    unfold sort_elements. rewrite map_map. apply map_ext. intros e.
    apply sort_nat_sorted_id, sort_nat_sorted.
  Qed.

  Lemma boundary_faces_sort els : boundary_faces (sort_elements els) = boundary_faces els.
  Proof. unfold boundary_faces. now rewrite sort_elements_idem. Qed.

  Lemma build_built nodes0 els0 d m w :
    in_range (List.length nodes0) els0 -> simplices w els0 ->
    build mean zero nodes0 els0 d = Ok m ->
    exists keep nodes1 els1 ic id, built nodes0 els0 d m keep nodes1 els1 ic id.
  Proof.
    intros HR HS HB. unfold build in HB.
    pose proof (remove_unconnected_cleaned nodes0 els0 HR) as HC.
    destruct (remove_unconnected nodes0 els0) as [n1 e1]. destruct HC as [keep HC].
    pose proof (proj1 (cleaned_all_referenced _ _ _ _ _ HC)) as HR1.
    pose proof (cleaned_simplices _ _ _ _ _ _ HC HS) as HS1.
    unfold bind, identify_boundaries, dict_item in HB.
    destruct (dict_get (indicators d) "contact") as [ic|] eqn:Ec; [|discriminate].
    destruct (dict_get (indicators d) "dirichlet") as [id|] eqn:Ed; [|discriminate].
    simpl in HB. unfold bind in HB.
    pose proof (reorder_boundary_nodes_spec zero n1 e1 w HR1 HS1 ic id) as HO.
    destruct (reorder_boundary_nodes zero n1 e1 ic id) as [[[[n2 e2] bc] cc] dc].
    destruct HO as (HO & Hbc & Hcc & Hdc).
    destruct (dict_get (conditions d) "dirichlet") as [dcond|] eqn:Edc; [|discriminate].
    destruct (other_boundaries _ _ _ _ _ _) as [others|]; [|discriminate].
    destruct (existsb _ others); [discriminate|].
    inversion HB; subst m; clear HB.
    exists keep, n1, e1, ic, id. constructor; simpl; auto.
    - now apply sort_renumber.
    - unfold boundary_nodes_count, contact_nodes_count, neumann_nodes_count,
        dirichlet_nodes_count, count_of. simpl. rewrite <- Hbc. lia.
    - unfold contact_nodes_count, count_of. simpl. now rewrite Hcc.
    - unfold dirichlet_nodes_count, count_of. simpl. now rewrite Hdc.
    - unfold faces_of, boundary_surfaces. simpl. now rewrite boundary_faces_sort.
    - unfold faces_of, boundary_surfaces. simpl. now rewrite boundary_faces_sort.
    - unfold faces_of, boundary_surfaces. simpl. now rewrite boundary_faces_sort.
    - unfold boundary_internal_indices. now rewrite boundary_faces_sort.
  Qed.

  Lemma boundary_referenced w els i : boundary_node w els i -> referenced els i.
  Proof.
    intros (f & (_ & _ & k & e & Hk & HI & _) & Hi). exists e.
    split; [eapply nth_error_In; eauto|auto].
  Qed.

  Section Order.
    Variables (nodes0 : list P) (els0 : list (list nat)) (d : @Description P V)
      (m : @MeshData P V) (w : nat) (keep : list nat) (nodes1 : list P) (els1 : list (list nat))
      (ic id : P -> bool).
    Hypothesis HS : simplices w els0.
    Hypothesis HB : built nodes0 els0 d m keep nodes1 els1 ic id.

    Let kp j := nth j keep 0.
    Let n1 := List.length nodes1.

    Lemma ob_in_range : in_range (List.length nodes1) els1.
    Proof. apply (cleaned_all_referenced _ _ _ _ _ (bt_clean _ _ _ _ _ _ _ _ _ HB)). Qed.

    Lemma ob_simplices : simplices w els1.
    Proof. eapply cleaned_simplices; [apply (bt_clean _ _ _ _ _ _ _ _ _ HB)|exact HS]. Qed.

    Lemma ob_keep_length : List.length keep = n1.
    Proof.
      destruct (bt_clean _ _ _ _ _ _ _ _ _ HB) as (_ & _ & K3 & _).
      apply (Forall2_length' _ _ _ K3).
    Qed.

    Lemma ob_kp j : j < n1 -> nth_error keep j = Some (kp j).
    Proof. intros H. apply nth_error_nth'. now rewrite ob_keep_length. Qed.

    Lemma ob_node j : j < n1 -> nth_error nodes1 j = nth_error nodes0 (kp j).
    Proof.
      intros H. destruct (bt_clean _ _ _ _ _ _ _ _ _ HB) as (_ & _ & K3 & _).
      destruct (Forall2_nth_error _ _ _ _ _ K3 (ob_kp j H)) as [p [H1 H2]]. congruence.
    Qed.

    Lemma ob_keep_NoDup : NoDup keep.
    Proof. apply sorted_lt_NoDup. apply (bt_clean _ _ _ _ _ _ _ _ _ HB). Qed.

    Lemma ob_boundary j : j < n1 -> (boundary_node w els1 j <-> boundary_node w els0 (kp j)).
    Proof.
      intros H. destruct (bt_clean _ _ _ _ _ _ _ _ _ HB) as (_ & _ & _ & K4).
      apply (reb_boundary keep els0 els1 ob_keep_NoDup).
      - eapply Forall2_impl_strong; [exact K4|]. intros e e' _ _ He. exists e. auto.
      - now apply ob_kp.
    Qed.

    Lemma ob_holds pred j : j < n1 -> (holds_at nodes1 pred j <-> holds_at nodes0 pred (kp j)).
    Proof. intros H. unfold holds_at. now rewrite ob_node. Qed.

    (* translate a block of new indices given by a boolean selection *)
    Lemma ob_block (f : nat -> bool) (Q : nat -> Prop) :
      (forall j, j < n1 -> (f j = true <-> Q (kp j))) ->
      (forall i, Q i -> referenced els0 i) ->
      forall i, In i (map kp (filter f (seq 0 n1))) <-> Q i.
    Proof.
      intros HF HQ i. rewrite in_map_iff. split.
      - intros [j [<- Hj]]. apply filter_In in Hj. destruct Hj as [Hj Hf].
        apply in_seq in Hj. apply HF; auto. lia.
      - intros Hi. pose proof (HQ i Hi) as Hr.
        destruct (bt_clean _ _ _ _ _ _ _ _ _ HB) as (_ & K2 & _ & _). apply K2 in Hr.
        destruct (In_nth keep i 0 Hr) as [j [Hj E]]. rewrite ob_keep_length in Hj.
        exists j. split; auto. apply filter_In. split; [apply in_seq; lia|].
        apply HF; auto. unfold kp. now rewrite E.
    Qed.

    Lemma ob_bool j : j < n1 -> (on_boundary els1 j = true <-> boundary_node w els0 (kp j)).
    Proof. intros H. rewrite <- ob_boundary by assumption. now apply on_boundary_spec, ob_simplices. Qed.

    Lemma ob_pred pred j : j < n1 -> (pred (nth j nodes1 zero) = true <-> holds_at nodes0 pred (kp j)).
    Proof. intros H. rewrite <- ob_holds by assumption. symmetry. now apply holds_at_spec. Qed.

    Ltac ob_tac :=
      intros j Hj; rewrite ?andb_true_iff, ?negb_true_iff, <- ?not_true_iff_false,
        ?(ob_bool j Hj), ?(ob_pred ic j Hj), ?(ob_pred id j Hj); try tauto.

    Definition oC := map kp (contact_block zero nodes1 els1 ic id).
    Definition oN := map kp (neumann_block zero nodes1 els1 ic id).
    Definition oI := map kp (interior_block nodes1 els1).
    Definition oD := map kp (dirichlet_block zero nodes1 els1 ic id).

    Lemma ob_order : oC ++ oN ++ oI ++ oD = map kp (final_order zero nodes1 els1 ic id).
    Proof. unfold final_order. now rewrite !map_app. Qed.

    Lemma ob_sorted f : StronglySorted lt (map kp (filter f (seq 0 n1))).
    Proof.
      apply sorted_map_nth.
      - apply (bt_clean _ _ _ _ _ _ _ _ _ HB).
      - apply sorted_lt_filter, sorted_lt_seq.
      - intros j Hj. apply filter_In in Hj. destruct Hj as [Hj _]. apply in_seq in Hj.
        rewrite ob_keep_length. lia.
    Qed.

    Lemma ob_D i : In i oD <-> boundary_node w els0 i /\ holds_at nodes0 id i.
    Proof.
      unfold oD, dirichlet_block. rewrite map_app, in_app_iff, map_rev, <- in_rev. fold n1.
      rewrite (ob_block _ (fun i => boundary_node w els0 i /\ ~ holds_at nodes0 ic i /\ holds_at nodes0 id i));
        [|ob_tac|intros ? [? _]; eapply boundary_referenced; eauto].
      rewrite (ob_block _ (fun i => boundary_node w els0 i /\ holds_at nodes0 ic i /\ holds_at nodes0 id i));
        [|ob_tac|intros ? [? _]; eapply boundary_referenced; eauto].
      split; [tauto|]. intros [H1 H2].
      assert (holds_at nodes0 ic i \/ ~ holds_at nodes0 ic i); [|tauto].
      unfold holds_at. destruct (nth_error nodes0 i) as [p|].
      - destruct (ic p) eqn:E.
        + left. eauto.
        + right. intros [q [Hq Hc]]. congruence.
      - right. intros [q [Hq _]]. discriminate.
    Qed.

    Lemma ob_node_order : node_order w nodes0 els0 (m_nodes m) (m_elements m) ic id oC oN oI oD.
    Proof.
      pose proof (bt_clean _ _ _ _ _ _ _ _ _ HB) as (K1 & K2 & K3 & K4).
      pose proof (bt_ren _ _ _ _ _ _ _ _ _ HB) as HREN.
      pose proof HREN as (R1 & R2 & R3).
      constructor.
      - rewrite ob_order. apply NoDup_map_in.
        + intros x y Hx Hy E. apply (Permutation_in _ R1), in_seq in Hx.
          apply (Permutation_in _ R1), in_seq in Hy.
          apply (proj1 (NoDup_nth keep 0) ob_keep_NoDup); auto; rewrite ob_keep_length; unfold n1; lia.
        + eapply Permutation_NoDup; [apply Permutation_sym, R1|apply seq_NoDup].
      - intros i. rewrite ob_order. rewrite <- K2.
        rewrite (Permutation_map kp R1). fold n1. rewrite <- ob_keep_length. unfold kp.
        rewrite map_nth_seq. tauto.
      - rewrite ob_order. eapply picks_compose; eauto.
      - rewrite ob_order. eapply relabelled_compose; eauto.
      - unfold oC, contact_block. apply ob_block; [ob_tac|].
        intros i [H _]. eapply boundary_referenced; eauto.
      - unfold oN, neumann_block. apply ob_block; [ob_tac|].
        intros i [H _]. eapply boundary_referenced; eauto.
      - unfold oI, interior_block. apply ob_block; [|tauto].
        ob_tac. split; [|tauto]. intros H. split; auto.
        apply K2. eapply nth_error_In. apply ob_kp. exact Hj.
      - apply ob_D.
      - repeat split; apply ob_sorted.
    Qed.

    (* number of boundary nodes that are contact and Dirichlet *)
    Definition oCD := map kp (filter (fun i => on_boundary els1 i && ic (nth i nodes1 zero)
                                              && id (nth i nodes1 zero)) (seq 0 n1)).
    Lemma ob_CD i : In i oCD <-> boundary_node w els0 i /\ holds_at nodes0 ic i /\ holds_at nodes0 id i.
    Proof.
      unfold oCD. revert i. apply ob_block; [ob_tac|]. intros ? [? _]. eapply boundary_referenced; eauto.
    Qed.

    Lemma ob_CD_sorted : StronglySorted lt oCD.
    Proof. apply ob_sorted. Qed.

    Lemma ob_dcount : dirichlet_nodes_count m = Z.of_nat (List.length oD).
    Proof.
      rewrite (bt_dc _ _ _ _ _ _ _ _ _ HB). f_equal. unfold oD, dirichlet_block.
      rewrite map_length, app_length, rev_length.
      rewrite (filter_length_split2 _ (fun i => ic (nth i nodes1 zero))).
      rewrite Nat.add_comm. f_equal; f_equal; apply filter_ext; intros i;
        destruct (on_boundary els1 i), (ic (nth i nodes1 zero)), (id (nth i nodes1 zero)); reflexivity.
    Qed.

    Lemma ob_ccount : contact_nodes_count m = (Z.of_nat (List.length oC) + Z.of_nat (List.length oCD))%Z.
    Proof.
      rewrite (bt_cc _ _ _ _ _ _ _ _ _ HB). unfold oC, oCD, contact_block.
      rewrite !map_length.
      rewrite (filter_length_split2 _ (fun i => id (nth i nodes1 zero))). fold n1. lia.
    Qed.

    Lemma ob_bcount :
      boundary_nodes_count m =
      (Z.of_nat (List.length oC) + Z.of_nat (List.length oN) + Z.of_nat (List.length oD))%Z.
    Proof.
      rewrite (bt_bc _ _ _ _ _ _ _ _ _ HB). unfold oC, oN, oD, contact_block, neumann_block, dirichlet_block.
      rewrite !map_length, app_length, rev_length. fold n1.
      rewrite (filter_length_split2 _ (fun i => ic (nth i nodes1 zero))).
      rewrite (filter_length_split2 (fun x => on_boundary els1 x && ic (nth x nodes1 zero))
                 (fun i => id (nth i nodes1 zero))).
      rewrite (filter_length_split2 (fun x => on_boundary els1 x && negb (ic (nth x nodes1 zero)))
                 (fun i => id (nth i nodes1 zero))). lia.
    Qed.

    Lemma ob_nodes_count :
      nodes_count m = Z.of_nat (List.length (oC ++ oN ++ oI ++ oD)).
    Proof.
      unfold nodes_count. f_equal. symmetry.
      apply (Forall2_length' _ _ _ (no_picks _ _ _ _ _ _ _ _ _ _ _ ob_node_order)).
    Qed.
  End Order.
End BuildProofs.

(* ------------------------------------------------------ final statements *)

Section Final.
  Context {P V : Type}.
  Variables (mean : list P -> P) (zero : P) (nodes0 : list P) (els0 : list (list nat))
    (d : @Description P V) (m : @MeshData P V) (w : nat) (ic id : P -> bool).
  Hypothesis HR : in_range (List.length nodes0) els0.
  Hypothesis HS : simplices w els0.
  Hypothesis HC : dict_get (indicators d) "contact" = Some ic.
  Hypothesis HD : dict_get (indicators d) "dirichlet" = Some id.
  Hypothesis HB : build mean zero nodes0 els0 d = Ok m.

  Lemma build_spec : exists C N I D CD,
    node_order w nodes0 els0 (m_nodes m) (m_elements m) ic id C N I D /\
    NoDup CD /\
    (forall i, In i CD <-> boundary_node w els0 i /\ holds_at nodes0 ic i /\ holds_at nodes0 id i) /\
    nodes_count m = Z.of_nat (List.length (C ++ N ++ I ++ D)) /\
    boundary_nodes_count m = (Z.of_nat (List.length C) + Z.of_nat (List.length N) + Z.of_nat (List.length D))%Z /\
    contact_nodes_count m = (Z.of_nat (List.length C) + Z.of_nat (List.length CD))%Z /\
    dirichlet_nodes_count m = Z.of_nat (List.length D).
  Proof.
    destruct (build_built mean zero nodes0 els0 d m w HR HS HB)
      as (keep & n1 & e1 & ic' & id' & B).
    pose proof (bt_ic _ _ _ _ _ _ _ _ _ _ _ B) as E1. pose proof (bt_id _ _ _ _ _ _ _ _ _ _ _ B) as E2.
    rewrite HC in E1. rewrite HD in E2. inversion E1; inversion E2; subst ic' id'.
    exists (oC zero keep n1 e1 ic id), (oN zero keep n1 e1 ic id), (oI keep n1 e1),
      (oD zero keep n1 e1 ic id), (oCD zero keep n1 e1 ic id).
    split; [eapply ob_node_order; eauto|].
    split; [eapply sorted_lt_NoDup, ob_CD_sorted; eauto|].
    split; [intros i; eapply ob_CD; eauto|].
    split; [eapply ob_nodes_count; eauto|].
    split; [eapply ob_bcount; eauto|].
    split; [eapply ob_ccount; eauto|eapply ob_dcount; eauto].
  Qed.

  (* slices; [old] lists the raw index of every node of the mesh *)
  Lemma dirichlet_slices : exists C N I D,
    node_order w nodes0 els0 (m_nodes m) (m_elements m) ic id C N I D /\
    let old := C ++ N ++ I ++ D in
    index_select 0 (dirichlet_indices m) old = D /\
    index_select 0 (independent_indices m) old = C ++ N ++ I /\
    index_size (dirichlet_indices m) = Z.of_nat (List.length D) /\
    inner_nodes_count m = Z.of_nat (List.length I).
  Proof.
    destruct build_spec as (C & N & I & D & CD & HO & _ & _ & Hn & Hb & _ & Hd).
    exists C, N, I, D. split; auto. cbv zeta.
    unfold dirichlet_indices, independent_indices, independent_nodes_count, inner_nodes_count,
      index_select, index_size. rewrite Hn, Hb, Hd.
    rewrite !app_length. split; [|split; [|split]].
    - replace (C ++ N ++ I ++ D) with ((C ++ N ++ I) ++ D ++ []).
      2:{ rewrite app_nil_r, <- !app_assoc. reflexivity. }
      apply py_slice_mid; rewrite ?app_length; lia.
    - replace (C ++ N ++ I ++ D) with ([] ++ (C ++ N ++ I) ++ D).
      2:{ simpl. rewrite <- !app_assoc. reflexivity. }
      apply py_slice_mid; simpl; rewrite ?app_length; lia.
    - lia.
    - lia.
  Qed.

  Lemma disjoint_slices :
    (forall i, boundary_node w els0 i -> holds_at nodes0 ic i -> ~ holds_at nodes0 id i) ->
    exists C N I D,
    node_order w nodes0 els0 (m_nodes m) (m_elements m) ic id C N I D /\
    contact_nodes_count m = Z.of_nat (List.length C) /\
    neumann_nodes_count m = Z.of_nat (List.length N) /\
    dirichlet_nodes_count m = Z.of_nat (List.length D) /\
    let old := C ++ N ++ I ++ D in
    index_select 0 (contact_indices m) old = C /\
    index_select 0 (neumann_indices m) old = N /\
    index_select 0 (dirichlet_indices m) old = D /\
    index_select 0 (independent_indices m) old = C ++ N ++ I /\
    index_select 0 (free_indices m) old = N ++ I.
  Proof.
    intros HX.
    destruct build_spec as (C & N & I & D & CD & HO & NCD & HCD & Hn & Hb & Hc & Hd).
    assert (CD = []).
    { destruct CD as [|i CD]; auto. exfalso. destruct (proj1 (HCD i)) as (H1 & H2 & H3); [simpl; auto|].
      eapply HX; eauto. }
    subst CD. simpl in Hc.
    assert (Hne : neumann_nodes_count m = Z.of_nat (List.length N)).
    { unfold boundary_nodes_count in Hb. lia. }
    exists C, N, I, D. split; auto. split; [lia|]. split; auto. split; auto. cbv zeta.
    unfold contact_indices, neumann_indices, dirichlet_indices, independent_indices, free_indices,
      independent_nodes_count, index_select. rewrite Hn, Hc, Hd, Hne.
    rewrite !app_length. repeat split.
    - change (C ++ N ++ I ++ D) with ([] ++ C ++ N ++ I ++ D).
      apply py_slice_mid; simpl; lia.
    - apply py_slice_mid; rewrite ?app_length; lia.
    - replace (C ++ N ++ I ++ D) with ((C ++ N ++ I) ++ D ++ []).
      2:{ rewrite app_nil_r, <- !app_assoc. reflexivity. }
      apply py_slice_mid; rewrite ?app_length; lia.
    - replace (C ++ N ++ I ++ D) with ([] ++ (C ++ N ++ I) ++ D).
      2:{ simpl. rewrite <- !app_assoc. reflexivity. }
      apply py_slice_mid; simpl; rewrite ?app_length; lia.
    - replace (C ++ N ++ I ++ D) with (C ++ (N ++ I) ++ D) by (now rewrite <- !app_assoc).
      apply py_slice_mid; rewrite ?app_length; lia.
  Qed.

  (* C10 *)
  Lemma boundary_slice_no_dirichlet :
    (forall i, boundary_node w els0 i -> ~ holds_at nodes0 id i) ->
    exists C N I,
    node_order w nodes0 els0 (m_nodes m) (m_elements m) ic id C N I [] /\
    index_select 0 (boundary_index m) (C ++ N ++ I) = C ++ N /\
    picks (C ++ N) nodes0 (initial_boundary_nodes m).
  Proof.
    intros HX. destruct build_spec as (C & N & I & D & CD & HO & NCD & HCD & Hn & Hb & Hc & Hd).
    assert (D = []).
    { destruct D as [|i D]; auto. exfalso.
      destruct (proj1 (no_D _ _ _ _ _ _ _ _ _ _ _ HO i)) as (H1 & H2); [simpl; auto|].
      eapply HX; eauto. }
    subst D. exists C, N, I. split; auto.
    unfold boundary_index, initial_boundary_nodes, index_select. rewrite Hb. split.
    - replace (C ++ N ++ I) with ([] ++ (C ++ N) ++ I) by (simpl; now rewrite <- app_assoc).
      apply py_slice_mid; simpl; rewrite ?app_length; lia.
    - pose proof (no_picks _ _ _ _ _ _ _ _ _ _ _ HO) as HP. rewrite app_nil_r in HP.
      rewrite app_assoc in HP. unfold picks in HP. apply Forall2_app_inv_l in HP.
      destruct HP as (l1 & l2 & H1 & H2 & E). rewrite E.
      replace (py_slice _ _ _) with l1; auto.
      symmetry. change (l1 ++ l2) with ([] ++ l1 ++ l2). apply py_slice_mid; [reflexivity|].
      simpl. rewrite <- (Forall2_length' _ _ _ H1), app_length. simpl. lia.
  Qed.

  Lemma face_holds_spec nodes pred f :
    (forall i, In i f -> i < List.length nodes) ->
    (face_holds mean nodes pred f <-> pred (mean (map (fun i => nth i nodes zero) f)) = true).
  Proof.
    intros HF. split.
    - intros [ps [Hp H]]. replace (map _ f) with ps; auto.
      clear -Hp. induction Hp; simpl; auto. f_equal; auto. symmetry. now apply nth_error_nth.
    - intros H. exists (map (fun i => nth i nodes zero) f). split; auto.
      apply Forall2_map_r, Forall2_same, Forall_forall. intros i Hi. apply nth_error_nth'. auto.
  Qed.

  (* C06 *)
  Lemma face_classes :
    (forall f, In f (faces_of m "contact") <->
       boundary_face w (m_elements m) f /\ face_holds mean (m_nodes m) ic f) /\
    (forall f, In f (faces_of m "dirichlet") <->
       boundary_face w (m_elements m) f /\ face_holds mean (m_nodes m) id f) /\
    (forall f, In f (faces_of m "neumann") <->
       boundary_face w (m_elements m) f /\ ~ face_holds mean (m_nodes m) ic f
         /\ ~ face_holds mean (m_nodes m) id f) /\
    (forall f, boundary_face w (m_elements m) f ->
       In f (faces_of m "contact") \/ In f (faces_of m "dirichlet") \/ In f (faces_of m "neumann")) /\
    StronglySorted lex_lt (faces_of m "contact") /\
    StronglySorted lex_lt (faces_of m "dirichlet") /\
    StronglySorted lex_lt (faces_of m "neumann").
  Proof.
    destruct (build_built mean zero nodes0 els0 d m w HR HS HB)
      as (keep & n1 & e1 & ic' & id' & B).
    pose proof (bt_ic _ _ _ _ _ _ _ _ _ _ _ B) as E1. pose proof (bt_id _ _ _ _ _ _ _ _ _ _ _ B) as E2.
    rewrite HC in E1. rewrite HD in E2. inversion E1; inversion E2; subst ic' id'.
    rewrite (bt_fc _ _ _ _ _ _ _ _ _ _ _ B), (bt_fd _ _ _ _ _ _ _ _ _ _ _ B), (bt_fn _ _ _ _ _ _ _ _ _ _ _ B).
    rewrite !apply_predicate_filter.
    pose proof (bt_ren _ _ _ _ _ _ _ _ _ _ _ B) as HREN.
    pose proof (ob_simplices _ _ _ _ _ _ w _ _ _ _ _ HS B) as HS1.
    pose proof (ren_simplices _ _ _ _ _ HREN w HS1) as HS2.
    pose proof (ren_in_range _ _ _ _ _ HREN) as HR2.
    rewrite <- (ren_nodes_length _ _ _ _ _ HREN) in HR2.
    assert (HF : forall f, boundary_face w (m_elements m) f ->
              forall i, In i f -> i < List.length (m_nodes m)).
    { intros f Hf i Hi. eapply boundary_node_lt; eauto. exists f; eauto. }
    assert (G : forall pred f, In f (filter (fun s => pred (mean (map (fun i => nth i (m_nodes m) zero) s)))
        (boundary_surfaces (m_elements m))) <->
        boundary_face w (m_elements m) f /\ pred (mean (map (fun i => nth i (m_nodes m) zero) f)) = true).
    { intros pred f. rewrite filter_In, (boundary_surfaces_In w _ HS2). tauto. }
    split; [|split; [|split; [|split]]].
    - intros f. rewrite G. split; intros [H1 H2]; split; auto; apply (face_holds_spec _ _ _ (HF f H1)); auto.
    - intros f. rewrite G. split; intros [H1 H2]; split; auto; apply (face_holds_spec _ _ _ (HF f H1)); auto.
    - intros f. rewrite (G (fun p => negb (ic p) && negb (id p))).
      split; intros [H1 H2]; split; auto;
        rewrite !(face_holds_spec _ _ _ (HF f H1)), !not_true_iff_false in *;
        rewrite andb_true_iff, !negb_true_iff in *; auto.
    - intros f Hf. rewrite (G ic), (G id), (G (fun p => negb (ic p) && negb (id p))).
      destruct (ic _), (id _); auto.
    - repeat split; apply sorted_lex_filter, boundary_surfaces_sorted.
  Qed.

  Lemma mesh_edges :
    StronglySorted lex_lt2 (m_edges m) /\
    (forall i j, In (i, j) (m_edges m) <-> i < j /\ share_element (m_elements m) i j).
  Proof.
    destruct (build_built mean zero nodes0 els0 d m w HR HS HB)
      as (keep & n1 & e1 & ic' & id' & B).
    pose proof (bt_ren _ _ _ _ _ _ _ _ _ _ _ B) as HREN.
    pose proof (ob_simplices _ _ _ _ _ _ w _ _ _ _ _ HS B) as HS1.
    pose proof (ren_simplices _ _ _ _ _ HREN w HS1) as HS2.
    pose proof (ren_in_range _ _ _ _ _ HREN) as HR2.
    rewrite <- (ren_nodes_length _ _ _ _ _ HREN) in HR2.
    rewrite (bt_edges _ _ _ _ _ _ _ _ _ _ _ B). apply edges_list_spec with (w := w); auto.
  Qed.
End Final.

Lemma mesh_node_order (P V : Type) (mean : list P -> P) (zero : P) (nodes : list P)
    (els : list (list nat)) (d : @Description P V) (m : @MeshData P V) (w : nat)
    (contact dirichlet : P -> bool) :
  in_range (List.length nodes) els -> simplices w els ->
  dict_get (indicators d) "contact" = Some contact ->
  dict_get (indicators d) "dirichlet" = Some dirichlet ->
  build mean zero nodes els d = Ok m ->
  exists C N I D, node_order w nodes els (m_nodes m) (m_elements m) contact dirichlet C N I D.
Proof.
  intros HR HS HC HD HB.
  destruct (build_spec mean zero nodes els d m w contact dirichlet HR HS HC HD HB)
    as (C & N & I & D & CD & HO & _). eauto.
Qed.
