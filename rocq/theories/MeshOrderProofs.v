(* Proofs about the final node order of a mesh (C04, C05, C10). *)
From Coq Require Import List Arith ZArith Bool Lia Sorted Permutation.
From Verif Require Import Common MeshModel MeshSpec ListLemmas MeshRemoveProofs
  MeshReorderProofs MeshFacesProofs.
Import ListNotations.

(* ------------------------------------------- boundary nodes under renumbering *)

Fixpoint pos_of (x : nat) (l : list nat) : nat :=
  match l with
  | [] => 0
  | y :: t => if x =? y then 0 else S (pos_of x t)
  end.

Lemma pos_of_nth x l : In x l -> nth_error l (pos_of x l) = Some x.
Proof.
  induction l as [|y l IH]; simpl; [tauto|]. intros H.
  destruct (Nat.eqb_spec x y); [now subst|]. destruct H; [congruence|]. now apply IH.
Qed.

Lemma pos_of_unique l i x : NoDup l -> nth_error l i = Some x -> pos_of x l = i.
Proof.
  intros ND H. apply (proj1 (NoDup_nth_error l)); auto.
  - apply nth_error_Some. rewrite pos_of_nth; [discriminate|]. eapply nth_error_In; eauto.
  - rewrite H. apply pos_of_nth. eapply nth_error_In; eauto.
Qed.

Lemma NoDup_map_in {A B} (g : A -> B) l :
  (forall x y, In x l -> In y l -> g x = g y -> x = y) -> NoDup l -> NoDup (map g l).
Proof.
  intros Hg H. induction H as [|x l Hx Hl IH]; simpl; constructor.
  - intros C. apply in_map_iff in C. destruct C as [y [Hy Hin]].
    apply Hx. replace x with y; auto. apply Hg; simpl; auto.
  - apply IH. intros; apply Hg; simpl; auto.
Qed.

Lemma sort_nat_NoDup l : NoDup l -> NoDup (sort_nat l).
Proof. intros H. eapply Permutation_NoDup; [apply Permutation_sym, sort_nat_perm|auto]. Qed.

(* image of a mesh under an injective renaming of the nodes *)
Lemma boundary_transport w (g : nat -> nat) els els' i :
  (forall x y, referenced els x -> referenced els y -> g x = g y -> x = y) ->
  Forall2 (fun e e' => Permutation (map g e) e') els els' ->
  boundary_node w els i -> boundary_node w els' (g i).
Proof.
  intros Hinj HF (f & (Sf & Lf & k & e & Hk & I & U) & Hi).
  assert (Re : forall k e x, nth_error els k = Some e -> In x e -> referenced els x).
  { intros k0 e0 x H0 H1. apply nth_error_In in H0. exists e0. auto. }
  assert (Rf : forall x, In x f -> referenced els x) by (intros x Hx; apply (Re k e); auto).
  assert (NDf : NoDup (map g f)).
  { apply NoDup_map_in; [|now apply sorted_lt_NoDup]. intros; apply Hinj; auto. }
  exists (sort_nat (map g f)). split; [|apply In_sort_nat, in_map; auto].
  split; [now apply sort_nat_lt|]. split; [rewrite length_sort_nat, map_length; auto|].
  destruct (Forall2_nth_error _ _ _ _ _ HF Hk) as [e' [Hk' He']].
  exists k, e'. split; auto. split.
  - intros x Hx. apply In_sort_nat, in_map_iff in Hx. destruct Hx as [y [<- Hy]].
    eapply Permutation_in; [exact He'|]. apply in_map. auto.
  - intros k2 e2' Hk2 I2. apply (Forall2_nth_error_r _ _ _ _ _ HF) in Hk2.
    destruct Hk2 as [e2 [Hk2 He2]]. apply (U k2 e2); auto.
    intros x Hx. assert (Hgx : In (g x) e2').
    { apply I2, In_sort_nat, in_map. auto. }
    apply (Permutation_in _ (Permutation_sym He2)) in Hgx. apply in_map_iff in Hgx.
    destruct Hgx as [y [Hy Hin]]. replace x with y; auto.
    apply Hinj; auto. eapply Re; eauto.
Qed.

(* -------- a mesh rebuilt from the nodes [old] of another one (not all of them) *)
Section Rebuilt.
  Variables (old : list nat) (els els' : list (list nat)).
  Hypothesis ND : NoDup old.
  Hypothesis HE : relabelled_unordered old els els'.

  Lemma reb_elements :
    Forall2 (fun e e' => Permutation (map (fun x => pos_of x old) e) e' /\ Permutation (map (fun j => nth j old 0) e') e /\ Forall (fun k => k < length old) e' /\ Forall (fun x => In x old) e) els els'.
  Proof.
    eapply Forall2_impl_strong; [exact HE|].
    intros e e' He _ [e0 [Hp Hf]].
    assert (E1 : map (fun x => pos_of x old) e0 = e').
    { clear -Hf ND. induction Hf; simpl; auto. f_equal; auto.
      apply pos_of_unique; auto. }
    assert (E2 : map (fun j => nth j old 0) e' = e0).
    { clear -Hf. induction Hf; simpl; auto. f_equal; auto.
      now apply nth_error_nth. }
    split; [|split; [|split]].
    - rewrite <- E1. now apply Permutation_map.
    - rewrite E2. now apply Permutation_sym.
    - rewrite Forall_forall. intros k Hk. destruct (Forall2_In_r _ _ _ _ Hf Hk) as [o [_ Ho]].
      apply nth_error_Some. congruence.
    - rewrite Forall_forall. intros k Hk. apply (Permutation_in _ Hp) in Hk.
      destruct (Forall2_In_l _ _ _ _ Hf Hk) as [o [_ Ho]]. eapply nth_error_In; eauto.
  Qed.

  Lemma reb_in_range : in_range (length old) els'.
  Proof.
    unfold in_range. rewrite Forall_forall. intros e' He'.
    destruct (Forall2_In_r _ _ _ _ reb_elements He') as [e [_ [_ [_ [H _]]]]]. exact H.
  Qed.

  Lemma reb_referenced x : referenced els x -> In x old.
  Proof.
    intros [e [He Hx]]. destruct (Forall2_In_l _ _ _ _ reb_elements He) as [e' [_ [_ [_ [_ H]]]]].
    rewrite Forall_forall in H. auto.
  Qed.

  Lemma reb_referenced' j : referenced els' j -> j < length old.
  Proof.
    intros [e [He Hx]]. pose proof reb_in_range as H. unfold in_range in H.
    rewrite Forall_forall in H. specialize (H e He). rewrite Forall_forall in H. auto.
  Qed.

  Lemma reb_simplices w : simplices w els -> simplices w els'.
  Proof.
    unfold simplices. rewrite !Forall_forall. intros HS e' He'.
    destruct (Forall2_In_r _ _ _ _ reb_elements He') as [e [He [_ [Hp _]]]].
    destruct (HS e He) as [L NDe]. split.
    - rewrite <- L, <- (Permutation_length Hp). now rewrite map_length.
    - apply (NoDup_map_inv (fun j => nth j old 0)).
      eapply Permutation_NoDup; [apply Permutation_sym, Hp|auto].
  Qed.

  Lemma reb_boundary w j i : nth_error old j = Some i ->
    (boundary_node w els' j <-> boundary_node w els i).
  Proof.
    intros Hj. assert (Ei : nth j old 0 = i) by (now apply nth_error_nth).
    split; intros H.
    - rewrite <- Ei. apply (boundary_transport w (fun j => nth j old 0) els' els); auto.
      + intros x y Hx Hy E. apply (proj1 (NoDup_nth old 0) ND); auto using reb_referenced'.
      + pose proof reb_elements as E. clear -E. induction E; constructor; tauto.
    - replace j with (pos_of i old) by (now apply pos_of_unique).
      apply (boundary_transport w (fun x => pos_of x old) els els'); auto.
      + intros x y Hx Hy E. apply reb_referenced, pos_of_nth in Hx.
        apply reb_referenced, pos_of_nth in Hy. congruence.
      + pose proof reb_elements as E. clear -E. induction E; constructor; tauto.
  Qed.
End Rebuilt.

Section Renumbered.
  Context {P : Type}.
  Variables (old : list nat) (nodes nodes' : list P) (els els' : list (list nat)).
  Hypothesis HN : renumbering_unordered old nodes nodes' els els'.
  Let n := length nodes.
  Let phi j := nth j old 0.

  Lemma ren_NoDup : NoDup old.
  Proof. eapply Permutation_NoDup; [apply Permutation_sym, (proj1 HN)|apply seq_NoDup]. Qed.

  Lemma ren_length : length old = n.
  Proof. rewrite (Permutation_length (proj1 HN)). apply seq_length. Qed.

  Lemma ren_In x : In x old <-> x < n.
  Proof.
    split; intros H.
    - apply (Permutation_in _ (proj1 HN)), in_seq in H. unfold n. lia.
    - apply (Permutation_in _ (Permutation_sym (proj1 HN))), in_seq. unfold n in H. lia.
  Qed.

  Lemma ren_phi j : j < n -> nth_error old j = Some (phi j).
  Proof. intros H. apply nth_error_nth'. now rewrite ren_length. Qed.

  Lemma ren_phi_lt j : j < n -> phi j < n.
  Proof. intros H. apply ren_In. apply nth_In. now rewrite ren_length. Qed.

  Lemma ren_phi_inj j k : j < n -> k < n -> phi j = phi k -> j = k.
  Proof.
    intros. apply (proj1 (NoDup_nth old 0) ren_NoDup); auto; now rewrite ren_length.
  Qed.

  Lemma ren_in_range : in_range n els'.
  Proof. rewrite <- ren_length. apply (reb_in_range old els els'); [apply ren_NoDup|apply HN]. Qed.

  Lemma ren_simplices w : simplices w els -> simplices w els'.
  Proof. apply (reb_simplices old els els'); [apply ren_NoDup|apply HN]. Qed.

  Lemma ren_boundary w j : j < n -> (boundary_node w els' j <-> boundary_node w els (phi j)).
  Proof.
    intros Hj. apply (reb_boundary old els els'); [apply ren_NoDup|apply HN|now apply ren_phi].
  Qed.

  Lemma ren_nodes_length : length nodes' = n.
  Proof.
    destruct HN as [_ [HP _]]. rewrite <- (Forall2_length' _ _ _ HP). apply ren_length.
  Qed.

  Lemma ren_nodes j : j < n -> nth_error nodes' j = nth_error nodes (phi j).
  Proof.
    intros Hj. destruct HN as [_ [HP _]].
    destruct (Forall2_nth_error _ _ _ _ _ HP (ren_phi j Hj)) as [p [H1 H2]]. congruence.
  Qed.
End Renumbered.

Lemma boundary_node_lt n w els i : in_range n els -> boundary_node w els i -> i < n.
Proof.
  intros HR (f & (_ & _ & k & e & Hk & I & _) & Hi).
  unfold in_range in HR. rewrite Forall_forall in HR. apply nth_error_In in Hk.
  specialize (HR _ Hk). rewrite Forall_forall in HR. auto.
Qed.

(* the same mesh with sorted rows *)
Lemma sort_renumber {P} old (nodes nodes' : list P) els els' :
  renumbering_unordered old nodes nodes' els els' ->
  renumbering_unordered old nodes nodes' els (sort_elements els').
Proof.
  intros (HP & HK & HE). split; [|split]; auto.
  unfold relabelled_unordered, sort_elements. apply Forall2_map_r.
  eapply Forall2_impl_strong; [exact HE|]. intros e e' _ _ [e0 [Hp Hf]].
  assert (E2 : map (fun j => nth j old 0) e' = e0).
  { clear -Hf. induction Hf; simpl; auto. f_equal; auto. now apply nth_error_nth. }
  exists (map (fun j => nth j old 0) (sort_nat e')). split.
  - rewrite Hp, <- E2. apply Permutation_map, Permutation_sym, sort_nat_perm.
  - apply Forall2_map_l. apply Forall2_same. rewrite Forall_forall. intros j Hj.
    apply nth_error_nth'. apply (proj1 (In_sort_nat _ _)) in Hj.
    destruct (Forall2_In_r _ _ _ _ Hf Hj) as [o [_ Ho]].
    apply nth_error_Some. congruence.
Qed.

(* composition of renumberings *)
Lemma renumber_compose {P} old p (n0 n1 n2 : list P) e0 e1 e2 :
  in_range (length n0) e0 ->
  renumbering_unordered old n0 n1 e0 e1 ->
  renumbering p n1 n2 e1 e2 ->
  renumbering_unordered (map (fun j => nth j old 0) p) n0 n2 e0 e2.
Proof.
  intros HR H1 (HP2 & HK2 & HE2).
  pose proof (ren_length _ _ _ _ _ H1) as L1.
  pose proof (ren_nodes_length _ _ _ _ _ H1) as L2.
  assert (Hp : forall j, In j p -> j < length n0).
  { intros j Hj. apply (Permutation_in _ HP2), in_seq in Hj. lia. }
  split; [|split].
  - rewrite (Permutation_map _ HP2), L2.
    replace (map (fun j => nth j old 0) (seq 0 (length n0))) with old; [apply H1|].
    rewrite <- L1. clear. apply nth_ext with (d := 0) (d' := nth 0 old 0).
    + now rewrite map_length, seq_length.
    + intros i Hi. rewrite (map_nth (fun j => nth j old 0)). rewrite seq_nth by assumption.
      reflexivity.
  - unfold picks. apply Forall2_map_l. eapply Forall2_impl_strong; [exact HK2|].
    intros j q Hj _ Hq. rewrite <- Hq. symmetry.
    apply (ren_nodes _ _ _ _ _ H1). auto.
  - destruct H1 as (_ & _ & HE1). unfold relabelled_unordered, relabelled in *.
    clear - HE1 HE2. revert e2 HE2.
    induction HE1 as [|a b e0 e1 Hab HE1 IH]; intros e2 HE2; inversion HE2; subst; constructor; auto.
    destruct Hab as [a0 [Hp Hf]]. exists a0. split; auto.
    clear - Hf H1. rename H1 into Hg. revert y Hg.
    induction Hf as [|u v a0 b Huv Hf IH]; intros y Hg; inversion Hg; subst; constructor; auto.
    rewrite nth_error_map, H1. simpl. f_equal. now apply nth_error_nth.
Qed.

Lemma map_filter_comm {A B} (g : A -> B) (q : B -> bool) (q' : A -> bool) l :
  (forall x, In x l -> q' x = q (g x)) -> map g (filter q' l) = filter q (map g l).
Proof.
  induction l as [|x l IH]; intros H; simpl; auto.
  rewrite (H x) by (simpl; auto). destruct (q (g x)); simpl; rewrite IH; auto; intros; apply H; simpl; auto.
Qed.

Section Order.
  Context {P : Type}.
  Variables (zero : P) (nodes0 : list P) (els0 : list (list nat)) (w : nat).
  Hypothesis HR : in_range (length nodes0) els0.
  Hypothesis HS : simplices w els0.
  Let n := length nodes0.

  (* predicate restricted to boundary nodes, on original indices *)
  Definition on_boundary (i : nat) : bool := mem_nat i (boundary_indices els0).
  Definition sel (pred : P -> bool) (i : nat) : bool :=
    on_boundary i && pred (nth i nodes0 zero).

  Lemma on_boundary_spec i : on_boundary i = true <-> boundary_node w els0 i.
  Proof. unfold on_boundary. rewrite mem_nat_spec. now apply boundary_indices_In. Qed.

  Lemma holds_at_spec pred i : i < n -> holds_at nodes0 pred i <-> pred (nth i nodes0 zero) = true.
  Proof.
    intros Hi. unfold holds_at. split.
    - intros [p [Hp H]]. now rewrite (nth_error_nth _ _ _ Hp).
    - intros H. exists (nth i nodes0 zero). split; auto. now apply nth_error_nth'.
  Qed.

  Lemma sel_spec pred i : sel pred i = true <-> boundary_node w els0 i /\ holds_at nodes0 pred i.
  Proof.
    unfold sel. rewrite andb_true_iff, on_boundary_spec. split; intros [H1 H2]; split; auto.
    - apply holds_at_spec; auto. eapply boundary_node_lt; eauto.
    - apply holds_at_spec in H2; auto. eapply boundary_node_lt; eauto.
  Qed.

  Definition next_order (q : nat -> bool) (to_top : bool) (old : list nat) : list nat :=
    if to_top then filter q old ++ rev (filter (fun i => negb (q i)) old)
    else filter (fun i => negb (q i)) old ++ rev (filter q old).

  Lemma selected_spec old nodes els pred :
    renumbering_unordered old nodes0 nodes els0 els ->
    apply_predicate_to_boundary_nodes zero els nodes pred =
    filter (fun j => sel pred (nth j old 0)) (seq 0 n).
  Proof.
    intros H. unfold apply_predicate_to_boundary_nodes. rewrite select_mask_filter.
    pose proof (ren_simplices _ _ _ _ _ H w HS) as HS'.
    pose proof (ren_in_range _ _ _ _ _ H) as HR'.
    apply sorted_lt_unique.
    - apply sorted_lt_filter, boundary_indices_sorted.
    - apply sorted_lt_filter, sorted_lt_seq.
    - intros j. rewrite !filter_In, (boundary_indices_In w els HS').
      split; intros [H1 H2].
      + assert (Hj : j < n) by (eapply boundary_node_lt; eauto).
        split; [apply in_seq; lia|]. unfold sel. apply andb_true_iff. split.
        * apply on_boundary_spec. apply (ren_boundary old nodes0 nodes els0 els); auto.
        * rewrite <- H2. f_equal. pose proof (ren_nodes _ _ _ _ _ H j Hj) as E.
          erewrite nth_error_nth; [reflexivity|]. rewrite <- E. apply nth_error_nth'.
          rewrite (ren_nodes_length _ _ _ _ _ H). exact Hj.
      + apply in_seq in H1. assert (Hj : j < n) by lia. unfold sel in H2.
        apply andb_true_iff in H2. destruct H2 as [H2 H3]. split.
        * apply (ren_boundary old nodes0 nodes els0 els); auto. now apply on_boundary_spec.
        * rewrite <- H3. f_equal. pose proof (ren_nodes _ _ _ _ _ H j Hj) as E.
          symmetry. erewrite nth_error_nth; [reflexivity|]. rewrite <- E. apply nth_error_nth'.
          rewrite (ren_nodes_length _ _ _ _ _ H). exact Hj.
  Qed.

  Lemma map_nth_seq (l : list nat) : map (fun j => nth j l 0) (seq 0 (length l)) = l.
  Proof.
    induction l as [|x l IH]; simpl; auto. f_equal. rewrite <- seq_shift, map_map. exact IH.
  Qed.

  Lemma reorder_pass old nodes els pred to_top :
    renumbering_unordered old nodes0 nodes els0 els ->
    let '(nodes', els', cnt) := reorder zero nodes els pred to_top in
    renumbering_unordered (next_order (sel pred) to_top old) nodes0 nodes' els0 els' /\
    cnt = length (filter (sel pred) (seq 0 n)).
  Proof.
    intros H. unfold reorder. rewrite (selected_spec old nodes els pred H).
    set (q := fun j => sel pred (nth j old 0)).
    pose proof (sort_renumber _ _ _ _ _ H) as H'.
    pose proof (ren_in_range _ _ _ _ _ H') as HR'.
    pose proof (ren_nodes_length _ _ _ _ _ H) as L.
    pose proof (ren_length _ _ _ _ _ H) as LO.
    pose proof (reorder_numba_spec zero nodes (sort_elements els) (filter q (seq 0 n)) to_top) as S.
    rewrite L in S. specialize (S HR').
    destruct (reorder_numba _ _ _ _ _) as [[nodes' els'] cnt]. destruct S as [S1 S2].
    split.
    - pose proof (renumber_compose _ _ _ _ _ _ _ _ HR H' S1) as C.
      replace (next_order (sel pred) to_top old)
        with (map (fun j => nth j old 0)
               (pass_order n (goes_up (filter q (seq 0 n)) to_top))); [exact C|].
      assert (M : forall j, In j (seq 0 n) -> mem_nat j (filter q (seq 0 n)) = sel pred (nth j old 0)).
      { intros j Hj. change (sel pred (nth j old 0)) with (q j).
        destruct (q j) eqn:E.
        - apply mem_nat_spec, filter_In. auto.
        - apply mem_nat_false. rewrite filter_In. intros [_ C']. congruence. }
      unfold pass_order, next_order, goes_up. rewrite map_app, map_rev.
      assert (EO : map (fun j => nth j old 0) (seq 0 n) = old).
      { unfold n. rewrite <- LO. apply map_nth_seq. }
      assert (K : forall q1 q2, (forall j, In j (seq 0 n) -> q2 j = q1 (nth j old 0)) ->
         map (fun j => nth j old 0) (filter q2 (seq 0 n)) = filter q1 old).
      { intros q1 q2 HQ. rewrite (map_filter_comm _ q1 _ _ HQ). now rewrite EO. }
      destruct to_top; f_equal; try f_equal; apply K; intros j Hj; rewrite (M j Hj); auto.
      now rewrite negb_involutive.
    - rewrite S2. rewrite <- (map_length (fun j => nth j old 0)).
      rewrite (map_filter_comm (fun j => nth j old 0) (sel pred)) by reflexivity.
      apply Permutation_length, Permutation_filter.
      replace (map _ (seq 0 n)) with old by (unfold n; rewrite <- LO; symmetry; apply map_nth_seq).
      apply H.
  Qed.

  Variables is_contact is_dirichlet : P -> bool.
  Let c i := is_contact (nth i nodes0 zero).
  Let d i := is_dirichlet (nth i nodes0 zero).
  Let b := on_boundary.
  Let pick f := filter f (seq 0 n).

  Definition contact_block := pick (fun i => b i && c i && negb (d i)).
  Definition neumann_block := pick (fun i => b i && negb (c i) && negb (d i)).
  Definition interior_block := pick (fun i => negb (b i)).
  Definition dirichlet_block :=
    pick (fun i => b i && negb (c i) && d i) ++ rev (pick (fun i => b i && c i && d i)).

  Definition final_order := contact_block ++ neumann_block ++ interior_block ++ dirichlet_block.

  Lemma next_orders :
    next_order (sel is_dirichlet) false
     (next_order (sel is_contact) true
       (next_order (sel (fun p => negb (is_contact p) && negb (is_dirichlet p))) false
         (next_order (sel (fun _ => true)) true (seq 0 n)))) = final_order.
  Proof.
    unfold next_order.
    repeat rewrite ?filter_app, ?filter_rev, ?rev_app_distr, ?rev_involutive, ?filter_filter.
    unfold final_order, contact_block, neumann_block, interior_block, dirichlet_block, pick.
    unfold sel. fold b.
    assert (E : forall (f g : nat -> bool), (forall i, f i = g i) ->
                filter f (seq 0 n) = filter g (seq 0 n)) by (intros; now apply filter_ext).
    assert (Z : forall (f : nat -> bool), (forall i, f i = false) -> filter f (seq 0 n) = []).
    { intros; apply filter_nil; auto. }
    repeat match goal with
    | |- context [filter ?f (seq 0 n)] =>
        match f with
        | fun _ => _ => rewrite (Z f) by
           (intros i; fold (c i) (d i); destruct (b i), (c i), (d i); reflexivity)
        end
    end.
    simpl. rewrite ?app_nil_r. rewrite <- ?app_assoc.
    repeat (f_equal; try (apply E; intros i; fold (c i) (d i); destruct (b i), (c i), (d i); reflexivity)).
  Qed.

  Lemma identity_renumbering : renumbering_unordered (seq 0 n) nodes0 nodes0 els0 els0.
  Proof.
    split; [reflexivity|]. split; [apply picks_seq|].
    pose proof (relabelled_seq n els0 HR) as H. unfold relabelled_unordered, relabelled in *.
    eapply Forall2_impl_strong; [exact H|]. intros e e' _ _ He. exists e. split; auto.
  Qed.

  Lemma reorder_boundary_nodes_spec :
    let '(nodes, els, bc, cc, dc) :=
      reorder_boundary_nodes zero nodes0 els0 is_contact is_dirichlet in
    renumbering_unordered final_order nodes0 nodes els0 els /\
    bc = length (pick b) /\
    cc = length (pick (fun i => b i && c i)) /\
    dc = length (pick (fun i => b i && d i)).
  Proof.
    unfold reorder_boundary_nodes.
    pose proof (reorder_pass _ _ _ (fun _ => true) true identity_renumbering) as H1.
    destruct (reorder _ _ _ _ _) as [[n1 e1] c1]. destruct H1 as [H1 E1].
    pose proof (reorder_pass _ _ _ (fun p => negb (is_contact p) && negb (is_dirichlet p)) false H1) as H2.
    destruct (reorder zero n1 _ _ _) as [[n2 e2] c2]. destruct H2 as [H2 E2].
    pose proof (reorder_pass _ _ _ is_contact true H2) as H3.
    destruct (reorder zero n2 _ _ _) as [[n3 e3] c3]. destruct H3 as [H3 E3].
    pose proof (reorder_pass _ _ _ is_dirichlet false H3) as H4.
    destruct (reorder zero n3 _ _ _) as [[n4 e4] c4]. destruct H4 as [H4 E4].
    rewrite next_orders in H4. split; [exact H4|].
    subst. unfold pick, sel, b, c, d. repeat split.
    f_equal. apply filter_ext. intros i. now rewrite andb_true_r.
  Qed.
End Order.
