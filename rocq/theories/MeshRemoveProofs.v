(* Proofs about remove_unconnected (C01). *)
From Coq Require Import List Arith Bool Lia Sorted Permutation.
From Verif Require Import Common MeshModel MeshSpec ListLemmas.
Import ListNotations.

Lemma in_elements_spec i els : in_elements i els = true <-> referenced els i.
Proof.
  unfold in_elements, referenced. rewrite existsb_exists. split.
  - intros [e [H1 H2]]. apply mem_nat_spec in H2. eauto.
  - intros [e [H1 H2]]. exists e. split; auto. now apply mem_nat_spec.
Qed.

Lemma referenced_in_range n els i : in_range n els -> referenced els i -> i < n.
Proof.
  unfold in_range, referenced. intros H [e [H1 H2]].
  rewrite Forall_forall in H. specialize (H e H1). rewrite Forall_forall in H. auto.
Qed.

Definition lift (d i : nat) : nat := if i <? d then i else S i.
Definition lower (d k : nat) : nat := if d <? k then k - 1 else k.

Lemma lift_lower d k : k <> d -> lift d (lower d k) = k.
Proof. unfold lift, lower. intros H. destruct (Nat.ltb_spec d k);
  [destruct (Nat.ltb_spec (k - 1) d) | destruct (Nat.ltb_spec k d)]; lia. Qed.

Lemma lift_mono d x y : x < y -> lift d x < lift d y.
Proof. unfold lift. intros H. destruct (Nat.ltb_spec x d), (Nat.ltb_spec y d); lia. Qed.

Lemma lift_neq d i : lift d i <> d.
Proof. unfold lift. destruct (Nat.ltb_spec i d); lia. Qed.

Lemma lift_inj d x y : lift d x = lift d y -> x = y.
Proof. unfold lift. destruct (Nat.ltb_spec x d), (Nat.ltb_spec y d); lia. Qed.

Lemma nth_error_lift {A} d i (l : list A) :
  nth_error (remove_nth d l) i = nth_error l (lift d i).
Proof.
  unfold lift. destruct (Nat.ltb_spec i d).
  - now apply nth_error_remove_lt.
  - now apply nth_error_remove_ge.
Qed.

Lemma decrement_above_lower d els : decrement_above d els = map (map (lower d)) els.
Proof. reflexivity. Qed.

Lemma referenced_decrement d els i :
  ~ referenced els d ->
  (referenced (decrement_above d els) i <-> referenced els (lift d i)).
Proof.
  intros ND. rewrite decrement_above_lower. split.
  - intros [e' [H1 H2]]. apply in_map_iff in H1. destruct H1 as [e [<- He]].
    apply in_map_iff in H2. destruct H2 as [k [Hk Hke]]. subst i.
    assert (k <> d) by (intros ->; apply ND; exists e; auto).
    rewrite lift_lower by assumption. exists e; auto.
  - intros [e [H1 H2]]. exists (map (lower d) e). split; [now apply in_map|].
    apply in_map_iff. exists (lift d i). split; [|exact H2].
    apply (lift_inj d). rewrite lift_lower; auto using lift_neq.
Qed.

Lemma in_range_decrement n d els :
  d < n -> in_range n els -> ~ referenced els d -> in_range (n - 1) (decrement_above d els).
Proof.
  intros Hd H ND. unfold in_range in *. rewrite decrement_above_lower.
  rewrite Forall_forall in *. intros e' He'. apply in_map_iff in He'. destruct He' as [e [<- He]].
  apply Forall_forall. intros x Hx. apply in_map_iff in Hx. destruct Hx as [k [<- Hk]].
  specialize (H e He). rewrite Forall_forall in H. specialize (H k Hk).
  assert (k <> d) by (intros ->; apply ND; exists e; auto).
  unfold lower. destruct (Nat.ltb_spec d k); lia.
Qed.

(* the result of the clean-up *)
Definition cleaned {P} (keep : list nat) (nodes nodes' : list P) (els els' : list (list nat)) :=
  StronglySorted lt keep /\
  (forall i, In i keep <-> referenced els i) /\
  picks keep nodes nodes' /\
  relabelled keep els els'.

Lemma nth_error_seq_0 n i : i < n -> nth_error (seq 0 n) i = Some i.
Proof.
  intros H. rewrite nth_error_nth' with (d := 0) by (rewrite seq_length; lia).
  now rewrite seq_nth by lia.
Qed.

Lemma picks_seq {P} (l : list P) : picks (seq 0 (length l)) l l.
Proof.
  apply Forall2_from_nth; [now rewrite seq_length|].
  intros i x y H1 H2.
  assert (i < length l) by (apply nth_error_Some; congruence).
  rewrite nth_error_seq_0 in H1 by assumption. congruence.
Qed.

Lemma relabelled_seq n els : in_range n els -> relabelled (seq 0 n) els els.
Proof.
  intros H. apply Forall2_same. eapply Forall_impl; [|exact H].
  intros e He. apply Forall2_same. eapply Forall_impl; [|exact He].
  intros k Hk. now apply nth_error_seq_0.
Qed.

Lemma remove_loop_cleaned {P} fuel index (nodes : list P) els :
  length nodes - index <= fuel ->
  in_range (length nodes) els ->
  (forall i, i < index -> referenced els i) ->
  let '(nodes', els') := remove_loop fuel index nodes els in
  exists keep, cleaned keep nodes nodes' els els'.
Proof.
  revert index nodes els.
  assert (Base : forall index (nodes : list P) els,
     length nodes <= index -> in_range (length nodes) els ->
     (forall i, i < index -> referenced els i) ->
     exists keep, cleaned keep nodes nodes els els).
  { intros index nodes els HL HR HI. exists (seq 0 (length nodes)).
    split; [apply sorted_lt_seq|]. split; [|split].
    - intros i. rewrite in_seq. split.
      + intros H. apply HI. lia.
      + intros H. pose proof (referenced_in_range _ _ _ HR H). lia.
    - apply picks_seq.
    - now apply relabelled_seq. }
  induction fuel as [|fuel IH]; intros index nodes els HF HR HI.
  - simpl. apply (Base index); auto. lia.
  - simpl. destruct (Nat.ltb_spec index (length nodes)) as [Hlt|Hge]; [|apply (Base index); auto].
    destruct (in_elements index els) eqn:E.
    + apply in_elements_spec in E. apply IH; auto; [lia|].
      intros i Hi. destruct (Nat.eq_dec i index) as [->|]; auto. apply HI. lia.
    + assert (ND : ~ referenced els index) by (rewrite <- in_elements_spec; congruence).
      pose proof (length_remove_nth index nodes Hlt) as HL.
      specialize (IH index (remove_nth index nodes) (decrement_above index els)).
      destruct (remove_loop fuel index (remove_nth index nodes) (decrement_above index els))
        as [nodes' els'].
      destruct IH as [keep [K1 [K2 [K3 K4]]]].
      * lia.
      * replace (length (remove_nth index nodes)) with (length nodes - 1) by lia.
        now apply in_range_decrement.
      * intros i Hi. apply referenced_decrement; auto.
        unfold lift. destruct (Nat.ltb_spec i index); [auto | lia].
      * exists (map (lift index) keep). split; [|split; [|split]].
        -- apply sorted_lt_map; auto using lift_mono.
        -- intros i. rewrite in_map_iff. split.
           ++ intros [x [<- Hx]]. apply K2 in Hx. now apply referenced_decrement in Hx.
           ++ intros Hi. assert (i <> index) by (intros ->; contradiction).
              exists (lower index i). split; [now apply lift_lower|].
              apply K2. apply referenced_decrement; auto. now rewrite lift_lower.
        -- apply Forall2_map_l. eapply Forall2_impl_strong; [exact K3|].
           intros x y _ _ Hxy. now rewrite <- nth_error_lift.
        -- rewrite decrement_above_lower in K4. unfold relabelled in K4.
           rewrite Forall2_map_l in K4.
           eapply Forall2_impl_strong; [exact K4|]. intros e e' He _ Hee.
           rewrite Forall2_map_l in Hee.
           eapply Forall2_impl_strong; [exact Hee|]. intros k k' Hk _ Hkk. simpl in Hkk.
           rewrite nth_error_map, Hkk. simpl. f_equal. apply lift_lower.
           intros ->. apply ND. exists e; auto.
Qed.

Lemma remove_unconnected_cleaned {P} (nodes : list P) els :
  in_range (length nodes) els ->
  let '(nodes', els') := remove_unconnected nodes els in
  exists keep, cleaned keep nodes nodes' els els'.
Proof.
  intros H. apply remove_loop_cleaned; auto; lia.
Qed.

(* consequence: afterwards every node is used and all indices are in range *)
Lemma cleaned_all_referenced {P} keep (nodes nodes' : list P) els els' :
  cleaned keep nodes nodes' els els' ->
  in_range (length nodes') els' /\ forall i, i < length nodes' -> referenced els' i.
Proof.
  intros [K1 [K2 [K3 K4]]]. pose proof (Forall2_length' _ _ _ K3) as HL. split.
  - unfold in_range. apply Forall_forall. intros e' He'. apply Forall_forall. intros k Hk.
    destruct (Forall2_In_r _ _ _ _ K4 He') as [e [He Hee]].
    destruct (Forall2_In_r _ _ _ _ Hee Hk) as [o [Ho Hno]].
    rewrite <- HL. apply nth_error_Some. congruence.
  - intros i Hi. rewrite <- HL in Hi.
    destruct (nth_error keep i) as [o|] eqn:E; [|apply nth_error_None in E; lia].
    pose proof (nth_error_In _ _ E) as Ho. apply K2 in Ho. destruct Ho as [e [He Hoe]].
    destruct (Forall2_In_l _ _ _ _ K4 He) as [e' [He' Hee]].
    destruct (Forall2_In_l _ _ _ _ Hee Hoe) as [k [Hk Hkk]].
    exists e'. split; auto. replace i with k; auto.
    eapply (proj1 (NoDup_nth_error keep)); [now apply sorted_lt_NoDup| |congruence].
    apply nth_error_Some. congruence.
Qed.
