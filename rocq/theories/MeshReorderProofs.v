(* Proofs about reorder_numba (C02). *)
From Coq Require Import List Arith ZArith Bool Lia Sorted Permutation.
From Verif Require Import Common MeshModel MeshSpec ListLemmas MeshRemoveProofs.
Import ListNotations.

Section Pass.
  Variable n : nat.
  Variable up : nat -> bool.
  Let dn k := negb (up k).

  (* new position of old index k *)
  Definition newpos (k : nat) : nat :=
    if up k then length (filter up (seq 0 k))
    else n - 1 - length (filter dn (seq 0 k)).

  (* old index at each new position *)
  Definition pass_order : list nat := filter up (seq 0 n) ++ rev (filter dn (seq 0 n)).

  Lemma filter_seq_split f k : k < n ->
    filter f (seq 0 n) =
    filter f (seq 0 k) ++ (if f k then [k] else []) ++ filter f (seq (S k) (n - S k)).
  Proof.
    intros H. replace n with (k + S (n - S k)) at 1 by lia.
    rewrite seq_app, filter_app. simpl. destruct (f k); reflexivity.
  Qed.

  Lemma filter_len_S f k :
    length (filter f (seq 0 (S k))) = length (filter f (seq 0 k)) + (if f k then 1 else 0).
  Proof.
    rewrite seq_S, filter_app, app_length. simpl. destruct (f k); reflexivity.
  Qed.

  Lemma up_dn_total m : length (filter up (seq 0 m)) + length (filter dn (seq 0 m)) = m.
  Proof. unfold dn. rewrite filter_seq_length_split. apply seq_length. Qed.

  Lemma pass_order_newpos k : k < n -> nth_error pass_order (newpos k) = Some k.
  Proof.
    intros H. unfold pass_order, newpos. destruct (up k) eqn:E.
    - rewrite nth_error_app1.
      + rewrite (filter_seq_split up k H), E. rewrite nth_error_app2 by lia.
        now rewrite Nat.sub_diag.
      + rewrite (filter_seq_split up k H), E, !app_length. simpl. lia.
    - pose proof (up_dn_total n) as T.
      assert (D : dn k = true) by (unfold dn; now rewrite E).
      pose proof (filter_seq_split dn k H) as SD. rewrite D in SD.
      pose proof (f_equal (@length nat) SD) as LD. rewrite !app_length in LD. simpl in LD.
      rewrite nth_error_app2 by lia.
      set (r := length (filter dn (seq 0 k))) in *.
      set (l := filter dn (seq 0 n)) in *.
      rewrite nth_error_nth' with (d := 0) by (rewrite rev_length; lia).
      rewrite rev_nth by lia. f_equal.
      replace (length l - S (n - 1 - r - length (filter up (seq 0 n)))) with r by lia.
      apply nth_error_nth with (d := 0). rewrite SD. rewrite nth_error_app2 by (unfold r; lia).
      fold r. now rewrite Nat.sub_diag.
  Qed.

  Lemma pass_order_perm : Permutation pass_order (seq 0 n).
  Proof.
    unfold pass_order. rewrite <- Permutation_rev. apply filter_partition_perm.
  Qed.

  Lemma pass_order_length : length pass_order = n.
  Proof. rewrite (Permutation_length pass_order_perm). apply seq_length. Qed.

  Lemma newpos_lt k : k < n -> newpos k < n.
  Proof.
    intros H. rewrite <- pass_order_length. apply nth_error_Some.
    rewrite pass_order_newpos by assumption. discriminate.
  Qed.

  Lemma newpos_inj k k' : k < n -> k' < n -> newpos k = newpos k' -> k = k'.
  Proof.
    intros H H' E. pose proof (pass_order_newpos k H) as A.
    pose proof (pass_order_newpos k' H') as B. congruence.
  Qed.

  Lemma dn_len_lt k : k < n -> up k = false -> length (filter dn (seq 0 k)) < n.
  Proof.
    intros H E. pose proof (up_dn_total k). lia.
  Qed.
End Pass.

Section Reorder.
  Context {P : Type}.
  Variables (zero : P) (unordered : list P) (els0 : list (list nat)).
  Variables (selected : list nat) (to_top : bool).
  Let n := length unordered.
  Definition goes_up (k : nat) : bool :=
    if to_top then mem_nat k selected else negb (mem_nat k selected).

  Definition enc (m k : nat) : Z :=
    if k <? m then Z.of_nat (newpos n goes_up k) else (- Z.of_nat k - 1)%Z.

  Definition inv (m : nat) (st : reorder_state (P := P)) : Prop :=
    let '(nodes, zels, si, oi) := st in
    let u := Z.of_nat (length (filter goes_up (seq 0 m))) in
    let d := (Z.of_nat n - 1 - Z.of_nat (length (filter (fun k => negb (goes_up k)) (seq 0 m))))%Z in
    length nodes = n /\
    (forall k, k < m -> nth_error nodes (newpos n goes_up k) = nth_error unordered k) /\
    zels = map (map (enc m)) els0 /\
    si = (if to_top then u else d) /\
    oi = (if to_top then d else u).

  Lemma decode_enc m :
    decode_index m (Z.of_nat (newpos n goes_up m)) (map (map (enc m)) els0) =
    map (map (enc (S m))) els0.
  Proof.
    unfold decode_index. rewrite map_map. apply map_ext. intros e.
    rewrite map_map. apply map_ext. intros k. unfold enc.
    destruct (Nat.ltb_spec k m), (Nat.ltb_spec k (S m)); try lia.
    - destruct (Z.eqb_spec (Z.of_nat (newpos n goes_up k)) (- Z.of_nat m - 1)); [lia|reflexivity].
    - assert (k = m) by lia. subst. now rewrite Z.eqb_refl.
    - destruct (Z.eqb_spec (- Z.of_nat k - 1) (- Z.of_nat m - 1)); [lia|reflexivity].
  Qed.

  Lemma step_inv m st : m < n -> inv m st ->
    inv (S m) (reorder_step unordered selected (if to_top then 1 else -1)%Z zero st m).
  Proof.
    intros Hm. destruct st as [[[nodes zels] si] oi].
    intros (HL & HN & HE & HS & HO).
    set (u := length (filter goes_up (seq 0 m))) in *.
    set (d := length (filter (fun k => negb (goes_up k)) (seq 0 m))) in *.
    pose proof (up_dn_total goes_up m) as T. fold u in T.
    change (length (filter (fun k => negb (goes_up k)) (seq 0 m))) with d in T.
    assert (NP : forall z : Z,
       z = (if goes_up m then Z.of_nat u else (Z.of_nat n - 1 - Z.of_nat d)%Z) ->
       z = Z.of_nat (newpos n goes_up m)).
    { intros z ->. unfold newpos. fold u. unfold d.
      destruct (goes_up m); [reflexivity|]. fold d. lia. }
    assert (G : forall (z : Z) si' oi',
       z = (if goes_up m then Z.of_nat u else (Z.of_nat n - 1 - Z.of_nat d)%Z) ->
       si' = (if to_top then Z.of_nat (length (filter goes_up (seq 0 (S m))))
              else (Z.of_nat n - 1 - Z.of_nat (length (filter (fun k => negb (goes_up k)) (seq 0 (S m)))))%Z) ->
       oi' = (if to_top then (Z.of_nat n - 1 - Z.of_nat (length (filter (fun k => negb (goes_up k)) (seq 0 (S m)))))%Z
              else Z.of_nat (length (filter goes_up (seq 0 (S m))))) ->
       inv (S m) (set_nth (Z.to_nat z) (nth m unordered zero) nodes, decode_index m z zels, si', oi')).
    { intros z si' oi' Hz Hs Ho. apply NP in Hz. subst z. rewrite Nat2Z.id.
      split; [now rewrite length_set_nth|]. split; [|split; [|split]].
      - intros k Hk. destruct (Nat.eq_dec k m) as [->|Hne].
        + rewrite nth_error_set_nth_eq by (rewrite HL; now apply newpos_lt).
          symmetry. apply nth_error_nth'. exact Hm.
        + rewrite nth_error_set_nth_neq; [apply HN; lia|].
          intros E. apply Hne. symmetry. apply (newpos_inj n goes_up); auto. lia.
      - subst zels. apply decode_enc.
      - exact Hs.
      - exact Ho. }
    rewrite !filter_len_S in G. fold u d in G.
    unfold reorder_step.
    assert (GU : goes_up m = if to_top then mem_nat m selected else negb (mem_nat m selected)) by reflexivity.
    destruct (mem_nat m selected) eqn:E; apply G; subst si oi; rewrite GU;
      destruct to_top; simpl; lia.
  Qed.

  Lemma enc_0 : encode els0 = map (map (enc 0)) els0.
  Proof. reflexivity. Qed.

  Lemma loop_inv m : m <= n ->
    inv m (fold_left (reorder_step unordered selected (if to_top then 1 else -1)%Z zero)
             (seq 0 m)
             (repeat zero n, encode els0,
              if to_top then 0%Z else (Z.of_nat n - 1)%Z,
              if to_top then (Z.of_nat n - 1)%Z else 0%Z)).
  Proof.
    induction m as [|m IH]; intros Hm.
    - simpl. split; [apply repeat_length|]. split; [intros; lia|]. split; [apply enc_0|].
      destruct to_top; split; lia.
    - rewrite seq_S, fold_left_app. simpl. apply step_inv; [lia|]. apply IH. lia.
  Qed.

  Lemma reorder_numba_spec :
    in_range n els0 ->
    let '(nodes', els', cnt) := reorder_numba zero unordered els0 selected to_top in
    renumbering (pass_order n goes_up) unordered nodes' els0 els' /\
    cnt = length selected.
  Proof.
    intros HR. unfold reorder_numba. pose proof (loop_inv n (le_n n)) as H.
    fold n. simpl in *.
    destruct (fold_left _ _ _) as [[[nodes zels] si] oi].
    destruct H as (HL & HN & HE & _ & _).
    split; [|reflexivity]. split; [apply pass_order_perm|]. split.
    - apply Forall2_from_nth.
      + rewrite pass_order_length. now rewrite HL.
      + intros i o p Ho Hp.
        assert (Hon : o < n).
        { apply nth_error_In in Ho. apply (Permutation_in _ (pass_order_perm n goes_up)) in Ho.
          apply in_seq in Ho. lia. }
        assert (i = newpos n goes_up o).
        { apply (proj1 (NoDup_nth_error (pass_order n goes_up))).
          - eapply Permutation_NoDup; [apply Permutation_sym, pass_order_perm|apply seq_NoDup].
          - apply nth_error_Some. congruence.
          - rewrite pass_order_newpos by assumption. exact Ho. }
        subst i. rewrite HN in Hp by assumption. exact Hp.
    - subst zels. unfold relabelled. rewrite !map_map. apply Forall2_map_r.
      apply Forall2_same. eapply Forall_impl; [|exact HR]. intros e He.
      rewrite map_map. apply Forall2_map_r. apply Forall2_same.
      eapply Forall_impl; [|exact He]. intros k Hk. unfold enc.
      destruct (Nat.ltb_spec k n); [|unfold n in *; lia].
      rewrite Nat2Z.id. now apply pass_order_newpos.
  Qed.
End Reorder.

Lemma goes_up_order n selected to_top :
  exists a b, pass_order n (goes_up selected to_top) = a ++ b /\
    StronglySorted lt a /\ StronglySorted lt (rev b) /\
    (forall i, i < n -> (In i (if to_top then a else b) <-> In i selected)).
Proof.
  unfold pass_order. eexists _, _. split; [reflexivity|]. rewrite rev_involutive.
  split; [apply sorted_lt_filter, sorted_lt_seq|].
  split; [apply sorted_lt_filter, sorted_lt_seq|].
  intros i Hi. rewrite <- (mem_nat_spec i selected). unfold goes_up. destruct to_top.
  - rewrite filter_In, in_seq. split; [tauto|]. intros; split; [lia|auto].
  - rewrite <- in_rev, filter_In, in_seq, negb_involutive. split; [tauto|]. intros; split; [lia|auto].
Qed.

Lemma reorder_numba_pass (P : Type) (zero : P) (nodes : list P) (els : list (list nat))
    (selected : list nat) (to_top : bool) :
  in_range (length nodes) els ->
  let '(nodes', els', count) := reorder_numba zero nodes els selected to_top in
  exists old,
    renumbering old nodes nodes' els els' /\
    (exists a b, old = a ++ b /\ StronglySorted lt a /\ StronglySorted lt (rev b) /\
       (forall i, i < length nodes -> (In i (if to_top then a else b) <-> In i selected))) /\
    count = length selected.
Proof.
  intros H. pose proof (reorder_numba_spec zero nodes els selected to_top H) as S.
  destruct (reorder_numba zero nodes els selected to_top) as [[n1 e1] c]. destruct S as [S1 S2].
  exists (pass_order (length nodes) (goes_up selected to_top)). split; auto. split; auto.
  apply goes_up_order.
Qed.
