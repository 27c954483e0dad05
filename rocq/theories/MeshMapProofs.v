(* Mesh construction commutes with a change of point type.  Used to run concrete
   examples with rational coordinates and transfer them to real coordinates. *)
From Coq Require Import List Arith ZArith String Bool Lia.
From Verif Require Import Common PyModel MeshModel MeshBuildModel MeshBuildProofs.
Import ListNotations.
Local Open Scope string_scope.
Local Open Scope list_scope.

Section Map.
  Context {P Q V : Type}.
  Variable g : P -> Q.
  Variables (meanP : list P -> P) (meanQ : list Q -> Q) (zeroP : P).
  Hypothesis Hmean : forall l, meanQ (map g l) = g (meanP l).
  Notation zeroQ := (g zeroP).

  Lemma set_nth_map (i : nat) x l : set_nth i (g x) (map g l) = map g (set_nth i x l).
  Proof. revert i. induction l as [|y l IH]; intros [|i]; simpl; auto. now rewrite IH. Qed.

  Lemma remove_nth_map i l : remove_nth i (map g l) = map g (remove_nth i l).
  Proof. revert i. induction l as [|y l IH]; intros [|i]; simpl; auto. now rewrite IH. Qed.

  Lemma remove_loop_map fuel : forall i nodes els,
    remove_loop fuel i (map g nodes) els =
    let '(n, e) := remove_loop fuel i nodes els in (map g n, e).
  Proof.
    induction fuel as [|fuel IH]; intros i nodes els; simpl; auto.
    rewrite map_length. destruct (i <? List.length nodes)%nat; auto.
    destruct (in_elements i els); [apply IH|]. rewrite remove_nth_map. apply IH.
  Qed.

  Lemma reorder_numba_map nodes els sel top :
    reorder_numba zeroQ (map g nodes) els sel top =
    let '(n, e, c) := reorder_numba zeroP nodes els sel top in (map g n, e, c).
  Proof.
    unfold reorder_numba. rewrite map_length.
    set (n := List.length nodes). set (change := if top then 1%Z else (-1)%Z).
    set (si := if top then 0%Z else (Z.of_nat n - 1)%Z).
    set (oi := if top then (Z.of_nat n - 1)%Z else 0%Z).
    assert (G : forall idx acc z s o,
      fold_left (reorder_step (map g nodes) sel change zeroQ) idx (map g acc, z, s, o) =
      let '(a, z', s', o') := fold_left (reorder_step nodes sel change zeroP) idx (acc, z, s, o) in
      (map g a, z', s', o')).
    { induction idx as [|i idx IH]; intros acc z s o; simpl; auto.
      rewrite map_nth. destruct (mem_nat i sel); rewrite set_nth_map; apply IH. }
    replace (repeat zeroQ n) with (map g (repeat zeroP n)).
    2:{ clear. induction n; simpl; congruence. }
    rewrite G. destruct (fold_left _ _ _) as [[[a z] s] o]. reflexivity.
  Qed.

  Section Predicate.
    Variables (pp : P -> bool) (pq : Q -> bool).
    Hypothesis Hp : forall p, pq (g p) = pp p.

    Lemma boundary_select_map els nodes :
      apply_predicate_to_boundary_nodes zeroQ els (map g nodes) pq =
      apply_predicate_to_boundary_nodes zeroP els nodes pp.
    Proof.
      unfold apply_predicate_to_boundary_nodes. f_equal. apply map_ext. intros i.
      now rewrite map_nth.
    Qed.

    Lemma face_select_map surfaces nodes :
      apply_predicate_to_surfaces meanQ zeroQ surfaces (map g nodes) pq =
      apply_predicate_to_surfaces meanP zeroP surfaces nodes pp.
    Proof.
      unfold apply_predicate_to_surfaces. f_equal. apply map_ext. intros s.
      rewrite <- Hp, <- Hmean. do 2 f_equal. rewrite map_map. apply map_ext. intros i. apply map_nth.
    Qed.

    Lemma reorder_map nodes els top :
      reorder zeroQ (map g nodes) els pq top =
      let '(n, e, c) := reorder zeroP nodes els pp top in (map g n, e, c).
    Proof. unfold reorder. rewrite boundary_select_map. apply reorder_numba_map. Qed.
  End Predicate.

  Section Contact.
    Variables (cp dp : P -> bool) (cq dq : Q -> bool).
    Hypothesis Hc : forall p, cq (g p) = cp p.
    Hypothesis Hd : forall p, dq (g p) = dp p.

    Lemma reorder_boundary_map nodes els :
      reorder_boundary_nodes zeroQ (map g nodes) els cq dq =
      let '(n, e, a, b, c) := reorder_boundary_nodes zeroP nodes els cp dp in (map g n, e, a, b, c).
    Proof.
      unfold reorder_boundary_nodes.
      rewrite (reorder_map (fun _ => true) (fun _ => true)) by reflexivity.
      destruct (reorder zeroP nodes els _ _) as [[n1 e1] c1].
      rewrite (reorder_map (fun p => negb (cp p) && negb (dp p)) (fun p => negb (cq p) && negb (dq p)))
        by (intros p; now rewrite Hc, Hd).
      destruct (reorder zeroP n1 e1 _ _) as [[n2 e2] c2].
      rewrite (reorder_map cp cq) by exact Hc.
      destruct (reorder zeroP n2 e2 _ _) as [[n3 e3] c3].
      rewrite (reorder_map dp dq) by exact Hd.
      destruct (reorder zeroP n3 e3 _ _) as [[n4 e4] c4]. reflexivity.
    Qed.
  End Contact.

  Definition ind_rel (a : string * (P -> bool)) (b : string * (Q -> bool)) : Prop :=
    fst a = fst b /\ forall p, snd b (g p) = snd a p.
  Definition cond_rel (a : string * (list P -> V)) (b : string * (list Q -> V)) : Prop :=
    fst a = fst b /\ forall l, snd b (map g l) = snd a l.

  Lemma ind_get ip iq k : Forall2 ind_rel ip iq ->
    match dict_get ip k, dict_get iq k with
    | Some a, Some b => forall p, b (g p) = a p
    | None, None => True
    | _, _ => False
    end.
  Proof.
    induction 1 as [|[k1 a] [k2 b] l l' [E1 E2] HF IH]; simpl; auto. simpl in E1, E2. subst k2.
    destruct (String.eqb k k1); auto.
  Qed.

  Lemma cond_get ip iq k : Forall2 cond_rel ip iq ->
    match dict_get ip k, dict_get iq k with
    | Some a, Some b => forall p, b (map g p) = a p
    | None, None => True
    | _, _ => False
    end.
  Proof.
    induction 1 as [|[k1 a] [k2 b] l l' [E1 E2] HF IH]; simpl; auto. simpl in E1, E2. subst k2.
    destruct (String.eqb k k1); auto.
  Qed.

  Lemma py_slice_map a b (l : list P) : py_slice a b (map g l) = map g (py_slice a b l).
  Proof. unfold py_slice. now rewrite map_length, skipn_map, firstn_map. Qed.

  Lemma index_select_map i (l : list P) :
    index_select zeroQ i (map g l) = map g (index_select zeroP i l).
  Proof.
    destruct i as [a b|idx]; simpl; [apply py_slice_map|].
    rewrite map_map. apply map_ext. intros k. apply map_nth.
  Qed.

  Lemma other_map surfaces nodes cp cq : Forall2 cond_rel cp cq ->
    forall ip iq, Forall2 ind_rel ip iq ->
    other_boundaries meanQ zeroQ surfaces (map g nodes) cq iq =
    other_boundaries meanP zeroP surfaces nodes cp ip.
  Proof.
    intros HC. induction 1 as [|[k1 a] [k2 b] l l' [E1 E2] HF IH]; simpl; auto.
    simpl in E1, E2. subst k2. destruct (_ || _)%bool; auto.
    rewrite (face_select_map a b) by exact E2.
    destruct (extract_unique_indices _) as [|i0 il]; auto.
    unfold dict_item. pose proof (cond_get cp cq k1 HC) as HG.
    destruct (dict_get cp k1) as [c|], (dict_get cq k1) as [c'|]; try tauto; simpl; auto.
    rewrite IH. destruct (other_boundaries meanP _ _ _ _ _); simpl; auto.
    rewrite <- HG. do 6 f_equal. simpl. rewrite map_nth. f_equal. rewrite map_map. apply map_ext.
    intros k. apply map_nth.
  Qed.

  Definition map_mesh (m : @MeshData P V) : @MeshData Q V :=
    mkMesh (map g (m_nodes m)) (m_elements m) (m_boundaries m) (m_internal m) (m_edges m).

  (* construction commutes with g *)
  Lemma build_map nodes els (dp : @Description P V) (dq : @Description Q V) m :
    Forall2 ind_rel (indicators dp) (indicators dq) ->
    Forall2 cond_rel (conditions dp) (conditions dq) ->
    build meanP zeroP nodes els dp = Ok m ->
    build meanQ zeroQ (map g nodes) els dq = Ok (map_mesh m).
  Proof.
    intros HI HC. unfold build, remove_unconnected. rewrite map_length, remove_loop_map.
    destruct (remove_loop _ _ _ _) as [un ue]. unfold identify_boundaries, dict_item.
    pose proof (ind_get _ _ "contact" HI) as H1. pose proof (ind_get _ _ "dirichlet" HI) as H2.
    pose proof (cond_get _ _ "dirichlet" HC) as H3.
    destruct (dict_get (indicators dp) "contact") as [cp|],
      (dict_get (indicators dq) "contact") as [cq|]; try tauto; simpl; try discriminate.
    destruct (dict_get (indicators dp) "dirichlet") as [ep|],
      (dict_get (indicators dq) "dirichlet") as [eq|]; try tauto; simpl; try discriminate.
    rewrite (reorder_boundary_map cp ep cq eq H1 H2).
    destruct (reorder_boundary_nodes zeroP un ue cp ep) as [[[[n e] bc] cc] dc].
    destruct (dict_get (conditions dp) "dirichlet") as [fp|],
      (dict_get (conditions dq) "dirichlet") as [fq|]; try tauto; simpl; try discriminate.
    rewrite (other_map _ _ _ _ HC _ _ HI).
    destruct (other_boundaries meanP _ _ _ _ _) as [others|]; simpl; try discriminate.
    destruct (existsb _ others); simpl; try discriminate.
    intros E. inversion E; subst m; clear E.
    rewrite (face_select_map cp cq H1), (face_select_map ep eq H2),
      (face_select_map (fun p => negb (cp p) && negb (ep p)) (fun p => negb (cq p) && negb (eq p)))
      by (intros p; now rewrite H1, H2).
    rewrite map_length, py_slice_map, H3. unfold map_mesh. cbn [m_nodes m_elements m_boundaries m_internal m_edges].
    reflexivity.
  Qed.
End Map.
