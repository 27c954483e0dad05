(* Finite element matrices of a mesh produced by the mesh construction. *)
From Coq Require Import Reals List Arith ZArith String Bool Lia Lra Permutation.
From Verif Require Import RVec PyModel MeshModel MeshBuildModel MeshSpec MeshBuildProofs ListLemmas
  NormalsProofs FemModel FemSpec FemGeomProofs FemAssemblyProofs FemFormProofs FemBasicProofs
  FemOperatorProofs FemMeshProofs.
Import ListNotations.
Local Open Scope list_scope.
Local Open Scope R_scope.

Lemma Forall2_weaken {A B} (R Q : A -> B -> Prop) l l' :
  (forall a b, R a b -> Q a b) -> Forall2 R l l' -> Forall2 Q l l'.
Proof. intros H HF. induction HF; constructor; auto. Qed.

(* permutations of three and four objects *)
Lemma perm2 {A} (a b : A) l : Permutation [a; b] l -> l = [a; b] \/ l = [b; a].
Proof. intros H. apply Permutation_length_2_inv in H. tauto. Qed.

Lemma perm_head {A} (l : list A) x l' : Permutation l (x :: l') ->
  exists l1 l2, l = l1 ++ x :: l2 /\ Permutation (l1 ++ l2) l'.
Proof.
  intros H. assert (In x l) by (apply (Permutation_in x (Permutation_sym H)); left; reflexivity).
  apply in_split in H0. destruct H0 as (l1 & l2 & ->). exists l1, l2. split; auto.
  apply Permutation_cons_inv with x. rewrite <- H. apply Permutation_middle.
Qed.

Lemma perm3 {A} (a b c : A) l : Permutation [a; b; c] l ->
  In l [[a; b; c]; [a; c; b]; [b; a; c]; [b; c; a]; [c; a; b]; [c; b; a]].
Proof.
  intros H. destruct l as [|x l]; [apply Permutation_length in H; discriminate|].
  destruct (perm_head _ _ _ H) as (l1 & l2 & E & HP).
  destruct l1 as [|a1 l1]; [|destruct l1 as [|a2 l1]; [|destruct l1 as [|a3 l1]]];
    simpl in E; inversion E; subst; simpl in HP.
  - apply perm2 in HP. destruct HP as [->| ->]; simpl; tauto.
  - apply perm2 in HP. destruct HP as [->| ->]; simpl; tauto.
  - apply perm2 in HP. destruct HP as [->| ->]; simpl; tauto.
  - destruct l1; discriminate.
Qed.

Lemma perm4 {A} (a b c d : A) l : Permutation [a; b; c; d] l ->
  exists x t, l = x :: t /\
   ((x = a /\ Permutation [b; c; d] t) \/ (x = b /\ Permutation [a; c; d] t) \/
    (x = c /\ Permutation [a; b; d] t) \/ (x = d /\ Permutation [a; b; c] t)).
Proof.
  intros H. destruct l as [|x l]; [apply Permutation_length in H; discriminate|].
  exists x, l. split; auto.
  destruct (perm_head _ _ _ H) as (l1 & l2 & E & HP).
  destruct l1 as [|a1 l1]; [|destruct l1 as [|a2 l1]; [|destruct l1 as [|a3 l1]; [|destruct l1 as [|a4 l1]]]];
    simpl in E; inversion E; subst; simpl in HP.
  - left; auto.
  - right; left; auto.
  - right; right; left; auto.
  - right; right; right; auto.
  - destruct l1; discriminate.
Qed.

(* geometry only depends on the set of corners *)
Definition at_list (l : list vec) : nat -> vec := fun k => nth k l (fun _ => 0).

Lemma det2_perm l l' : List.length l = 3%nat -> Permutation l l' ->
  det_2d (at_list l') = det_2d (at_list l) \/ det_2d (at_list l') = - det_2d (at_list l).
Proof.
  intros L H. destruct l as [|a [|b [|c [|]]]]; try discriminate. apply perm3 in H. simpl in H.
  unfold det_2d, at_list.
  destruct H as [<-|[<-|[<-|[<-|[<-|[<-|[]]]]]]]; cbn [nth]; [left|right|right|left|left|right]; ring.
Qed.

Lemma det3_perm l l' : List.length l = 4%nat -> Permutation l l' ->
  det_3d (at_list l') = det_3d (at_list l) \/ det_3d (at_list l') = - det_3d (at_list l).
Proof.
  intros L H. destruct l as [|a [|b [|c [|d [|]]]]]; try discriminate.
  destruct (perm4 _ _ _ _ _ H) as (x & t & -> & H'). unfold det_3d, at_list.
  destruct H' as [[-> H']|[[-> H']|[[-> H']|[-> H']]]]; apply perm3 in H'; simpl in H';
    destruct H' as [<-|[<-|[<-|[<-|[<-|[<-|[]]]]]]]; cbn [nth];
    first [left; ring|right; ring].
Qed.

Lemma nth_map_corners nodes e k : (k < List.length e)%nat ->
  corners nodes e k = at_list (map nodes e) k.
Proof.
  intros H. unfold corners, at_list. rewrite (nth_indep _ _ (nodes 0%nat)) by (rewrite map_length; auto).
  symmetry. apply map_nth.
Qed.

Lemma det2_ext x y : (forall k, (k < 3)%nat -> x k = y k) -> det_2d x = det_2d y.
Proof. intros H. unfold det_2d. rewrite !H by lia. reflexivity. Qed.

Lemma det3_ext x y : (forall k, (k < 4)%nat -> x k = y k) -> det_3d x = det_3d y.
Proof. intros H. unfold det_3d. rewrite !H by lia. reflexivity. Qed.

Lemma det2_corners nodes nodes' e e' : List.length e = 3%nat ->
  Permutation (map nodes e) (map nodes' e') ->
  det_2d (corners nodes' e') = det_2d (corners nodes e) \/
  det_2d (corners nodes' e') = - det_2d (corners nodes e).
Proof.
  intros L H. pose proof (Permutation_length H) as L'. rewrite !map_length, L in L'.
  rewrite (det2_ext (corners nodes e) (at_list (map nodes e)))
    by (intros k Hk; apply nth_map_corners; lia).
  rewrite (det2_ext (corners nodes' e') (at_list (map nodes' e')))
    by (intros k Hk; apply nth_map_corners; lia).
  apply det2_perm; auto. rewrite map_length; auto.
Qed.

Lemma det3_corners nodes nodes' e e' : List.length e = 4%nat ->
  Permutation (map nodes e) (map nodes' e') ->
  det_3d (corners nodes' e') = det_3d (corners nodes e) \/
  det_3d (corners nodes' e') = - det_3d (corners nodes e).
Proof.
  intros L H. pose proof (Permutation_length H) as L'. rewrite !map_length, L in L'.
  rewrite (det3_ext (corners nodes e) (at_list (map nodes e)))
    by (intros k Hk; apply nth_map_corners; lia).
  rewrite (det3_ext (corners nodes' e') (at_list (map nodes' e')))
    by (intros k Hk; apply nth_map_corners; lia).
  apply det3_perm; auto. rewrite map_length; auto.
Qed.

(* all nodes of an ordered mesh are used *)
Lemma node_order_referenced {P} w (n0 : list P) e0 n1 e1 c d C N I D :
  node_order w n0 e0 n1 e1 c d C N I D ->
  forall i, (i < List.length n1)%nat -> referenced e1 i.
Proof.
  intros [H1 H2 H3 H4 _ _ _ _ _] i Hi. set (old := C ++ N ++ I ++ D) in *. clearbody old.
  assert (HL : List.length old = List.length n1) by (unfold picks in H3; eapply Forall2_length'; eauto).
  destruct (nth_error old i) as [o|] eqn:E.
  2:{ apply nth_error_None in E. lia. }
  assert (R : referenced e0 o) by (apply H2; eapply nth_error_In; eauto).
  destruct R as (e & He & Ho).
  assert (G : exists e', In e' e1 /\ exists ep, Permutation e ep /\
     Forall2 (fun o n => nth_error old n = Some o) ep e').
  { clear - H4 He. induction H4 as [|a b l l' Hab HF IH]; [destruct He|].
    destruct He as [->|He]; [exists b; simpl; auto|].
    destruct (IH He) as (e' & ? & ?). exists e'. simpl; auto. }
  destruct G as (e' & He' & ep & Hp & HF). exists e'. split; auto.
  assert (Ho' : In o ep) by (eapply Permutation_in; eauto).
  clear - HF Ho' E H1. induction HF as [|a b l l' Hab HF IH]; [destruct Ho'|].
  destruct Ho' as [->|Ho']; [|right; auto]. left.
  eapply (proj1 (NoDup_nth_error old)); eauto; [|congruence].
  apply nth_error_Some. congruence.
Qed.

(* the elements of an ordered mesh have the same corner coordinates as the raw ones *)
Lemma node_order_corners {P} (coord : P -> vec) (zero : P) w (n0 : list P) e0 n1 e1 c d C N I D :
  node_order w n0 e0 n1 e1 c d C N I D ->
  Forall2 (fun e e' => Permutation (map (node_table coord zero n0) e)
                                   (map (node_table coord zero n1) e')) e0 e1.
Proof.
  intros [H1 H2 H3 H4 _ _ _ _ _]. set (old := C ++ N ++ I ++ D) in *. clearbody old.
  unfold relabelled_unordered in H4.
  refine (Forall2_weaken _ _ _ _ _ H4). clear H4.
  intros e e' (ep & Hp & HF). rewrite Hp. clear Hp.
  assert (E : map (node_table coord zero n0) ep = map (node_table coord zero n1) e').
  { induction HF as [|o n l l' Hon HF IH]; [reflexivity|]. simpl. f_equal; auto.
    unfold node_table. f_equal. clear - H3 Hon. unfold picks in H3.
    revert n Hon. induction H3 as [|i p l l' Hip HF IH]; intros n Hn; [destruct n; discriminate|].
    destruct n as [|n]; simpl in *.
    - inversion Hn; subst. apply nth_error_nth with (d := zero) in Hip. auto.
    - auto. }
  rewrite E. reflexivity.
Qed.

Section Build.
  Context {P V : Type}.
  Variables (mean : list P -> P) (zero : P) (nodes0 : list P) (els0 : list (list nat)).
  Variables (d : @Description P V) (m : @MeshData P V) (w : nat) (ic id : P -> bool).
  Variable coord : P -> vec.
  Hypothesis HR : in_range (List.length nodes0) els0.
  Hypothesis HS : simplices (S (S w)) els0.
  Hypothesis HC : dict_get (indicators d) "contact" = Some ic.
  Hypothesis HD : dict_get (indicators d) "dirichlet" = Some id.
  Hypothesis HB : build mean zero nodes0 els0 d = Ok m.

  Let raw := node_table coord zero nodes0.
  Let final := node_table coord zero (m_nodes m).

  Lemma built_order : exists C N I D,
    node_order (S (S w)) nodes0 els0 (m_nodes m) (m_elements m) ic id C N I D.
  Proof.
    destruct (build_spec mean zero nodes0 els0 d m (S (S w)) ic id HR HS HC HD HB)
      as (C & N & I & D & CD & H & _). eauto.
  Qed.

  Lemma built_referenced i : (i < List.length (m_nodes m))%nat -> referenced (m_elements m) i.
  Proof.
    destruct built_order as (C & N & I & D & H). intros Hi.
    eapply node_order_referenced; eauto.
  Qed.

  Lemma built_shape : simplices (S (S w)) (m_elements m) /\
    in_range (List.length (m_nodes m)) (m_elements m).
  Proof. eapply mesh_simplices; eauto. Qed.

  Lemma built_corners : Forall2 (fun e e' => Permutation (map raw e) (map final e')) els0 (m_elements m).
  Proof.
    destruct built_order as (C & N & I & D & H). eapply node_order_corners; eauto.
  Qed.

  Lemma built_lengths : Forall (fun e => List.length e = S (S w)) els0 /\
    Forall (fun e => List.length e = S (S w)) (m_elements m).
  Proof.
    destruct built_shape as [H _]. unfold simplices in *.
    split; [eapply Forall_impl; [|eassumption]; simpl; tauto|].
    eapply Forall_impl; [|eassumption]; simpl; tauto.
  Qed.

  Lemma built_triangles : w = 1%nat ->
    (forall e, In e els0 -> det_2d (corners raw e) <> 0) ->
    triangles (List.length (m_nodes m)) final (m_elements m) /\
    lsum (m_elements m) (element_area final) = lsum els0 (element_area raw).
  Proof.
    intros Hw HN. destruct built_shape as [_ Hr]. destruct built_lengths as [L0 L1].
    rewrite Hw in L0, L1.
    pose proof built_corners as HF. clear - HF HN Hr L0 L1.
    split; [split; [auto|split; [auto|]]|].
    - clear Hr L1. induction HF as [|e e' l l' H HF IH]; [intros x []|]; intros x [<-|Hx].
      + inversion L0; subst. destruct (det2_corners raw final e e' H2 H) as [->| ->];
          specialize (HN e (or_introl eq_refl)); lra.
      + inversion L0; subst. apply IH; auto. intros; apply HN; right; auto.
    - clear Hr L1 HN. induction HF as [|e e' l l' H HF IH]; [reflexivity|]. inversion L0; subst. simpl.
      rewrite IH by auto. f_equal. unfold element_area, area.
      destruct (det2_corners raw final e e' H2 H) as [->| ->]; rewrite ?Rabs_Ropp; reflexivity.
  Qed.

  Lemma built_tetrahedra : w = 2%nat ->
    (forall e, In e els0 -> det_3d (corners raw e) <> 0) ->
    tetrahedra (List.length (m_nodes m)) final (m_elements m) /\
    lsum (m_elements m) (element_volume final) = lsum els0 (element_volume raw).
  Proof.
    intros Hw HN. destruct built_shape as [_ Hr]. destruct built_lengths as [L0 L1].
    rewrite Hw in L0, L1.
    pose proof built_corners as HF. clear - HF HN Hr L0 L1.
    split; [split; [auto|split; [auto|]]|].
    - clear Hr L1. induction HF as [|e e' l l' H HF IH]; [intros x []|]; intros x [<-|Hx].
      + inversion L0; subst. destruct (det3_corners raw final e e' H2 H) as [->| ->];
          specialize (HN e (or_introl eq_refl)); lra.
      + inversion L0; subst. apply IH; auto. intros; apply HN; right; auto.
    - clear Hr L1 HN. induction HF as [|e e' l l' H HF IH]; [reflexivity|]. inversion L0; subst. simpl.
      rewrite IH by auto. f_equal. unfold element_volume, volume.
      destruct (det3_corners raw final e e' H2 H) as [->| ->]; rewrite ?Rabs_Ropp; reflexivity.
  Qed.
End Build.
