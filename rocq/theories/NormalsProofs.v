(* Proofs for the outer normals (C07) and for complete Mesh construction (C61, C63). *)
From Coq Require Import Reals List Arith ZArith String Bool Lia Lra Sorted Permutation.
From Verif Require Import Common PyModel MeshModel MeshSpec MeshBuildModel NormalsModel NormalsSpec
  ListLemmas MeshRemoveProofs MeshReorderProofs MeshFacesProofs MeshOrderProofs MeshBuildProofs
  MeshTotalProofs.
Import ListNotations.
Local Open Scope string_scope.
Local Open Scope list_scope.

(* ------------------------------------------------------ np.unique(axis=1) *)

Lemma insert_row_min r l : Forall (lex_lt r) l -> insert_row r l = r :: l.
Proof.
  intros H. destruct l as [|s l]; simpl; auto. inversion H; subst.
  destruct (row_eqb r s) eqn:E.
  - apply row_eqb_spec in E. subst. exfalso. now apply (lex_lt_irrefl s).
  - now rewrite (proj2 (lex_ltb_spec r s)).
Qed.

Lemma unique_rows_id l : StronglySorted lex_lt l -> unique_rows l = l.
Proof.
  induction 1 as [|r l Hs IH Hf]; simpl; auto.
  change (insert_row r (unique_rows l) = r :: l). rewrite IH. now apply insert_row_min.
Qed.

Lemma map_nth_seq {A} (l : list A) d : map (fun i => nth i l d) (seq 0 (List.length l)) = l.
Proof.
  induction l as [|x l IH]; simpl; auto. f_equal. rewrite <- seq_shift, map_map. exact IH.
Qed.

Lemma unique_columns_id w rows :
  Forall (fun r => List.length r = S w /\ StronglySorted lt r) rows ->
  unique_columns rows = rows.
Proof.
  intros H. destruct rows as [|r0 rest] eqn:E; [reflexivity|]. rewrite <- E in *.
  assert (L0 : List.length (nth 0 rows []) = S w).
  { subst rows. inversion H; simpl; tauto. }
  unfold unique_columns.
  assert (HT : transpose rows = map (fun j => map (fun r => nth j r 0) rows) (seq 0 (S w))).
  { unfold transpose. now rewrite L0. }
  rewrite unique_rows_id.
  - rewrite HT. unfold transpose.
    replace (List.length (nth 0 _ [])) with (List.length rows).
    2:{ change (seq 0 (S w)) with (0 :: seq 1 w). cbn [map nth]. now rewrite map_length. }
    transitivity (map (fun i => nth i rows []) (seq 0 (List.length rows))); [|apply map_nth_seq].
    apply map_ext_in. intros i Hi. apply in_seq in Hi.
    rewrite map_map. rewrite Forall_forall in H.
    destruct (H (nth i rows [])) as [HL _]; [apply nth_In; lia|].
    transitivity (map (fun j => nth j (nth i rows []) 0) (seq 0 (S w)));
      [|rewrite <- HL; apply map_nth_seq].
    apply map_ext. intros j.
    rewrite nth_indep with (d' := nth j [] 0); [|rewrite map_length; lia].
    now rewrite map_nth with (f := fun r => nth j r 0).
  - rewrite HT. subst rows. inversion H as [|? ? [HL HS] _]; subst.
    assert (G : forall n a, a + n <= S w ->
      StronglySorted lex_lt (map (fun j => map (fun r => nth j r 0) (r0 :: rest)) (seq a n))).
    { induction n as [|n IH]; intros a Ha; [constructor|]. simpl. constructor.
      - apply IH. lia.
      - apply Forall_forall. intros c Hc. apply in_map_iff in Hc.
        destruct Hc as [j [Ej Hj]]. subst c. apply in_seq in Hj. simpl. constructor.
        clear - HS Hj HL Ha. revert a j Hj Ha. assert (L : forall a j, a < j < List.length r0 -> nth a r0 0 < nth j r0 0).
        { clear HL. induction HS as [|x l Hs IH Hf]; intros a j Hj; simpl in *; [lia|].
          destruct j as [|j]; [lia|]. destruct a as [|a].
          - rewrite Forall_forall in Hf. apply Hf, nth_In. lia.
          - apply IH. lia. }
        intros a j Hj Ha. apply L. lia. }
    apply (G (S w) 0). lia.
Qed.

(* ------------------------------------------------------------ broadcasting *)

Lemma broadcast_nth {A B} (l : list A) (r : list B) ps k a b :
  broadcast l r = Ok ps -> nth_error l k = Some a -> nth_error r k = Some b ->
  nth_error ps k = Some (a, b).
Proof.
  assert (G : forall (l : list A) (r : list B) k a b,
    nth_error l k = Some a -> nth_error r k = Some b -> nth_error (combine l r) k = Some (a, b)).
  { clear. induction l as [|x l IH]; intros r k a b Ha Hb.
    - destruct k; discriminate.
    - destruct r as [|y r]; [destruct k; discriminate|]. destruct k; simpl in *; [congruence|auto]. }
  intros HB Ha Hb. unfold broadcast in HB.
  destruct l as [|a0 [|a1 l]].
  - destruct k; discriminate.
  - inversion HB; subst. destruct k as [|[|k]]; simpl in Ha; try discriminate. inversion Ha; subst.
    now rewrite nth_error_map, Hb.
  - destruct r as [|b0 [|b1 r]].
    + destruct k; discriminate.
    + inversion HB; subst. destruct k as [|[|k]]; simpl in Hb; try discriminate. inversion Hb; subst.
      simpl in *. congruence.
    + match type of HB with (if ?c then _ else _) = _ => destruct c end; [|discriminate].
      injection HB as <-. exact (G (a0 :: a1 :: l) (b0 :: b1 :: r) k a b Ha Hb).
Qed.

Lemma broadcast_ok {A B} (l : list A) (r : list B) :
  List.length l = List.length r -> exists ps, broadcast l r = Ok ps.
Proof.
  intros E. unfold broadcast.
  destruct l as [|a0 [|a1 l]]; destruct r as [|b0 [|b1 r]]; simpl in *; try discriminate; eauto.
  replace (List.length l =? List.length r)%nat with true; eauto. symmetry. apply Nat.eqb_eq. lia.
Qed.

Lemma broadcast_err {A B} (l : list A) (r : list B) :
  1 < List.length r < List.length l -> broadcast l r = Err ValueError.
Proof.
  intros E. unfold broadcast.
  destruct l as [|a0 [|a1 l]]; destruct r as [|b0 [|b1 r]]; simpl in *; try lia.
  replace (List.length l =? List.length r)%nat with false; auto. symmetry. apply Nat.eqb_neq. lia.
Qed.

(* ---------------------------------------------------- mesh facts *)

Lemma filter_classes {A} (c d : A -> bool) l :
  List.length (filter c l) + List.length (filter (fun x => negb (c x) && negb (d x)) l)
    + List.length (filter d l) =
  List.length l + List.length (filter (fun x => c x && d x) l).
Proof.
  induction l as [|x l IH]; simpl; auto. destruct (c x), (d x); simpl; lia.
Qed.

Lemma filter_first {A} (R : A -> A -> Prop) (p : A -> bool) l :
  (forall x, ~ R x x) -> (forall x y z, R x y -> R y z -> R x z) ->
  StronglySorted R l ->
  (forall x y, In x l -> In y l -> p x = true -> p y = false -> R x y) ->
  filter p l = firstn (List.length (filter p l)) l.
Proof.
  intros HI HT. induction 1 as [|x l Hs IH Hf]; intros H; simpl; auto.
  destruct (p x) eqn:E; simpl.
  - f_equal. apply IH. intros; apply H; simpl; auto.
  - assert (Z : filter p l = []); [|now rewrite Z].
    destruct (filter p l) as [|y t] eqn:Ef; auto. exfalso.
    assert (Hy : In y (filter p l)) by (rewrite Ef; simpl; auto).
    apply filter_In in Hy. destruct Hy as [Hy Py].
    rewrite Forall_forall in Hf. apply (HI x). apply HT with y; auto.
    apply H; simpl; auto.
Qed.

Section MeshNormals.
  Context {P V : Type}.
  Variables (zero : P) (psub : P -> P -> P) (pdot : P -> P -> R) (pscale : R -> P -> P).
  Variable unoriented : list P -> P * P.
  Variable mean : list P -> P.
  Variables (nodes0 : list P) (els0 : list (list nat)) (d : @Description P V).
  Variables (m : @MeshData P V) (w : nat).
  Hypothesis HR : in_range (List.length nodes0) els0.
  Hypothesis HS : simplices (S (S w)) els0.
  Hypothesis HB : build mean zero nodes0 els0 d = Ok m.

  Notation bnormals := (mesh_normals zero psub pdot pscale unoriented m).

  Lemma mesh_simplices : simplices (S (S w)) (m_elements m) /\
    in_range (List.length (m_nodes m)) (m_elements m).
  Proof.
    destruct (build_built mean zero nodes0 els0 d m _ HR HS HB) as (keep & n1 & e1 & ic & id & B).
    destruct (bt_ren _ _ _ _ _ _ _ _ _ _ _ B) as (HPm & HP & HE).
    pose proof (cleaned_simplices _ _ _ _ _ _ (bt_clean _ _ _ _ _ _ _ _ _ _ _ B) HS) as HS1.
    set (old := final_order zero n1 e1 ic id) in *. clearbody old.
    assert (HL : List.length (m_nodes m) = List.length old) by (symmetry; unfold picks in HP; eapply Forall2_length'; eauto).
    split.
    - apply Forall_forall. intros e' He'. apply In_nth_error in He'. destruct He' as [k Hk].
      assert (G : exists e, In e e1 /\ exists e0', Permutation e e0' /\
          Forall2 (fun o n => nth_error old n = Some o) e0' e').
      { clear - HE Hk. revert k Hk. induction HE as [|a b l l' H HE IH]; intros k Hk.
        - destruct k; discriminate.
        - destruct k; simpl in Hk.
          + inversion Hk; subst. exists a. simpl. eauto.
          + destruct (IH k Hk) as [e [H1 H2]]. exists e. simpl. eauto. }
      destruct G as [e [Hin [e0' [Hperm HF]]]].
      unfold simplices in HS1. rewrite Forall_forall in HS1. destruct (HS1 e Hin) as [L N]. split.
      + apply Forall2_length' in HF. rewrite <- HF. rewrite <- L. symmetry. now apply Permutation_length.
      + assert (N0 : NoDup e0') by (eapply Permutation_NoDup; eauto).
        clear - HF N0. induction HF as [|o n l l' H HF IH]; constructor.
        * intros Hn. inversion N0; subst. apply H2.
          clear - HF H Hn. induction HF as [|o' n' l l' H' HF IH]; simpl in *; [tauto|].
          destruct Hn as [->|Hn]; [left; congruence|right; auto].
        * apply IH. now inversion N0.
    - apply Forall_forall. intros e' He'. apply Forall_forall. intros n Hn.
      rewrite HL. apply In_nth_error in He'. destruct He' as [k Hk].
      clear - HE Hk Hn. revert k Hk. induction HE as [|a b l l' H HE IH]; intros k Hk.
      + destruct k; discriminate.
      + destruct k; simpl in Hk; [|now apply (IH k)]. inversion Hk; subst.
        destruct H as [e0' [_ HF]]. clear - HF Hn.
        induction HF as [|o n' l l' H' HF IH]; simpl in *; [tauto|].
        destruct Hn as [->|Hn]; auto. apply nth_error_Some. congruence.
  Qed.

  Lemma faces_filter k : k = "contact" \/ k = "dirichlet" \/ k = "neumann" ->
    exists p, faces_of m k = filter p (boundary_surfaces (m_elements m)).
  Proof.
    destruct (build_built mean zero nodes0 els0 d m _ HR HS HB) as (keep & n1 & e1 & ic & id & B).
    intros [->|[->| ->]].
    - rewrite (bt_fc _ _ _ _ _ _ _ _ _ _ _ B), apply_predicate_filter. eauto.
    - rewrite (bt_fd _ _ _ _ _ _ _ _ _ _ _ B), apply_predicate_filter. eauto.
    - rewrite (bt_fn _ _ _ _ _ _ _ _ _ _ _ B), apply_predicate_filter. eauto.
  Qed.

  Lemma boundary_rows :
    Forall (fun r => List.length r = S w /\ StronglySorted lt r) (boundary_surfaces (m_elements m)).
  Proof.
    apply Forall_forall. intros f Hf. apply (boundary_surfaces_In (S (S w))) in Hf; [|apply mesh_simplices].
    destruct Hf as (H1 & H2 & _). split; [lia|auto].
  Qed.

  Lemma stacked_id : unique_columns (stacked_surfaces m) = stacked_surfaces m.
  Proof.
    apply unique_columns_id with w. unfold stacked_surfaces.
    assert (G : forall k, k = "contact" \/ k = "dirichlet" \/ k = "neumann" ->
      Forall (fun r => List.length r = S w /\ StronglySorted lt r) (faces_of m k)).
    { intros k Hk. destruct (faces_filter k Hk) as [p ->]. pose proof boundary_rows as H.
      rewrite Forall_forall in *. intros f Hf. apply filter_In in Hf. now apply H. }
    rewrite !Forall_app. repeat split; apply G; tauto.
  Qed.

  Lemma internal_length :
    List.length (m_internal m) = List.length (boundary_surfaces (m_elements m)).
  Proof.
    destruct (build_built mean zero nodes0 els0 d m _ HR HS HB) as (keep & n1 & e1 & ic & id & B).
    rewrite (bt_int _ _ _ _ _ _ _ _ _ _ _ B). unfold boundary_internal_indices, boundary_surfaces.
    now rewrite !map_length.
  Qed.

  (* k-th contact normal: face k, but the opposing node of the k-th face of the whole list *)
  Lemma normal_nth ns k f n :
    bnormals = Ok ns -> nth_error (faces_of m "contact") k = Some f ->
    nth_error (contact_normals m ns) k = Some n ->
    exists o, nth_error (m_internal m) k = Some o /\
      n = oriented psub pdot pscale unoriented (map (fun i => nth i (m_nodes m) zero) f)
            (nth o (m_nodes m) zero).
  Proof.
    intros HN Hf Hn. unfold mesh_normals, surfaces_normals in HN. rewrite stacked_id in HN.
    destruct (broadcast _ _) as [ps|] eqn:EB; [|discriminate]. inversion HN; subst ns. clear HN.
    assert (Hk : k < List.length (faces_of m "contact")) by (apply nth_error_Some; congruence).
    assert (Hk' : k < List.length (m_internal m)).
    { rewrite internal_length. destruct (faces_filter "contact" (or_introl eq_refl)) as [p E].
      rewrite E in Hk. assert (F : forall (l : list (list nat)), List.length (filter p l) <= List.length l).
      { induction l as [|x l IH]; simpl; auto. destruct (p x); simpl; lia. }
      specialize (F (boundary_surfaces (m_elements m))). lia. }
    apply nth_error_Some in Hk'. destruct (nth_error (m_internal m) k) as [o|] eqn:Eo; [|congruence].
    exists o. split; auto.
    assert (Hs : nth_error (stacked_surfaces m) k = Some f).
    { unfold stacked_surfaces. rewrite nth_error_app1; auto. }
    pose proof (broadcast_nth _ _ _ _ _ _ EB Hs Eo) as HP.
    unfold contact_normals in Hn.
    assert (G : forall (l : list P) c j, j < c -> nth_error (firstn c l) j = nth_error l j).
    { clear. induction l as [|x l IH]; intros c j H; destruct c, j; simpl; auto; try lia. apply IH. lia. }
    rewrite G in Hn; auto. rewrite nth_error_map, HP in Hn. simpl in Hn. congruence.
  Qed.

  (* contact faces come first among all boundary faces *)
  Lemma internal_opposing (ic : P -> bool) k f o :
    dict_get (indicators d) "contact" = Some ic ->
    (forall f g, boundary_face (S (S w)) (m_elements m) f -> boundary_face (S (S w)) (m_elements m) g ->
       face_holds mean (m_nodes m) ic f -> ~ face_holds mean (m_nodes m) ic g -> lex_lt f g) ->
    nth_error (faces_of m "contact") k = Some f -> nth_error (m_internal m) k = Some o ->
    opposing (m_elements m) f o.
  Proof.
    intros Hic HF Hf Ho.
    destruct (build_built mean zero nodes0 els0 d m _ HR HS HB) as (keep & n1 & e1 & ic' & id & B).
    pose proof (bt_ic _ _ _ _ _ _ _ _ _ _ _ B) as E. rewrite Hic in E. inversion E; subst ic'.
    destruct mesh_simplices as [HSm HRm].
    destruct (boundary_faces_spec _ _ HSm) as (S1 & S2 & S3 & _).
    assert (HL : forall f, boundary_face (S (S w)) (m_elements m) f ->
      forall i, In i f -> i < List.length (m_nodes m)).
    { intros g (_ & _ & k' & e & Hk & Hin & _) i Hi.
      unfold in_range in HRm. rewrite Forall_forall in HRm.
      apply nth_error_In in Hk. specialize (HRm e Hk). rewrite Forall_forall in HRm. auto. }
    rewrite (bt_fc _ _ _ _ _ _ _ _ _ _ _ B), apply_predicate_filter in Hf.
    set (p := fun s => ic (mean (map (fun i => nth i (m_nodes m) zero) s))) in *.
    assert (G : nth_error (boundary_surfaces (m_elements m)) k = Some f).
    { rewrite (filter_first lex_lt) in Hf.
      - revert Hf. generalize (List.length (filter p (boundary_surfaces (m_elements m)))).
        generalize (boundary_surfaces (m_elements m)). clear. revert k.
        induction k as [|k IH]; intros [|x l] [|c]; simpl; try discriminate; auto. apply IH.
      - apply lex_lt_irrefl.
      - apply lex_lt_trans.
      - exact S3.
      - intros x y Hx Hy Px Py. apply S2 in Hx, Hy. apply HF; auto.
        + apply (face_holds_spec _ zero); eauto.
        + rewrite (face_holds_spec _ zero); eauto. unfold p in Py. congruence. }
    rewrite (bt_int _ _ _ _ _ _ _ _ _ _ _ B) in Ho.
    apply S1. unfold boundary_surfaces, boundary_internal_indices in *.
    rewrite combine_fst_snd. rewrite nth_error_map in G, Ho.
    destruct (nth_error (boundary_faces (m_elements m)) k) as [[f' o']|] eqn:E'; [|discriminate].
    simpl in *. inversion G; inversion Ho; subst. eapply nth_error_In; eauto.
  Qed.

  (* C61/C63: the normals exist iff no boundary face is both contact and Dirichlet *)
  Section Both.
    Variables (ic id : P -> bool).
    Hypothesis Hic : dict_get (indicators d) "contact" = Some ic.
    Hypothesis Hid : dict_get (indicators d) "dirichlet" = Some id.

    Lemma stacked_length :
      List.length (stacked_surfaces m) =
      List.length (m_internal m) +
      List.length (filter (fun s => let p := mean (map (fun i => nth i (m_nodes m) zero) s) in
                             ic p && id p) (boundary_surfaces (m_elements m))).
    Proof.
      destruct (build_built mean zero nodes0 els0 d m _ HR HS HB) as (keep & n1 & e1 & ic' & id' & B).
      pose proof (bt_ic _ _ _ _ _ _ _ _ _ _ _ B) as E. rewrite Hic in E. inversion E; subst ic'.
      pose proof (bt_id _ _ _ _ _ _ _ _ _ _ _ B) as E'. rewrite Hid in E'. inversion E'; subst id'.
      unfold stacked_surfaces.
      rewrite (bt_fc _ _ _ _ _ _ _ _ _ _ _ B), (bt_fd _ _ _ _ _ _ _ _ _ _ _ B),
        (bt_fn _ _ _ _ _ _ _ _ _ _ _ B), !apply_predicate_filter, !app_length, internal_length.
      pose proof (filter_classes
        (fun s => ic (mean (map (fun i => nth i (m_nodes m) zero) s)))
        (fun s => id (mean (map (fun i => nth i (m_nodes m) zero) s)))
        (boundary_surfaces (m_elements m))) as H. cbn zeta in *. lia.
    Qed.

    Lemma both_nil :
      (forall f, boundary_face (S (S w)) (m_elements m) f ->
         face_holds mean (m_nodes m) ic f -> ~ face_holds mean (m_nodes m) id f) <->
      filter (fun s => let p := mean (map (fun i => nth i (m_nodes m) zero) s) in
                       ic p && id p) (boundary_surfaces (m_elements m)) = [].
    Proof.
      destruct mesh_simplices as [HSm HRm].
      assert (HL : forall f, boundary_face (S (S w)) (m_elements m) f ->
        forall i, In i f -> i < List.length (m_nodes m)).
      { intros g (_ & _ & k' & e & Hk & Hin & _) i Hi.
        unfold in_range in HRm. rewrite Forall_forall in HRm.
        apply nth_error_In in Hk. specialize (HRm e Hk). rewrite Forall_forall in HRm. auto. }
      split; intros H.
      - destruct (filter _ _) as [|f t] eqn:E; auto. exfalso.
        assert (Hf : In f (f :: t)) by (simpl; auto). rewrite <- E in Hf.
        apply filter_In in Hf. destruct Hf as [Hf Hp]. cbn zeta in Hp. apply andb_true_iff in Hp.
        apply (boundary_surfaces_In (S (S w))) in Hf; auto.
        destruct Hp. apply (H f Hf); apply (face_holds_spec _ zero); eauto.
      - intros f Hf H1 H2. rewrite (face_holds_spec _ zero) in H1, H2; eauto.
        assert (K : In f []); [|destruct K]. rewrite <- H. apply filter_In. split.
        + now apply (boundary_surfaces_In (S (S w))).
        + cbn zeta. now rewrite H1, H2.
    Qed.

    Lemma normals_total :
      (forall f, boundary_face (S (S w)) (m_elements m) f ->
         face_holds mean (m_nodes m) ic f -> ~ face_holds mean (m_nodes m) id f) ->
      exists ns, bnormals = Ok ns /\ List.length ns = List.length (boundary_surfaces (m_elements m)).
    Proof.
      intros H. apply both_nil in H. pose proof stacked_length as HL. rewrite H in HL.
      unfold mesh_normals, surfaces_normals. rewrite stacked_id.
      destruct (broadcast_ok (stacked_surfaces m) (m_internal m)) as [ps Hps]; [simpl in HL; lia|].
      rewrite Hps. simpl. eexists. split; [reflexivity|]. rewrite map_length, <- internal_length.
      assert (G : List.length (stacked_surfaces m) = List.length (m_internal m)) by (simpl in HL; lia).
      clear - Hps G. unfold broadcast in Hps.
      destruct (stacked_surfaces m) as [|a [|a' l]]; destruct (m_internal m) as [|b [|b' r]];
        simpl in *; try discriminate; try (inversion Hps; subst; simpl; auto; fail).
      replace (List.length l =? List.length r)%nat with true in Hps by (symmetry; apply Nat.eqb_eq; lia).
      inversion Hps; subst. simpl. rewrite combine_length. lia.
    Qed.

    Lemma normals_fail :
      1 < List.length (boundary_surfaces (m_elements m)) ->
      (exists f, boundary_face (S (S w)) (m_elements m) f /\
         face_holds mean (m_nodes m) ic f /\ face_holds mean (m_nodes m) id f) ->
      bnormals = Err ValueError.
    Proof.
      intros H1 [f (Hf & Hc & Hd)]. pose proof stacked_length as HL.
      unfold mesh_normals, surfaces_normals. rewrite stacked_id, broadcast_err; auto.
      rewrite internal_length in *. split; auto. rewrite HL.
      destruct (filter _ _) as [|g t] eqn:E; simpl; [|lia]. exfalso.
      apply (proj2 both_nil E f); auto.
    Qed.
  End Both.
End MeshNormals.
