(* The two counterexample meshes of C07. *)
From Coq Require Import Reals QArith Qreals List Arith ZArith String Bool Lia Lra.
From Verif Require Import Common PyModel MeshModel MeshSpec MeshBuildModel NormalsModel NormalsSpec
  ListLemmas MeshFacesProofs MeshBuildProofs MeshMapProofs NormalsProofs NormalsGeomProofs NormalsExamples.
Import ListNotations.
Local Open Scope string_scope.
Local Open Scope list_scope.

Fixpoint distinct (l : list nat) : bool :=
  match l with [] => true | x :: t => negb (mem_nat x t) && distinct t end.
Lemma distinct_spec l : distinct l = true -> NoDup l.
Proof.
  induction l as [|x l IH]; simpl; intros H; constructor.
  - apply andb_true_iff in H. destruct H as [H _]. apply negb_true_iff in H. now apply mem_nat_false.
  - apply IH. apply andb_true_iff in H. tauto.
Qed.

Lemma simplices_dec w els :
  forallb (fun e => ((List.length e =? w)%nat && distinct e)%bool) els = true ->
  simplices w els.
Proof.
  intros H. apply Forall_forall. intros e He. rewrite forallb_forall in H. specialize (H e He).
  apply andb_true_iff in H. destruct H as [H1 H2]. apply Nat.eqb_eq in H1.
  auto using distinct_spec.
Qed.

Lemma in_range_dec n els :
  forallb (forallb (fun k => (k <? n)%nat)) els = true -> in_range n els.
Proof.
  intros H. apply Forall_forall. intros e He. apply Forall_forall. intros k Hk.
  rewrite forallb_forall in H. specialize (H e He). rewrite forallb_forall in H.
  apply Nat.ltb_lt. now apply H.
Qed.

Lemma opposing_dec els f o : 
  simplices (S (List.length f)) els -> In (f, o) (boundary_faces els) -> opposing els f o.
Proof.
  intros HS H. destruct (boundary_faces_spec _ _ HS) as (S1 & _). apply S1.
  unfold boundary_surfaces, boundary_internal_indices. now rewrite combine_fst_snd.
Qed.

Lemma descr2_contact c d : dict_get (indicators (descr2 c d)) "contact" = Some c.
Proof. reflexivity. Qed.
Lemma descr2_dirichlet c d : dict_get (indicators (descr2 c d)) "dirichlet" = Some d.
Proof. reflexivity. Qed.

Lemma init_never (nodes : list P2) els c m :
  in_range (List.length nodes) els -> simplices 3 els ->
  build mean2 zero2 nodes els (descr2 c never2) = Ok m ->
  exists ns, mesh_init2 nodes els (descr2 c never2) = Ok (m, ns) /\ mesh_normals2 m = Ok ns /\
    List.length ns = List.length (boundary_surfaces (m_elements m)).
Proof.
  intros HR HS HB.
  destruct (normals_total zero2 sub2 dot2 scale2 unoriented2 mean2 nodes els _ m 1 HR HS HB c never2
    (descr2_contact _ _) (descr2_dirichlet _ _)) as [ns [H1 H2]].
  - intros f _ _ (ps & _ & H). discriminate.
  - exists ns. split; [|split; auto]. unfold mesh_init2, mesh_init. rewrite HB. simpl. now rewrite H1.
Qed.

Lemma base_in_range : in_range (List.length (map q2 base_nodes)) base_els.
Proof. apply in_range_dec. reflexivity. Qed.
Lemma base_simplices : simplices 3 base_els.
Proof. apply simplices_dec. reflexivity. Qed.
Lemma bent_in_range : in_range (List.length (map q2 bent_nodes)) bent_els.
Proof. apply in_range_dec. reflexivity. Qed.
Lemma bent_simplices : simplices 3 bent_els.
Proof. apply simplices_dec. reflexivity. Qed.

Ltac q2r := unfold side2, q2, Q2R; cbn [fst snd Qnum Qden]; cbv [IZR IPR IPR_2]; lra.

(* second contact face of the bent body: normal points into the body *)
Lemma bent_inward : exists ns n a b o,
  mesh_init2 (map q2 bent_nodes) bent_els (descr2 low_left2 never2) = Ok (bent_mesh, ns) /\
  nth_error (faces_of bent_mesh "contact") 1 = Some [1; 2]%nat /\
  nth_error (contact_normals bent_mesh ns) 1 = Some n /\
  picks [1; 2]%nat (m_nodes bent_mesh) [a; b] /\
  opposing (m_elements bent_mesh) [1; 2]%nat 5 /\ nth_error (m_nodes bent_mesh) 5 = Some o /\
  (0 < fst n * (fst o - fst a) + snd n * (snd o - snd a))%R.
Proof.
  destruct (init_never _ _ _ _ bent_in_range bent_simplices bent_build) as (ns & H1 & H2 & H3).
  destruct bent_data as (D1 & D2 & D3 & D4).
  assert (HL : (1 < List.length (contact_normals bent_mesh ns))%nat).
  { unfold contact_normals. rewrite firstn_length, H3, D1, D3. vm_compute. lia. }
  apply nth_error_Some in HL. destruct (nth_error (contact_normals bent_mesh ns) 1) as [n|] eqn:En; [|congruence].
  destruct (normal_nth zero2 sub2 dot2 scale2 unoriented2 mean2 _ _ _ bent_mesh 1 bent_in_range bent_simplices
    bent_build ns 1 [1; 2]%nat n H2) as [q [E1 E2]]; [rewrite D1; reflexivity|exact En|].
  rewrite D2 in E1. inversion E1; subst q. rewrite D4 in E2. simpl in E2.
  exists ns, n, (q2 (2, 0)%Q), (q2 (3, -2 # 1)%Q), (q2 (4, 1)%Q).
  split; [exact H1|]. split; [rewrite D1; reflexivity|]. split; [exact En|].
  split; [rewrite D4; repeat constructor|]. split.
  { rewrite D3. apply opposing_dec; [apply simplices_dec; reflexivity|]. vm_compute. auto 10. }
  split; [rewrite D4; reflexivity|]. subst n. apply oriented2_inward. q2r.
Qed.

(* second contact face of the convex triangle: zero normal *)
Lemma base_zero : exists ns,
  mesh_init2 (map q2 base_nodes) base_els (descr2 low2 never2) = Ok (base_mesh, ns) /\
  nth_error (faces_of base_mesh "contact") 1 = Some [1; 2]%nat /\
  nth_error (contact_normals base_mesh ns) 1 = Some (0%R, 0%R).
Proof.
  destruct (init_never _ _ _ _ base_in_range base_simplices base_build) as (ns & H1 & H2 & H3).
  destruct base_data as (D1 & D2 & D3 & D4).
  assert (HL : (1 < List.length (contact_normals base_mesh ns))%nat).
  { unfold contact_normals. rewrite firstn_length, H3, D1, D3. vm_compute. lia. }
  apply nth_error_Some in HL. destruct (nth_error (contact_normals base_mesh ns) 1) as [n|] eqn:En; [|congruence].
  exists ns. split; [exact H1|]. split; [rewrite D1; reflexivity|]. rewrite En. f_equal.
  apply (normals2_convex _ _ _ base_mesh ns base_in_range base_simplices H1 1 [1; 2]%nat n
    (q2 (1, 0)%Q) (q2 (2, 0)%Q) (q2 (0, 1)%Q) 1 (q2 (1, 0)%Q)).
  - rewrite D1. reflexivity.
  - exact En.
  - rewrite D4. repeat constructor.
  - q2r.
  - rewrite D4. simpl. intros p [E|[E|[E|[E|[]]]]]; subst p; q2r.
  - rewrite D2. reflexivity.
  - rewrite D4. reflexivity.
  - q2r.
Qed.

(* the same body with every face in contact: all hypotheses of the positive theorem hold *)
Definition full_mesh : @MeshData P2 unit :=
  map_mesh q2 (match build qmean qzero base_nodes base_els (qdescr (fun _ => true) (fun _ => false)) with
               | Ok m => m | Err _ => mkMesh [] [] [] [] [] end).
Lemma full_build : build mean2 zero2 (map q2 base_nodes) base_els (descr2 always2 never2) = Ok full_mesh.
Proof.
  apply build_q2 with (cq := fun _ => true) (dq := fun _ => false); [reflexivity|reflexivity|].
  vm_compute. reflexivity.
Qed.
Lemma full_data : faces_of full_mesh "contact" = [[0; 1]; [0; 3]; [1; 2]; [2; 3]]%nat /\
  m_internal full_mesh = [3; 1; 3; 1]%nat /\ m_elements full_mesh = [[0; 1; 3]; [1; 2; 3]]%nat /\
  m_nodes full_mesh = map q2 base_nodes.
Proof. repeat split; vm_compute; reflexivity. Qed.

(* contact and Dirichlet on the same face *)
Definition both_mesh : @MeshData P2 unit :=
  map_mesh q2 (match build qmean qzero base_nodes base_els (qdescr (fun _ => true) qlow) with
               | Ok m => m | Err _ => mkMesh [] [] [] [] [] end).
Lemma both_build : build mean2 zero2 (map q2 base_nodes) base_els (descr2 always2 low2) = Ok both_mesh.
Proof.
  apply build_q2 with (cq := fun _ => true) (dq := qlow); [reflexivity|apply low2_q2|].
  vm_compute. reflexivity.
Qed.

Lemma both_data :
  broadcast (unique_columns (stacked_surfaces both_mesh)) (m_internal both_mesh) = Err ValueError.
Proof. vm_compute. reflexivity. Qed.

Lemma init_error {V} nodes els (d : @Description P2 V) m e :
  build mean2 zero2 nodes els d = Ok m ->
  broadcast (unique_columns (stacked_surfaces m)) (m_internal m) = Err e ->
  mesh_init2 nodes els d = Err e.
Proof.
  intros H1 H2. unfold mesh_init2, mesh_init. rewrite H1. simpl.
  unfold mesh_normals, surfaces_normals. now rewrite H2.
Qed.
