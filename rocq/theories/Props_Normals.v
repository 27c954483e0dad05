(* Outer normals (C07) and construction with overlapping boundaries (C63). *)
From Coq Require Import Reals QArith List Arith ZArith String Bool Lia Lra Sorted.
From Verif Require Import Common PyModel MeshModel MeshSpec MeshBuildModel NormalsModel NormalsSpec
  ListLemmas MeshFacesProofs MeshBuildProofs MeshMapProofs NormalsProofs NormalsGeomProofs
  NormalsExamples NormalsCases NormalsRows.
Import ListNotations.
Local Open Scope string_scope.
Local Open Scope list_scope.
Local Open Scope R_scope.

(* C07: if the contact faces precede all other boundary faces in the lexicographic order
   of their node numbers, contact_normals[k] is the outer unit normal of contact face k *)
Theorem C07_contact_normals_2d :
  forall (V : Type) (nodes : list P2) (els : list (list nat)) (d : @Description P2 V)
         (m : @MeshData P2 V) (ns : list P2) (contact : P2 -> bool),
  in_range (List.length nodes) els -> simplices 3 els ->
  mesh_init2 nodes els d = Ok (m, ns) ->
  dict_get (indicators d) "contact" = Some contact ->
  (forall f g, boundary_face 3 (m_elements m) f -> boundary_face 3 (m_elements m) g ->
     face_holds mean2 (m_nodes m) contact f -> ~ face_holds mean2 (m_nodes m) contact g ->
     lex_lt f g) ->
  forall (k : nat) (f : list nat) (n a b : P2) (oi : nat) (o : P2),
  nth_error (faces_of m "contact") k = Some f -> nth_error (contact_normals m ns) k = Some n ->
  picks f (m_nodes m) [a; b] ->
  opposing (m_elements m) f oi -> nth_error (m_nodes m) oi = Some o ->
  side2 a b o <> 0 ->
  outward2 a b o n.
Proof. intros. eapply normals2_aligned; eauto. Qed.
Print Assumptions C07_contact_normals_2d.

Theorem C07_contact_normals_3d :
  forall (V : Type) (nodes : list P3) (els : list (list nat)) (d : @Description P3 V)
         (m : @MeshData P3 V) (ns : list P3) (contact : P3 -> bool),
  in_range (List.length nodes) els -> simplices 4 els ->
  mesh_init3 nodes els d = Ok (m, ns) ->
  dict_get (indicators d) "contact" = Some contact ->
  (forall f g, boundary_face 4 (m_elements m) f -> boundary_face 4 (m_elements m) g ->
     face_holds mean3 (m_nodes m) contact f -> ~ face_holds mean3 (m_nodes m) contact g ->
     lex_lt f g) ->
  forall (k : nat) (f : list nat) (n a b c : P3) (oi : nat) (o : P3),
  nth_error (faces_of m "contact") k = Some f -> nth_error (contact_normals m ns) k = Some n ->
  picks f (m_nodes m) [a; b; c] ->
  opposing (m_elements m) f oi -> nth_error (m_nodes m) oi = Some o ->
  side3 a b c o <> 0 ->
  outward3 a b c o n.
Proof. intros. eapply normals3_aligned; eauto. Qed.
Print Assumptions C07_contact_normals_3d.

(* without the order assumption: if the whole body lies on one side of the contact face
   (convex bodies), the k-th normal is still the outer one, or it is the zero vector,
   depending on the node m_internal[k], which belongs to another face *)
Theorem C07_convex_2d :
  forall (V : Type) (nodes : list P2) (els : list (list nat)) (d : @Description P2 V)
         (m : @MeshData P2 V) (ns : list P2),
  in_range (List.length nodes) els -> simplices 3 els ->
  mesh_init2 nodes els d = Ok (m, ns) ->
  forall (k : nat) (f : list nat) (n a b o : P2) (qi : nat) (q : P2),
  nth_error (faces_of m "contact") k = Some f -> nth_error (contact_normals m ns) k = Some n ->
  picks f (m_nodes m) [a; b] ->
  side2 a b o <> 0 ->
  (forall p, In p (m_nodes m) -> 0 <= side2 a b p * side2 a b o) ->
  nth_error (m_internal m) k = Some qi -> nth_error (m_nodes m) qi = Some q ->
  (side2 a b q <> 0 -> outward2 a b o n) /\ (side2 a b q = 0 -> n = (0, 0)).
Proof. intros. eapply normals2_convex; eauto. Qed.
Print Assumptions C07_convex_2d.

Theorem C07_convex_3d :
  forall (V : Type) (nodes : list P3) (els : list (list nat)) (d : @Description P3 V)
         (m : @MeshData P3 V) (ns : list P3),
  in_range (List.length nodes) els -> simplices 4 els ->
  mesh_init3 nodes els d = Ok (m, ns) ->
  forall (k : nat) (f : list nat) (n a b c o : P3) (qi : nat) (q : P3),
  nth_error (faces_of m "contact") k = Some f -> nth_error (contact_normals m ns) k = Some n ->
  picks f (m_nodes m) [a; b; c] ->
  side3 a b c o <> 0 ->
  (forall p, In p (m_nodes m) -> 0 <= side3 a b c p * side3 a b c o) ->
  nth_error (m_internal m) k = Some qi -> nth_error (m_nodes m) qi = Some q ->
  (side3 a b c q <> 0 -> outward3 a b c o n) /\ (side3 a b c q = 0 -> n = (0, 0, 0)).
Proof. intros. eapply normals3_convex; eauto. Qed.
Print Assumptions C07_convex_3d.

(* every face in contact: the order assumption holds *)
Example C07_example : exists ns,
  mesh_init2 (map q2 base_nodes) base_els (descr2 always2 never2) = Ok (full_mesh, ns) /\
  (forall f g, boundary_face 3 (m_elements full_mesh) f -> boundary_face 3 (m_elements full_mesh) g ->
     face_holds mean2 (m_nodes full_mesh) always2 f -> ~ face_holds mean2 (m_nodes full_mesh) always2 g ->
     lex_lt f g) /\
  nth_error (faces_of full_mesh "contact") 2 = Some [1; 2]%nat /\
  (exists n, nth_error (contact_normals full_mesh ns) 2 = Some n) /\
  picks [1; 2]%nat (m_nodes full_mesh) [q2 (1, 0)%Q; q2 (2, 0)%Q] /\
  opposing (m_elements full_mesh) [1; 2]%nat 3 /\
  nth_error (m_nodes full_mesh) 3 = Some (q2 (0, 1)%Q) /\
  side2 (q2 (1, 0)%Q) (q2 (2, 0)%Q) (q2 (0, 1)%Q) <> 0.
Proof.
  destruct (init_never _ _ _ _ base_in_range base_simplices full_build) as (ns & H1 & H2 & H3).
  destruct full_data as (D1 & D2 & D3 & D4). exists ns. split; [exact H1|].
  destruct (mesh_simplices zero2 mean2 _ _ _ _ 1 base_in_range base_simplices full_build) as [HS HR].
  split.
  { intros f g _ Hg _ N. exfalso. apply N.
    exists (map (fun i => nth i (m_nodes full_mesh) zero2) g). split; [|reflexivity].
    destruct Hg as (_ & _ & k & e & Hk & Hin & _).
    unfold picks. apply Forall2_map_r, Forall2_same, Forall_forall. intros i Hi. apply nth_error_nth'.
    unfold in_range in HR. rewrite Forall_forall in HR. apply nth_error_In in Hk. specialize (HR e Hk).
    rewrite Forall_forall in HR. exact (HR i (Hin i Hi)). }
  split; [rewrite D1; reflexivity|]. split.
  { assert (HL : (2 < List.length (contact_normals full_mesh ns))%nat).
    { unfold contact_normals. rewrite firstn_length, H3, D1, D3. vm_compute. lia. }
    apply nth_error_Some in HL. destruct (nth_error _ 2); [eauto|congruence]. }
  split; [rewrite D4; repeat constructor|]. split.
  { rewrite D3. apply opposing_dec; [apply simplices_dec; reflexivity|]. vm_compute. auto 10. }
  split; [rewrite D4; reflexivity|]. q2r.
Qed.

(* not only the contact rows: row k of the normals belongs to face k of the contact, then the
   Neumann, then the Dirichlet faces, oriented by the node m_internal[k] *)
Theorem C07_rows_2d :
  forall (V : Type) (nodes : list P2) (els : list (list nat)) (d : @Description P2 V)
         (m : @MeshData P2 V) (ns : list P2),
  in_range (List.length nodes) els -> simplices 3 els ->
  mesh_init2 nodes els d = Ok (m, ns) ->
  forall (k : nat) (f : list nat) (n a b o : P2) (qi : nat) (q : P2),
  nth_error (faces_of m "contact" ++ faces_of m "neumann" ++ faces_of m "dirichlet") k = Some f ->
  nth_error ns k = Some n ->
  picks f (m_nodes m) [a; b] ->
  side2 a b o <> 0 ->
  (forall p, In p (m_nodes m) -> 0 <= side2 a b p * side2 a b o) ->
  nth_error (m_internal m) k = Some qi -> nth_error (m_nodes m) qi = Some q ->
  (side2 a b q <> 0 -> outward2 a b o n) /\ (side2 a b q = 0 -> n = (0, 0)).
Proof. exact rows2. Qed.
Print Assumptions C07_rows_2d.

Theorem C07_rows_3d :
  forall (V : Type) (nodes : list P3) (els : list (list nat)) (d : @Description P3 V)
         (m : @MeshData P3 V) (ns : list P3),
  in_range (List.length nodes) els -> simplices 4 els ->
  mesh_init3 nodes els d = Ok (m, ns) ->
  forall (k : nat) (f : list nat) (n a b c o : P3) (qi : nat) (q : P3),
  nth_error (faces_of m "contact" ++ faces_of m "neumann" ++ faces_of m "dirichlet") k = Some f ->
  nth_error ns k = Some n ->
  picks f (m_nodes m) [a; b; c] ->
  side3 a b c o <> 0 ->
  (forall p, In p (m_nodes m) -> 0 <= side3 a b c p * side3 a b c o) ->
  nth_error (m_internal m) k = Some qi -> nth_error (m_nodes m) qi = Some q ->
  (side3 a b c q <> 0 -> outward3 a b c o n) /\ (side3 a b c q = 0 -> n = (0, 0, 0)).
Proof. exact rows3. Qed.
Print Assumptions C07_rows_3d.

(* the triangle with its base in contact: row 3 is the Neumann face [2; 3] *)
Example C07_rows_example : exists ns,
  mesh_init2 (map q2 base_nodes) base_els (descr2 low2 never2) = Ok (base_mesh, ns) /\
  nth_error (faces_of base_mesh "contact" ++ faces_of base_mesh "neumann" ++ faces_of base_mesh "dirichlet") 3 = Some [2; 3]%nat /\
  (exists n, nth_error ns 3 = Some n) /\
  picks [2; 3]%nat (m_nodes base_mesh) [q2 (2, 0)%Q; q2 (0, 1)%Q] /\
  side2 (q2 (2, 0)%Q) (q2 (0, 1)%Q) (q2 (0, 0)%Q) <> 0 /\
  (forall p, In p (m_nodes base_mesh) -> 0 <= side2 (q2 (2, 0)%Q) (q2 (0, 1)%Q) p * side2 (q2 (2, 0)%Q) (q2 (0, 1)%Q) (q2 (0, 0)%Q)) /\
  nth_error (m_internal base_mesh) 3 = Some 1%nat /\ nth_error (m_nodes base_mesh) 1 = Some (q2 (1, 0)%Q) /\
  side2 (q2 (2, 0)%Q) (q2 (0, 1)%Q) (q2 (1, 0)%Q) <> 0.
Proof.
  destruct (init_never _ _ _ _ base_in_range base_simplices base_build) as (ns & H1 & H2 & H3).
  destruct base_data as (D1 & D2 & D3 & D4). exists ns. split; [exact H1|].
  split; [vm_compute; reflexivity|]. split.
  { assert (HL : (3 < List.length ns)%nat) by (rewrite H3, D3; vm_compute; lia).
    apply nth_error_Some in HL. destruct (nth_error ns 3); [eauto|congruence]. }
  split; [rewrite D4; repeat constructor|]. split; [q2r|].
  split; [rewrite D4; simpl; intros p [E|[E|[E|[E|[]]]]]; subst p; q2r|].
  split; [rewrite D2; reflexivity|]. split; [rewrite D4; reflexivity|]. q2r.
Qed.

(* in general a contact normal may point into the body ... *)
Theorem C07_contact_normals_refuted :
  exists (nodes : list P2) (els : list (list nat)) (contact dirichlet : P2 -> bool)
         (m : @MeshData P2 unit) (ns : list P2) (k : nat) (f : list nat) (n a b : P2) (oi : nat) (o : P2),
  in_range (List.length nodes) els /\ simplices 3 els /\
  mesh_init2 nodes els (descr2 contact dirichlet) = Ok (m, ns) /\
  nth_error (faces_of m "contact") k = Some f /\ nth_error (contact_normals m ns) k = Some n /\
  picks f (m_nodes m) [a; b] /\
  opposing (m_elements m) f oi /\ nth_error (m_nodes m) oi = Some o /\
  0 < fst n * (fst o - fst a) + snd n * (snd o - snd a).
Proof.
  destruct bent_inward as (ns & n & a & b & o & H1 & H2 & H3 & H4 & H5 & H6 & H7).
  exists (map q2 bent_nodes), bent_els, low_left2, never2, bent_mesh, ns, 1%nat, [1; 2]%nat, n, a, b, 5%nat, o.
  repeat (split; [first [exact bent_in_range | exact bent_simplices | assumption]|]). exact H7.
Qed.
Print Assumptions C07_contact_normals_refuted.

(* ... and in a convex body it may be zero *)
Theorem C07_unit_normals_refuted :
  exists (nodes : list P2) (els : list (list nat)) (contact dirichlet : P2 -> bool)
         (m : @MeshData P2 unit) (ns : list P2) (k : nat) (f : list nat),
  in_range (List.length nodes) els /\ simplices 3 els /\
  mesh_init2 nodes els (descr2 contact dirichlet) = Ok (m, ns) /\
  nth_error (faces_of m "contact") k = Some f /\ nth_error (contact_normals m ns) k = Some (0, 0).
Proof.
  destruct base_zero as (ns & H1 & H2 & H3).
  exists (map q2 base_nodes), base_els, low2, never2, base_mesh, ns, 1%nat, [1; 2]%nat.
  repeat (split; [first [exact base_in_range | exact base_simplices | assumption]|]). exact H3.
Qed.
Print Assumptions C07_unit_normals_refuted.

(* C63: the Mesh constructor, normals included.  It succeeds if no boundary face is both
   a contact and a Dirichlet face, and it raises ValueError if some face is (and the mesh
   has more than one boundary face) *)
Theorem C63_construction_2d :
  forall (V : Type) (nodes : list P2) (els : list (list nat)) (d : @Description P2 V)
         (m : @MeshData P2 V) (contact dirichlet : P2 -> bool),
  in_range (List.length nodes) els -> simplices 3 els ->
  dict_get (indicators d) "contact" = Some contact ->
  dict_get (indicators d) "dirichlet" = Some dirichlet ->
  build mean2 zero2 nodes els d = Ok m ->
  ((forall f, boundary_face 3 (m_elements m) f ->
      face_holds mean2 (m_nodes m) contact f -> ~ face_holds mean2 (m_nodes m) dirichlet f) ->
   exists ns, mesh_init2 nodes els d = Ok (m, ns) /\
     List.length ns = List.length (boundary_surfaces (m_elements m))) /\
  ((exists f, boundary_face 3 (m_elements m) f /\
      face_holds mean2 (m_nodes m) contact f /\ face_holds mean2 (m_nodes m) dirichlet f) ->
   (exists f g, boundary_face 3 (m_elements m) f /\ boundary_face 3 (m_elements m) g /\ f <> g) ->
   mesh_init2 nodes els d = Err ValueError).
Proof.
  intros V nodes els d m c e HR HS Hc Hd HB. split.
  - intros H. destruct (normals_total zero2 sub2 dot2 scale2 unoriented2 mean2 nodes els d m 1 HR HS HB
      c e Hc Hd H) as [ns [E L]].
    exists ns. split; auto. unfold mesh_init2, mesh_init. rewrite HB. simpl. now rewrite E.
  - intros H (f & g & Hf & Hg & N).
    destruct (mesh_simplices zero2 mean2 nodes els d m 1 HR HS HB) as [HSm _].
    apply (boundary_surfaces_In 3) in Hf; auto. apply (boundary_surfaces_In 3) in Hg; auto.
    unfold mesh_init2, mesh_init. rewrite HB. simpl.
    rewrite (normals_fail zero2 sub2 dot2 scale2 unoriented2 mean2 nodes els d m 1 HR HS HB c e Hc Hd); auto.
    destruct (boundary_surfaces (m_elements m)) as [|x [|y l]]; simpl in *; [tauto| |lia].
    exfalso. apply N. destruct Hf as [<-|[]], Hg as [<-|[]]. reflexivity.
Qed.
Print Assumptions C63_construction_2d.

Theorem C63_construction_3d :
  forall (V : Type) (nodes : list P3) (els : list (list nat)) (d : @Description P3 V)
         (m : @MeshData P3 V) (contact dirichlet : P3 -> bool),
  in_range (List.length nodes) els -> simplices 4 els ->
  dict_get (indicators d) "contact" = Some contact ->
  dict_get (indicators d) "dirichlet" = Some dirichlet ->
  build mean3 zero3 nodes els d = Ok m ->
  ((forall f, boundary_face 4 (m_elements m) f ->
      face_holds mean3 (m_nodes m) contact f -> ~ face_holds mean3 (m_nodes m) dirichlet f) ->
   exists ns, mesh_init3 nodes els d = Ok (m, ns) /\
     List.length ns = List.length (boundary_surfaces (m_elements m))) /\
  ((exists f, boundary_face 4 (m_elements m) f /\
      face_holds mean3 (m_nodes m) contact f /\ face_holds mean3 (m_nodes m) dirichlet f) ->
   (exists f g, boundary_face 4 (m_elements m) f /\ boundary_face 4 (m_elements m) g /\ f <> g) ->
   mesh_init3 nodes els d = Err ValueError).
Proof.
  intros V nodes els d m c e HR HS Hc Hd HB. split.
  - intros H. destruct (normals_total zero3 sub3 dot3 scale3 unoriented3 mean3 nodes els d m 2 HR HS HB
      c e Hc Hd H) as [ns [E L]].
    exists ns. split; auto. unfold mesh_init3, mesh_init. rewrite HB. simpl. now rewrite E.
  - intros H (f & g & Hf & Hg & N).
    destruct (mesh_simplices zero3 mean3 nodes els d m 2 HR HS HB) as [HSm _].
    apply (boundary_surfaces_In 4) in Hf; auto. apply (boundary_surfaces_In 4) in Hg; auto.
    unfold mesh_init3, mesh_init. rewrite HB. simpl.
    rewrite (normals_fail zero3 sub3 dot3 scale3 unoriented3 mean3 nodes els d m 2 HR HS HB c e Hc Hd); auto.
    destruct (boundary_surfaces (m_elements m)) as [|x [|y l]]; simpl in *; [tauto| |lia].
    exfalso. apply N. destruct Hf as [<-|[]], Hg as [<-|[]]. reflexivity.
Qed.
Print Assumptions C63_construction_3d.

(* a mesh whose base is both: the constructor raises *)
Example C63_example :
  mesh_init2 (map q2 base_nodes) base_els (descr2 always2 low2) = Err ValueError.
Proof.
  exact (init_error _ _ _ _ _ both_build both_data).
Qed.
