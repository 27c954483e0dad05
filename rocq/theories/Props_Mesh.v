(* Mesh topology properties: C01-C06, C08-C10, C61. *)
From Coq Require Import List Arith ZArith String Bool Lia Sorted Permutation.
From Verif Require Import Common PyModel MeshModel MeshBuildModel MeshSpec DofModel DofSpec
  MeshRemoveProofs MeshReorderProofs MeshFacesProofs MeshEdgesProofs MeshBuildProofs
  MeshTotalProofs DofProofs MeshExamples.
Import ListNotations.
Open Scope string_scope.
Open Scope list_scope.

(* C01: exactly the referenced nodes survive, in order; elements keep their corners;
   afterwards every index is in range and every node is used. *)
Theorem C01_remove_unconnected :
  forall (P : Type) (nodes : list P) (els : list (list nat)),
  in_range (List.length nodes) els ->
  let '(nodes', els') := remove_unconnected nodes els in
  exists keep,
    StronglySorted lt keep /\
    (forall i, In i keep <-> referenced els i) /\
    picks keep nodes nodes' /\
    relabelled keep els els' /\
    in_range (List.length nodes') els' /\
    (forall i, i < List.length nodes' -> referenced els' i).
Proof.
  intros P nodes els H. pose proof (remove_unconnected_cleaned nodes els H) as HC.
  destruct (remove_unconnected nodes els) as [n1 e1]. destruct HC as [keep HC].
  exists keep. destruct (cleaned_all_referenced _ _ _ _ _ HC).
  destruct HC as (? & ? & ? & ?). auto 10.
Qed.
Print Assumptions C01_remove_unconnected.

Example C01_example :
  in_range 6 cross_els /\
  remove_unconnected cross_nodes cross_els =
    ([(0, 0); (4, 0); (4, 4); (0, 4); (2, 2)]%Z, [[0; 1; 4]; [4; 2; 1]; [2; 3; 4]; [3; 0; 4]]).
Proof. split; [repeat constructor|reflexivity]. Qed.

(* C02: one renumbering pass is a bijection on nodes and keeps the corners of every
   element in place; selected nodes go to the front in order (to_top) or to the back
   in reverse order. *)
Theorem C02_reorder_pass :
  forall (P : Type) (zero : P) (nodes : list P) (els : list (list nat)) (selected : list nat)
         (to_top : bool),
  in_range (List.length nodes) els ->
  let '(nodes', els', count) := reorder_numba zero nodes els selected to_top in
  exists old,
    renumbering old nodes nodes' els els' /\
    (exists a b, old = a ++ b /\ StronglySorted lt a /\ StronglySorted lt (rev b) /\
       (forall i, i < List.length nodes -> (In i (if to_top then a else b) <-> In i selected))) /\
    count = List.length selected.
Proof. exact reorder_numba_pass. Qed.
Print Assumptions C02_reorder_pass.

Example C02_example :
  reorder_numba pt0 cross_nodes cross_els [2; 4] true =
  ([(4, 0); (0, 4); (2, 2); (4, 4); (0, 0); (9, 9)]%Z,
   [[4; 0; 2]; [2; 3; 0]; [3; 1; 2]; [1; 4; 2]], 2).
Proof. reflexivity. Qed.

(* C03: reported faces are exactly the faces of a single element, without repetition,
   each with its opposing vertex; boundary nodes are exactly their nodes. *)
Theorem C03_boundary_faces :
  forall (w : nat) (els : list (list nat)),
  simplices w els ->
  (forall f o, In (f, o) (combine (boundary_surfaces els) (boundary_internal_indices els)) <->
     boundary_face w els f /\ opposing els f o) /\
  (forall f, In f (boundary_surfaces els) <-> boundary_face w els f) /\
  StronglySorted lex_lt (boundary_surfaces els) /\
  (forall i, In i (boundary_indices els) <-> boundary_node w els i) /\
  StronglySorted lt (boundary_indices els).
Proof. exact boundary_faces_spec. Qed.
Print Assumptions C03_boundary_faces.

Example C03_example :
  simplices 3 cross_els /\
  boundary_surfaces cross_els = [[1; 2]; [1; 4]; [2; 3]; [3; 4]] /\
  boundary_internal_indices cross_els = [5; 5; 5; 5] /\ boundary_indices cross_els = [1; 2; 3; 4].
Proof.
  split; [|split; [reflexivity|split; reflexivity]].
  repeat (constructor; [split; [reflexivity|repeat constructor; simpl; intuition lia]|]). constructor.
Qed.

(* C04: final node order contact / Neumann / interior / Dirichlet *)
Theorem C04_node_order :
  forall (P V : Type) (mean : list P -> P) (zero : P) (nodes : list P) (els : list (list nat))
         (d : @Description P V) (m : @MeshData P V) (w : nat) (contact dirichlet : P -> bool),
  in_range (List.length nodes) els -> simplices w els ->
  dict_get (indicators d) "contact" = Some contact ->
  dict_get (indicators d) "dirichlet" = Some dirichlet ->
  build mean zero nodes els d = Ok m ->
  exists C N I D, node_order w nodes els (m_nodes m) (m_elements m) contact dirichlet C N I D.
Proof. exact mesh_node_order. Qed.
Print Assumptions C04_node_order.

Example C04_example :
  exists m, build pt_mean pt0 cross_nodes cross_els (descr bottom top) = Ok m /\
    m_nodes m = [(0, 0); (4, 0); (2, 2); (4, 4); (0, 4)]%Z.
Proof. eexists. split; [vm_compute; reflexivity|reflexivity]. Qed.

(* C05: counts and slices.  Dirichlet data are always right; contact and Neumann data
   are right if no boundary node is both contact and Dirichlet.  [old] lists the raw
   index of every mesh node, so a slice of it tells which nodes are selected. *)
Theorem C05_dirichlet_slice :
  forall (P V : Type) (mean : list P -> P) (zero : P) (nodes : list P) (els : list (list nat))
         (d : @Description P V) (m : @MeshData P V) (w : nat) (contact dirichlet : P -> bool),
  in_range (List.length nodes) els -> simplices w els ->
  dict_get (indicators d) "contact" = Some contact ->
  dict_get (indicators d) "dirichlet" = Some dirichlet ->
  build mean zero nodes els d = Ok m ->
  exists C N I D,
    node_order w nodes els (m_nodes m) (m_elements m) contact dirichlet C N I D /\
    let old := C ++ N ++ I ++ D in
    index_select 0 (dirichlet_indices m) old = D /\
    index_select 0 (independent_indices m) old = C ++ N ++ I /\
    index_size (dirichlet_indices m) = Z.of_nat (List.length D) /\
    inner_nodes_count m = Z.of_nat (List.length I).
Proof. exact (@dirichlet_slices). Qed.
Print Assumptions C05_dirichlet_slice.

Theorem C05_block_counts :
  forall (P V : Type) (mean : list P -> P) (zero : P) (nodes : list P) (els : list (list nat))
         (d : @Description P V) (m : @MeshData P V) (w : nat) (contact dirichlet : P -> bool),
  in_range (List.length nodes) els -> simplices w els ->
  dict_get (indicators d) "contact" = Some contact ->
  dict_get (indicators d) "dirichlet" = Some dirichlet ->
  build mean zero nodes els d = Ok m ->
  (forall i, boundary_node w els i -> holds_at nodes contact i -> ~ holds_at nodes dirichlet i) ->
  exists C N I D,
    node_order w nodes els (m_nodes m) (m_elements m) contact dirichlet C N I D /\
    contact_nodes_count m = Z.of_nat (List.length C) /\
    neumann_nodes_count m = Z.of_nat (List.length N) /\
    dirichlet_nodes_count m = Z.of_nat (List.length D) /\
    let old := C ++ N ++ I ++ D in
    index_select 0 (contact_indices m) old = C /\
    index_select 0 (neumann_indices m) old = N /\
    index_select 0 (dirichlet_indices m) old = D /\
    index_select 0 (independent_indices m) old = C ++ N ++ I /\
    index_select 0 (free_indices m) old = N ++ I.
Proof. exact (@disjoint_slices). Qed.
Print Assumptions C05_block_counts.

Example C05_example :
  (forall i, boundary_node 3 cross_els i -> holds_at cross_nodes bottom i -> ~ holds_at cross_nodes top i) /\
  exists m, build pt_mean pt0 cross_nodes cross_els (descr bottom top) = Ok m /\
    contact_nodes_count m = 2%Z /\ neumann_nodes_count m = 0%Z /\ dirichlet_nodes_count m = 2%Z.
Proof.
  split.
  - intros i _ (p & Hp & Hb) (q & Hq & Ht). rewrite Hp in Hq. inversion Hq; subst q.
    unfold bottom, top in *. apply Z.eqb_eq in Hb, Ht. lia.
  - eexists. split; [vm_compute; reflexivity|auto].
Qed.

(* without disjointness the contact slice may select a node that is not a contact node,
   and the Neumann count may be negative *)
Theorem C05_block_counts_refuted :
  exists (nodes : list pt) (els : list (list nat)) (contact dirichlet : pt -> bool)
         (m : @MeshData pt nat),
    in_range (List.length nodes) els /\ simplices 3 els /\
    build pt_mean pt0 nodes els (descr contact dirichlet) = Ok m /\
    (exists p, In p (index_select pt0 (contact_indices m) (m_nodes m)) /\ contact p = false) /\
    exists (m' : @MeshData pt nat),
      build pt_mean pt0 nodes els (descr everywhere dirichlet) = Ok m' /\
      (neumann_nodes_count m' < 0)%Z.
Proof.
  exists cross_nodes, cross_els, bottom, left_. eexists.
  split; [repeat constructor|]. split.
  { repeat (constructor; [split; [reflexivity|repeat constructor; simpl; intuition lia]|]). constructor. }
  split; [vm_compute; reflexivity|]. split.
  - exists (4, 4)%Z. split; [vm_compute; auto|reflexivity].
  - eexists. split; [vm_compute; reflexivity|]. vm_compute. reflexivity.
Qed.
Print Assumptions C05_block_counts_refuted.

(* free_nodes_count should be the number of nodes that are neither contact nor Dirichlet
   nodes; it subtracts the Dirichlet count twice *)
Theorem C05_free_nodes_count_refuted :
  exists (m : @MeshData pt nat),
    build pt_mean pt0 cross_nodes cross_els (descr bottom top) = Ok m /\
    Z.of_nat (List.length (index_select pt0 (free_indices m) (m_nodes m))) = 1%Z /\
    free_nodes_count m = (-1)%Z.
Proof. eexists. split; [vm_compute; reflexivity|]. split; vm_compute; reflexivity. Qed.
Print Assumptions C05_free_nodes_count_refuted.

(* C06: classification of the boundary faces *)
Theorem C06_face_classes :
  forall (P V : Type) (mean : list P -> P) (zero : P) (nodes : list P) (els : list (list nat))
         (d : @Description P V) (m : @MeshData P V) (w : nat) (contact dirichlet : P -> bool),
  in_range (List.length nodes) els -> simplices w els ->
  dict_get (indicators d) "contact" = Some contact ->
  dict_get (indicators d) "dirichlet" = Some dirichlet ->
  build mean zero nodes els d = Ok m ->
  (forall f, In f (faces_of m "contact") <->
     boundary_face w (m_elements m) f /\ face_holds mean (m_nodes m) contact f) /\
  (forall f, In f (faces_of m "dirichlet") <->
     boundary_face w (m_elements m) f /\ face_holds mean (m_nodes m) dirichlet f) /\
  (forall f, In f (faces_of m "neumann") <->
     boundary_face w (m_elements m) f /\ ~ face_holds mean (m_nodes m) contact f
       /\ ~ face_holds mean (m_nodes m) dirichlet f) /\
  (forall f, boundary_face w (m_elements m) f ->
     In f (faces_of m "contact") \/ In f (faces_of m "dirichlet") \/ In f (faces_of m "neumann")) /\
  StronglySorted lex_lt (faces_of m "contact") /\
  StronglySorted lex_lt (faces_of m "dirichlet") /\
  StronglySorted lex_lt (faces_of m "neumann").
Proof. exact (@face_classes). Qed.
Print Assumptions C06_face_classes.

Example C06_example :
  exists m, build pt_mean pt0 cross_nodes cross_els (descr bottom top) = Ok m /\
    faces_of m "contact" = [[0; 1]] /\ faces_of m "dirichlet" = [[3; 4]] /\
    faces_of m "neumann" = [[0; 4]; [1; 3]].
Proof. eexists. split; [vm_compute; reflexivity|repeat split]. Qed.

(* C08: edges *)
Theorem C08_edges :
  forall (P V : Type) (mean : list P -> P) (zero : P) (nodes : list P) (els : list (list nat))
         (d : @Description P V) (m : @MeshData P V) (w : nat),
  in_range (List.length nodes) els -> simplices w els ->
  build mean zero nodes els d = Ok m ->
  StronglySorted lex_lt2 (m_edges m) /\
  (forall i j, In (i, j) (m_edges m) <-> i < j /\ share_element (m_elements m) i j).
Proof. exact (@mesh_edges). Qed.
Print Assumptions C08_edges.

Theorem C08_edges_matrix :
  forall (w : nat) (els : list (list nat)) (x y : nat),
  simplices w els ->
  (x <> y -> shared_count els x y (get_edges_matrix els x y)) /\
  get_edges_matrix els x x = 0 /\
  get_edges_matrix els x y = get_edges_matrix els y x.
Proof. exact edges_matrix_spec. Qed.
Print Assumptions C08_edges_matrix.

Example C08_example :
  get_edges_matrix cross_els 2 5 = 2 /\ get_edges_matrix cross_els 1 2 = 1 /\
  exists m, build pt_mean pt0 cross_nodes cross_els (descr bottom top) = Ok m /\
    m_edges m = [(0, 1); (0, 2); (0, 4); (1, 2); (1, 3); (2, 3); (2, 4); (3, 4)].
Proof. split; [reflexivity|split; [reflexivity|eexists; split; vm_compute; reflexivity]]. Qed.

(* C09: the slice pairs of a boundary denote exactly the dofs of its nodes, each once,
   with the right entry of the condition array *)
Theorem C09_dof_slices_array :
  forall (idx : list nat) (N dim : nat), idx <> [] ->
  exists out, all_indices_array idx N dim = Ok out /\
    Forall matching out /\
    (forall dof p, In (dof, p) (flat_map slice_pairs out) <-> boundary_dof idx N dim dof p) /\
    (NoDup idx -> Forall (fun n => n < N) idx -> NoDup (map fst (flat_map slice_pairs out))).
Proof. exact dof_slices_array. Qed.
Print Assumptions C09_dof_slices_array.

Theorem C09_dof_slices_slice :
  forall (start stop N dim : nat), start <= stop ->
  let out := all_indices_slice start stop N dim in
  Forall matching out /\
  (forall dof p, In (dof, p) (flat_map slice_pairs out) <->
     boundary_dof (seq start (stop - start)) N dim dof p) /\
  (stop <= N -> NoDup (map fst (flat_map slice_pairs out))).
Proof. exact dof_slices_slice. Qed.
Print Assumptions C09_dof_slices_slice.

Example C09_example :
  all_indices_array [2; 3; 5; 7; 8] 10 2 =
  Ok [((2, 4), (0, 2)); ((5, 6), (2, 3)); ((7, 9), (3, 5));
      ((12, 14), (0, 2)); ((15, 16), (2, 3)); ((17, 19), (3, 5))].
Proof. reflexivity. Qed.

(* C10 *)
Theorem C10_boundary_slice :
  forall (P V : Type) (mean : list P -> P) (zero : P) (nodes : list P) (els : list (list nat))
         (d : @Description P V) (m : @MeshData P V) (w : nat) (contact dirichlet : P -> bool),
  in_range (List.length nodes) els -> simplices w els ->
  dict_get (indicators d) "contact" = Some contact ->
  dict_get (indicators d) "dirichlet" = Some dirichlet ->
  build mean zero nodes els d = Ok m ->
  (forall i, boundary_node w els i -> ~ holds_at nodes dirichlet i) ->
  exists C N I,
    node_order w nodes els (m_nodes m) (m_elements m) contact dirichlet C N I [] /\
    index_select 0 (boundary_index m) (C ++ N ++ I) = C ++ N /\
    picks (C ++ N) nodes (initial_boundary_nodes m).
Proof. exact (@boundary_slice_no_dirichlet). Qed.
Print Assumptions C10_boundary_slice.

Example C10_example :
  exists m, build pt_mean pt0 cross_nodes cross_els (descr bottom nowhere) = Ok m /\
    initial_boundary_nodes m = [(0, 0); (4, 0); (4, 4); (0, 4)]%Z.
Proof. eexists. split; [vm_compute; reflexivity|reflexivity]. Qed.

(* with Dirichlet nodes the slice contains the interior node (2,2) *)
Theorem C10_boundary_slice_refuted :
  exists (m : @MeshData pt nat),
    build pt_mean pt0 cross_nodes cross_els (descr bottom top) = Ok m /\
    In (2, 2)%Z (initial_boundary_nodes m) /\
    nth_error cross_nodes 5 = Some (2, 2)%Z /\
    ~ boundary_node 3 cross_els 5.
Proof.
  eexists. split; [vm_compute; reflexivity|]. split; [vm_compute; auto|]. split; [reflexivity|].
  intros H. apply (boundary_indices_In 3) in H.
  - vm_compute in H. intuition lia.
  - repeat (constructor; [split; [reflexivity|repeat constructor; simpl; intuition lia]|]). constructor.
Qed.
Print Assumptions C10_boundary_slice_refuted.

(* C61: mesh construction succeeds for every description whose extra boundaries carry a
   condition and do not use a reserved name; otherwise it may raise *)
Theorem C61_build_total :
  forall (P V : Type) (zeros : list P -> V) (mean : list P -> P) (zero : P) (nodes : list P)
         (els : list (list nat)) (kwargs : list (string * ((P -> bool) * option (list P -> V)))),
  Forall (fun '(key, (_, cond)) => key = "contact" \/ key = "dirichlet" \/
             (cond <> None /\ reserved key = false)) kwargs ->
  exists m, build mean zero nodes els (make_description zeros kwargs) = Ok m.
Proof. exact (@build_from_keywords). Qed.
Print Assumptions C61_build_total.

Theorem C61_build_total_refuted :
  build pt_mean pt0 cross_nodes cross_els
    (make_description len_zeros [("contact", (bottom, None)); ("left", (left_, None))])
    = Err (KeyError "left") /\
  build pt_mean pt0 cross_nodes cross_els
    (make_description len_zeros [("neumann", (left_, Some len_zeros))]) = Err TypeError.
Proof. split; vm_compute; reflexivity. Qed.
Print Assumptions C61_build_total_refuted.

Example C61_example :
  exists m, build pt_mean pt0 cross_nodes cross_els
    (make_description len_zeros [("contact", (bottom, None)); ("left", (left_, Some len_zeros))]) = Ok m.
Proof. eexists. vm_compute. reflexivity. Qed.
