(* The divergence theorem for the derivative matrices of meshes that the library makes. *)
From Coq Require Import Reals List Arith Bool Lia Lra Permutation Sorted String.
From Verif Require Import Common PyModel RVec ListLemmas MeshModel MeshBuildModel MeshSpec FemModel FemSpec ForcesSpec
  CrossModel CrossSpec CrossFinalProofs ZooSpec ZooModel ZooBuilt ImportSpec ImportProofs GaussSpec GaussProofs GaussFinal SidesProofs SidesFinal PatchSpec PatchProofs PatchProblemSpec.
Import ListNotations.
Local Open Scope string_scope.
Local Open Scope list_scope.
Local Open Scope R_scope.

Lemma triangles_simplices N x els : triangles N x els -> simplices 3 els.
Proof.
  intros (_ & L & D). unfold simplices. rewrite Forall_forall in *. intros e He. split; [auto|].
  specialize (L e He). specialize (D e He). destruct e as [|a [|b [|c [|]]]]; try discriminate.
  assert (a <> b /\ a <> c /\ b <> c) as (H1 & H2 & H3).
  { repeat split; intros ->; apply D; unfold det_2d, corners; cbn [nth]; ring. }
  repeat constructor; cbn; intuition congruence.
Qed.
Lemma tetrahedra_simplices N x els : tetrahedra N x els -> simplices 4 els.
Proof.
  intros (_ & L & D). unfold simplices. rewrite Forall_forall in *. intros e He. split; [auto|].
  specialize (L e He). specialize (D e He). destruct e as [|a [|b [|c [|d [|]]]]]; try discriminate.
  assert (a <> b /\ a <> c /\ a <> d /\ b <> c /\ b <> d /\ c <> d) as (H1 & H2 & H3 & H4 & H5 & H6).
  { repeat split; intros ->; apply D; unfold det_3d, corners; cbn [nth]; ring. }
  repeat constructor; cbn; intuition congruence.
Qed.

Lemma gauss_plane N x els : triangles N x els -> two_sided 2 x els -> obeys_gauss 2 N x els.
Proof. intros HT TS B k HB Hk. exact (derivative_2d N x els B k HT (triangles_simplices N x els HT) TS HB Hk). Qed.
Lemma gauss_solid N x els : tetrahedra N x els -> two_sided 3 x els -> obeys_gauss 3 N x els.
Proof. intros HT TS B k HB Hk. exact (derivative_3d N x els B k HT (tetrahedra_simplices N x els HT) TS HB Hk). Qed.

Lemma gauss_cross lx ly p sx sy : request lx ly p sx sy -> forall pos x y, placed_at pos x y ->
  forall (d : @Description (list R) vec) m ic id, dict_get (indicators d) "contact" = Some ic -> dict_get (indicators d) "dirichlet" = Some id ->
  cross_mesh [lx; ly] p pos d = Ok m -> obeys_gauss 2 (List.length (m_nodes m)) (table_of (m_nodes m)) (m_elements m).
Proof.
  intros RQ pos x y PL d m ic id HC HD HM. apply gauss_plane.
  - exact (proj1 (proj2 (cross_mesh_built lx ly p sx sy RQ pos x y PL d m ic id HC HD HM))).
  - exact (cross_sided lx ly p sx sy RQ pos x y PL d m ic id HC HD HM).
Qed.
Lemma gauss_grid nodes els : solid_grid nodes els -> els <> [] -> forall pos v, placed_by nodes pos v ->
  forall (d : @Description (list R) vec) (m : @MeshData (list R) vec) ic id, dict_get (indicators d) "contact" = Some ic -> dict_get (indicators d) "dirichlet" = Some id ->
  solid_mesh (nodes, els) pos d = Ok m -> obeys_gauss 3 (List.length (m_nodes m)) (table_of (m_nodes m)) (m_elements m).
Proof.
  intros SG NE pos v PL d m ic id HC HD HM. apply gauss_solid.
  - exact (proj1 (proj2 (built_solid nodes els SG NE pos v PL d m ic id HC HD HM))).
  - exact (solid_sided nodes els SG NE pos v PL d m ic id HC HD HM).
Qed.
Lemma gauss_solid_file f cells : solid_file f cells -> two_sided 3 (table_of (mf_points f)) cells -> forall pos v, asked_move 3 (mf_points f) pos v ->
  forall (V : Type) (d : @Description (list R) V) (m : @MeshData (list R) V) ic id, dict_get (indicators d) "contact" = Some ic -> dict_get (indicators d) "dirichlet" = Some id ->
  imported_mesh f pos d = Ok m -> obeys_gauss 3 (List.length (m_nodes m)) (table_of (m_nodes m)) (m_elements m).
Proof.
  intros SF TS pos v AM V d m ic id HC HD HM. apply gauss_solid.
  - exact (proj1 (proj2 (solid_read f cells pos v SF AM d m (ex_intro _ ic HC) (ex_intro _ id HD) HM))).
  - exact (solid_file_sided f cells SF TS pos v AM V d m ic id HC HD HM).
Qed.
Lemma gauss_plane_file f cells : plane_file f cells -> spread_out f cells -> two_sided 2 (table_of (mf_points f)) cells -> forall pos v, asked_move 2 (mf_points f) pos v ->
  forall (V : Type) (d : @Description (list R) V) (m : @MeshData (list R) V) ic id, dict_get (indicators d) "contact" = Some ic -> dict_get (indicators d) "dirichlet" = Some id ->
  imported_mesh f pos d = Ok m -> obeys_gauss 2 (List.length (m_nodes m)) (table_of (m_nodes m)) (m_elements m).
Proof.
  intros SF SP TS pos v AM V d m ic id HC HD HM. apply gauss_plane.
  - exact (proj1 (proj2 (plane_read f cells pos v SF AM d m (ex_intro _ ic HC) (ex_intro _ id HD) HM)) SP).
  - exact (plane_file_sided f cells SF TS pos v AM V d m ic id HC HD HM).
Qed.

Lemma plane_gauss N x els : triangles N x els ->
  (exists n, outer_normals 2 x els n) /\
  (two_sided 2 x els -> forall n faces v g c, outer_normals 2 x els n -> boundary_list 2 els faces -> field_gradient 2 x els v g -> (c < 2)%nat ->
   integral (element_area x) els (fun e => g e c) = flux 2 x faces n v c).
Proof. intros HT. destruct (gauss_2d N x els HT (triangles_simplices N x els HT)) as [E G]. split; [exact E|]. intros TS n faces v g c HN. exact (G TS n HN faces v g c). Qed.
Lemma solid_gauss N x els : tetrahedra N x els ->
  (exists n, outer_normals 3 x els n) /\
  (two_sided 3 x els -> forall n faces v g c, outer_normals 3 x els n -> boundary_list 3 els faces -> field_gradient 3 x els v g -> (c < 3)%nat ->
   integral (element_volume x) els (fun e => g e c) = flux 3 x faces n v c).
Proof. intros HT. destruct (gauss_3d N x els HT (tetrahedra_simplices N x els HT)) as [E G]. split; [exact E|]. intros TS n faces v g c HN. exact (G TS n HN faces v g c). Qed.
