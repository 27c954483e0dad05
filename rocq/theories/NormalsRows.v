(* All rows of the surface normals of a mesh. *)
From Coq Require Import Reals QArith List Arith ZArith String Bool Lia Lra Sorted.
From Verif Require Import Common PyModel MeshModel MeshSpec MeshBuildModel NormalsModel NormalsSpec
  ListLemmas MeshFacesProofs MeshBuildProofs MeshMapProofs NormalsProofs NormalsGeomProofs.
Import ListNotations.
Local Open Scope string_scope.
Local Open Scope list_scope.
Local Open Scope R_scope.

Section Rows.
  Context {P V : Type}.
  Variables (zero : P) (psub : P -> P -> P) (pdot : P -> P -> R) (pscale : R -> P -> P).
  Variable unoriented : list P -> P * P.
  Variable mean : list P -> P.
  Variables (nodes0 : list P) (els0 : list (list nat)) (d : @Description P V).
  Variables (m : @MeshData P V) (w : nat).
  Hypothesis HR : in_range (List.length nodes0) els0.
  Hypothesis HS : simplices (S (S w)) els0.
  Hypothesis HB : build mean zero nodes0 els0 d = Ok m.

  Lemma row_nth ns k f n o :
    mesh_normals zero psub pdot pscale unoriented m = Ok ns ->
    nth_error (faces_of m "contact" ++ faces_of m "neumann" ++ faces_of m "dirichlet") k = Some f ->
    nth_error ns k = Some n -> nth_error (m_internal m) k = Some o ->
    n = oriented psub pdot pscale unoriented (map (fun i => nth i (m_nodes m) zero) f) (nth o (m_nodes m) zero).
  Proof.
    intros HN Hf Hn Ho. unfold mesh_normals, surfaces_normals in HN.
    rewrite (stacked_id zero psub pdot pscale unoriented mean nodes0 els0 d m w HR HS HB) in HN.
    destruct (broadcast _ _) as [ps|] eqn:EB; [|discriminate]. inversion HN; subst ns. clear HN.
    assert (Hs : nth_error (stacked_surfaces m) k = Some f) by exact Hf.
    pose proof (broadcast_nth _ _ _ _ _ _ EB Hs Ho) as HP.
    rewrite nth_error_map, HP in Hn. cbn in Hn. congruence.
  Qed.
End Rows.

Lemma rows2 : forall (V : Type) (nodes : list P2) (els : list (list nat)) (d : @Description P2 V) (m : @MeshData P2 V) (ns : list P2),
  in_range (List.length nodes) els -> simplices 3 els -> mesh_init2 nodes els d = Ok (m, ns) ->
  forall k f n (a b o : P2) qi q,
  nth_error (faces_of m "contact" ++ faces_of m "neumann" ++ faces_of m "dirichlet") k = Some f -> nth_error ns k = Some n ->
  picks f (m_nodes m) [a; b] -> side2 a b o <> 0 -> (forall p, In p (m_nodes m) -> 0 <= side2 a b p * side2 a b o) ->
  nth_error (m_internal m) k = Some qi -> nth_error (m_nodes m) qi = Some q ->
  (side2 a b q <> 0 -> outward2 a b o n) /\ (side2 a b q = 0 -> n = (0, 0)).
Proof.
  intros V nodes els d m ns HR HS HI k f n a b o qi q Hf Hn Hp Ho Hside Hqi Hq.
  destruct (init2_parts _ _ _ _ _ HI) as [HB HN].
  assert (E2 := row_nth zero2 sub2 dot2 scale2 unoriented2 mean2 nodes els d m 1 HR HS HB ns k f n qi HN Hf Hn Hqi).
  rewrite (picks_map _ _ _ zero2 Hp) in E2. rewrite (nth_error_nth _ _ _ Hq) in E2. subst n. split.
  - intros N. apply oriented2_outward. apply nonneg_nonzero_pos; auto. apply Hside. eapply nth_error_In; eauto.
  - intros Z. now apply oriented2_zero with o.
Qed.

Lemma rows3 : forall (V : Type) (nodes : list P3) (els : list (list nat)) (d : @Description P3 V) (m : @MeshData P3 V) (ns : list P3),
  in_range (List.length nodes) els -> simplices 4 els -> mesh_init3 nodes els d = Ok (m, ns) ->
  forall k f n (a b c o : P3) qi q,
  nth_error (faces_of m "contact" ++ faces_of m "neumann" ++ faces_of m "dirichlet") k = Some f -> nth_error ns k = Some n ->
  picks f (m_nodes m) [a; b; c] -> side3 a b c o <> 0 -> (forall p, In p (m_nodes m) -> 0 <= side3 a b c p * side3 a b c o) ->
  nth_error (m_internal m) k = Some qi -> nth_error (m_nodes m) qi = Some q ->
  (side3 a b c q <> 0 -> outward3 a b c o n) /\ (side3 a b c q = 0 -> n = (0, 0, 0)).
Proof.
  intros V nodes els d m ns HR HS HI k f n a b c o qi q Hf Hn Hp Ho Hside Hqi Hq.
  destruct (init3_parts _ _ _ _ _ HI) as [HB HN].
  assert (E2 := row_nth zero3 sub3 dot3 scale3 unoriented3 mean3 nodes els d m 2 HR HS HB ns k f n qi HN Hf Hn Hqi).
  rewrite (picks_map _ _ _ zero3 Hp) in E2. rewrite (nth_error_nth _ _ _ Hq) in E2. subst n. split.
  - intros N. apply oriented3_outward. apply nonneg_nonzero_pos; auto. apply Hside. eapply nth_error_In; eauto.
  - intros Z. now apply oriented3_zero with o.
Qed.
