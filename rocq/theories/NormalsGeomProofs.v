(* Geometry of the computed normals (C07), in the plane and in space. *)
From Coq Require Import Reals List Arith ZArith String Bool Lia Lra Sorted.
From Verif Require Import Common PyModel MeshModel MeshSpec MeshBuildModel NormalsModel NormalsSpec
  ListLemmas MeshFacesProofs MeshBuildProofs NormalsProofs.
Import ListNotations.
Local Open Scope string_scope.
Local Open Scope list_scope.
Local Open Scope R_scope.

Lemma sign_pos x : 0 < x -> sign x = 1.
Proof. intros H. unfold sign. destruct (Rlt_dec 0 x); lra. Qed.
Lemma sign_neg x : x < 0 -> sign x = -1.
Proof. intros H. unfold sign. destruct (Rlt_dec 0 x); [lra|]. destruct (Rlt_dec x 0); lra. Qed.
Lemma sign_0 : sign 0 = 0.
Proof. unfold sign. destruct (Rlt_dec 0 0); [lra|]. destruct (Rlt_dec 0 0); lra. Qed.

Lemma sign_cases x : x <> 0 -> (sign x = 1 /\ 0 < x) \/ (sign x = -1 /\ x < 0).
Proof.
  intros H. destruct (Rlt_dec 0 x); [left; split; auto using sign_pos|].
  right. assert (x < 0) by lra. split; auto using sign_neg.
Qed.

Lemma sign_div x l : 0 < l -> sign (x / l) = sign x.
Proof.
  intros H. destruct (Req_dec x 0) as [->|N].
  - unfold Rdiv. rewrite Rmult_0_l. reflexivity.
  - destruct (sign_cases x N) as [[-> P]|[-> P]].
    + apply sign_pos. apply Rdiv_lt_0_compat; auto.
    + apply sign_neg. replace (x / l) with (- ((- x) / l)) by (field; lra).
      assert (0 < (- x) / l) by (apply Rdiv_lt_0_compat; lra). lra.
Qed.

Lemma sign_opp x : sign (- x) = - sign x.
Proof.
  destruct (Req_dec x 0) as [->|N].
  - rewrite Ropp_0, sign_0. lra.
  - destruct (sign_cases x N) as [[-> P]|[-> P]]; [apply sign_neg|rewrite sign_pos]; lra.
Qed.

Lemma sign_square x : x <> 0 -> sign x * sign x = 1.
Proof. intros N. destruct (sign_cases x N) as [[-> P]|[-> P]]; lra. Qed.

Lemma sign_same x y : 0 < x * y -> 0 < sign x * y.
Proof.
  intros H. assert (x <> 0) by (intros ->; lra).
  destruct (sign_cases x H0) as [[-> P]|[-> P]].
  - assert (~ y <= 0); [|lra]. intros L. assert (x * y <= x * 0) by (apply Rmult_le_compat_l; lra). lra.
  - assert (~ 0 <= y); [|lra]. intros L.
    assert (x * y <= 0 * y) by (apply Rmult_le_compat_r; lra). lra.
Qed.

Lemma inv_sq l s : 0 < s -> l = sqrt s -> s * (/ l * / l) = 1.
Proof.
  intros H ->. assert (sqrt s * sqrt s = s) by (apply sqrt_sqrt; lra).
  assert (0 < sqrt s) by (now apply sqrt_lt_R0). rewrite <- H0 at 1. field. lra.
Qed.

Lemma sq_pos x : x <> 0 -> 0 < x * x.
Proof. intros H. now apply Rsqr_pos_lt. Qed.
Lemma sq_nonneg x : 0 <= x * x.
Proof. apply Rle_0_sqr. Qed.

(* ------------------------------------------------------------------ 2D *)

Lemma oriented2_formula (a b q : P2) :
  let l := sqrt (dot2 (sub2 b a) (sub2 b a)) in
  0 < l ->
  @oriented P2 sub2 dot2 scale2 unoriented2 [a; b] q =
  (sign (side2 a b q) * ((snd b - snd a) / l), sign (side2 a b q) * (- ((fst b - fst a) / l))).
Proof.
  intros l Hl. unfold oriented, unoriented2. cbn [nth].
  unfold normalize2. fold l. unfold scale2. cbn [fst snd sub2].
  replace (sign (dot2 (sub2 q a) ((snd b - snd a) / l, - ((fst b - fst a) / l))))
    with (- sign (side2 a b q)).
  - f_equal; ring.
  - rewrite <- sign_opp, <- (sign_div (- side2 a b q) l Hl). f_equal.
    unfold dot2, sub2, side2. cbn [fst snd]. field. lra.
Qed.

Lemma edge_positive a b q : side2 a b q <> 0 -> 0 < dot2 (sub2 b a) (sub2 b a).
Proof.
  intros H. unfold dot2, sub2. cbn [fst snd].
  destruct (Req_dec (fst b - fst a) 0) as [E|E]; [destruct (Req_dec (snd b - snd a) 0) as [E'|E']|].
  - exfalso. apply H. unfold side2. rewrite E, E'. ring.
  - pose proof (sq_pos _ E'). pose proof (sq_nonneg (fst b - fst a)). lra.
  - pose proof (sq_pos _ E). pose proof (sq_nonneg (snd b - snd a)). lra.
Qed.

(* the computed normal is outward whenever the node used for the orientation is on the
   same side of the face as the true opposing node *)
Lemma oriented2_outward (a b o q : P2) :
  0 < side2 a b q * side2 a b o ->
  outward2 a b o (@oriented P2 sub2 dot2 scale2 unoriented2 [a; b] q).
Proof.
  intros H.
  assert (Nq : side2 a b q <> 0) by (intros E; rewrite E in H; lra).
  pose proof (edge_positive a b q Nq) as Hd.
  set (s := dot2 (sub2 b a) (sub2 b a)) in *.
  assert (Hl : 0 < sqrt s) by (now apply sqrt_lt_R0).
  pose proof (oriented2_formula a b q) as F. fold s in F. cbn zeta in F. rewrite (F Hl). clear F.
  set (l := sqrt s) in *. pose proof (inv_sq l s Hd eq_refl) as HI.
  pose proof (sign_square _ Nq) as HS. pose proof (sign_same _ _ H) as HO.
  set (g := sign (side2 a b q)) in *. unfold outward2. cbn [fst snd].
  split; [|split].
  - transitivity (g * g * (s * (/ l * / l))).
    + unfold s, dot2, sub2. cbn [fst snd]. unfold Rdiv. ring.
    + rewrite HS, HI. ring.
  - unfold Rdiv. ring.
  - assert (0 < / l) by (now apply Rinv_0_lt_compat).
    assert (E : g * ((snd b - snd a) / l) * (fst o - fst a) + g * - ((fst b - fst a) / l) * (snd o - snd a)
      = - ((g * side2 a b o) * / l)) by (unfold side2, Rdiv; ring).
    rewrite E. assert (0 < (g * side2 a b o) * / l) by (now apply Rmult_lt_0_compat). lra.
Qed.

Lemma oriented2_zero (a b o q : P2) :
  side2 a b o <> 0 -> side2 a b q = 0 ->
  @oriented P2 sub2 dot2 scale2 unoriented2 [a; b] q = (0, 0).
Proof.
  intros Ho Hq. pose proof (edge_positive a b o Ho) as Hd.
  pose proof (oriented2_formula a b q) as F. cbn zeta in F. rewrite F.
  - rewrite Hq, sign_0. f_equal; ring.
  - now apply sqrt_lt_R0.
Qed.

(* orientation node on the wrong side: the normal points into the body *)
Lemma oriented2_inward (a b o q : P2) :
  side2 a b q * side2 a b o < 0 ->
  let n := @oriented P2 sub2 dot2 scale2 unoriented2 [a; b] q in
  0 < fst n * (fst o - fst a) + snd n * (snd o - snd a).
Proof.
  intros H n.
  assert (Nq : side2 a b q <> 0) by (intros E; rewrite E in H; lra).
  pose proof (edge_positive a b q Nq) as Hd.
  set (s := dot2 (sub2 b a) (sub2 b a)) in *.
  assert (Hl : 0 < sqrt s) by (now apply sqrt_lt_R0).
  pose proof (oriented2_formula a b q) as F. fold s in F. cbn zeta in F. unfold n. rewrite (F Hl). clear F n.
  set (l := sqrt s) in *.
  assert (HO : 0 < sign (side2 a b q) * (- side2 a b o)) by (apply sign_same; lra).
  set (g := sign (side2 a b q)) in *. cbn [fst snd].
  assert (0 < / l) by (now apply Rinv_0_lt_compat).
  assert (E : g * ((snd b - snd a) / l) * (fst o - fst a) + g * - ((fst b - fst a) / l) * (snd o - snd a)
      = (g * - side2 a b o) * / l) by (unfold side2, Rdiv; ring).
  rewrite E. now apply Rmult_lt_0_compat.
Qed.

(* ------------------------------------------------------------------ 3D *)

Lemma dot3_dotp a b : dot3 a b = dotp3 a b.
Proof. destruct a as [[a0 a1] a2], b as [[b0 b1] b2]. reflexivity. Qed.
Lemma sub3_diff a b : sub3 a b = diff3 a b.
Proof. destruct a as [[a0 a1] a2], b as [[b0 b1] b2]. reflexivity. Qed.

Lemma side3_dot a b c x : side3 a b c x = dot3 (sub3 x a) (cross3 (sub3 b a) (sub3 c a)).
Proof.
  destruct a as [[a0 a1] a2], b as [[b0 b1] b2], c as [[c0 c1] c2], x as [[x0 x1] x2].
  unfold side3, diff3, dot3, sub3, cross3. cbn [fst snd]. ring.
Qed.

Lemma normalize3_scale v : normalize3 v = scale3 (/ sqrt (dot3 v v)) v.
Proof.
  destruct v as [[x y] z]. unfold normalize3, scale3. unfold Rdiv. f_equal; [f_equal|]; ring.
Qed.

Lemma dot3_scale k u v : dot3 u (scale3 k v) = k * dot3 u v.
Proof. destruct u as [[u0 u1] u2], v as [[v0 v1] v2]. unfold dot3, scale3. ring. Qed.
Lemma dot3_sym u v : dot3 u v = dot3 v u.
Proof. destruct u as [[u0 u1] u2], v as [[v0 v1] v2]. unfold dot3. ring. Qed.
Lemma scale3_scale k h v : scale3 k (scale3 h v) = scale3 (k * h) v.
Proof. destruct v as [[x y] z]. unfold scale3. f_equal; [f_equal|]; ring. Qed.

Lemma oriented3_formula (a b c q : P3) :
  let nv := cross3 (sub3 b a) (sub3 c a) in
  let l := sqrt (dot3 nv nv) in
  0 < l ->
  @oriented P3 sub3 dot3 scale3 unoriented3 [a; b; c] q = scale3 (- sign (side3 a b c q) * / l) nv.
Proof.
  intros nv l Hl. unfold oriented, unoriented3. cbn [nth]. fold nv.
  rewrite normalize3_scale. fold l. rewrite scale3_scale, dot3_scale. f_equal.
  rewrite side3_dot. fold nv.
  replace (/ l * dot3 (sub3 q a) nv) with (dot3 (sub3 q a) nv / l) by (field; lra).
  rewrite sign_div; auto. ring.
Qed.

Lemma dot3_pos v : (exists x, dot3 x v <> 0) -> 0 < dot3 v v.
Proof.
  destruct v as [[x y] z]. intros [[[a b] c] H]. unfold dot3 in *.
  pose proof (sq_nonneg x). pose proof (sq_nonneg y). pose proof (sq_nonneg z).
  destruct (Req_dec x 0) as [->|Nx]; [destruct (Req_dec y 0) as [->|Ny];
    [destruct (Req_dec z 0) as [->|Nz]|]|]; [lra| | |].
  - pose proof (sq_pos _ Nz). lra.
  - pose proof (sq_pos _ Ny). lra.
  - pose proof (sq_pos _ Nx). lra.
Qed.

Lemma oriented3_outward (a b c o q : P3) :
  0 < side3 a b c q * side3 a b c o ->
  outward3 a b c o (@oriented P3 sub3 dot3 scale3 unoriented3 [a; b; c] q).
Proof.
  intros H.
  assert (Nq : side3 a b c q <> 0) by (intros E; rewrite E in H; lra).
  set (nv := cross3 (sub3 b a) (sub3 c a)).
  assert (Hd : 0 < dot3 nv nv).
  { apply dot3_pos. exists (sub3 q a). unfold nv. now rewrite <- side3_dot. }
  assert (Hl : 0 < sqrt (dot3 nv nv)) by (now apply sqrt_lt_R0).
  pose proof (oriented3_formula a b c q) as F. fold nv in F. cbn zeta in F. rewrite (F Hl). clear F.
  set (l := sqrt (dot3 nv nv)) in *. pose proof (inv_sq l _ Hd eq_refl) as HI.
  pose proof (sign_square _ Nq) as HS. pose proof (sign_same _ _ H) as HO.
  set (g := sign (side3 a b c q)) in *. unfold outward3.
  rewrite <- !dot3_dotp, <- !sub3_diff.
  rewrite dot3_scale, !(dot3_sym (scale3 _ nv)), !dot3_scale.
  split; [|split; [|split]].
  - transitivity (g * g * (dot3 nv nv * (/ l * / l))); [ring|rewrite HS, HI; ring].
  - replace (dot3 (sub3 b a) nv) with 0; [ring|]. unfold nv.
    destruct (sub3 b a) as [[x y] z], (sub3 c a) as [[x' y'] z']. unfold dot3, cross3. ring.
  - replace (dot3 (sub3 c a) nv) with 0; [ring|]. unfold nv.
    destruct (sub3 b a) as [[x y] z], (sub3 c a) as [[x' y'] z']. unfold dot3, cross3. ring.
  - unfold nv. rewrite <- side3_dot.
    assert (0 < / l) by (now apply Rinv_0_lt_compat).
    assert (0 < (g * side3 a b c o) * / l) by (now apply Rmult_lt_0_compat). lra.
Qed.

Lemma oriented3_zero (a b c o q : P3) :
  side3 a b c o <> 0 -> side3 a b c q = 0 ->
  @oriented P3 sub3 dot3 scale3 unoriented3 [a; b; c] q = (0, 0, 0).
Proof.
  intros Ho Hq. pose proof (oriented3_formula a b c q) as F. cbn zeta in F. rewrite F.
  - rewrite Hq, sign_0. destruct (cross3 _ _) as [[x y] z]. unfold scale3. f_equal; [f_equal|]; ring.
  - apply sqrt_lt_R0, dot3_pos. exists (sub3 o a). now rewrite <- side3_dot.
Qed.

(* --------------------------------------------------------------- meshes *)

Lemma nonneg_nonzero_pos x y : 0 <= x * y -> x <> 0 -> y <> 0 -> 0 < x * y.
Proof.
  intros [H|H] Hx Hy; auto. symmetry in H. apply Rmult_integral in H. tauto.
Qed.

Lemma picks2 {A} (l : list A) i j a b d :
  picks [i; j] l [a; b] -> map (fun k => nth k l d) [i; j] = [a; b].
Proof.
  intros H. inversion H as [|? ? ? ? H1 H2]; subst. inversion H2 as [|? ? ? ? H3 H4]; subst.
  simpl. now rewrite (nth_error_nth _ _ _ H1), (nth_error_nth _ _ _ H3).
Qed.

Lemma picks_map {A} (f : list nat) (l ps : list A) d :
  picks f l ps -> map (fun k => nth k l d) f = ps.
Proof.
  intros H. induction H as [|i p f ps H1 H2 IH]; simpl; auto.
  now rewrite (nth_error_nth _ _ _ H1), IH.
Qed.

Section Planar.
  Context {V : Type}.
  Variables (nodes0 : list P2) (els0 : list (list nat)) (d : @Description P2 V).
  Variables (m : @MeshData P2 V) (ns : list P2).
  Hypothesis HR : in_range (List.length nodes0) els0.
  Hypothesis HS : simplices 3 els0.
  Hypothesis HI : mesh_init2 nodes0 els0 d = Ok (m, ns).

  Lemma init2_parts : build mean2 zero2 nodes0 els0 d = Ok m /\ mesh_normals2 m = Ok ns.
  Proof.
    unfold mesh_init2, mesh_init in HI. destruct (build _ _ _ _ _) as [m'|]; [|discriminate].
    simpl in HI. unfold mesh_normals2.
    destruct (mesh_normals _ _ _ _ _ m') as [ns'|] eqn:E; [|discriminate].
    simpl in HI. inversion HI; subst. auto.
  Qed.

  (* body on one side of the face: outward, or zero if the orientation node is on the line *)
  Lemma normals2_convex k f n (a b o : P2) qi q :
    nth_error (faces_of m "contact") k = Some f -> nth_error (contact_normals m ns) k = Some n ->
    picks f (m_nodes m) [a; b] ->
    side2 a b o <> 0 ->
    (forall p, In p (m_nodes m) -> 0 <= side2 a b p * side2 a b o) ->
    nth_error (m_internal m) k = Some qi -> nth_error (m_nodes m) qi = Some q ->
    (side2 a b q <> 0 -> outward2 a b o n) /\ (side2 a b q = 0 -> n = (0, 0)).
  Proof.
    intros Hf Hn Hp Ho Hside Hqi Hq. destruct init2_parts as [HB HN].
    destruct (normal_nth zero2 sub2 dot2 scale2 unoriented2 mean2 nodes0 els0 d m 1 HR HS HB
      ns k f n HN Hf Hn) as [q' [E1 E2]].
    rewrite Hqi in E1. inversion E1; subst q'. rewrite (picks_map _ _ _ zero2 Hp) in E2.
    rewrite (nth_error_nth _ _ _ Hq) in E2. subst n. split.
    - intros N. apply oriented2_outward. apply nonneg_nonzero_pos; auto.
      apply Hside. eapply nth_error_In; eauto.
    - intros Z. now apply oriented2_zero with o.
  Qed.

  (* contact faces listed first: outward with respect to the true opposing node *)
  Lemma normals2_aligned contact k f n (a b : P2) oi (o : P2) :
    dict_get (indicators d) "contact" = Some contact ->
    (forall f g, boundary_face 3 (m_elements m) f -> boundary_face 3 (m_elements m) g ->
       face_holds mean2 (m_nodes m) contact f -> ~ face_holds mean2 (m_nodes m) contact g ->
       lex_lt f g) ->
    nth_error (faces_of m "contact") k = Some f -> nth_error (contact_normals m ns) k = Some n ->
    picks f (m_nodes m) [a; b] ->
    opposing (m_elements m) f oi -> nth_error (m_nodes m) oi = Some o ->
    side2 a b o <> 0 ->
    outward2 a b o n.
  Proof.
    intros Hic HF Hf Hn Hp Hopp Ho Hs. destruct init2_parts as [HB HN].
    destruct (normal_nth zero2 sub2 dot2 scale2 unoriented2 mean2 nodes0 els0 d m 1 HR HS HB
      ns k f n HN Hf Hn) as [q' [E1 E2]].
    pose proof (internal_opposing zero2 mean2 nodes0 els0 d m 1 HR HS HB contact k f q' Hic HF Hf E1) as HO.
    assert (q' = oi).
    { destruct (mesh_simplices zero2 mean2 nodes0 els0 d m 1 HR HS HB) as [HSm _].
      destruct HO as (k1 & e1 & O1 & I1 & X1). destruct Hopp as (k2 & e2 & O2 & I2 & X2).
      destruct O1 as (A1 & B1 & C1). destruct O2 as (A2 & B2 & C2).
      assert (k2 = k1) by eauto. subst k2. rewrite A1 in A2. inversion A2; subst e2.
      unfold simplices in HSm. rewrite Forall_forall in HSm.
      destruct (HSm e1 (nth_error_In _ _ A1)) as [L N].
      assert (Lf : List.length f = 2%nat).
      { apply Forall2_length' in Hp. exact Hp. }
      assert (Nf : NoDup f).
      { apply sorted_lt_NoDup. destruct (faces_filter zero2 mean2 nodes0 els0 d m 1 HR HS HB "contact" (or_introl eq_refl)) as [p Ef].
        apply nth_error_In in Hf. rewrite Ef in Hf. apply filter_In in Hf. destruct Hf as [Hf _].
        pose proof (boundary_rows zero2 mean2 nodes0 els0 d m 1 HR HS HB) as Hrow.
        rewrite Forall_forall in Hrow. now apply Hrow. }
      destruct (Nat.eq_dec q' oi) as [E|NE]; auto. exfalso.
      assert (K : (List.length (q' :: oi :: f) <= List.length e1)%nat).
      { apply NoDup_incl_length.
        - constructor; [simpl; intuition|]. now constructor.
        - intros x [->|[->|Hx]]; auto. }
      simpl in K. lia. }
    subst q'. rewrite (picks_map _ _ _ zero2 Hp) in E2.
    rewrite (nth_error_nth _ _ _ Ho) in E2. subst n. apply oriented2_outward.
    now apply sq_pos.
  Qed.
End Planar.

Section Spatial.
  Context {V : Type}.
  Variables (nodes0 : list P3) (els0 : list (list nat)) (d : @Description P3 V).
  Variables (m : @MeshData P3 V) (ns : list P3).
  Hypothesis HR : in_range (List.length nodes0) els0.
  Hypothesis HS : simplices 4 els0.
  Hypothesis HI : mesh_init3 nodes0 els0 d = Ok (m, ns).

  Lemma init3_parts : build mean3 zero3 nodes0 els0 d = Ok m /\ mesh_normals3 m = Ok ns.
  Proof.
    unfold mesh_init3, mesh_init in HI. destruct (build _ _ _ _ _) as [m'|]; [|discriminate].
    simpl in HI. unfold mesh_normals3.
    destruct (mesh_normals _ _ _ _ _ m') as [ns'|] eqn:E; [|discriminate].
    simpl in HI. inversion HI; subst. auto.
  Qed.

  Lemma normals3_convex k f n (a b c o : P3) qi q :
    nth_error (faces_of m "contact") k = Some f -> nth_error (contact_normals m ns) k = Some n ->
    picks f (m_nodes m) [a; b; c] ->
    side3 a b c o <> 0 ->
    (forall p, In p (m_nodes m) -> 0 <= side3 a b c p * side3 a b c o) ->
    nth_error (m_internal m) k = Some qi -> nth_error (m_nodes m) qi = Some q ->
    (side3 a b c q <> 0 -> outward3 a b c o n) /\ (side3 a b c q = 0 -> n = (0, 0, 0)).
  Proof.
    intros Hf Hn Hp Ho Hside Hqi Hq. destruct init3_parts as [HB HN].
    destruct (normal_nth zero3 sub3 dot3 scale3 unoriented3 mean3 nodes0 els0 d m 2 HR HS HB
      ns k f n HN Hf Hn) as [q' [E1 E2]].
    rewrite Hqi in E1. inversion E1; subst q'. rewrite (picks_map _ _ _ zero3 Hp) in E2.
    rewrite (nth_error_nth _ _ _ Hq) in E2. subst n. split.
    - intros N. apply oriented3_outward. apply nonneg_nonzero_pos; auto.
      apply Hside. eapply nth_error_In; eauto.
    - intros Z. now apply oriented3_zero with o.
  Qed.

  Lemma normals3_aligned contact k f n (a b c : P3) oi (o : P3) :
    dict_get (indicators d) "contact" = Some contact ->
    (forall f g, boundary_face 4 (m_elements m) f -> boundary_face 4 (m_elements m) g ->
       face_holds mean3 (m_nodes m) contact f -> ~ face_holds mean3 (m_nodes m) contact g ->
       lex_lt f g) ->
    nth_error (faces_of m "contact") k = Some f -> nth_error (contact_normals m ns) k = Some n ->
    picks f (m_nodes m) [a; b; c] ->
    opposing (m_elements m) f oi -> nth_error (m_nodes m) oi = Some o ->
    side3 a b c o <> 0 ->
    outward3 a b c o n.
  Proof.
    intros Hic HF Hf Hn Hp Hopp Ho Hs. destruct init3_parts as [HB HN].
    destruct (normal_nth zero3 sub3 dot3 scale3 unoriented3 mean3 nodes0 els0 d m 2 HR HS HB
      ns k f n HN Hf Hn) as [q' [E1 E2]].
    pose proof (internal_opposing zero3 mean3 nodes0 els0 d m 2 HR HS HB contact k f q' Hic HF Hf E1) as HO.
    assert (q' = oi).
    { destruct (mesh_simplices zero3 mean3 nodes0 els0 d m 2 HR HS HB) as [HSm _].
      destruct HO as (k1 & e1 & O1 & I1 & X1). destruct Hopp as (k2 & e2 & O2 & I2 & X2).
      destruct O1 as (A1 & B1 & C1). destruct O2 as (A2 & B2 & C2).
      assert (k2 = k1) by eauto. subst k2. rewrite A1 in A2. inversion A2; subst e2.
      unfold simplices in HSm. rewrite Forall_forall in HSm.
      destruct (HSm e1 (nth_error_In _ _ A1)) as [L N].
      assert (Lf : List.length f = 3%nat).
      { apply Forall2_length' in Hp. exact Hp. }
      assert (Nf : NoDup f).
      { apply sorted_lt_NoDup. destruct (faces_filter zero3 mean3 nodes0 els0 d m 2 HR HS HB "contact" (or_introl eq_refl)) as [p Ef].
        apply nth_error_In in Hf. rewrite Ef in Hf. apply filter_In in Hf. destruct Hf as [Hf _].
        pose proof (boundary_rows zero3 mean3 nodes0 els0 d m 2 HR HS HB) as Hrow.
        rewrite Forall_forall in Hrow. now apply Hrow. }
      destruct (Nat.eq_dec q' oi) as [E|NE]; auto. exfalso.
      assert (K : (List.length (q' :: oi :: f) <= List.length e1)%nat).
      { apply NoDup_incl_length.
        - constructor; [simpl; intuition|]. now constructor.
        - intros x [->|[->|Hx]]; auto. }
      simpl in K. lia. }
    subst q'. rewrite (picks_map _ _ _ zero3 Hp) in E2.
    rewrite (nth_error_nth _ _ _ Ho) in E2. subst n. apply oriented3_outward.
    now apply sq_pos.
  Qed.
End Spatial.
