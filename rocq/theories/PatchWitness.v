(* A square that is pulled at its right side and carried along elsewhere; a folded strip. *)
From Coq Require Import Reals List Arith ZArith Bool String Sorting.Sorted Lia Lra.
From Verif Require Import Common PyModel RVec LinAlg MeshModel MeshBuildModel MeshSpec MeshFacesProofs NormalsModel
  FemModel FemSpec ForcesSpec DirichletSpec StatementModel StatementSpec StatementValueProofs StateModel TimeModel TimeSpec MethodModel
  RunStable ProblemModel ProblemSpec ProblemTotal ProblemDefaults ProblemFinal ProblemWitness
  GaussSpec GaussProofs GaussFinal SidesProofs SidesFinal PatchSpec PatchProofs PatchFinal PatchProblemSpec PatchPosed CrossSpec.
Import ListNotations.
Local Open Scope string_scope.
Local Open Scope list_scope.
Local Open Scope R_scope.

Definition patch_nodes : list P2 := [(0, 0); (1, 0); (1, 1); (0, 1); (1, 1 / 2); (1 / 2, 1 / 2)].
Definition patch_elements : list (list nat) := [[0; 1; 5]; [1; 4; 5]; [4; 2; 5]; [2; 3; 5]; [3; 0; 5]]%nat.
Definition is_eq (a b : R) : bool := if Req_EM_T a b then true else false.
Definition carried (p : P2) : bool := is_eq (fst p) 0 || is_eq (snd p) 0 || is_eq (snd p) 1.
Definition everywhere (p : P2) : bool := negb (is_eq (fst p) (1 / 2)).
Definition nowhere (p : P2) : bool := false.
Definition tilt (p : P2) : R := 1 + 2 * fst p - snd p.
Definition no_load (p : P2) (t : R) : vec := fun _ => 0.
Definition tug (p : P2) (t : R) : vec := fun k => if (k =? 0)%nat then 19 else 4.
Definition warm (p : P2) (t : R) : vec := fun _ => 50.
Definition patch_boundaries (fixed : P2 -> bool) : @Description P2 vec :=
  mkDescription [("contact", nowhere); ("dirichlet", fixed)] [("dirichlet", fun l i => tilt (nth i l zero2))].
Definition patch_problem (fixed : P2 -> bool) : problem :=
  mkProblem patch_nodes patch_elements (patch_boundaries fixed) 2 (fun p t => Ok (no_load p t)) (fun p t => Ok (tug p t))
    (Some (1%nat, (fun p t => Ok (no_load p t)), (fun p t => Ok (warm p t)))) (Some (1 / 2))
    (mkProperties 2 (Some (4, 3)) (Some (1, 2)) (Some 5) None None) None.
Definition tilt_shift : vec := fun _ => 1.
Definition tilt_slope : vec := fun c => if (c =? 0)%nat then 2 else - 1.
Definition tilt_matrix : mat := fun _ => tilt_slope.

Lemma is_eq_true a b : is_eq a b = true <-> a = b.
Proof. unfold is_eq. destruct (Req_EM_T a b); split; intros; auto; discriminate. Qed.
Lemma is_eq_false a b : a <> b -> is_eq a b = false.
Proof. unfold is_eq. destruct (Req_EM_T a b); tauto. Qed.

Section Patch.
  Variable fixed : P2 -> bool.
  Notation pb := (patch_problem fixed).

  Lemma patch_simplices : simplices 3 patch_elements.
  Proof. repeat constructor; cbn; intuition discriminate. Qed.
  Lemma patch_turned : turned_alike (user_points pb) patch_elements.
  Proof.
    split.
    - intros e [<-|[<-|[<-|[<-|[<-|[]]]]]]; unfold det_2d, corners, user_points, node_table; cbn; lra.
    - intros i j e e' p q Hi Hj (a & b & c & -> & H1) (a' & b' & c' & -> & H2).
      destruct i as [|[|[|[|[|[|i]]]]]], j as [|[|[|[|[|[|j]]]]]]; auto; try discriminate; exfalso;
        injection Hi as <- <- <-; injection Hj as <- <- <-; intuition congruence.
  Qed.
  Lemma patch_sided : two_sided 2 (user_points pb) (pr_elements pb).
  Proof. apply alike_sided; [apply patch_simplices|apply patch_turned]. Qed.

  Lemma patch_posed : posed pb nowhere fixed tilt.
  Proof.
    constructor.
    - repeat constructor.
    - apply patch_simplices.
    - intros e [<-|[<-|[<-|[<-|[<-|[]]]]]]; unfold det_2d, corners, node_table; cbn; lra.
    - reflexivity.
    - reflexivity.
    - eexists. split; [reflexivity|]. intros l i p H. unfold tilt. rewrite (nth_error_nth _ _ _ H). reflexivity.
  Qed.
  Lemma patch_faces f : boundary_face 3 (pr_elements pb) f -> In f [[0; 1]; [0; 3]; [1; 4]; [2; 3]; [2; 4]]%nat.
  Proof.
    intros H. apply (surfaces_list 2 patch_elements patch_simplices) in H.
    change (In f (boundary_surfaces patch_elements)) in H. vm_compute in H. intuition (subst; cbn; auto 10).
  Qed.
  Lemma patch_boundary i : (i < 5)%nat -> boundary_node 3 (pr_elements pb) i.
  Proof.
    intros H. apply boundary_indices_In; [apply patch_simplices|]. do 5 (destruct i; [vm_compute; tauto|]). lia.
  Qed.
  Lemma patch_names : complete_names pb.
  Proof. intros name [<-|[<-|[]]]; auto. Qed.
  Lemma patch_constructs : exists bt, construct pb = Ok bt.
  Proof. apply (construct_total _ _ _ _ patch_posed); [discriminate|apply patch_names|intros p H; discriminate]. Qed.

  Hypothesis corners_fixed : forall p, In p [(0, 0); (1, 0); (1, 1); (0, 1)] -> fixed p = true.
  Lemma patch_corner i : (i < 4)%nat -> user_fixed pb fixed i.
  Proof.
    intros H. split; [apply patch_boundary; lia|].
    destruct i as [|[|[|[|]]]]; [| | | |lia]; eexists; (split; [reflexivity|]); apply corners_fixed; cbn; tauto.
  Qed.
  Lemma patch_clamped : clamped_mesh pb fixed.
  Proof.
    assert (P : forall i, (i < 4)%nat -> held (user_fixed pb fixed) (pr_elements pb) i) by (intros; apply held_pin, patch_corner; auto).
    pose proof (P 0%nat ltac:(lia)) as P0. pose proof (P 1%nat ltac:(lia)) as P1. pose proof (P 2%nat ltac:(lia)) as P2'. pose proof (P 3%nat ltac:(lia)) as P3.
    assert (P5 : held (user_fixed pb fixed) (pr_elements pb) 5) by (apply (held_by _ _ [0; 1; 5]%nat 0 1); cbn; auto 10).
    intros i Hi _. cbn in Hi. destruct i as [|[|[|[|[|[|i]]]]]]; auto; [|lia].
    apply (held_by _ _ [1; 4; 5]%nat 1 5); cbn; auto 10.
  Qed.
  Lemma patch_grounded : grounded_mesh pb fixed.
  Proof.
    assert (P : forall i, (i < 4)%nat -> tied (user_fixed pb fixed) (pr_elements pb) i) by (intros; apply tied_pin, patch_corner; auto).
    pose proof (P 0%nat ltac:(lia)) as P0. pose proof (P 1%nat ltac:(lia)) as P1. pose proof (P 2%nat ltac:(lia)) as P2'. pose proof (P 3%nat ltac:(lia)) as P3.
    intros i Hi _. cbn in Hi. destruct i as [|[|[|[|[|[|i]]]]]]; auto; [| |lia].
    - apply (tied_by _ _ [1; 4; 5]%nat 1); cbn; auto 10.
    - apply (tied_by _ _ [0; 1; 5]%nat 0); cbn; auto.
  Qed.
  Lemma patch_values : prescribes pb fixed 2 tilt (fun p => affine_at 2 tilt_shift tilt_matrix (coord2 p)) /\
    prescribes pb fixed 1 tilt (fun p _ => 1 + dot 2 tilt_slope (coord2 p)).
  Proof.
    split; intros i p k _ _ Hk; unfold tilt, affine_at, tilt_shift, tilt_matrix, tilt_slope, dot, coord2; cbn; destruct k as [|k]; cbn; lra.
  Qed.
End Patch.

Lemma carried_corners p : In p [(0, 0); (1, 0); (1, 1); (0, 1)] -> carried p = true.
Proof.
  intros [<-|[<-|[<-|[<-|[]]]]]; unfold carried; cbn.
  - rewrite (proj2 (is_eq_true 0 0)); auto.
  - rewrite (proj2 (is_eq_true 0 0)); auto. apply orb_true_iff; left. apply orb_true_iff; auto.
  - rewrite (proj2 (is_eq_true 1 1)); auto. apply orb_true_iff; auto.
  - rewrite (proj2 (is_eq_true 0 0)); auto.
Qed.
Lemma everywhere_corners p : In p [(0, 0); (1, 0); (1, 1); (0, 1)] -> everywhere p = true.
Proof. intros [<-|[<-|[<-|[<-|[]]]]]; unfold everywhere; cbn; rewrite is_eq_false; auto; lra. Qed.
Lemma everywhere_closed : closed_problem (patch_problem everywhere) everywhere.
Proof.
  intros i (f & HF & Hi). apply patch_faces in HF. 
  assert (L : (i < 5)%nat) by (cbn in HF; intuition (subst; cbn in Hi; lia)).
  destruct i as [|[|[|[|[|]]]]]; [| | | | |lia]; eexists; (split; [reflexivity|]); unfold everywhere; cbn; rewrite is_eq_false; auto; lra.
Qed.
Lemma everywhere_inside : ~ user_fixed (patch_problem everywhere) everywhere 5.
Proof.
  intros [_ (p & Hp & H)]. cbn in Hp. injection Hp as <-. unfold everywhere in H. cbn in H. rewrite (proj2 (is_eq_true (1 / 2) (1 / 2))) in H; auto. discriminate.
Qed.
Lemma carried_free : ~ user_fixed (patch_problem carried) carried 4.
Proof.
  intros [_ (p & Hp & H)]. cbn in Hp. injection Hp as <-. unfold carried in H. cbn in H. rewrite !is_eq_false in H by lra. discriminate.
Qed.

(* the right side: its faces are loaded, and their normal is the first axis *)
Lemma right_faces f : f = [1; 4]%nat \/ f = [2; 4]%nat -> user_loaded (patch_problem carried) nowhere carried f.
Proof.
  intros Hf. split; intros (ps & PK & H); [discriminate|].
  destruct Hf as [-> | ->]; inversion PK as [|? p1 ? l1 H1 PK1]; subst; inversion PK1 as [|? p2 ? l2 H2 PK2]; subst; inversion PK2; subst;
    cbn in H1, H2; injection H1 as <-; injection H2 as <-; unfold carried, mean2 in H; cbn in H; rewrite !is_eq_false in H by lra; discriminate.
Qed.
Lemma right_normal n f : outer_normals 2 (user_points (patch_problem carried)) (pr_elements (patch_problem carried)) n ->
  f = [1; 4]%nat \/ f = [2; 4]%nat -> n f 0%nat = 1 /\ n f 1%nat = 0.
Proof.
  intros HN Hf.
  assert (BF : boundary_face 3 patch_elements f).
  { apply (surfaces_list 2 patch_elements patch_simplices). destruct Hf as [-> | ->]; vm_compute; tauto. }
  assert (OP : opposing patch_elements f 5).
  { destruct BF as (_ & _ & k & e & OE). exists k, e. split; [exact OE|]. destruct OE as (Hk & I & _).
    assert (I4 : In 4%nat e) by (apply I; destruct Hf as [-> | ->]; cbn; auto).
    destruct k as [|[|[|[|[|k]]]]]; cbn in Hk; try injection Hk as <-; try (cbn in I4; intuition discriminate);
      [| |destruct k; discriminate]; (split; [cbn; auto|destruct Hf as [-> | ->]; cbn; intuition discriminate]). }
  destruct (HN f 5%nat BF OP) as (N1 & N2 & N3).
  assert (E : n f 1%nat = 0).
  { destruct Hf as [-> | ->].
    - specialize (N2 4%nat 1%nat ltac:(cbn; auto) ltac:(cbn; auto)). unfold dot, minus_vec, user_points, node_table, coord2 in N2. cbn in N2. lra.
    - specialize (N2 4%nat 2%nat ltac:(cbn; auto) ltac:(cbn; auto)). unfold dot, minus_vec, user_points, node_table, coord2 in N2. cbn in N2. lra. }
  split; auto. specialize (N3 4%nat ltac:(destruct Hf as [-> | ->]; cbn; auto)).
  unfold dot, minus_vec, user_points, node_table, coord2 in N1, N3. cbn in N1, N3. rewrite E in N1, N3.
  assert (Q : (n f 0%nat - 1) * (n f 0%nat + 1) = 0) by lra. apply Rmult_integral in Q. lra.
Qed.

Lemma carried_match n : outer_normals 2 (user_points (patch_problem carried)) (pr_elements (patch_problem carried)) n ->
  user_match (patch_problem carried) nowhere carried 2 (fun f => traction 2 (stress 2 4 3 tilt_matrix) (n f)) (fun p => tug p 0) /\
  user_match (patch_problem carried) nowhere carried 1 (fun f _ => 5 ^ 2 * dot 2 tilt_slope (n f)) (fun p => warm p 0).
Proof.
  intros HN.
  assert (X : forall f i, boundary_face 3 (pr_elements (patch_problem carried)) f -> In i f -> user_fixed (patch_problem carried) carried i \/ (f = [1; 4]%nat \/ f = [2; 4]%nat)).
  { intros f i HF Hi. apply patch_faces in HF. destruct (Nat.lt_ge_cases i 4) as [L|GE].
    - left. apply patch_corner; auto. apply carried_corners.
    - right. cbn in HF. intuition (subst; cbn in Hi; try lia; auto). }
  split; intros f i HF Hi; (destruct (X f i HF Hi) as [|E]; [auto|right]; intros k Hk; destruct (right_normal n f HN E) as [E0 E1]; split; [intros _|intros H; exfalso; apply H, right_faces; auto]).
  - unfold traction, stress, tilt_matrix, tilt_slope, delta, tug. cbn [sum]. rewrite E0, E1. destruct k as [|[|k]]; [| |lia]; cbn; lra.
  - unfold dot, tilt_slope, warm. cbn [sum]. rewrite E0, E1. cbn. lra.
Qed.
Lemma patch_loaded fixed : loaded (patch_problem fixed) 2 no_load tug /\ heated (patch_problem fixed) no_load warm.
Proof. split; [repeat split|]. do 2 eexists. repeat split. Qed.

(* two triangles on the same side of their common edge *)
Definition folded_points : nat -> vec := node_table coord2 zero2 [(0, 0); (1, 0); (0, 1); (1, 1)].
Definition folded_elements : list (list nat) := [[0; 1; 2]; [0; 1; 3]]%nat.
Definition folded_value : vec := fun i => if (i =? 0)%nat then 1 else 0.
Definition folded_slope (e : list nat) : vec := fun c => if (nth 2 e 0 =? 2)%nat then - 1 else if (c =? 0)%nat then - 1 else 0.
Lemma folded_triangles : triangles 4 folded_points folded_elements /\ simplices 3 folded_elements.
Proof.
  split; [split; [repeat constructor|split; [repeat constructor|]]|repeat constructor; cbn; intuition discriminate].
  intros e [<-|[<-|[]]]; unfold det_2d, corners, folded_points, node_table; cbn; lra.
Qed.
Lemma folded_gradient : field_gradient 2 folded_points folded_elements folded_value folded_slope.
Proof.
  intros e [<-|[<-|[]]] i j Hi Hj; unfold folded_value, folded_slope, corners, folded_points, node_table, coord2;
    destruct i as [|[|[|i]]]; try lia; destruct j as [|[|[|j]]]; try lia; cbn; lra.
Qed.
Lemma folded_flux n : outer_normals 2 folded_points folded_elements n ->
  integral (element_area folded_points) folded_elements (fun e => folded_slope e 1%nat) = - 1 / 2 /\
  flux 2 folded_points (boundary_surfaces folded_elements) n folded_value 1 = 1 / 2.
Proof.
  intros HN. destruct folded_triangles as [_ HS]. split.
  - assert (AR : element_area folded_points [0; 1; 2]%nat = 1 / 2).
    { unfold element_area, area. replace (det_2d (corners folded_points [0; 1; 2]%nat)) with 1 by (unfold det_2d, corners, folded_points, node_table, coord2; cbn; ring).
      rewrite Rabs_R1. lra. }
    unfold integral, lsum, folded_elements. cbn [map fold_right]. rewrite AR. unfold folded_slope. cbn. lra.
  - assert (BL := surfaces_list 2 folded_elements HS).
    assert (E : boundary_surfaces folded_elements = [[0; 2]; [0; 3]; [1; 2]; [1; 3]]%nat) by (vm_compute; reflexivity).
    assert (BF : forall f, In f [[0; 2]; [0; 3]]%nat -> boundary_face 3 folded_elements f) by (intros f Hf; apply BL; rewrite E; cbn in Hf |- *; tauto).
    assert (OP : forall f, In f [[0; 2]; [0; 3]]%nat -> opposing folded_elements f 1).
    { intros f Hf. destruct (BF f Hf) as (_ & _ & k & e & OE). exists k, e. split; [exact OE|]. destruct OE as (Hk & I & _).
      destruct k as [|[|[|k]]]; cbn in Hk; try discriminate; injection Hk as <-; (split; [cbn; auto|]); destruct Hf as [<-|[<-|[]]]; cbn; intuition discriminate. }
    destruct (HN [0; 2]%nat 1%nat (BF [0; 2]%nat ltac:(cbn; auto)) (OP [0; 2]%nat ltac:(cbn; auto))) as (_ & A2 & _).
    destruct (HN [0; 3]%nat 1%nat (BF [0; 3]%nat ltac:(cbn; auto)) (OP [0; 3]%nat ltac:(cbn; auto))) as (B1 & B2 & B3).
    specialize (A2 2%nat 0%nat ltac:(cbn; auto) ltac:(cbn; auto)). specialize (B2 3%nat 0%nat ltac:(cbn; auto) ltac:(cbn; auto)). specialize (B3 0%nat ltac:(cbn; auto)).
    unfold flux. rewrite E. unfold lsum, folded_value. cbn [map fold_right Nat.eqb].
    unfold dot, minus_vec, folded_points, node_table, coord2 in A2, B1, B2, B3. cbn in A2, B1, B2, B3.
    assert (A : n [0; 2]%nat 1%nat = 0) by lra. assert (B : n [0; 3]%nat 0%nat = - n [0; 3]%nat 1%nat) by lra. rewrite B in B1, B3.
    assert (M : face_measure 2 folded_points [0; 3]%nat * n [0; 3]%nat 1%nat = 1).
    { assert (SQ : (face_measure 2 folded_points [0; 3]%nat * n [0; 3]%nat 1%nat) * (face_measure 2 folded_points [0; 3]%nat * n [0; 3]%nat 1%nat) = 1 * 1).
      { replace (1 * 1) with ((1 + 1) * (n [0; 3]%nat 1%nat * n [0; 3]%nat 1%nat)) by lra.
        transitivity ((face_measure 2 folded_points [0; 3]%nat * face_measure 2 folded_points [0; 3]%nat) * (n [0; 3]%nat 1%nat * n [0; 3]%nat 1%nat)); [ring|]. f_equal.
        unfold face_measure, segment_length. rewrite sqrt_sqrt; unfold inner_product, corners, folded_points, node_table, coord2; cbn; lra. }
      assert (P : 0 <= face_measure 2 folded_points [0; 3]%nat * n [0; 3]%nat 1%nat).
      { apply Rmult_le_pos; [|lra]. unfold face_measure. apply sqrt_pos. }
      apply Rsqr_inj; [exact P|lra|unfold Rsqr; exact SQ]. }
    rewrite A. cbn [lsum map fold_right INR]. 
    replace (face_measure 2 folded_points [0; 3]%nat * (n [0; 3]%nat 1%nat * ((1 + (0 + 0)) / (1 + 1)))) with
      ((face_measure 2 folded_points [0; 3]%nat * n [0; 3]%nat 1%nat) * (1 / 2)) by field. rewrite M. lra.
Qed.

(* two tetrahedra on both sides of a triangle *)
Definition double_points : nat -> vec := table_of [[0; 0; 0]; [1; 0; 0]; [0; 1; 0]; [0; 0; 1]; [0; 0; - 1]].
Definition double_elements : list (list nat) := [[0; 1; 2; 3]; [0; 1; 2; 4]]%nat.
Lemma double_tetrahedra : tetrahedra 5 double_points double_elements.
Proof.
  split; [repeat constructor|split; [repeat constructor|]].
  intros e [<-|[<-|[]]]; unfold det_3d, corners, double_points, table_of; cbn; lra.
Qed.
Lemma double_sided : two_sided 3 double_points double_elements.
Proof.
  intros i j e e' f o o' n p NE Hi Hj Lf ND I I' Ho No Ho' No' Hn Hp.
  assert (IF : incl f [0; 1; 2]%nat).
  { intros q Hq. pose proof (I q Hq) as A. pose proof (I' q Hq) as B.
    destruct i as [|[|[|i]]]; cbn in Hi; try discriminate; destruct j as [|[|[|j]]]; cbn in Hj; try discriminate; try lia;
      injection Hi as <-; injection Hj as <-; cbn in A, B |- *; intuition congruence. }
  assert (FI : incl [0; 1; 2]%nat f) by (apply NoDup_length_incl; auto; rewrite Lf; auto).
  assert (A : n 0%nat = 0 /\ n 1%nat = 0).
  { pose proof (Hn 1%nat 0%nat (FI 1%nat ltac:(cbn; auto)) (FI 0%nat ltac:(cbn; auto))) as A.
    pose proof (Hn 2%nat 0%nat (FI 2%nat ltac:(cbn; auto)) (FI 0%nat ltac:(cbn; auto))) as B.
    unfold dot, minus_vec, double_points, table_of in A, B. cbn in A, B. lra. }
  destruct A as [A0 A1].
  assert (OO : (o = 3 /\ o' = 4)%nat \/ (o = 4 /\ o' = 3)%nat).
  { destruct i as [|[|[|i]]]; cbn in Hi; try discriminate; destruct j as [|[|[|j]]]; cbn in Hj; try discriminate; try lia;
      injection Hi as <-; injection Hj as <-; [left|right];
      (split; [destruct Ho as [<-|[<-|[<-|[<-|[]]]]]|destruct Ho' as [<-|[<-|[<-|[<-|[]]]]]]; auto; exfalso; [apply No..|apply No'|apply No'|apply No']; apply FI; cbn; auto). }
  apply IF in Hp. unfold dot, minus_vec, double_points, table_of.
  destruct OO as [[-> ->]|[-> ->]]; destruct Hp as [<-|[<-|[<-|[]]]]; cbn; rewrite A0, A1; lra.
Qed.
Lemma tilt_gradient fixed : field_gradient 2 (user_points (patch_problem fixed)) patch_elements (fun i => tilt (nth i patch_nodes zero2)) (fun _ => tilt_slope).
Proof.
  intros e He i j Hi Hj. unfold corners, user_points, node_table, tilt, tilt_slope, coord2. cbn [pr_nodes patch_problem]. cbn. ring.
Qed.
Lemma folded_refutes : exists N x els v g faces, triangles N x els /\ field_gradient 2 x els v g /\ boundary_list 2 els faces /\
  forall n, outer_normals 2 x els n -> integral (element_area x) els (fun e => g e 1%nat) <> flux 2 x faces n v 1.
Proof.
  exists 4%nat, folded_points, folded_elements, folded_value, folded_slope, (boundary_surfaces folded_elements).
  destruct folded_triangles as [HT HS]. split; [exact HT|]. split; [exact folded_gradient|]. split; [exact (surfaces_list 2 _ HS)|].
  intros n HN. destruct (folded_flux n HN) as [-> ->]. lra.
Qed.
Lemma patch_geometry : triangles 6 (user_points (patch_problem carried)) patch_elements /\ turned_alike (user_points (patch_problem carried)) patch_elements /\
  simplices 3 patch_elements /\ boundary_list 2 patch_elements (MeshModel.boundary_surfaces patch_elements) /\
  field_gradient 2 (user_points (patch_problem carried)) patch_elements (fun i => tilt (nth i patch_nodes zero2)) (fun _ => tilt_slope) /\
  tilt_slope 0%nat = 2 /\ boundary_node 3 patch_elements 4 /\ ~ boundary_node 3 patch_elements 5 /\
  (exists B, get_basic_matrices (user_points (patch_problem carried)) patch_elements = Ok B).
Proof.
  pose proof (patch_posed carried) as [HR HS HA _ _ _].
  split; [split; [exact HR|split; [revert HS; apply Forall_impl; tauto|exact HA]]|]. split; [apply patch_turned|]. split; [apply patch_simplices|].
  split; [exact (surfaces_list 2 _ patch_simplices)|]. split; [apply tilt_gradient|]. split; [reflexivity|].
  split; [apply (patch_boundary carried); lia|]. split.
  - intros (f & HF & Hi). apply (patch_faces carried) in HF. cbn in HF. intuition (subst; cbn in Hi; lia).
  - eexists. reflexivity.
Qed.
Lemma double_geometry : tetrahedra 5 double_points double_elements /\ two_sided 3 double_points double_elements /\
  (exists B, get_basic_matrices double_points double_elements = Ok B).
Proof. split; [exact double_tetrahedra|]. split; [exact double_sided|]. eexists. reflexivity. Qed.
Lemma carried_problem : let pb := patch_problem carried in
  posed pb nowhere carried tilt /\ (exists bt, prepared pb bt None) /\ two_sided 2 (user_points pb) (pr_elements pb) /\
  loaded pb 2 no_load tug /\ heated pb no_load warm /\ elastic (pr_material pb) = Some (4, 3) /\ membrane (pr_material pb) = Some 5 /\
  clamped_mesh pb carried /\ grounded_mesh pb carried /\
  prescribes pb carried 2 tilt (fun p => affine_at 2 tilt_shift tilt_matrix (coord2 p)) /\ prescribes pb carried 1 tilt (fun p _ => 1 + dot 2 tilt_slope (coord2 p)) /\
  (exists n, outer_normals 2 (user_points pb) (pr_elements pb) n) /\
  (forall n, outer_normals 2 (user_points pb) (pr_elements pb) n ->
    user_match pb nowhere carried 2 (fun f => traction 2 (stress 2 4 3 tilt_matrix) (n f)) (fun p => tug p 0) /\
    user_match pb nowhere carried 1 (fun f _ => 5 ^ 2 * dot 2 tilt_slope (n f)) (fun p => warm p 0)) /\
  ~ user_fixed pb carried 4 /\ tug zero2 0 0%nat = 19.
Proof.
  cbv zeta. split; [apply patch_posed|]. split; [destruct (patch_constructs carried) as (bt & H); exists bt; constructor; auto|]. split; [apply patch_sided|].
  split; [apply patch_loaded|]. split; [apply patch_loaded|]. split; [reflexivity|]. split; [reflexivity|].
  split; [apply patch_clamped, carried_corners|]. split; [apply patch_grounded, carried_corners|].
  split; [apply patch_values|]. split; [apply patch_values|]. split; [apply (user_normals _ _ _ _ (patch_posed carried))|].
  split; [exact carried_match|]. split; [exact carried_free|reflexivity].
Qed.
Lemma closed_example : let pb := patch_problem everywhere in
  posed pb nowhere everywhere tilt /\ (exists bt, prepared pb bt None) /\ two_sided 2 (user_points pb) (pr_elements pb) /\
  clamped_mesh pb everywhere /\ closed_problem pb everywhere /\ ~ user_fixed pb everywhere 5 /\
  prescribes pb everywhere 2 tilt (fun p => affine_at 2 tilt_shift tilt_matrix (coord2 p)).
Proof.
  cbv zeta. split; [apply patch_posed|]. split; [destruct (patch_constructs everywhere) as (bt & H); exists bt; constructor; auto|]. split; [apply patch_sided|].
  split; [apply patch_clamped, everywhere_corners|]. split; [exact everywhere_closed|]. split; [exact everywhere_inside|apply patch_values].
Qed.
