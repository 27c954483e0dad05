(* The divergence theorem in two and three dimensions. *)
From Coq Require Import Reals List Arith Bool Lia Lra Permutation Sorted.
From Verif Require Import Common RVec ListLemmas MeshModel MeshSpec MeshFacesProofs FemModel FemSpec ForcesSpec
  FemGeomProofs FemBuildProofs FemFinalProofs GaussSpec GaussProofs.
Import ListNotations.
Local Open Scope R_scope.

Lemma det2_face x e i p q : List.length e = 3%nat -> (i <= 2)%nat -> face e i = [p; q] ->
  Rabs (det_2d (corners x e)) = Rabs (det_2d (at_list [x (nth i e 0%nat); x p; x q])).
Proof.
  intros L Hi E. pose proof (face_perm e i ltac:(lia)) as P. rewrite E in P.
  rewrite (det2_ext (corners x e) (at_list (map x e))) by (intros; apply nth_map_corners; lia).
  destruct (det2_perm (map x e) (map x [nth i e 0%nat; p; q])) as [D|D]; [rewrite map_length; auto|apply Permutation_map; auto| |];
    cbn [map] in D; rewrite D; auto. rewrite Rabs_Ropp. auto.
Qed.
Lemma det3_face x e i p q r : List.length e = 4%nat -> (i <= 3)%nat -> face e i = [p; q; r] ->
  Rabs (det_3d (corners x e)) = Rabs (det_3d (at_list [x (nth i e 0%nat); x p; x q; x r])).
Proof.
  intros L Hi E. pose proof (face_perm e i ltac:(lia)) as P. rewrite E in P.
  rewrite (det3_ext (corners x e) (at_list (map x e))) by (intros; apply nth_map_corners; lia).
  destruct (det3_perm (map x e) (map x [nth i e 0%nat; p; q; r])) as [D|D]; [rewrite map_length; auto|apply Permutation_map; auto| |];
    cbn [map] in D; rewrite D; auto. rewrite Rabs_Ropp. auto.
Qed.

Lemma face2 e i : List.length e = 3%nat -> (i <= 2)%nat -> exists p q, face e i = [p; q].
Proof. intros L Hi. pose proof (face_length e i ltac:(lia)) as F. destruct (face e i) as [|p [|q [|]]]; cbn in F; try lia. eauto. Qed.
Lemma face3 e i : List.length e = 4%nat -> (i <= 3)%nat -> exists p q r, face e i = [p; q; r].
Proof. intros L Hi. pose proof (face_length e i ltac:(lia)) as F. destruct (face e i) as [|p [|q [|r [|]]]]; cbn in F; try lia. eauto. Qed.

(* the edge turned by a right angle; half of the vector product *)
Definition turned (x : nat -> vec) (f : list nat) : vec :=
  let a c := x (nth 1 f 0%nat) c - x (nth 0 f 0%nat) c in
  fun c => match c with 0%nat => a 1%nat | _ => - a 0%nat end.
Definition crossed (x : nat -> vec) (f : list nat) : vec :=
  let a c := x (nth 1 f 0%nat) c - x (nth 0 f 0%nat) c in
  let b c := x (nth 2 f 0%nat) c - x (nth 0 f 0%nat) c in
  fun c => match c with
  | 0%nat => (a 1%nat * b 2%nat - a 2%nat * b 1%nat) / 2
  | 1%nat => (a 2%nat * b 0%nat - a 0%nat * b 2%nat) / 2
  | _ => (a 0%nat * b 1%nat - a 1%nat * b 0%nat) / 2
  end.

Section Two.
  Variables (N : nat) (x : nat -> vec) (els : list (list nat)).
  Hypothesis HT : triangles N x els.
  Hypothesis HS : simplices 3 els.

  Lemma gauss_2d : (exists n, outer_normals 2 x els n) /\
    (two_sided 2 x els -> forall n, outer_normals 2 x els n -> forall faces v g c, boundary_list 2 els faces -> field_gradient 2 x els v g -> (c < 2)%nat ->
      integral (element_area x) els (fun e => g e c) = flux 2 x faces n v c).
  Proof.
    destruct HT as (HR & HL & HD). unfold simplices in HS. rewrite Forall_forall in HS.
    apply (gauss_all 2 x els (fun e => grad2 (corners x e)) (element_area x) (turned x)); auto.
    - unfold simplices. rewrite Forall_forall. auto.
    - intros e k He Hk. apply grad2_sum; auto.
    - intros e k c' He Hk Hc'. apply (grad2_coord (corners x e)); auto.
    - intros e m He Hm. apply grad2_basis; auto.
    - intros e He. apply area_pos; auto.
    - intros e i He Hi p q Hp Hq. destruct (HS e He) as [L ND]. destruct (face2 e i L Hi) as (a & b & E). rewrite E in *.
      unfold dot, minus_vec, turned. cbn [sum nth].
      destruct Hp as [<-|[<-|[]]], Hq as [<-|[<-|[]]]; ring.
    - intros e i p He Hi Hp. destruct (HS e He) as [L ND]. destruct (face2 e i L Hi) as (a & b & E).
      unfold element_area, area. rewrite (det2_face x e i a b L Hi E). rewrite E in *.
      replace (INR 2) with 2 by (cbn; lra).
      match goal with |- Rabs ?a = 2 * (Rabs ?b / 2) => assert (X : a = b \/ a = - b) end.
      { unfold dot, minus_vec, turned, det_2d, at_list. cbn [sum nth]. destruct Hp as [<-|[<-|[]]]; first [left; ring|right; ring]. }
      destruct X as [-> | ->]; rewrite ?Rabs_Ropp; lra.
    - intros e i He Hi. destruct (HS e He) as [L ND]. destruct (face2 e i L Hi) as (a & b & E). rewrite E.
      unfold face_measure, segment_length, inner_product, dot, turned, corners. cbn [sum nth]. rewrite Rsqr_sqrt; [ring|].
      pose proof (Rle_0_sqr (x b 0%nat - x a 0%nat)). pose proof (Rle_0_sqr (x b 1%nat - x a 1%nat)). unfold Rsqr in *. lra.
    - intros f. cbn. unfold segment_length. apply sqrt_pos.
  Qed.
End Two.

Section Three.
  Variables (N : nat) (x : nat -> vec) (els : list (list nat)).
  Hypothesis HT : tetrahedra N x els.
  Hypothesis HS : simplices 4 els.

  Lemma gauss_3d : (exists n, outer_normals 3 x els n) /\
    (two_sided 3 x els -> forall n, outer_normals 3 x els n -> forall faces v g c, boundary_list 3 els faces -> field_gradient 3 x els v g -> (c < 3)%nat ->
      integral (element_volume x) els (fun e => g e c) = flux 3 x faces n v c).
  Proof.
    destruct HT as (HR & HL & HD). unfold simplices in HS. rewrite Forall_forall in HS.
    apply (gauss_all 3 x els (fun e => grad3 (corners x e)) (element_volume x) (crossed x)); auto; try lia.
    - unfold simplices. rewrite Forall_forall. auto.
    - intros e k He Hk. apply grad3_sum; auto.
    - intros e k c' He Hk Hc'. apply (grad3_coord (corners x e)); auto.
    - intros e m He Hm. apply grad3_basis; auto.
    - intros e He. apply volume_pos; auto.
    - intros e i He Hi p q Hp Hq. destruct (HS e He) as [L ND]. destruct (face3 e i L Hi) as (a & b & r & E). rewrite E in *.
      unfold dot, minus_vec, crossed. cbn [sum nth].
      destruct Hp as [<-|[<-|[<-|[]]]], Hq as [<-|[<-|[<-|[]]]]; field.
    - intros e i p He Hi Hp. destruct (HS e He) as [L ND]. destruct (face3 e i L Hi) as (a & b & r & E).
      unfold element_volume, volume. rewrite (det3_face x e i a b r L Hi E). rewrite E in *.
      replace (INR 3) with 3 by (cbn; lra).
      match goal with |- Rabs ?a = 3 * (Rabs ?b / 6) => assert (X : 2 * a = b \/ 2 * a = - b) end.
      { unfold dot, minus_vec, crossed, det_3d, at_list. cbn [sum nth]. destruct Hp as [<-|[<-|[<-|[]]]]; first [left; field|right; field]. }
      match goal with |- Rabs ?a = 3 * (Rabs ?b / 6) => assert (Y : 2 * Rabs a = Rabs b) end.
      { replace 2 with (Rabs 2) by (apply Rabs_pos_eq; lra). rewrite <- Rabs_mult. destruct X as [-> | ->]; rewrite ?Rabs_Ropp; auto. }
      lra.
    - intros e i He Hi. destruct (HS e He) as [L ND]. destruct (face3 e i L Hi) as (a & b & r & E). rewrite E.
      unfold face_measure, triangle_area, inner_product, dot, crossed, corners. cbn [sum nth].
      unfold Rdiv. rewrite Rsqr_mult, Rsqr_sqrt; [unfold Rsqr; field|].
      set (a0 := x b 0%nat - x a 0%nat). set (a1 := x b 1%nat - x a 1%nat). set (a2 := x b 2%nat - x a 2%nat).
      set (b0 := x r 0%nat - x a 0%nat). set (b1 := x r 1%nat - x a 1%nat). set (b2 := x r 2%nat - x a 2%nat).
      match goal with |- 0 <= ?t => replace t with (Rsqr (a1 * b2 - a2 * b1) + Rsqr (a2 * b0 - a0 * b2) + Rsqr (a0 * b1 - a1 * b0)) by (unfold Rsqr; ring) end.
      pose proof (Rle_0_sqr (a1 * b2 - a2 * b1)). pose proof (Rle_0_sqr (a2 * b0 - a0 * b2)). pose proof (Rle_0_sqr (a0 * b1 - a1 * b0)). lra.
    - intros f. cbn. unfold triangle_area. pose proof (sqrt_pos (inner_product 3 (fun c => corners x f 1%nat c - corners x f 0%nat c) (fun c => corners x f 1%nat c - corners x f 0%nat c) *
        inner_product 3 (fun c => corners x f 2%nat c - corners x f 0%nat c) (fun c => corners x f 2%nat c - corners x f 0%nat c) -
        inner_product 3 (fun c => corners x f 1%nat c - corners x f 0%nat c) (fun c => corners x f 2%nat c - corners x f 0%nat c) ^ 2)). lra.
  Qed.
End Three.
