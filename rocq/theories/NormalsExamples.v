(* Concrete meshes with real coordinates.  Construction is run on rational coordinates
   and transferred with MeshMapProofs.build_map. *)
From Coq Require Import Reals QArith Qreals List Arith ZArith String Bool Lia Lra.
From Verif Require Import Common PyModel MeshModel MeshBuildModel NormalsModel NormalsSpec
  MeshMapProofs NormalsGeomProofs.
Import ListNotations.
Local Open Scope string_scope.
Local Open Scope list_scope.

Definition Q2 := (Q * Q)%type.
Definition q2 (p : Q2) : P2 := (Q2R (fst p), Q2R (snd p)).
Definition qmean (l : list Q2) : Q2 :=
  let n := inject_Z (Z.of_nat (List.length l)) in
  ((fold_right Qplus 0 (map fst l) / n)%Q, (fold_right Qplus 0 (map snd l) / n)%Q).
Definition qzero : Q2 := (0%Q, 0%Q).

Lemma Q2R_sum {A} (f : A -> Q) (l : list A) :
  Q2R (fold_right Qplus 0%Q (map f l)) = fold_right Rplus 0%R (map (fun x => Q2R (f x)) l).
Proof. induction l as [|x l IH]; simpl; [lra|]. now rewrite Q2R_plus, IH. Qed.

Lemma Q2R_count (n : nat) : Q2R (inject_Z (Z.of_nat n)) = INR n.
Proof. unfold Q2R, inject_Z. simpl. rewrite <- INR_IZR_INZ. lra. Qed.

Lemma Q2R_mean {A} (f : A -> Q) (l : list A) :
  Q2R (fold_right Qplus 0%Q (map f l) / inject_Z (Z.of_nat (List.length l)))%Q =
  (fold_right Rplus 0 (map (fun x => Q2R (f x)) l) / INR (List.length l))%R.
Proof.
  destruct l as [|a l].
  - unfold Rdiv. simpl. rewrite Rmult_0_l. unfold Q2R. simpl. lra.
  - rewrite Q2R_div.
    + now rewrite Q2R_sum, Q2R_count.
    + intros E. apply Qeq_eqR in E. rewrite Q2R_count in E.
      unfold Q2R in E. simpl in E. pose proof (lt_0_INR (List.length (a :: l))) as H.
      simpl List.length in *. assert (0 < S (List.length l))%nat by lia. specialize (H H0).
      simpl INR in *. lra.
Qed.

Lemma mean2_q2 l : mean2 (map q2 l) = q2 (qmean l).
Proof.
  unfold mean2, q2, qmean. cbn [fst snd]. rewrite !Q2R_mean, !map_map, !map_length. reflexivity.
Qed.

Lemma zero2_q2 : zero2 = q2 qzero.
Proof. unfold zero2, q2, qzero. cbn [fst snd]. rewrite RMicromega.Q2R_0. reflexivity. Qed.

(* conditions are not used by these examples: V = unit *)
Definition no_cond {A} (l : list A) : unit := tt.

Definition descr2 (c d : P2 -> bool) : @Description P2 unit :=
  make_description no_cond [("contact", (c, None)); ("dirichlet", (d, None))].
Definition qdescr (c d : Q2 -> bool) : @Description Q2 unit :=
  make_description no_cond [("contact", (c, None)); ("dirichlet", (d, None))].

Lemma build_q2 nodes els cq dq cr dr m :
  (forall p, cr (q2 p) = cq p) -> (forall p, dr (q2 p) = dq p) ->
  build qmean qzero nodes els (qdescr cq dq) = Ok m ->
  build mean2 zero2 (map q2 nodes) els (descr2 cr dr) = Ok (map_mesh q2 m).
Proof.
  intros Hc Hd HB. rewrite zero2_q2. apply build_map with (meanP := qmean) (dp := qdescr cq dq); auto.
  - apply mean2_q2.
  - repeat constructor; auto.
  - repeat constructor; auto.
Qed.

(* decidable half planes, on both point types *)
Definition rle (x y : R) : bool := if Rle_dec x y then true else false.
Lemma rle_Q x y : rle (Q2R x) (Q2R y) = Qle_bool x y.
Proof.
  unfold rle. destruct (Rle_dec (Q2R x) (Q2R y)) as [H|H].
  - symmetry. apply Qle_bool_iff. now apply Rle_Qle.
  - destruct (Qle_bool x y) eqn:E; auto. exfalso. apply H. apply Qle_Rle. now apply Qle_bool_iff.
Qed.

Definition never2 (p : P2) : bool := false.
Definition always2 (p : P2) : bool := true.

(* y <= 0 *)
Definition low2 (p : P2) : bool := rle (snd p) 0.
Definition qlow (p : Q2) : bool := Qle_bool (snd p) 0.
Lemma low2_q2 p : low2 (q2 p) = qlow p.
Proof. unfold low2, qlow, q2. cbn [snd]. rewrite <- RMicromega.Q2R_0. apply rle_Q. Qed.

(* y <= 0 and x <= 3 *)
Definition low_left2 (p : P2) : bool := rle (snd p) 0 && rle (fst p) 3.
Definition qlow_left (p : Q2) : bool := Qle_bool (snd p) 0 && Qle_bool (fst p) 3.
Lemma low_left2_q2 p : low_left2 (q2 p) = qlow_left p.
Proof.
  unfold low_left2, qlow_left, q2. cbn [fst snd]. rewrite <- RMicromega.Q2R_0, rle_Q.
  f_equal. rewrite <- rle_Q. f_equal. unfold Q2R. simpl. lra.
Qed.

(* a triangle with base (0,0)-(2,0) divided in two: convex, contact at the base *)
Definition base_nodes : list Q2 := [(0, 0); (1, 0); (2, 0); (0, 1)]%Q.
Definition base_els : list (list nat) := [[0; 1; 3]; [1; 2; 3]]%nat.
Definition base_mesh : @MeshData P2 unit :=
  map_mesh q2 (match build qmean qzero base_nodes base_els (qdescr qlow (fun _ => false)) with
               | Ok m => m | Err _ => mkMesh [] [] [] [] [] end).

Lemma base_build : build mean2 zero2 (map q2 base_nodes) base_els (descr2 low2 never2) = Ok base_mesh.
Proof.
  apply build_q2 with (cq := qlow) (dq := fun _ => false); [apply low2_q2|reflexivity|].
  vm_compute. reflexivity.
Qed.

(* a non-convex body: the base turns down at (2,0) *)
Definition bent_nodes : list Q2 := [(0, 0); (2, 0); (3, -2 # 1); (-1 # 1, 1); (1 # 2, 1); (4, 1)]%Q.
Definition bent_els : list (list nat) := [[0; 1; 4]; [0; 4; 3]; [1; 2; 5]; [1; 5; 4]]%nat.
Definition bent_mesh : @MeshData P2 unit :=
  map_mesh q2 (match build qmean qzero bent_nodes bent_els (qdescr qlow_left (fun _ => false)) with
               | Ok m => m | Err _ => mkMesh [] [] [] [] [] end).

Lemma bent_build :
  build mean2 zero2 (map q2 bent_nodes) bent_els (descr2 low_left2 never2) = Ok bent_mesh.
Proof.
  apply build_q2 with (cq := qlow_left) (dq := fun _ => false); [apply low_left2_q2|reflexivity|].
  vm_compute. reflexivity.
Qed.

Lemma bent_data : faces_of bent_mesh "contact" = [[0; 1]; [1; 2]]%nat /\
  m_internal bent_mesh = [4; 4; 5; 1; 0; 1]%nat /\
  m_elements bent_mesh = [[0; 1; 4]; [0; 3; 4]; [1; 2; 5]; [1; 4; 5]]%nat /\
  m_nodes bent_mesh = map q2 bent_nodes.
Proof. repeat split; vm_compute; reflexivity. Qed.

Lemma base_data : faces_of base_mesh "contact" = [[0; 1]; [1; 2]]%nat /\
  m_internal base_mesh = [3; 1; 3; 1]%nat /\ m_elements base_mesh = [[0; 1; 3]; [1; 2; 3]]%nat /\
  m_nodes base_mesh = map q2 base_nodes.
Proof. repeat split; vm_compute; reflexivity. Qed.
