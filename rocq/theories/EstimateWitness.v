(* Concrete meshes for the distance that error_estimates.py computes. *)
From Coq Require Import Reals List Arith Bool Lra Lia Psatz.
From Verif Require Import RVec PyModel MeshSpec FemSpec StressModel StressSpec StressProofs EstimateModel EstimateSpec EstimateProofs EstimateFinal.
Import ListNotations.
Local Open Scope R_scope.

(* a square with the sides a, cut along a diagonal *)
Definition square_of (a : R) : nat -> vec := fun n c =>
  match n, c with
  | 1%nat, O => a | 2%nat, O => a | 2%nat, 1%nat => a | 3%nat, 1%nat => a | _, _ => 0
  end.
Definition halves : list (list nat) := [[0; 1; 2]; [0; 2; 3]]%nat.
(* one right-angled triangle with the legs a *)
Definition corner_of (a : R) : nat -> vec := fun n c =>
  match n, c with 1%nat, O => a | 2%nat, 1%nat => a | _, _ => 0 end.
Definition single : list (list nat) := [[0; 1; 2]]%nat.

Lemma square_triangles a : a <> 0 -> triangles 4 (square_of a) halves.
Proof.
  intros A. split; [repeat constructor|]. split; [repeat constructor|].
  intros e [<-|[<-|[]]]; unfold det_2d, corners; cbn; intros H; apply A; nra.
Qed.
Lemma corner_triangles a : a <> 0 -> triangles 3 (corner_of a) single.
Proof.
  intros A. split; [repeat constructor|]. split; [repeat constructor|].
  intros e [<-|[]]; unfold det_2d, corners; cbn; intros H; apply A; nra.
Qed.
Lemma square_neighboured : neighboured (square_of 1) halves.
Proof.
  intros e [<-|[<-|[]]].
  - exists [0; 2; 3]%nat, 0%nat, 2%nat. repeat split; try (cbn; tauto); left; unfold centre_of; cbn; lra.
  - exists [0; 1; 2]%nat, 0%nat, 2%nat. repeat split; try (cbn; tauto); left; unfold centre_of; cbn; lra.
Qed.

(* the field that is constant in each component, known everywhere *)
Definition everywhere (d : R) : interpolator := fun _ _ => Some d.
Lemma everywhere_samples nodes els d : samples nodes els (everywhere d) (fun _ => d).
Proof. intros e n I M. reflexivity. Qed.
(* known left of the line x = 1/2 only *)
Definition left_half : interpolator := fun x _ => if Rle_dec x (1 / 2) then Some 0 else None.
Lemma left_gap : gap_at (square_of 1) left_half [0; 1; 2]%nat.
Proof. exists 1%nat. split; [cbn; tauto|]. unfold left_half. cbn. destruct (Rle_dec 1 (1 / 2)); [lra|reflexivity]. Qed.

(* the square and, at its left, a triangle that is covered *)
Definition house : nat -> vec := fun n => match n with 4%nat => fun c => match c with O => -1 | _ => 0 end | _ => square_of 1 n end.
Definition house_elements : list (list nat) := [[4; 0; 3]; [0; 1; 2]]%nat.
Lemma house_triangles : triangles 5 house house_elements.
Proof.
  split; [repeat constructor|]. split; [repeat constructor|].
  intros e [<-|[<-|[]]]; unfold det_2d, corners; cbn; lra.
Qed.
Lemma house_covered : samples house [[4; 0; 3]%nat] left_half (fun _ => 0).
Proof.
  intros e n [<-|[]] M. cbn [In] in M. unfold left_half. destruct M as [<-|[<-|[<-|[]]]]; cbn; destruct (Rle_dec _ (1 / 2)); try reflexivity; lra.
Qed.
Lemma house_gap : gap_at house left_half [0; 1; 2]%nat.
Proof. exists 1%nat. split; [cbn; tauto|]. unfold left_half. cbn. destruct (Rle_dec 1 (1 / 2)); [lra|reflexivity]. Qed.

(* turned about the centre (1, 1) of the triangle with the legs 3 *)
Definition turned : nat -> vec := fun n c => match c with O => - (corner_of 3 n 1%nat - 1) | _ => corner_of 3 n 0%nat - 1 end.
Lemma turned_unseen : estimate 3 (corner_of 3) turned single (everywhere 0) (everywhere 0) = Ok (Number 0).
Proof.
  assert (HG : rows_gradient (corner_of 3) single (differ turned (fun _ _ => 0)) (fun c _ k => match c, k with O, 1%nat => -1 | 1%nat, O => 1 | _, _ => 0 end)).
  { intros c C e [<-|[]] i j Hi Hj. unfold corners, differ, turned.
    destruct c as [|[|c]]; [| |lia]; destruct i as [|[|[|i]]]; try lia; destruct j as [|[|[|j]]]; try lia; cbn; lra. }
  rewrite (estimate_value 3 (corner_of 3) single (corner_triangles 3 ltac:(lra)) turned (fun _ _ => 0) (everywhere 0) (everywhere 0) _ ltac:(discriminate)
    (everywhere_samples _ _ _) (everywhere_samples _ _ _) HG). do 2 f_equal. unfold mean_size, size_on, corner_total, differ, turned. cbn [lsum single sum nth].
  match goal with |- (sqrt ?x + 0) / _ = 0 => replace x with 0 end; [rewrite sqrt_0; cbn; lra|]. cbn. ring.
Qed.
Lemma alone_witness : ~ (forall N nodes els u h i1 i2, triangles N nodes els -> els <> [] ->
  samples nodes els i1 (fun n => h n 0%nat) -> samples nodes els i2 (fun n => h n 1%nat) ->
  estimate N nodes u els i1 i2 = Ok (Number 0) -> same_on els u h).
Proof.
  intros H. assert (Q := H 3%nat (corner_of 3) single turned (fun _ _ => 0) (everywhere 0) (everywhere 0) (corner_triangles 3 ltac:(lra)) ltac:(discriminate)
    (everywhere_samples _ _ _) (everywhere_samples _ _ _) turned_unseen [0; 1; 2]%nat 0%nat 0%nat (or_introl eq_refl) (or_introl eq_refl) ltac:(lia)).
  unfold turned in Q. cbn in Q. lra.
Qed.

Lemma norm_witness : ~ (exists k, forall N nodes els u h i1 i2 d, triangles N nodes els -> els <> [] ->
  samples nodes els i1 (fun n => h n 0%nat) -> samples nodes els i2 (fun n => h n 1%nat) ->
  (forall n c, u n c = h n c + d c) ->
  estimate N nodes u els i1 i2 = Ok (Number (k * constant_norm nodes els d))).
Proof.
  intros (k & H).
  assert (Q : forall a, 0 < a -> k * constant_norm (corner_of a) single (fun _ => 1) = 3 * sqrt 2).
  { intros a A. assert (P := H 3%nat (corner_of a) single (fun _ _ => 1) (fun _ _ => 0) (everywhere 0) (everywhere 0) (fun _ => 1) (corner_triangles a ltac:(lra)) ltac:(discriminate)
      (everywhere_samples _ _ _) (everywhere_samples _ _ _) ltac:(intros; lra)).
    rewrite (estimate_constant 3 (corner_of a) single (corner_triangles a ltac:(lra)) ltac:(discriminate) (fun _ _ => 1) (fun _ _ => 0) (everywhere 0) (everywhere 0) (fun _ => 1)
      (everywhere_samples _ _ _) (everywhere_samples _ _ _) ltac:(intros; lra)) in P.
    injection P as P. rewrite <- P. f_equal. f_equal. ring. }
  assert (V : forall a, 0 < a -> constant_norm (corner_of a) single (fun _ => 1) = a).
  { intros a A. unfold constant_norm, element_area, area, det_2d, corners. cbn [lsum single nth]. cbn.
    match goal with |- sqrt ?x = _ => replace x with (a * a) end; [apply sqrt_square; lra|].
    match goal with |- context [Rabs ?z] => replace (Rabs z) with (a * a) end; [field|].
    symmetry. match goal with |- Rabs ?z = _ => replace z with (a * a) by ring end. apply Rabs_right. nra. }
  assert (Q1 := Q 1 ltac:(lra)). assert (Q2 := Q 2 ltac:(lra)). rewrite V in Q1, Q2 by lra. assert (S := sqrt_lt_R0 2 ltac:(lra)). nra.
Qed.
