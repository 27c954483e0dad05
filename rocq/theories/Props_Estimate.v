(* The distance of a solution from a reference that examples/error_estimates.py computes (C111). *)
From Coq Require Import Reals List Arith Bool Lra Lia.
From Verif Require Import RVec PyModel MeshSpec FemSpec StressSpec EstimateModel EstimateSpec EstimateProofs EstimateFinal EstimateWitness.
Import ListNotations.
Local Open Scope R_scope.

(* if the solution has a value at every reference node in use, the entry is the mean over the reference elements of the
   root of the squared corner sums, stretches and shear of the difference; the gradients G are those of any description *)
Theorem C111_value : forall N nodes els, triangles N nodes els -> forall u h i1 i2 G, els <> [] ->
  samples nodes els i1 (fun n => h n 0%nat) -> samples nodes els i2 (fun n => h n 1%nat) ->
  rows_gradient nodes els (differ u h) G ->
  estimate N nodes u els i1 i2 = Ok (Number (mean_size els (differ u h) G)).
Proof. exact estimate_value. Qed.
Print Assumptions C111_value.

(* a distance: not negative, and the triangle inequality holds *)
Theorem C111_triangle : forall N nodes els, triangles N nodes els -> els <> [] -> forall u v h i1 i2 j1 j2,
  samples nodes els i1 (fun n => h n 0%nat) -> samples nodes els i2 (fun n => h n 1%nat) ->
  samples nodes els j1 (fun n => v n 0%nat) -> samples nodes els j2 (fun n => v n 1%nat) ->
  exists a b c, estimate N nodes u els i1 i2 = Ok (Number a) /\ estimate N nodes u els j1 j2 = Ok (Number b) /\
    estimate N nodes v els i1 i2 = Ok (Number c) /\ 0 <= a /\ a <= b + c.
Proof. exact estimate_triangle. Qed.
Print Assumptions C111_triangle.

(* equal displacements at the reference nodes give zero *)
Theorem C111_same : forall N nodes els, triangles N nodes els -> els <> [] -> forall u h i1 i2,
  samples nodes els i1 (fun n => h n 0%nat) -> samples nodes els i2 (fun n => h n 1%nat) ->
  same_on els u h -> estimate N nodes u els i1 i2 = Ok (Number 0).
Proof. exact estimate_same. Qed.
Print Assumptions C111_same.

(* and nothing else does, if every element shares two nodes with another one *)
Theorem C111_zero : forall N nodes els, triangles N nodes els -> els <> [] -> forall u h i1 i2, neighboured nodes els ->
  samples nodes els i1 (fun n => h n 0%nat) -> samples nodes els i2 (fun n => h n 1%nat) ->
  (estimate N nodes u els i1 i2 = Ok (Number 0) <-> same_on els u h).
Proof. exact estimate_zero. Qed.
Print Assumptions C111_zero.

(* otherwise a turn about the centre of an element is not seen *)
Theorem C111_alone_refuted : ~ (forall N nodes els u h i1 i2, triangles N nodes els -> els <> [] ->
  samples nodes els i1 (fun n => h n 0%nat) -> samples nodes els i2 (fun n => h n 1%nat) ->
  estimate N nodes u els i1 i2 = Ok (Number 0) -> same_on els u h).
Proof. exact alone_witness. Qed.
Print Assumptions C111_alone_refuted.

(* a constant difference counts three times its length, whatever the body and its mesh *)
Theorem C111_constant : forall N nodes els, triangles N nodes els -> els <> [] -> forall u h i1 i2 d,
  samples nodes els i1 (fun n => h n 0%nat) -> samples nodes els i2 (fun n => h n 1%nat) ->
  (forall e n c, In e els -> In n e -> (c < 2)%nat -> u n c = h n c + d c) ->
  estimate N nodes u els i1 i2 = Ok (Number (3 * sqrt (d 0%nat ^ 2 + d 1%nat ^ 2))).
Proof. exact estimate_constant. Qed.
Print Assumptions C111_constant.

(* so the entry is not, up to any fixed factor, the norm of the difference over the body *)
Theorem C111_norm_refuted : ~ (exists k, forall N nodes els u h i1 i2 d, triangles N nodes els -> els <> [] ->
  samples nodes els i1 (fun n => h n 0%nat) -> samples nodes els i2 (fun n => h n 1%nat) ->
  (forall n c, u n c = h n c + d c) ->
  estimate N nodes u els i1 i2 = Ok (Number (k * constant_norm nodes els d))).
Proof. exact norm_witness. Qed.
Print Assumptions C111_norm_refuted.

(* a reference node at which the solution has no value: no number comes out *)
Theorem C111_outside : forall N nodes els, triangles N nodes els -> forall u i1 i2 e, In e els ->
  gap_at nodes i1 e \/ gap_at nodes i2 e -> forall r, estimate N nodes u els i1 i2 <> Ok (Number r).
Proof. exact estimate_lost. Qed.
Print Assumptions C111_outside.

(* in the first element: an empty array is put out without a warning *)
Theorem C111_first : forall N nodes u e els i1 i2, triangles N nodes (e :: els) ->
  gap_at nodes i1 e \/ gap_at nodes i2 e -> estimate N nodes u (e :: els) i1 i2 = Ok Empty.
Proof. exact estimate_first. Qed.
Print Assumptions C111_first.

(* in a later one: ValueError *)
Theorem C111_later : forall N nodes u done e els i1 i2 h, triangles N nodes (done ++ e :: els) -> done <> [] ->
  samples nodes done i1 (fun n => h n 0%nat) -> samples nodes done i2 (fun n => h n 1%nat) ->
  gap_at nodes i1 e \/ gap_at nodes i2 e -> estimate N nodes u (done ++ e :: els) i1 i2 = Err ValueError.
Proof. exact estimate_later. Qed.
Print Assumptions C111_later.

(* the hypotheses are met: two triangles forming a square, displacements that differ *)
Example C111_value_example :
  triangles 4 (square_of 1) halves /\ halves <> [] /\ neighboured (square_of 1) halves /\
  samples (square_of 1) halves (everywhere 2) (fun _ => 2) /\
  (exists G, rows_gradient (square_of 1) halves (differ (square_of 1) (fun _ _ => 2)) G) /\
  ~ same_on halves (square_of 1) (fun _ _ => 2).
Proof.
  split; [apply square_triangles; lra|]. split; [discriminate|]. split; [exact square_neighboured|]. split; [apply everywhere_samples|].
  split; [apply (some_gradient 4); apply square_triangles; lra|].
  intros H. assert (Q := H [0; 1; 2]%nat 0%nat 0%nat (or_introl eq_refl) (or_introl eq_refl) ltac:(lia)). cbn in Q. lra.
Qed.
(* ... and the entry is then not zero *)
Example C111_zero_example : estimate 4 (square_of 1) (square_of 1) halves (everywhere 2) (everywhere 2) <> Ok (Number 0).
Proof.
  intros H. apply (proj2 (proj2 (proj2 (proj2 (proj2 C111_value_example))))).
  apply (C111_zero 4 (square_of 1) halves (square_triangles 1 ltac:(lra)) ltac:(discriminate) (square_of 1) (fun _ _ => 2) (everywhere 2) (everywhere 2)
    square_neighboured (everywhere_samples _ _ _) (everywhere_samples _ _ _)). exact H.
Qed.
(* a shift by (3, 4) counts 15 on any square *)
Example C111_constant_example : forall a, a <> 0 ->
  estimate 4 (square_of a) (fun _ c => match c with O => 3 | _ => 4 end) halves (everywhere 0) (everywhere 0) = Ok (Number 15).
Proof.
  intros a A. rewrite (C111_constant 4 (square_of a) halves (square_triangles a A) ltac:(discriminate) _ (fun _ _ => 0) (everywhere 0) (everywhere 0)
    (fun c => match c with O => 3 | _ => 4 end) (everywhere_samples _ _ _) (everywhere_samples _ _ _)); [|intros; lra].
  do 2 f_equal. replace (3 ^ 2 + 4 ^ 2) with (5 * 5) by ring. rewrite sqrt_square by lra. ring.
Qed.
Example C111_first_example : triangles 4 (square_of 1) halves /\ gap_at (square_of 1) left_half [0; 1; 2]%nat.
Proof. split; [apply square_triangles; lra|exact left_gap]. Qed.
Example C111_later_example : triangles 5 house ([[4; 0; 3]%nat] ++ [0; 1; 2]%nat :: []) /\
  samples house [[4; 0; 3]%nat] left_half (fun _ => 0) /\ gap_at house left_half [0; 1; 2]%nat.
Proof. split; [exact house_triangles|]. split; [exact house_covered|exact house_gap]. Qed.
