(* C55, C83: products along a vertical line. *)
From Coq Require Import Reals List Arith Bool Lia Lra.
From Verif Require Import PyModel RVec MeshSpec FemSpec ZerosModel ZerosSpec ZerosProofs ZerosMeshProofs ZerosExamples.
Import ListNotations.
Local Open Scope R_scope.

(* ------------------------------------------------------------------ C55 *)

(* the search ends *)
Theorem C55_samples_exist : forall xmin xmax step, 0 < step ->
  exists n, samples xmin xmax step n /\ forall n', samples xmin xmax step n' -> n' = n.
Proof. exact samples_one. Qed.
Print Assumptions C55_samples_exist.

(* exactly: every sample contributes itself if the function vanishes there, one answer of the root
   finder if the sign changed since the previous sample, nothing otherwise; the first failure of the
   root finder ends the search *)
Theorem C55_exact : forall brentq func xmin xmax step n, samples xmin xmax step n -> forall fuel, (n < fuel)%nat ->
  (exists ls, Forall2 (contributes func xmin step (brentq func)) (seq 0 n) ls /\
     estimate_zeros brentq func xmax step fuel xmin = Some (Ok (concat ls))) \/
  (exists k e ls, (S k < n)%nat /\ Forall2 (contributes func xmin step (brentq func)) (seq 0 (S k)) ls /\
     change (func (sample xmin step k)) (func (sample xmin step (S k))) /\
     brentq func (sample xmin step k) (sample xmin step (S k)) = Err e /\
     estimate_zeros brentq func xmax step fuel xmin = Some (Err e)).
Proof. exact estimate_samples. Qed.
Print Assumptions C55_exact.

(* with a root finder that finds a zero in every bracket with a change of sign *)
Theorem C55_zeros : forall brentq func xmin xmax step n, samples xmin xmax step n -> 0 < step ->
  finds_roots func (brentq func) -> forall fuel, (n < fuel)%nat ->
  exists zs, estimate_zeros brentq func xmax step fuel xmin = Some (Ok zs) /\ zeros_found func xmin xmax step n zs.
Proof. exact estimate_finds. Qed.
Print Assumptions C55_zeros.

Theorem C55_no_step : forall brentq func xmin xmax, xmin <= xmax ->
  forall fuel, estimate_zeros brentq func xmax 0 fuel xmin = None.
Proof. exact no_step. Qed.
Print Assumptions C55_no_step.

(* not every zero is found: after the last sample, or two between neighbouring samples *)
Theorem C55_last_refuted : exists zs,
  estimate_zeros secant (fun y => Some (- (9 / 10) + 1 * y)) 1 (2 / 5) 4 0 = Some (Ok zs) /\
  zs = [] /\ (fun y => Some (- (9 / 10) + 1 * y)) (9 / 10) = Some 0.
Proof. exact late_zero. Qed.
Print Assumptions C55_last_refuted.
Theorem C55_double_refuted : forall brentq, let f := fun y => Some ((y - 1 / 3) * (y - 2 / 3)) in
  estimate_zeros brentq f 1 1 3 0 = Some (Ok []) /\ f (1 / 3) = Some 0 /\ f (2 / 3) = Some 0.
Proof. exact double_zero. Qed.
Print Assumptions C55_double_refuted.

Example C55_example : samples 0 1 (1 / 3) 4 /\ 0 < 1 / 3 /\
  finds_roots (fun y => Some (- (1 / 2) + 1 * y)) (secant (fun y => Some (- (1 / 2) + 1 * y))) /\
  change (Some (- (1 / 2) + 1 * sample 0 (1 / 3) 1)) (Some (- (1 / 2) + 1 * sample 0 (1 / 3) 2)).
Proof.
  split; [exact line_samples|]. split; [lra|]. split; [apply secant_finds|]. unfold change, sample. cbn. lra.
Qed.

(* ------------------------------------------------------------------ C83 *)

(* the limit points recorded are points of the line, in order, where the interpolated displacement
   has the level of the obstacle *)
Theorem C83_limit_points : forall n nodes els finder, triangles n nodes els -> finds_triangles nodes els finder ->
  (1 <= n)%nat -> forall brentq level obstacle field,
  finds_roots (fun y => minus (interpolator finder nodes field level y) obstacle)
    (brentq (fun y => minus (interpolator finder nodes field level y) obstacle)) ->
  exists y_min y_max k zs, lowest_node n nodes y_min /\ highest_node n nodes y_max /\
    samples y_min y_max (1 / (2 * INR n)) k /\
    (forall fuel, (k < fuel)%nat -> limit_points brentq 2 n nodes finder level obstacle field fuel = Some (Ok zs)) /\
    zeros_found (fun y => minus (interpolator finder nodes field level y) obstacle) y_min y_max (1 / (2 * INR n)) k zs /\
    forall z, In z zs -> exists e, In e els /\ interpolates nodes field e level z obstacle.
Proof. exact limit_points_found. Qed.
Print Assumptions C83_limit_points.

(* meshes in space are refused *)
Theorem C83_space : forall brentq dimension n nodes finder level obstacle field fuel,
  dimension <> 2%nat -> (1 <= n)%nat ->
  limit_points brentq dimension n nodes finder level obstacle field fuel = Some (Err AssertionError).
Proof. exact limit_points_space. Qed.
Print Assumptions C83_space.

(* the values recorded along a line are interpolated; masked exactly outside of the mesh *)
Theorem C83_intersection : forall n nodes els finder, triangles n nodes els -> finds_triangles nodes els finder ->
  (1 <= n)%nat -> forall level field, exists y_min y_max space values,
  lowest_node n nodes y_min /\ highest_node n nodes y_max /\
  intersection n nodes finder level field = Ok (space, values) /\
  length values = length space /\
  samples y_min y_max (1 / (2 * INR n)) (S (length space)) /\
  (forall y, In y space -> y_min <= y <= y_max) /\
  (forall i y, nth_error space i = Some y -> (i = 0%nat -> y = y_min) /\
     y = y_min + INR i * ((y_max - y_min) / INR (length space - 1))) /\
  (forall i y v, nth_error space i = Some y -> nth_error values i = Some v ->
     (forall a, v = Some a -> exists e, In e els /\ interpolates nodes field e level y a) /\
     (v = None <-> forall e, In e els -> ~ covers nodes e level y)).
Proof. exact intersection_values. Qed.
Print Assumptions C83_intersection.

(* they are exact for affine displacements *)
Theorem C83_affine : forall n nodes els finder, triangles n nodes els -> finds_triangles nodes els finder ->
  forall field u p q x y v, (forall i, (i < n)%nat -> field i = u + p * nodes i 0%nat + q * nodes i 1%nat) ->
  interpolator finder nodes field x y = Some v -> v = u + p * x + q * y.
Proof. exact interpolator_affine. Qed.
Print Assumptions C83_affine.

Example C83_example : triangles 3 tri_nodes tri_els /\ finds_triangles tri_nodes tri_els tri_finder /\
  finds_roots (fun y => minus (interpolator tri_finder tri_nodes height (1 / 4) y) (1 / 2))
    (secant (fun y => minus (interpolator tri_finder tri_nodes height (1 / 4) y) (1 / 2))).
Proof. split; [exact tri_triangles|]. split; [exact tri_finds|]. exact tri_roots. Qed.
