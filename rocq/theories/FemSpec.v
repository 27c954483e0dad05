(* Independent specification of the finite element matrices: barycentric geometry of one
   simplex and the integrals of piecewise linear functions over a mesh.
   Nothing here refers to the model. *)
From Coq Require Import Reals List Arith.
From Verif Require Import RVec MeshSpec.
Import ListNotations.
Local Open Scope R_scope.

(* [x i c]: coordinate c of corner i of a simplex *)

(* signed volume factor of a triangle / tetrahedron: determinant of the edge vectors *)
Definition det_2d (x : nat -> vec) : R :=
  let a c := x 1%nat c - x 0%nat c in
  let b c := x 2%nat c - x 0%nat c in
  a 0%nat * b 1%nat - a 1%nat * b 0%nat.

Definition det_3d (x : nat -> vec) : R :=
  let a k := x 1%nat k - x 0%nat k in
  let b k := x 2%nat k - x 0%nat k in
  let c k := x 3%nat k - x 0%nat k in
  a 0%nat * (b 1%nat * c 2%nat - b 2%nat * c 1%nat)
  - a 1%nat * (b 0%nat * c 2%nat - b 2%nat * c 0%nat)
  + a 2%nat * (b 0%nat * c 1%nat - b 1%nat * c 0%nat).

(* area and volume *)
Definition area (x : nat -> vec) : R := Rabs (det_2d x) / 2.
Definition volume (x : nat -> vec) : R := Rabs (det_3d x) / 6.

(* g is the gradient of the affine function with value [f i] at corner i *)
Definition affine_gradient (d : nat) (x : nat -> vec) (f : nat -> R) (g : vec) : Prop :=
  forall i j, (i <= d)%nat -> (j <= d)%nat ->
  sum d (fun c => g c * (x i c - x j c)) = f i - f j.

(* corners of element e in a node table *)
Definition corners (nodes : nat -> vec) (e : list nat) : nat -> vec := fun k => nodes (nth k e 0%nat).

(* g e is the gradient on element e of the piecewise linear function with nodal values f *)
Definition field_gradient (d : nat) (nodes : nat -> vec) (els : list (list nat)) (f : vec)
    (g : list nat -> vec) : Prop :=
  forall e, In e els -> affine_gradient d (corners nodes e) (fun k => f (nth k e 0%nat)) (g e).

(* mean of the nodal values over the d+1 corners of an element *)
Definition mean_value (d : nat) (e : list nat) (f : vec) : R :=
  sum (S d) (fun k => f (nth k e 0%nat)) / INR (S d).

(* mean over a d-simplex of the product of two affine functions with corner values f, g *)
Definition mean_product (d : nat) (f g : nat -> R) : R :=
  (sum (S d) (fun k => f k * g k) + sum (S d) f * sum (S d) g)
    / (INR (S d) * INR (S (S d))).

(* integral over the mesh of a function that is constant on each element *)
Definition integral (meas : list nat -> R) (els : list (list nat)) (f : list nat -> R) : R :=
  lsum els (fun e => meas e * f e).

(* y' A x for an n x m matrix *)
Definition bilinear (n m : nat) (A : mat) (y x : vec) : R :=
  sum n (fun a => sum m (fun b => y a * A a b * x b)).

(* component c of a stacked vector field with N nodes *)
Definition component (N : nat) (u : vec) (c : nat) : vec := fun n => u (c * N + n)%nat.

(* strain and divergence of a vector field with G c k = d u_c / d x_k *)
Definition strain (G : nat -> vec) (k l : nat) : R := (G k l + G l k) / 2.
Definition divergence (d : nat) (G : nat -> vec) : R := sum d (fun k => G k k).

(* isotropic elastic energy density: 2 mu eps(u):eps(v) + lambda div u div v *)
Definition elastic_density (d : nat) (mu lambda : R) (G H : nat -> vec) : R :=
  2 * mu * sum d (fun k => sum d (fun l => strain G k l * strain H k l))
  + lambda * (divergence d G * divergence d H).

(* nodal values of the rigid motion b + S x with S antisymmetric *)
Definition antisymmetric (d : nat) (S : mat) : Prop :=
  forall k l, (k < d)%nat -> (l < d)%nat -> S k l = - S l k.
Definition rigid_motion (d N : nat) (nodes : nat -> vec) (b : vec) (S : mat) (u : vec) : Prop :=
  forall c n, (c < d)%nat -> (n < N)%nat -> u (c * N + n)%nat = b c + sum d (fun l => S c l * nodes n l).

(* I is the integral of f over [a,b] (fundamental theorem of calculus) *)
Definition is_integral (f : R -> R) (a b I : R) : Prop :=
  exists F, (forall x, derivable_pt_lim F x (f x)) /\ F b - F a = I.

(* I is the iterated integral of f over the reference triangle 0 <= s, 0 <= t, s + t <= 1 *)
Definition is_triangle_integral (f : R -> R -> R) (I : R) : Prop :=
  exists g, (forall s, is_integral (fun t => f s t) 0 (1 - s) (g s)) /\ is_integral g 0 1 I.

(* and over the reference tetrahedron 0 <= r, s, t, r + s + t <= 1 *)
Definition is_tetrahedron_integral (f : R -> R -> R -> R) (I : R) : Prop :=
  exists g, (forall r, exists h, (forall s, is_integral (fun t => f r s t) 0 (1 - r - s) (h s)) /\
                                 is_integral h 0 (1 - r) (g r)) /\
            is_integral g 0 1 I.

(* entry (a, b) of the matrix whose element matrices are [loc e i j] (i, j < m corners) *)
Definition assembly (m : nat) (els : list (list nat)) (loc : list nat -> nat -> nat -> R) : mat :=
  fun a b => lsum els (fun e => sum m (fun i => sum m (fun j =>
    delta (nth i e 0%nat) a * delta (nth j e 0%nat) b * loc e i j))).

(* I behaves like an integral over the mesh: linear, monotone, local to the elements *)
Definition integral_like (els : list (list nat)) (I : (list nat -> R) -> R) : Prop :=
  (forall f g, (forall e, In e els -> f e = g e) -> I f = I g) /\
  (forall f g, I (fun e => f e + g e) = I f + I g) /\
  (forall c f, I (fun e => c * f e) = c * I f).

(* W k l is the matrix of (y, x) |-> I (d_k y  d_l x) on piecewise linear functions *)
Definition stiffness_of (d N : nat) (nodes : nat -> vec) (els : list (list nat))
    (I : (list nat -> R) -> R) (W : nat -> nat -> mat) : Prop :=
  forall k l y x gy gx, (k < d)%nat -> (l < d)%nat ->
  field_gradient d nodes els y gy -> field_gradient d nodes els x gx ->
  bilinear N N (W k l) y x = I (fun e => gy e k * gx e l).

(* gradients of all components of a stacked vector field: G c e k = d u_c / d x_k on e *)
Definition vector_gradient (d N : nat) (nodes : nat -> vec) (els : list (list nat)) (u : vec)
    (G : nat -> list nat -> vec) : Prop :=
  forall c, (c < d)%nat -> field_gradient d nodes els (component N u c) (G c).

(* how the 3D operator of the code deviates from isotropic elasticity (for G = grad v,
   H = grad u) *)
Definition defect_3d (G H : nat -> vec) : R :=
  sum 3 (fun k => sum 3 (fun l => if (k =? l)%nat then 0 else G k k * H l l))
  - (G 0%nat 1%nat * H 1%nat 0%nat + G 1%nat 0%nat * H 0%nat 1%nat)
  - (G 0%nat 2%nat * H 0%nat 2%nat + G 0%nat 2%nat * H 2%nat 0%nat + G 2%nat 0%nat * H 0%nat 2%nat)
  - (G 1%nat 2%nat + G 2%nat 1%nat) * (H 1%nat 2%nat + H 2%nat 1%nat).

(* every element is a non-degenerate triangle / tetrahedron with corners among N nodes *)
Definition triangles (N : nat) (nodes : nat -> vec) (els : list (list nat)) : Prop :=
  in_range N els /\ Forall (fun e => length e = 3%nat) els /\
  (forall e, In e els -> det_2d (corners nodes e) <> 0).
Definition tetrahedra (N : nat) (nodes : nat -> vec) (els : list (list nat)) : Prop :=
  in_range N els /\ Forall (fun e => length e = 4%nat) els /\
  (forall e, In e els -> det_3d (corners nodes e) <> 0).

(* area / volume of an element *)
Definition element_area (nodes : nat -> vec) (e : list nat) : R := area (corners nodes e).
Definition element_volume (nodes : nat -> vec) (e : list nat) : R := volume (corners nodes e).

(* integral over the mesh with an additional weight per element position *)
Definition weighted_integral (meas : list nat -> R) (rho : nat -> R) (els : list (list nat))
    (f : list nat -> R) : R :=
  lsum (combine (seq 0 (length els)) els) (fun p => rho (fst p) * (meas (snd p) * f (snd p))).

(* node table of a list of points with coordinate function [coord] *)
Definition node_table {P} (coord : P -> vec) (zero : P) (l : list P) : nat -> vec :=
  fun i => coord (nth i l zero).

(* affine functions on the reference simplices in barycentric coordinates *)
Definition bary2 (f : nat -> R) (s t : R) : R :=
  f 0%nat * (1 - s - t) + f 1%nat * s + f 2%nat * t.
Definition bary3 (f : nat -> R) (r s t : R) : R :=
  f 0%nat * (1 - r - s - t) + f 1%nat * r + f 2%nat * s + f 3%nat * t.


(* plain or density weighted integral over the mesh *)
Definition mesh_integral (meas : list nat -> R) (density : option (nat -> R)) (els : list (list nat))
    (f : list nat -> R) : R :=
  match density with
  | None => integral meas els f
  | Some rho => weighted_integral meas rho els f
  end.

Definition nonneg_density (density : option (nat -> R)) : Prop :=
  match density with None => True | Some rho => forall k, 0 <= rho k end.
