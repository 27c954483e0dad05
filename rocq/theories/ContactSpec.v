(* Independent specification of contact functionals in the plane. *)
From Coq Require Import Reals List Arith.
From Verif Require Import RVec PyModel ForcesSpec.
Import ListNotations.
Local Open Scope R_scope.

(* nodal values of a vector stacked component by component *)
Definition nodal (N : nat) (x : vec) : nat -> vec := fun node k => x (k * N + node)%nat.

(* mean of the values at the nodes of a face; the vectors at which a face is sampled *)
Definition mean_at (e : list nat) (v : nat -> vec) : vec :=
  fun k => lsum e (fun node => v node k) / INR (List.length e).
Definition samples (e : list nat) (v : nat -> vec) : list vec := mean_at e v :: map v e.

(* normal component and tangential part with respect to n *)
Definition along (n v : vec) : R := inner_product 2 v n.
Definition across (n v : vec) : list R := map (fun k => v k - along n v * n k) [0; 1]%nat.

(* contact potential per unit length at value v and static displacement s: normal and
   tangential potentials with their bounds *)
Definition density (hn jn ht : R -> R -> R -> R) (jt : list R -> list R -> R -> R) (dt : R) (n v s : vec) : R :=
  hn (along n v) (along n s) dt * jn (along n v) (along n s) dt
  + ht (along n v) (along n s) dt * jt (across n v) (across n s) dt.

(* quadrature over the faces: the mean and both ends with equal weights *)
Definition boundary_sum (nodes : nat -> vec) (faces : list (list nat)) (phi : nat -> vec -> vec -> R)
    (v s : nat -> vec) : R :=
  sum (List.length faces) (fun ei => let e := nth ei faces [] in
    face_measure 2 nodes e / 3 * lsum (samples e v) (fun p => phi ei p (mean_at e s))).

(* quadratic energy of a linear system *)
Definition quadratic (n : nat) (A : mat) (b x : vec) : R := / 2 * qform n A x - dot n b x.

(* a value never raised and never undercut *)
Definition minimises (cost : vec -> result R) (x : vec) : Prop :=
  exists c, cost x = Ok c /\ forall y, exists c', cost y = Ok c' /\ c <= c'.

(* convexity of a function of vectors and of a function of numbers *)
Definition between (t : R) (x y : vec) : vec := fun i => (1 - t) * x i + t * y i.
Definition convex (J : vec -> R) : Prop :=
  forall x y t, 0 <= t <= 1 -> J (between t x y) <= (1 - t) * J x + t * J y.
Definition convex1 (f : R -> R) : Prop :=
  forall x y t, 0 <= t <= 1 -> f ((1 - t) * x + t * y) <= (1 - t) * f x + t * f y.

(* work of contact stresses j against a virtual field w, sampled like the cost ... *)
Definition sampled_work (nodes : nat -> vec) (normals : nat -> vec) (faces : list (list nat))
    (j : nat -> R -> R) (v w : nat -> vec) : R :=
  sum (List.length faces) (fun ei => let e := nth ei faces [] in let n := normals ei in
    face_measure 2 nodes e / 3 *
    (j ei (along n (mean_at e v)) * along n (mean_at e w)
     + lsum e (fun a => j ei (along n (v a)) * along n (w a)))).

(* ... and with w replaced by its mean over each face *)
Definition averaged_work (nodes : nat -> vec) (normals : nat -> vec) (faces : list (list nat))
    (j : nat -> R -> R) (v w : nat -> vec) : R :=
  sum (List.length faces) (fun ei => let e := nth ei faces [] in let n := normals ei in
    face_measure 2 nodes e / 3 *
    lsum (samples e v) (fun p => j ei (along n p)) * along n (mean_at e w)).

(* scalar problems: the potential at value v when the law receives the displacement q *)
Definition scalar_density (hn jn ht : R -> R -> R -> R) (jt : list R -> list R -> R -> R) (dt q : R)
    (rest : list R) (v : vec) : R :=
  hn (v 0%nat) q dt * jn (v 0%nat) q dt + ht (v 0%nat) q dt * jt [] rest dt.
