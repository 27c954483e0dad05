(* The divergence theorem on a mesh and the patch test.  Nothing here refers to the model. *)
From Coq Require Import Reals List Arith.
From Verif Require Import RVec MeshSpec FemSpec ForcesSpec CrossSpec ZooSpec.
Import ListNotations.
Local Open Scope R_scope.

Definition minus_vec (a b : vec) : vec := fun c => a c - b c.

(* n is normal to the face f *)
Definition normal_to (d : nat) (x : nat -> vec) (f : list nat) (n : vec) : Prop :=
  forall p q, In p f -> In q f -> dot d n (minus_vec (x p) (x q)) = 0.

(* n is the unit normal of f that points away from the corner o *)
Definition outer_normal (d : nat) (x : nat -> vec) (f : list nat) (o : nat) (n : vec) : Prop :=
  dot d n n = 1 /\ normal_to d x f n /\ forall p, In p f -> dot d n (minus_vec (x o) (x p)) < 0.

(* n f is the outer unit normal of the boundary face f *)
Definition outer_normals (d : nat) (x : nat -> vec) (els : list (list nat)) (n : list nat -> vec) : Prop :=
  forall f o, boundary_face (S d) els f -> opposing els f o -> outer_normal d x f o (n f).

(* two elements with a common face are on different sides of it *)
Definition two_sided (d : nat) (x : nat -> vec) (els : list (list nat)) : Prop :=
  forall i j e e' f o o' n p, i <> j -> nth_error els i = Some e -> nth_error els j = Some e' ->
  List.length f = d -> NoDup f -> incl f e -> incl f e' -> In o e -> ~ In o f -> In o' e' -> ~ In o' f ->
  normal_to d x f n -> In p f ->
  ~ (0 < dot d n (minus_vec (x o) (x p)) /\ 0 < dot d n (minus_vec (x o') (x p))).

(* faces lists every boundary face once *)
Definition boundary_list (d : nat) (els faces : list (list nat)) : Prop :=
  NoDup faces /\ forall f, In f faces <-> boundary_face (S d) els f.

(* integral over the boundary of the interpolant of v times component c of the normal *)
Definition flux (d : nat) (x : nat -> vec) (faces : list (list nat)) (n : list nat -> vec) (v : vec) (c : nat) : R :=
  lsum faces (fun f => face_measure d x f * (n f c * (lsum f v / INR d))).

(* triangles turned counterclockwise in which no edge is passed twice in the same direction *)
Definition passes (e : list nat) (p q : nat) : Prop := exists a b c, e = [a; b; c] /\ ((p = a /\ q = b) \/ (p = b /\ q = c) \/ (p = c /\ q = a)).
Definition turned_alike (x : nat -> vec) (els : list (list nat)) : Prop :=
  (forall e, In e els -> 0 < det_2d (corners x e)) /\
  (forall i j e e' p q, nth_error els i = Some e -> nth_error els j = Some e' -> passes e p q -> passes e' p q -> i = j).

(* no point inside of an element belongs to another one *)
Definition apart_plane (x : nat -> vec) (els : list (list nat)) : Prop :=
  forall i j e f a b, nth_error els i = Some e -> nth_error els j = Some f ->
  inside (corners x e) a b -> within (corners x f) a b -> i = j.
Definition apart_solid (x : nat -> vec) (els : list (list nat)) : Prop :=
  forall i j e f p, nth_error els i = Some e -> nth_error els j = Some f ->
  inside_solid (corners x e) p -> within_solid (corners x f) p -> i = j.
