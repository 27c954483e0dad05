(* Independent specification of outer normals (C07). *)
From Coq Require Import Reals List.
Local Open Scope R_scope.

(* n is the outer unit normal of the edge a-b of a triangle with third vertex o *)
Definition outward2 (a b o n : R * R) : Prop :=
  fst n * fst n + snd n * snd n = 1 /\
  fst n * (fst b - fst a) + snd n * (snd b - snd a) = 0 /\
  fst n * (fst o - fst a) + snd n * (snd o - snd a) < 0.

(* twice the signed area of a b x: which side of the line a-b the point x is on *)
Definition side2 (a b x : R * R) : R :=
  (fst b - fst a) * (snd x - snd a) - (snd b - snd a) * (fst x - fst a).

Definition dotp3 (u v : R * R * R) : R :=
  fst (fst u) * fst (fst v) + snd (fst u) * snd (fst v) + snd u * snd v.
Definition diff3 (u v : R * R * R) : R * R * R :=
  (fst (fst u) - fst (fst v), snd (fst u) - snd (fst v), snd u - snd v).

(* n is the outer unit normal of the face a-b-c of a tetrahedron with fourth vertex o *)
Definition outward3 (a b c o n : R * R * R) : Prop :=
  dotp3 n n = 1 /\ dotp3 n (diff3 b a) = 0 /\ dotp3 n (diff3 c a) = 0 /\
  dotp3 n (diff3 o a) < 0.

(* six times the signed volume of a b c x *)
Definition side3 (a b c x : R * R * R) : R :=
  let '(b0, b1, b2) := diff3 b a in
  let '(c0, c1, c2) := diff3 c a in
  let '(x0, x1, x2) := diff3 x a in
  (b1 * c2 - b2 * c1) * x0 + (b2 * c0 - b0 * c2) * x1 + (b0 * c1 - b1 * c0) * x2.
