(* Independent specification for one-dimensional contact laws.  Nothing here refers to the model. *)
From Coq Require Import Reals List Arith.
From Verif Require Import RVec.
Import ListNotations.
Local Open Scope R_scope.

(* one-sided derivatives *)
Definition right_derivative (f : R -> R) (x l : R) : Prop :=
  forall eps, 0 < eps -> exists d, 0 < d /\
  forall h, 0 < h -> h < d -> Rabs ((f (x + h) - f x) / h - l) < eps.
Definition left_derivative (f : R -> R) (x l : R) : Prop :=
  forall eps, 0 < eps -> exists d, 0 < d /\
  forall h, 0 < h -> h < d -> Rabs ((f x - f (x - h)) / h - l) < eps.

Definition increasing_list (layers : list R) : Prop :=
  forall i j, (i < j)%nat -> (j < length layers)%nat -> nth i layers 0 < nth j layers 0.

(* traction of a layered body as a function of the penetration: nothing before the first layer,
   linear from alpha to beta within each layer, constant after the last one *)
Inductive layered (layers : list R) (alpha beta : R -> R) (before : R -> R -> Prop) (v : R) : R -> Prop :=
  | outside : ~ before (nth 0 layers 0) v -> layered layers alpha beta before v 0
  | within n a b : (S n < length layers)%nat -> a = nth n layers 0 -> b = nth (S n) layers 0 ->
      before a v -> ~ before b v ->
      layered layers alpha beta before v (alpha a + (beta b - alpha a) * ((v - a) / (b - a)))
  | beyond a : a = nth (length layers - 1) layers 0 -> before a v ->
      layered layers alpha beta before v (alpha a).

(* limits from the left and from the right at the ends of the layers *)
Definition traction_left (layers : list R) (alpha beta : R -> R) : R -> R -> Prop :=
  layered layers alpha beta Rlt.
Definition traction_right (layers : list R) (alpha beta : R -> R) : R -> R -> Prop :=
  layered layers alpha beta Rle.

(* g grows on the set D *)
Definition monotone_on (D : R -> Prop) (g : R -> R) : Prop :=
  forall x y, D x -> D y -> x <= y -> g x <= g y.

(* Euclidean norm and scalar product of d entries *)
Definition norm (d : nat) (x : vec) : R := sqrt (sum d (fun i => x i * x i)).
Definition scalar (d : nat) (x y : vec) : R := sum d (fun i => x i * y i).

(* Lipschitz with constant k *)
Definition lipschitz (k : R) (f : R -> R) : Prop := forall x y, Rabs (f x - f y) <= k * Rabs (x - y).
