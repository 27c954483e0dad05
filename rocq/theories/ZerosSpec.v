(* What a search for zeros by sampling is to find.  Nothing here refers to the model. *)
From Coq Require Import Reals List Arith.
From Verif Require Import PyModel RVec.
Import ListNotations.
Local Open Scope R_scope.

(* opposite strict signs; None: no value *)
Definition change (u v : option R) : Prop :=
  match u, v with
  | Some a, Some b => a < 0 < b \/ b < 0 < a
  | _, _ => False
  end.

Section Samples.
  Variables (f : R -> option R) (xmin xmax step : R).
  Definition sample (k : nat) : R := xmin + INR k * step.
  (* there are n samples up to xmax *)
  Definition samples (n : nat) : Prop := forall k, (k < n)%nat <-> sample k <= xmax.

  (* what sample k contributes; [root]: the answer of the root finder for a bracket *)
  Variable root : R -> R -> result R.
  Inductive contributes : nat -> list R -> Prop :=
  | at_zero : forall k, f (sample k) = Some 0 -> contributes k [sample k]
  | at_change : forall k r, change (f (sample k)) (f (sample (S k))) -> root (sample k) (sample (S k)) = Ok r ->
      contributes (S k) [r]
  | at_none : forall k, f (sample k) <> Some 0 ->
      (forall j, k = S j -> ~ change (f (sample j)) (f (sample k))) -> contributes k [].
End Samples.

(* the root finder does its work: a zero between the ends of every bracket with a change of sign *)
Definition finds_roots (f : R -> option R) (root : R -> R -> result R) : Prop :=
  forall a b, a < b -> change (f a) (f b) -> exists r, root a b = Ok r /\ a <= r <= b /\ f r = Some 0.

(* a set of zeros as found by sampling *)
Record zeros_found (f : R -> option R) (xmin xmax step : R) (n : nat) (zs : list R) : Prop := {
  zf_order : forall i j a b, (i < j)%nat -> nth_error zs i = Some a -> nth_error zs j = Some b -> a < b;
  zf_zero : forall z, In z zs -> f z = Some 0;
  zf_range : forall z, In z zs -> xmin <= z <= xmax;
  zf_origin : forall z, In z zs -> (exists k, (k < n)%nat /\ z = sample xmin step k) \/
    (exists k, (S k < n)%nat /\ sample xmin step k < z < sample xmin step (S k) /\
       change (f (sample xmin step k)) (f (sample xmin step (S k))));
  zf_samples : forall k, (k < n)%nat -> f (sample xmin step k) = Some 0 -> In (sample xmin step k) zs;
  zf_changes : forall k, (S k < n)%nat -> change (f (sample xmin step k)) (f (sample xmin step (S k))) ->
    exists z, In z zs /\ sample xmin step k < z < sample xmin step (S k) /\
      forall z', In z' zs -> sample xmin step k < z' < sample xmin step (S k) -> z' = z }.

(* ------------------------------------------------------------- values on a mesh *)

(* at (x, y), a point of element e, the linear interpolation of the nodal values is v *)
Definition interpolates (nodes : nat -> vec) (field : vec) (e : list nat) (x y v : R) : Prop :=
  exists i j k a b c, e = [i; j; k] /\ 0 <= a /\ 0 <= b /\ 0 <= c /\ a + b + c = 1 /\
    x = a * nodes i 0%nat + b * nodes j 0%nat + c * nodes k 0%nat /\
    y = a * nodes i 1%nat + b * nodes j 1%nat + c * nodes k 1%nat /\
    v = a * field i + b * field j + c * field k.
(* (x, y) is a point of element e *)
Definition covers (nodes : nat -> vec) (e : list nat) (x y : R) : Prop := exists v, interpolates nodes (fun _ => 0) e x y v.
(* a triangle finder finds a triangle exactly for the points of the mesh *)
Definition finds_triangles (nodes : nat -> vec) (els : list (list nat)) (finder : R -> R -> option (list nat)) : Prop :=
  (forall x y e, finder x y = Some e -> In e els /\ covers nodes e x y) /\
  (forall x y e, In e els -> covers nodes e x y -> finder x y <> None).
Definition lowest_node (n : nat) (nodes : nat -> vec) (m : R) : Prop :=
  (exists i, (i < n)%nat /\ nodes i 1%nat = m) /\ forall i, (i < n)%nat -> m <= nodes i 1%nat.
Definition highest_node (n : nat) (nodes : nat -> vec) (m : R) : Prop :=
  (exists i, (i < n)%nat /\ nodes i 1%nat = m) /\ forall i, (i < n)%nat -> nodes i 1%nat <= m.
