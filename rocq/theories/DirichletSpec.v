(* Independent specification of constrained linear systems (C11-C15). *)
From Coq Require Import Reals List Arith.
From Verif Require Import RVec DofSpec.
Import ListNotations.
Local Open Scope R_scope.

(* x solves A x = b (n equations) *)
Definition solves (n : nat) (A : mat) (b x : vec) : Prop :=
  forall k, (k < n)%nat -> sum n (fun l => A k l * x l) = b k.

(* dof d is prescribed the value v by one of the conditions: a condition is a list of slice
   pairs together with an array of values *)
Definition prescribed (conds : list (list ((nat * nat) * (nat * nat)) * (nat -> R)))
    (d : nat) (v : R) : Prop :=
  exists sl c s p, In (sl, c) conds /\ In s sl /\ In (d, p) (slice_pairs s) /\ v = c p.

(* the constrained problem: prescribed values hold, remaining equations hold *)
Definition solves_constrained (n : nat) (A : mat) (b : vec) (pin : nat -> R -> Prop) (x : vec)
  : Prop :=
  (forall d v, pin d v -> x d = v) /\
  (forall k, (k < n)%nat -> (forall v, ~ pin k v) -> sum n (fun l => A k l * x l) = b k).

(* no dof is prescribed two different values *)
Definition consistent (pin : nat -> R -> Prop) : Prop :=
  forall d v w, pin d v -> pin d w -> v = w.

(* non-empty slices are in range and the two slices of a pair have equal length *)
Definition well_shaped (n : nat)
    (conds : list (list ((nat * nat) * (nat * nat)) * (nat -> R))) : Prop :=
  forall sl c s, In (sl, c) conds -> In s sl ->
    matching s /\ (fst (fst s) < snd (fst s) -> snd (fst s) <= n)%nat.

(* the conditions as one sequence of (slice pair, values), in the order of application *)
Definition sequence (conds : list (list ((nat * nat) * (nat * nat)) * (nat -> R)))
  : list (((nat * nat) * (nat * nat)) * (nat -> R)) :=
  flat_map (fun k => map (fun s => (s, snd k)) (fst k)) conds.

(* one member of the sequence prescribes value v at dof d *)
Definition pins (a : ((nat * nat) * (nat * nat)) * (nat -> R)) (d : nat) (v : R) : Prop :=
  exists p, In (d, p) (slice_pairs (fst a)) /\ v = snd a p.

(* the first / the last prescription of dof d in the sequence *)
Definition earliest l (d : nat) (v : R) : Prop :=
  exists pre a post, l = pre ++ a :: post /\ pins a d v /\ (forall a' w, In a' pre -> ~ pins a' d w).
Definition latest l (d : nat) (v : R) : Prop :=
  exists pre a post, l = pre ++ a :: post /\ pins a d v /\ (forall a' w, In a' post -> ~ pins a' d w).
