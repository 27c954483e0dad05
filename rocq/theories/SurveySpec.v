(* Independent specification of partitions in geometric progression (C113). *)
From Coq Require Import Reals List Arith.
From Verif Require Import RVec.
Import ListNotations.
Local Open Scope R_scope.

(* each part is p times the one before *)
Definition in_progression (p : R) (l : list R) : Prop :=
  forall i, (i + 2 < List.length l)%nat -> nth (i + 2) l 0 - nth (i + 1) l 0 = p * (nth (i + 1) l 0 - nth i l 0).
(* a partition of [a, b] in n parts *)
Definition parts_of (a b : R) (n : nat) (l : list R) : Prop := List.length l = (n + 1)%nat /\ nth 0 l 0 = a /\ nth n l 0 = b.
Definition increasing_list (l : list R) : Prop := forall i, (i + 1 < List.length l)%nat -> nth i l 0 < nth (i + 1) l 0.
Definition least_of (x : R) (l : list R) : Prop := In x l /\ forall y, In y l -> x <= y.
