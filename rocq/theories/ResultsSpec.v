(* Independent specification for results kept in files (C112). Nothing here refers to the model. *)
From Coq Require Import List Arith.
Import ListNotations.

(* all files are there *)
Definition all_there {K S : Type} (f : K -> option S) (l : list K) : Prop := Forall (fun k => f k <> None) l.
(* x is followed, after one or more values with files, by a value without one; p is the last of those *)
Definition gap_after {K S : Type} (f : K -> option S) (igs : list K) (x p : K) : Prop :=
  exists a mid y c, igs = a ++ x :: mid ++ p :: y :: c /\ all_there f (mid ++ [p]) /\ f y = None.
(* x is followed by a value without a file, or all later values have files *)
Definition no_gap_after {K S : Type} (f : K -> option S) (igs : list K) (x : K) : Prop :=
  exists a b, igs = a ++ x :: b /\ (all_there f b \/ exists y c, b = y :: c /\ f y = None).
(* where the solution for x is started from: the kept result of the value before, if there is one *)
Definition started {K S : Type} (f : K -> option S) (igs : list K) (x : K) (g : option S) : Prop :=
  (exists b, igs = x :: b /\ g = None) \/ (exists a p b, igs = a ++ p :: x :: b /\ g = f p).

(* the results of some calls of a program one after another *)
Inductive reached {A : Type} (start : A) (step : A -> A -> Prop) : A -> Prop :=
| at_start : reached start step start
| one_more a b : reached start step a -> step a b -> reached start step b.

(* two entries of a list share a name *)
Definition distinct_names {F L : Type} (label : F -> L) (l : list F) : Prop :=
  forall a b, In a l -> In b l -> label a = label b -> a = b.

(* solutions one after another; when kept, each starts from the one before *)
Fixpoint chain {F S : Type} (sol : F -> option S -> S) (keep : bool) (start : option S) (fs : list F) : list S :=
  match fs with
  | [] => []
  | f :: fs => sol f start :: chain sol keep (if keep then Some (sol f start) else None) fs
  end.
