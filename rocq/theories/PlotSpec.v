(* Independent specification of what the plots should show.  Nothing here refers to the model. *)
From Coq Require Import Reals List Arith.
From Verif Require Import RVec.
Import ListNotations.
Local Open Scope R_scope.

(* all recorded points (time, zero), in order of time *)
Definition recorded (data : list (R * list R)) : list (R * R) :=
  flat_map (fun p => map (pair (fst p)) (snd p)) data.

(* some times from the beginning have recorded exactly n points *)
Definition reaches (n : nat) (data : list (R * list R)) : Prop :=
  exists d1 d2, data = d1 ++ d2 /\ length (recorded d1) = n.

(* every time has k zeros *)
Definition steady (k : nat) (data : list (R * list R)) : Prop :=
  Forall (fun p => length (snd p) = k) data.

(* i and j are different corners of a common element *)
Definition joined (els : list (list nat)) (i j : nat) : Prop :=
  i <> j /\ exists e, In e els /\ In i e /\ In j e.

(* an undirected graph: no loops to speak of, each pair of ends at most once *)
Definition has_edge (g : list (nat * nat)) (i j : nat) : Prop := In (i, j) g \/ In (j, i) g.
Definition simple (g : list (nat * nat)) : Prop :=
  NoDup g /\ forall i j, In (i, j) g -> i <> j -> ~ In (j, i) g.

(* p lies in the window *)
Definition in_window (w : (R * R) * (R * R)) (p : vec) : Prop :=
  fst (fst w) <= p 0%nat <= snd (fst w) /\ fst (snd w) <= p 1%nat <= snd (snd w).

(* batches followed by a hundred points at the origin; the last batch if there is one *)
Definition padded (full : list (list (R * R))) : list (list (R * R)) :=
  map (fun p => p ++ repeat (0, 0) 100) full.
Definition remainder (last : list (R * R)) : list (list (R * R)) := match last with [] => [] | _ => [last] end.
