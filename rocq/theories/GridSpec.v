(* What the example of 2026 should load, show and simulate (C116). *)
From Coq Require Import Arith Bool String Ascii Reals Permutation List.
From Verif Require Import GridModel.
Import ListNotations.

(* a printed number has no underscore *)
Definition plain (a : string) : Prop := ~ In "_"%char (list_ascii_of_string a).
(* the files that are there hold what a simulation gives *)
Definition honest {S} (sim : key -> S) (d : disk S) : Prop :=
  forall p s, plain (fst p) -> file d (state_name p) = Some s -> s = sim p.
(* x is the least, the greatest entry *)
Definition least (x : R) (l : list R) : Prop := In x l /\ forall y, In y l -> (x <= y)%R.
Definition greatest (x : R) (l : list R) : Prop := In x l /\ forall y, In y l -> (y <= x)%R.
(* the n-th letter of the alphabet, from 0 *)
Definition alphabet (n : nat) : ascii := ascii_of_nat (97 + n).
(* the sequences that are not None *)
Definition sequences (l : list (option (list key))) : list (list key) := flat_map (fun o => match o with Some s => [s] | None => [] end) l.
(* the pairs that a run needs *)
Definition asked (alphas : list string) (ihs : list nat) (grid : list (list key)) (seqs : list (list (option (list key)))) (alpha : string) (p : key) : Prop :=
  (In (fst p) alphas /\ In (snd p) ihs) \/ (exists row, In row grid /\ In p row) \/
  (exists row seq, In row seqs /\ In (Some seq) row /\ In p seq) \/ ((fst p = "inf"%string \/ fst p = alpha) /\ In (snd p) ihs).
(* the order of a set, sizes, plain numbers, states with values, curves that are not empty and no more than letters *)
Definition ready {S} (sim : key -> S) (temps : S -> list R) (order : list key -> list key) (alphas : list string) (ihs : list nat) (grid : list (list key))
  (seqs : list (list (option (list key)))) (alpha : string) : Prop :=
  (forall l, Permutation (order l) l) /\ ihs <> [] /\ (forall p, asked alphas ihs grid seqs alpha p -> plain (fst p)) /\
  (forall p, In p (concat grid) -> temps (sim p) <> []) /\ List.length (sequences (concat seqs)) <= 26 /\ (forall s, In s (sequences (concat seqs)) -> s <> []).
