(* Independent specification of the distance that error_estimates.py computes (C111). Nothing here refers to the model. *)
From Coq Require Import Reals List Arith.
From Verif Require Import RVec MeshSpec FemSpec StressSpec.
Import ListNotations.
Local Open Scope R_scope.

(* the corner values of a component added up *)
Definition corner_total (e : list nat) (w : nat -> vec) (c : nat) : R := sum 3 (fun k => w (nth k e 0%nat) c).
(* what a field with the derivatives G c k on an element counts there: corner sums, stretches and shear *)
Definition size_on (w : nat -> vec) (G : nat -> vec) (e : list nat) : R :=
  sqrt (corner_total e w 0 ^ 2 + corner_total e w 1 ^ 2 + G 0%nat 0%nat ^ 2 + G 1%nat 1%nat ^ 2 + (G 0%nat 1%nat + G 1%nat 0%nat) ^ 2).
(* the mean over the elements *)
Definition mean_size (els : list (list nat)) (w : nat -> vec) (G : nat -> list nat -> vec) : R :=
  lsum els (fun e => size_on w (fun c => G c e) e) / INR (List.length els).

(* h holds the values of the other field at the nodes in use *)
Definition samples (nodes : nat -> vec) (els : list (list nat)) (f : R -> R -> option R) (h : nat -> R) : Prop :=
  forall e n, In e els -> In n e -> f (nodes n 0%nat) (nodes n 1%nat) = Some (h n).
(* some point in use has no value *)
Definition gap_at (nodes : nat -> vec) (f : R -> R -> option R) (e : list nat) : Prop :=
  exists n, In n e /\ f (nodes n 0%nat) (nodes n 1%nat) = None.

Definition differ (u h : nat -> vec) : nat -> vec := fun n c => u n c - h n c.
(* no difference at the nodes in use *)
Definition same_on (els : list (list nat)) (u h : nat -> vec) : Prop :=
  forall e n c, In e els -> In n e -> (c < 2)%nat -> u n c = h n c.

Definition away (x y : vec) : Prop := x 0%nat <> y 0%nat \/ x 1%nat <> y 1%nat.
Definition centre_of (nodes : nat -> vec) (e : list nat) : vec := fun c => sum 3 (fun k => nodes (nth k e 0%nat) c) / 3.
(* every element shares two nodes with another one that lies elsewhere *)
Definition neighboured (nodes : nat -> vec) (els : list (list nat)) : Prop :=
  forall e, In e els -> exists f p q, In f els /\ In p e /\ In q e /\ In p f /\ In q f /\
    away (nodes p) (nodes q) /\ away (centre_of nodes e) (centre_of nodes f).

(* the norm of a constant field d on the body: the root of its integrated square *)
Definition constant_norm (nodes : nat -> vec) (els : list (list nat)) (d : vec) : R :=
  sqrt (lsum els (element_area nodes) * (d 0%nat ^ 2 + d 1%nat ^ 2)).
