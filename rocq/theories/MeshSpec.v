(* Independent specification of the mesh topology properties.  Nothing here refers
   to the model functions. *)
From Coq Require Import List Arith Sorted Permutation.
Import ListNotations.

(* every element index refers to an existing node *)
Definition in_range (n : nat) (els : list (list nat)) : Prop :=
  Forall (Forall (fun k => k < n)) els.

(* node i is a corner of some element *)
Definition referenced (els : list (list nat)) (i : nat) : Prop :=
  exists e, In e els /\ In i e.

(* [picks old l l']: l' lists the entries of l at the positions old *)
Definition picks {P} (old : list nat) (l l' : list P) : Prop :=
  Forall2 (fun i p => nth_error l i = Some p) old l'.

(* els' is els rewritten so that new index n stands for old index [old n] *)
Definition relabelled (old : list nat) (els els' : list (list nat)) : Prop :=
  Forall2 (Forall2 (fun o n => nth_error old n = Some o)) els els'.

(* els' is els rewritten, up to the order of the corners inside an element *)
Definition relabelled_unordered (old : list nat) (els els' : list (list nat)) : Prop :=
  Forall2 (fun e e' => exists e0, Permutation e e0 /\
                       Forall2 (fun o n => nth_error old n = Some o) e0 e') els els'.

(* A renumbering of all nodes: [old] lists, for each new position, the old index. *)
Definition renumbering {P} (old : list nat) (nodes nodes' : list P)
    (els els' : list (list nat)) : Prop :=
  Permutation old (seq 0 (length nodes)) /\
  picks old nodes nodes' /\
  relabelled old els els'.

(* same with corners of an element possibly permuted *)
Definition renumbering_unordered {P} (old : list nat) (nodes nodes' : list P)
    (els els' : list (list nat)) : Prop :=
  Permutation old (seq 0 (length nodes)) /\
  picks old nodes nodes' /\
  relabelled_unordered old els els'.

(* well formed element table of width w *)
Definition simplices (w : nat) (els : list (list nat)) : Prop :=
  Forall (fun e => length e = w /\ NoDup e) els.

(* element number k is the only one that has all nodes of f *)
Definition only_element (els : list (list nat)) (f : list nat) (k : nat) (e : list nat) : Prop :=
  nth_error els k = Some e /\ incl f e /\
  forall k' e', nth_error els k' = Some e' -> incl f e' -> k' = k.

(* f is a face (w - 1 distinct nodes, listed increasingly) of exactly one element *)
Definition boundary_face (w : nat) (els : list (list nat)) (f : list nat) : Prop :=
  StronglySorted lt f /\ S (length f) = w /\ exists k e, only_element els f k e.

(* o is the vertex opposite to f in the only element that owns f *)
Definition opposing (els : list (list nat)) (f : list nat) (o : nat) : Prop :=
  exists k e, only_element els f k e /\ In o e /\ ~ In o f.

(* node on the boundary *)
Definition boundary_node (w : nat) (els : list (list nat)) (i : nat) : Prop :=
  exists f, boundary_face w els f /\ In i f.

(* two nodes are joined by an element edge *)
Definition share_element (els : list (list nat)) (i j : nat) : Prop :=
  i <> j /\ exists e, In e els /\ In i e /\ In j e.

(* strict lexicographic order on pairs *)
Definition lex_lt2 (p q : nat * nat) : Prop :=
  fst p < fst q \/ (fst p = fst q /\ snd p < snd q).

(* strict lexicographic order on rows *)
Inductive lex_lt : list nat -> list nat -> Prop :=
| lex_nil : forall y b, lex_lt [] (y :: b)
| lex_head : forall x y a b, x < y -> lex_lt (x :: a) (y :: b)
| lex_tail : forall x a b, lex_lt a b -> lex_lt (x :: a) (x :: b).

(* the user's predicate holds at node i *)
Definition holds_at {P} (nodes : list P) (pred : P -> bool) (i : nat) : Prop :=
  exists p, nth_error nodes i = Some p /\ pred p = true.

(* exactly c elements contain both i and j *)
Definition shared_count (els : list (list nat)) (i j c : nat) : Prop :=
  exists ks, NoDup ks /\ length ks = c /\
    forall k, In k ks <-> exists e, nth_error els k = Some e /\ In i e /\ In j e.

(* The documented node order.  [C ++ N ++ I ++ D] lists, for each position of the final
   mesh (nodes, els), the index of that node in the raw input (nodes0, els0): first
   contact nodes that are not Dirichlet, then boundary nodes that are neither, then
   interior nodes, then Dirichlet nodes.  Elements keep their corners. *)
Record node_order {P} (w : nat) (nodes0 : list P) (els0 : list (list nat))
    (nodes : list P) (els : list (list nat))
    (contact dirichlet : P -> bool) (C N I D : list nat) : Prop := mkOrder {
  no_nodup : NoDup (C ++ N ++ I ++ D);
  no_all : forall i, In i (C ++ N ++ I ++ D) <-> referenced els0 i;
  no_picks : picks (C ++ N ++ I ++ D) nodes0 nodes;
  no_els : relabelled_unordered (C ++ N ++ I ++ D) els0 els;
  no_C : forall i, In i C <->
    boundary_node w els0 i /\ holds_at nodes0 contact i /\ ~ holds_at nodes0 dirichlet i;
  no_N : forall i, In i N <->
    boundary_node w els0 i /\ ~ holds_at nodes0 contact i /\ ~ holds_at nodes0 dirichlet i;
  no_I : forall i, In i I <-> referenced els0 i /\ ~ boundary_node w els0 i;
  no_D : forall i, In i D <-> boundary_node w els0 i /\ holds_at nodes0 dirichlet i;
  no_sorted : StronglySorted lt C /\ StronglySorted lt N /\ StronglySorted lt I
}.

(* the user's predicate holds at the average of the nodes of face f *)
Definition face_holds {P} (mean : list P -> P) (nodes : list P) (pred : P -> bool)
    (f : list nat) : Prop :=
  exists ps, picks f nodes ps /\ pred (mean ps) = true.
