(* Model of the combinatorial part of mesh construction.
   Sources: /repo/conmech/mesh/mesh.py, /repo/conmech/mesh/boundaries_factory.py.

   Node coordinates are an arbitrary type P: this code only copies nodes and
   hands them to user predicates, so floats are not involved.  Element tables
   are lists of rows of indices. *)
From Coq Require Import List Arith ZArith Bool.
From Verif Require Import Common.
Import ListNotations.

(* ---------------------------------------------------------------- mesh.py *)

(* mesh.py:44  [index in elements] *)
Definition in_elements (i : nat) (els : list (list nat)) : bool :=
  existsb (mem_nat i) els.

(* mesh.py:48-51  every index greater than [index] is decremented *)
Definition decrement_above (index : nat) (els : list (list nat)) : list (list nat) :=
  map (map (fun k => if index <? k then k - 1 else k)) els.

(* mesh.py:43-53  the while loop.  Each iteration either advances [index] or
   removes a node, so [length nodes - index] is an exact bound for the number of
   iterations; [fuel] is that bound (see remove_unconnected). *)
Fixpoint remove_loop {P} (fuel index : nat) (nodes : list P) (els : list (list nat))
  : list P * list (list nat) :=
  match fuel with
  | O => (nodes, els)
  | S fuel' =>
      if index <? length nodes then
        if in_elements index els then remove_loop fuel' (S index) nodes els
        else remove_loop fuel' index (remove_nth index nodes) (decrement_above index els)
      else (nodes, els)
  end.

(* mesh.py:40-53  remove_unconnected_nodes_numba *)
Definition remove_unconnected {P} (nodes : list P) (els : list (list nat)) :=
  remove_loop (length nodes) 0 nodes els.

(* mesh.py:14-22  get_edges_matrix: element_vertices_number is the width of the
   first row; the matrix is a function, [m i j += 1] is a functional update. *)
Definition bump (m : nat -> nat -> nat) (a b : nat) : nat -> nat -> nat :=
  fun i j => if (i =? a) && (j =? b) then S (m i j) else m i j.

Definition edges_matrix_element (w : nat) (m : nat -> nat -> nat) (e : list nat) :=
  fold_left (fun m i =>
    fold_left (fun m j =>
      if negb (i =? j) then bump m (nth i e 0) (nth j e 0) else m)
      (seq 0 w) m) (seq 0 w) m.

Definition get_edges_matrix (els : list (list nat)) : nat -> nat -> nat :=
  fold_left (edges_matrix_element (length (nth 0 els []))) els (fun _ _ => 0).

(* mesh.py:26-36  get_edges_list_numba: np.ndindex is row major *)
Definition get_edges_list (n : nat) (m : nat -> nat -> nat) : list (nat * nat) :=
  filter (fun '(i, j) => (i <? j) && (0 <? m i j))
         (flat_map (fun i => map (fun j => (i, j)) (seq 0 n)) (seq 0 n)).

(* -------------------------------------------------- boundaries_factory.py *)

(* boundaries_factory.py:30-42  identify_surfaces_numba: for each column j (outer
   loop) and each sorted element: the row without column j, and column j itself *)
Definition identify_surfaces (sorted_els : list (list nat)) : list (list nat * nat) :=
  flat_map (fun j => map (fun e => (remove_nth j e, nth j e 0)) sorted_els)
           (seq 0 (length (nth 0 sorted_els []))).

(* boundaries_factory.py:60-63  extract_unique_elements *)
Definition extract_unique_elements (surf : list (list nat * nat)) : list (list nat * nat) :=
  let rows := map fst surf in
  map (fun r => nth (first_index r rows) surf ([], 0))
      (filter (fun r => count_row r rows =? 1) (unique_rows rows)).

(* boundaries_factory.py:56-57  extract_unique_indices *)
Definition extract_unique_indices (surfaces : list (list nat)) : list nat :=
  unique_nat (concat surfaces).

(* boundaries_factory.py:46  elements.sort(axis=1), in place *)
Definition sort_elements (els : list (list nat)) : list (list nat) := map sort_nat els.

(* boundaries_factory.py:45-53  get_boundary_surfaces: faces with their opposing
   node; the third component of the Python result is boundary_indices below.
   The in-place sort of the argument is made explicit by the callers. *)
Definition boundary_faces (els : list (list nat)) : list (list nat * nat) :=
  extract_unique_elements (identify_surfaces (sort_elements els)).

Definition boundary_surfaces (els : list (list nat)) : list (list nat) :=
  map fst (boundary_faces els).

Definition boundary_internal_indices (els : list (list nat)) : list nat :=
  map snd (boundary_faces els).

Definition boundary_indices (els : list (list nat)) : list nat :=
  extract_unique_indices (boundary_surfaces els).

Section Nodes.
  Context {P : Type}.

  (* boundaries_factory.py:66-68  apply_predicate_to_surfaces;
     [mean] stands for np.mean(nodes[surface], axis=0) *)
  Definition apply_predicate_to_surfaces (mean : list P -> P) (dflt : P)
      (surfaces : list (list nat)) (nodes : list P) (pred : P -> bool) : list (list nat) :=
    let mask := map (fun s => pred (mean (map (fun i => nth i nodes dflt) s))) surfaces in
    select_mask surfaces mask.

  (* boundaries_factory.py:128-131  apply_predicate_to_boundary_nodes.
     [dflt] is never read for in-range element tables. *)
  Definition apply_predicate_to_boundary_nodes (dflt : P)
      (els : list (list nat)) (nodes : list P) (pred : P -> bool) : list nat :=
    let bi := boundary_indices els in
    let mask := map (fun i => pred (nth i nodes dflt)) bi in
    select_mask bi mask.

  (* boundaries_factory.py:146  encode all indices to negative values minus one *)
  Definition encode (els : list (list nat)) : list (list Z) :=
    map (map (fun k => (- Z.of_nat k - 1)%Z)) els.

  (* boundaries_factory.py:163  np.where(elements == -old_index - 1, new_index, elements) *)
  Definition decode_index (old : nat) (new : Z) (els : list (list Z)) : list (list Z) :=
    map (map (fun z => if (z =? - Z.of_nat old - 1)%Z then new else z)) els.

  (* loop state: nodes array, encoded elements, selected_index, other_index *)
  Definition reorder_state := (list P * list (list Z) * Z * Z)%type.

  (* boundaries_factory.py:153-163  loop body.  [nodes[new_index] = ...] with a
     negative index would wrap in numpy; Z.to_nat is only applied to indices that
     are shown to be non-negative and in range. *)
  Definition reorder_step (unordered : list P) (selected : list nat) (change : Z) (dflt : P)
      (st : reorder_state) (old : nat) : reorder_state :=
    let '(nodes, els, si, oi) := st in
    let x := nth old unordered dflt in
    if mem_nat old selected then
      (set_nth (Z.to_nat si) x nodes, decode_index old si els, (si + change)%Z, oi)
    else
      (set_nth (Z.to_nat oi) x nodes, decode_index old oi els, si, (oi - change)%Z).

  (* boundaries_factory.py:135-165  reorder_numba; [zero] is the row of np.zeros
     that initialises the new node array *)
  Definition reorder_numba (zero : P) (unordered : list P) (els : list (list nat))
      (selected : list nat) (to_top : bool) : list P * list (list nat) * nat :=
    let n := length unordered in
    let last := (Z.of_nat n - 1)%Z in
    let si := if to_top then 0%Z else last in
    let oi := if to_top then last else 0%Z in
    let change := if to_top then 1%Z else (-1)%Z in
    let '(nodes, zels, _, _) :=
      fold_left (reorder_step unordered selected change zero)
                (seq 0 n) (repeat zero n, encode els, si, oi) in
    (nodes, map (map Z.to_nat) zels, length selected).

  (* boundaries_factory.py:116-125  reorder: apply_predicate_to_boundary_nodes sorts
     the rows of [els] in place, so reorder_numba receives the sorted rows *)
  Definition reorder (zero : P) (nodes : list P) (els : list (list nat))
      (pred : P -> bool) (to_top : bool) : list P * list (list nat) * nat :=
    let selected := apply_predicate_to_boundary_nodes zero els nodes pred in
    reorder_numba zero nodes (sort_elements els) selected to_top.

  (* boundaries_factory.py:71-113  reorder_boundary_nodes; the result is
     (nodes, elements, boundary_nodes_count, contact_nodes_count, dirichlet_nodes_count) *)
  Definition reorder_boundary_nodes (zero : P) (nodes : list P) (els : list (list nat))
      (is_contact is_dirichlet : P -> bool)
    : list P * list (list nat) * nat * nat * nat :=
    let '(nodes, els, boundary_count) := reorder zero nodes els (fun _ => true) true in
    let '(nodes, els, _) :=
      reorder zero nodes els (fun p => negb (is_contact p) && negb (is_dirichlet p)) false in
    let '(nodes, els, contact_count) := reorder zero nodes els is_contact true in
    let '(nodes, els, dirichlet_count) := reorder zero nodes els is_dirichlet false in
    (nodes, els, boundary_count, contact_count, dirichlet_count).
End Nodes.
