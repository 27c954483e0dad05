(* Model of the assembly of a Mesh object from the combinatorial passes.
   Sources: /repo/conmech/mesh/mesh.py, boundaries_factory.py, boundaries.py,
   boundary.py, boundaries_description.py. *)
From Coq Require Import List Arith ZArith String Bool.
From Verif Require Import Common PyModel MeshModel.
Import ListNotations.
Open Scope string_scope.

(* boundary.py:51-52  node_indices: Union[slice, np.ndarray] *)
Inductive node_index :=
| ISlice (start stop : Z)
| IArray (idx : list nat).

(* boundaries_factory.py:256-259  index_size *)
Definition index_size (i : node_index) : Z :=
  match i with
  | ISlice a b => (b - a)%Z
  | IArray l => Z.of_nat (List.length l)
  end.

(* a[index] *)
Definition index_select {A} (dflt : A) (i : node_index) (l : list A) : list A :=
  match i with
  | ISlice a b => py_slice a b l
  | IArray idx => map (fun k => nth k l dflt) idx
  end.

(* boundary.py:48-53  Boundary; [V] is the type of a node condition array *)
Record Boundary (V : Type) := mkBoundary {
  b_surfaces : list (list nat);
  b_indices : node_index;
  b_count : Z;
  b_condition : option V }.
Arguments mkBoundary {V}.
Arguments b_surfaces {V}.
Arguments b_indices {V}.
Arguments b_count {V}.
Arguments b_condition {V}.

Section Build.
  Context {P V : Type}.

  (* boundaries_description.py:6-26  BoundariesDescription *)
  Record Description := mkDescription {
    indicators : dict (P -> bool);
    conditions : dict (list P -> V) }.

  (* boundaries_description.py:8-14  the defaults; [zeros] is the default condition *)
  Definition description_defaults (zeros : list P -> V) : Description :=
    {| indicators := [("contact", fun _ => false); ("dirichlet", fun _ => false)];
       conditions := [("dirichlet", zeros)] |}.

  (* boundaries_description.py:15-22  one keyword argument *)
  Definition description_add (d : Description)
      (kw : string * ((P -> bool) * option (list P -> V))) : Description :=
    let '(key, (ind, cond)) := kw in
    {| indicators := dict_set (indicators d) key ind;
       conditions := match cond with
                     | Some c => dict_set (conditions d) key c
                     | None => conditions d
                     end |}.

  (* boundaries_description.py:7-22  __init__ *)
  Definition make_description (zeros : list P -> V)
      (kwargs : list (string * ((P -> bool) * option (list P -> V)))) : Description :=
    fold_left description_add kwargs (description_defaults zeros).

  (* mesh.py:87-109 / boundaries.py:69-82 : the data of a Mesh.  The normals
     (boundaries.py:78) are modelled separately in NormalsModel. *)
  Record MeshData := mkMesh {
    m_nodes : list P;
    m_elements : list (list nat);
    m_boundaries : dict (Boundary V);
    m_internal : list nat;
    m_edges : list (nat * nat) }.

  (* boundaries_factory.py:229-242  other_boundaries; a name whose predicate holds
     on no face creates no boundary; a missing condition raises KeyError *)
  Fixpoint other_boundaries (mean : list P -> P) (zero : P) (surfaces : list (list nat))
      (nodes : list P) (conds : dict (list P -> V)) (inds : dict (P -> bool))
    : result (dict (Boundary V)) :=
    match inds with
    | [] => Ok []
    | (name, indicator) :: rest =>
        if (String.eqb name "contact" || String.eqb name "dirichlet")%bool
        then other_boundaries mean zero surfaces nodes conds rest
        else
          let faces := apply_predicate_to_surfaces mean zero surfaces nodes indicator in
          let idx := extract_unique_indices faces in
          match idx with
          | [] => other_boundaries mean zero surfaces nodes conds rest
          | _ :: _ =>
              bind (dict_item conds name) (fun cond =>
              bind (other_boundaries mean zero surfaces nodes conds rest) (fun more =>
              Ok ((name, mkBoundary faces (IArray idx) (index_size (IArray idx))
                           (Some (cond (index_select zero (IArray idx) nodes)))) :: more)))
          end
    end.

  (* boundaries_factory.py:244-251: a name that collides with a parameter of
     Boundaries raises TypeError (multiple values for keyword argument) *)
  Definition reserved (name : string) : bool :=
    String.eqb name "neumann" || String.eqb name "nodes"
    || String.eqb name "boundary_internal_indices" || String.eqb name "self".

  (* boundaries_factory.py:176-253  identify_boundaries_and_reorder_nodes *)
  Definition identify_boundaries (mean : list P -> P) (zero : P)
      (unordered : list P) (unordered_els : list (list nat)) (d : Description)
    : result (list P * list (list nat) * dict (Boundary V) * list nat) :=
    bind (dict_item (indicators d) "contact") (fun is_contact =>
    bind (dict_item (indicators d) "dirichlet") (fun is_dirichlet =>
    let '(nodes, els, bc, cc, dc) :=
      reorder_boundary_nodes zero unordered unordered_els is_contact is_dirichlet in
    let bcount := Z.of_nat bc in
    let ccount := Z.of_nat cc in
    let dcount := Z.of_nat dc in
    let ncount := (bcount - ccount - dcount)%Z in
    let surfaces := boundary_surfaces els in
    let internal := boundary_internal_indices els in
    let els := sort_elements els in
    let contact_faces := apply_predicate_to_surfaces mean zero surfaces nodes is_contact in
    let dirichlet_faces := apply_predicate_to_surfaces mean zero surfaces nodes is_dirichlet in
    let neumann_faces := apply_predicate_to_surfaces mean zero surfaces nodes
                           (fun p => negb (is_contact p) && negb (is_dirichlet p)) in
    let total := Z.of_nat (List.length nodes) in
    let dir_idx := ISlice (total - dcount) total in
    bind (dict_item (conditions d) "dirichlet") (fun dcond =>
    let contact := mkBoundary contact_faces (ISlice 0 ccount) ccount None in
    let neumann := mkBoundary neumann_faces (ISlice ccount (ccount + ncount)) ncount None in
    let dirichlet := mkBoundary dirichlet_faces dir_idx dcount
                       (Some (dcond (index_select zero dir_idx nodes))) in
    bind (other_boundaries mean zero surfaces nodes (conditions d) (indicators d)) (fun others =>
    if existsb (fun kv => reserved (fst kv)) others then Err TypeError
    else Ok (nodes, els,
             ("contact", contact) :: ("neumann", neumann) :: ("dirichlet", dirichlet) :: others,
             internal))))).

  (* mesh.py:96-109  Mesh.__init__ after build_mesh *)
  Definition build (mean : list P -> P) (zero : P) (input_nodes : list P)
      (input_els : list (list nat)) (d : Description) : result MeshData :=
    let '(un, ue) := remove_unconnected input_nodes input_els in
    bind (identify_boundaries mean zero un ue d) (fun '(nodes, els, bnds, internal) =>
    Ok (mkMesh nodes els bnds internal
          (get_edges_list (List.length nodes) (get_edges_matrix els)))).

  Section Properties.
    Variable m : MeshData.
    (* boundaries.py:115-125 counts; the three keys are always present (boundaries_factory
       244-251), 0 stands for the KeyError that cannot happen *)
    Definition count_of (k : string) : Z :=
      match dict_get (m_boundaries m) k with Some b => b_count b | None => 0%Z end.
    Definition faces_of (k : string) : list (list nat) :=
      match dict_get (m_boundaries m) k with Some b => b_surfaces b | None => [] end.
    (* mesh.py:155-165 *)
    Definition contact_nodes_count := count_of "contact".
    Definition neumann_nodes_count := count_of "neumann".
    Definition dirichlet_nodes_count := count_of "dirichlet".
    (* mesh.py:208-209 *)
    Definition nodes_count : Z := Z.of_nat (List.length (m_nodes m)).
    (* boundaries.py:91-93 *)
    Definition boundary_nodes_count : Z :=
      (contact_nodes_count + neumann_nodes_count + dirichlet_nodes_count)%Z.
    (* mesh.py:168-169 *)
    Definition independent_nodes_count : Z := (nodes_count - dirichlet_nodes_count)%Z.
    (* mesh.py:172-174 *)
    Definition free_nodes_count : Z :=
      (independent_nodes_count - contact_nodes_count - dirichlet_nodes_count)%Z.
    (* mesh.py:216-217 *)
    Definition inner_nodes_count : Z := (nodes_count - boundary_nodes_count)%Z.
    (* slice(x) is slice(None, x): start 0 *)
    (* boundaries.py:95-97 and mesh.py:177-178 *)
    Definition boundary_index : node_index := ISlice 0 boundary_nodes_count.
    (* mesh.py:181-182 *)
    Definition initial_boundary_nodes : list P :=
      py_slice 0 boundary_nodes_count (m_nodes m).
    (* mesh.py:185-186, 189-193, 196-197, 200-201, 204-205 *)
    Definition contact_indices : node_index := ISlice 0 contact_nodes_count.
    Definition neumann_indices : node_index :=
      ISlice contact_nodes_count (contact_nodes_count + neumann_nodes_count).
    Definition dirichlet_indices : node_index :=
      ISlice (nodes_count - dirichlet_nodes_count) nodes_count.
    Definition independent_indices : node_index := ISlice 0 independent_nodes_count.
    Definition free_indices : node_index := ISlice contact_nodes_count independent_nodes_count.
    (* boundaries.py:84-89  boundary_surfaces: np.unique(..., axis=1) sorts the COLUMNS of
       the stacked face table and merges equal ones; NormalsModel shows it is the
       identity for the strictly increasing face rows built here, so the stack is
       modelled directly *)
    Definition stacked_surfaces : list (list nat) :=
      faces_of "contact" ++ faces_of "neumann" ++ faces_of "dirichlet".
  End Properties.
End Build.
