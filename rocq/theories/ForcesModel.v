(* Model of nodal loads.
   Sources: /repo/conmech/scene/body_forces.py (cited bf:), /repo/conmech/helpers/nph.py (nph:).
   Real numbers replace doubles. *)
From Coq Require Import Reals List Arith Bool.
From Verif Require Import Common RVec PyModel.
Import ListNotations.

(* nph:11-12  stack_column: data.T.flatten(); [cols] is data.shape[1] (a row list does not
   determine it when there are no rows).  The trailing reshape(-1, 1) only adds an axis. *)
Definition stack_column {A} (zero : A) (cols : nat) (data : list (list A)) : list A :=
  concat (map (fun k => map (fun row => nth k row zero) data) (seq 0 cols)).

(* nph:15-16  unstack: reshape(-1, dim, order="F") *)
Definition unstack {A} (zero : A) (vector : list A) (dim : nat) : result (list (list A)) :=
  if (dim =? 0)%nat then Err ValueError
  else if negb (List.length vector mod dim =? 0)%nat then Err ValueError
  else let rows := (List.length vector / dim)%nat in
       Ok (map (fun n => map (fun k => nth (k * rows + n) vector zero) (seq 0 dim)) (seq 0 rows)).

(* --------------------------------------------------------- FieldSource *)

Section FieldSource.
  Context {P T V : Type}.
  (* time == timestamp *)
  Variable teq : T -> T -> bool.

  (* bf:44-48  FieldSource; the user's callable may raise *)
  Record field_source := mkSource {
    source : option (P -> T -> result V);
    cache : option (list V);
    timestamp : option T }.

  (* [self.source(nodes[i], time) for i in range(len(nodes))] *)
  Fixpoint evaluate (f : option (P -> T -> result V)) (nodes : list P) (time : T) : result (list V) :=
    match nodes with
    | [] => Ok []
    | p :: rest =>
        match f with
        | None => Err TypeError
        | Some g => bind (g p time) (fun v => bind (evaluate f rest time) (fun l => Ok (v :: l)))
        end
    end.

  (* bf:50-55  node_source: new attributes and the returned cache (None if it was cleared) *)
  Definition node_source (fs : field_source) (nodes : list P) (time : T)
    : field_source * result (option (list V)) :=
    let hit := match timestamp fs with Some t => teq time t | None => false end in
    if hit then (fs, Ok (cache fs))
    else match evaluate (source fs) nodes time with
         | Ok l => (mkSource (source fs) (Some l) (Some time), Ok (Some l))
         | Err e => (fs, Err e)
         end.

  (* bf:64-66  BodyForces.clear, for one of the two sources *)
  Definition clear_source (fs : field_source) : field_source :=
    mkSource (source fs) None (timestamp fs).

  (* fs.source = f, as in problem_solver.py:69-73 *)
  Definition set_source (fs : field_source) (f : option (P -> T -> result V)) : field_source :=
    mkSource f (cache fs) (timestamp fs).

  (* a new FieldSource() with its source set *)
  Definition fresh_source (f : option (P -> T -> result V)) : field_source := mkSource f None None.

  (* the answers to a sequence of requests *)
  Fixpoint requests (fs : field_source) (nodes : list P) (times : list T)
    : list (result (option (list V))) :=
    match times with
    | [] => []
    | t :: rest => let '(fs', r) := node_source fs nodes t in r :: requests fs' nodes rest
    end.
End FieldSource.
Arguments field_source : clear implicits.

(* ------------------------------------------------------- surface weights *)

Local Open Scope R_scope.

(* nph:25-28  euclidean_norm_numba of one row of length d *)
Definition euclidean_norm (d : nat) (v : vec) : R := sqrt (sum d (fun c => v c ^ 2)).

(* np.cross *)
Definition cross (a b : vec) : vec :=
  fun c => nth c [a 1%nat * b 2%nat - a 2%nat * b 1%nat;
                  a 2%nat * b 0%nat - a 0%nat * b 2%nat;
                  a 0%nat * b 1%nat - a 1%nat * b 0%nat] 0.

(* bf:23-35  element_volume_part_numba; face_nodes is nodes_count x dim *)
Definition element_volume_part (dim nodes_count : nat) (face_nodes : nat -> vec) : result R :=
  bind (if (dim =? 2)%nat then
          Ok (euclidean_norm 2 (fun c => face_nodes 0%nat c - face_nodes 1%nat c))
        else if (dim =? 3)%nat then
          Ok (0.5 * euclidean_norm 3 (cross (fun c => face_nodes 1%nat c - face_nodes 0%nat c)
                                            (fun c => face_nodes 2%nat c - face_nodes 0%nat c)))
        else Err ArgumentError)
       (fun volume => Ok (volume / INR nodes_count)).

(* bf:12-20  get_surface_per_boundary_node_numba; [surface[face] += x] adds x once to every
   node of the face *)
Fixpoint surface_per_node (dim : nat) (moved_nodes : nat -> vec) (faces : list (list nat))
    (acc : vec) : result vec :=
  match faces with
  | [] => Ok acc
  | face :: rest =>
      bind (element_volume_part dim (List.length face) (fun k => moved_nodes (nth k face 0%nat)))
           (fun part => surface_per_node dim moved_nodes rest
                          (fun n => if mem_nat n face then acc n + part else acc n))
  end.

(* ------------------------------------------------------------ integrate *)

(* bf:58-62  BodyForces; a force is a vector *)
Record body_forces (P T : Type) := mkForces {
  inner : field_source P T vec;
  outer : field_source P T vec }.
Arguments mkForces {P T}.
Arguments inner {P T}.
Arguments outer {P T}.

(* np.array(cache): an N x d array; None stays None *)
Definition array_of (l : list vec) : nat -> vec := fun n => nth n l (fun _ => 0).

Section Integrate.
  Context {P T : Type}.
  Variable teq : T -> T -> bool.
  (* mesh.nodes, mesh.dimension, mesh.neumann_boundary and dynamics.volume_at_nodes; [table]
     is the coordinate table of the nodes *)
  Variables (nodes : list P) (table : nat -> vec) (dimension : nat) (neumann : list (list nat))
            (volume_at_nodes : mat).
  Let N := List.length nodes.

  (* bf:68-71  get_integrated_inner_forces; None @ raises TypeError *)
  Definition integrated_inner (f : body_forces P T) (time : T)
    : body_forces P T * result (nat -> vec) :=
    let '(i, r) := node_source teq (inner f) nodes time in
    (mkForces i (outer f),
     bind r (fun c => match c with
                      | None => Err TypeError
                      | Some l => Ok (fun n k => sum N (fun b => volume_at_nodes n b * array_of l b k))
                      end)).

  (* bf:73-80  get_integrated_outer_forces *)
  Definition integrated_outer (f : body_forces P T) (time : T)
    : body_forces P T * result (nat -> vec) :=
    match surface_per_node dimension table neumann (fun _ => 0) with
    | Err e => (f, Err e)
    | Ok surfaces =>
        let '(o, r) := node_source teq (outer f) nodes time in
        (mkForces (inner f) o,
         bind r (fun c => match c with
                          | None => Err TypeError
                          | Some l => Ok (fun n k => surfaces n * array_of l n k)
                          end))
    end.

  (* bf:82-89  integrate: the stacked vector of length d*N *)
  Definition integrate (f : body_forces P T) (time : T) : body_forces P T * result vec :=
    let '(f1, ri) := integrated_inner f time in
    match ri with
    | Err e => (f1, Err e)
    | Ok fi =>
        let '(f2, ro) := integrated_outer f1 time in
        (f2, bind ro (fun fo => Ok (fun a => fi (a mod N)%nat (a / N)%nat + fo (a mod N)%nat (a / N)%nat)))
    end.
End Integrate.
