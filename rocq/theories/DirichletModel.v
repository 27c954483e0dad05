(* Model of the Dirichlet treatment: elimination from the linear system and the
   overwriting of the solver's answer.
   Sources: /repo/conmech/dynamics/statement.py:35-66, /repo/conmech/solvers/solver.py:83-99,
   /repo/conmech/mesh/boundaries.py:127-150.
   Simplification: real numbers instead of doubles. *)
From Coq Require Import Reals List Arith ZArith String Bool Decimal DecimalString.
From Verif Require Import Common PyModel MeshBuildModel DofModel RVec.
Import ListNotations.
Local Open Scope string_scope.
Local Open Scope list_scope.
Local Open Scope R_scope.

(* statement.py:25-26  left_hand_side / right_hand_side of a Statement *)
Record system := mkSystem { lhs : mat; rhs : vec }.

(* i is in the slice a:b *)
Definition inside (ab : nat * nat) (i : nat) : bool :=
  (fst ab <=? i)%nat && (i <? snd ab)%nat.

(* statement.py:47  right_hand_side[:] -= left_hand_side[:, i] @ c[j] *)
Definition subtract_columns (s : dof_slice) (c : vec) (A : mat) (b : vec) : vec :=
  let '((a, e), (c0, _)) := s in
  fun k => b k - sum (e - a) (fun t => A k (a + t)%nat * c (c0 + t)%nat).

(* statement.py:48  left_hand_side.data[:, i] = 0 *)
Definition zero_columns (ab : nat * nat) (A : mat) : mat :=
  fun k l => if inside ab l then 0 else A k l.

(* statement.py:49  left_hand_side.data[i, :] = 0 *)
Definition zero_rows (ab : nat * nat) (A : mat) : mat :=
  fun k l => if inside ab k then 0 else A k l.

(* statement.py:51  left_hand_side.data[i][:, i] = np.eye(j.stop - j.start); for a
   slice data[i] is a view, so the assignment reaches the matrix *)
Definition set_identity (ab : nat * nat) (A : mat) : mat :=
  fun k l => if inside ab k && inside ab l then delta (k - fst ab) (l - fst ab) else A k l.

(* statement.py:52 and solver.py:97  v[i] = c[j] *)
Definition overwrite (s : dof_slice) (c : vec) (v : vec) : vec :=
  let '((a, e), (c0, _)) := s in
  fun k => if inside (a, e) k then c (c0 + (k - a))%nat else v k.

(* statement.py:47-52  body of the inner loop *)
Definition eliminate_slice (c : vec) (sys : system) (s : dof_slice) : system :=
  {| lhs := set_identity (fst s) (zero_rows (fst s) (zero_columns (fst s) (lhs sys)));
     rhs := overwrite s c (subtract_columns s c (lhs sys) (rhs sys)) |}.

(* one Dirichlet condition: its dof slices and its node_condition array *)
Definition condition := (list dof_slice * vec)%type.

(* statement.py:44-52  inner loop for one condition *)
Definition eliminate (sys : system) (k : condition) : system :=
  fold_left (eliminate_slice (snd k)) (fst k) sys.

(* statement.py:40-52  apply_dirichlet_condition, after looking up the conditions *)
Definition apply_dirichlet (conds : list condition) (sys : system) : system :=
  fold_left eliminate conds sys.

(* solver.py:91-97  the loops after _solve_impl *)
Definition overwrite_all (conds : list condition) (v : vec) : vec :=
  fold_left (fun v k => fold_left (fun v s => overwrite s (snd k) v) (fst k) v) conds v.

(* solver.py:83-99  Solver.solve; [impl] stands for _solve_impl with its arguments *)
Definition solve {A} (impl : A -> vec) (guess : A) (conds : list condition) : vec :=
  overwrite_all conds (impl guess).

(* statement.py:61  self.dirichlet_cond_name + "_" + str(i) *)
Definition numbered (name : string) (i : nat) : string :=
  (name ++ "_" ++ NilZero.string_of_uint (Nat.to_uint i))%string.

(* statement.py:59-66  the while True loop.  [fuel] bounds the number of iterations; the
   result does not depend on it as soon as it exceeds the number of boundaries
   (DirichletProofs.find_conditions_fuel) *)
Fixpoint find_numbered {B} (fuel : nat) (bnds : dict B) (name : string) (i : nat) : list string :=
  match fuel with
  | O => []
  | S fuel' =>
      if dict_in bnds (numbered name i)
      then numbered name i :: find_numbered fuel' bnds name (S i)
      else []
  end.

(* statement.py:54-66  find_dirichlet_conditions *)
Definition find_conditions {B} (bnds : dict B) (name : string) : list string :=
  if dict_in bnds name then [name]
  else find_numbered (S (List.length bnds)) bnds name 0.

(* boundaries.py:127-150  get_all_boundary_indices for a looked-up boundary; slices are
   built with non-negative bounds (boundaries_factory.py:211-222) *)
Definition boundary_slices {V} (b : Boundary V) (total dim : nat) : result (list dof_slice) :=
  match b_indices b with
  | ISlice start stop => Ok (all_indices_slice (Z.to_nat start) (Z.to_nat stop) total dim)
  | IArray idx => all_indices_array idx total dim
  end.

(* statement.py:42-46 and solver.py:92-96  the look-ups of one condition name; c[j] of a
   boundary without node_condition (None) raises TypeError *)
Definition look_up (bnds : dict (Boundary vec)) (total dim : nat) (name : string)
  : result condition :=
  bind (dict_item bnds name) (fun b =>
  bind (boundary_slices b total dim) (fun sl =>
  match b_condition b with
  | Some c => Ok (sl, c)
  | None => Err TypeError
  end)).

Fixpoint look_up_all (bnds : dict (Boundary vec)) (total dim : nat) (names : list string)
  : result (list condition) :=
  match names with
  | [] => Ok []
  | n :: t => bind (look_up bnds total dim n) (fun k =>
              bind (look_up_all bnds total dim t) (fun r => Ok (k :: r)))
  end.

(* the conditions a statement applies on a mesh; [name] is dirichlet_cond_name
   (statement.py:27, 232), [dim] is dimension_in *)
Definition mesh_conditions {P} (m : @MeshData P vec) (dim : nat) (name : string)
  : result (list condition) :=
  look_up_all (m_boundaries m) (List.length (m_nodes m)) dim
    (find_conditions (m_boundaries m) name).
