(* Model of the Schur complement solver.
   Source: /repo/conmech/solvers/optimization/schur_complement.py (cited sc:),
   /repo/conmech/helpers/nph.py (nph:).
   Real numbers replace doubles; arrays of shape (n,), (1, n) and (n, 1) are all modelled as
   [arr]; numpy.linalg.inv and the optimiser are parameters. *)
From Coq Require Import Reals List Arith Bool.
From Verif Require Import PyModel RVec ContactModel.
From Verif Require StatementModel.
Import ListNotations.
Local Open Scope R_scope.

(* nph:15-16  unstack: vector.reshape(-1, dim, order="F"), [rows] = len / dim: entry
   (node, component) *)
Definition unstack (rows : nat) (vector : vec) : mat := fun node k => vector (k * rows + node)%nat.

(* nph:11-12  stack_column: data.T.flatten() of data with [rows] rows *)
Definition stack_column (rows : nat) (data : mat) : vec := fun r => data (r mod rows)%nat (r / rows)%nat.

(* the length of each of dim equal parts (np.split and reshape raise ValueError otherwise) *)
Definition part (n dim : nat) : result nat :=
  if (n mod dim =? 0)%nat then Ok (n / dim)%nat else Err ValueError.

(* slice(a, b) on an axis of length n: start and number of entries *)
Definition clip (a b n : nat) : nat * nat := (Nat.min a n, (Nat.min b n - Nat.min a n)%nat).

(* sc:216-218  matrix_split[k][l][i][j] *)
Definition matrix_split (q : nat) (A : mat) (k l i j : nat) : R := A (k * q + i)%nat (l * q + j)%nat.

(* sc:211-214  get_sliced: rows of all components of the nodes in [ih], columns of those in [iw] *)
Definition get_sliced (q : nat) (A : mat) (ih iw : nat * nat) : mat := fun r c =>
  matrix_split q A (r / snd ih) (c / snd iw) (fst ih + r mod snd ih) (fst iw + c mod snd iw).

(* product of matrices with inner size k *)
Definition product (k : nat) (A B : mat) : mat := fun i j => sum k (fun l => A i l * B l j).

Section Schur.
  (* np.linalg.inv of an n x n matrix; raises LinAlgError for a singular one *)
  Variable inv : nat -> mat -> result mat.

  (* sc:34-42  what the solver keeps *)
  Record schur := mkSchur {
    node_relations : sized;
    free_x_contact : sized;
    contact_x_free : sized;
    free_x_free_inverted : sized;
    node_forces : arr;
    forces_free : arr }.

  Section Sizes.
    (* statement.dimension_in, contact_nodes_count, nodes_count, driving_vector *)
    Variables (dim contact_count nodes_count : nat) (driving_vector : bool).

    Definition contact_ids (q : nat) := clip 0 contact_count q.                  (* sc:32 *)
    Definition free_ids (q : nat) := clip contact_count nodes_count q.           (* sc:33 *)

    (* sc:208-227  calculate_schur_complement_matrices for an n x n matrix *)
    Definition calculate_schur_complement_matrices (matrix : sized)
      : result (sized * sized * sized * sized) :=
      bind (part (rows matrix) dim) (fun q =>
      let c := contact_ids q in
      let f := free_ids q in
      let nc := (dim * snd c)%nat in
      let nf := (dim * snd f)%nat in
      let A := data matrix in
      bind (inv nf (get_sliced q A f f)) (fun B =>
      Ok (mkSized nc nc (fun i j =>
            get_sliced q A c c i j - product nf (get_sliced q A c f) (product nf B (get_sliced q A f c)) i j),
          mkSized nf nc (get_sliced q A f c),
          mkSized nc nf (get_sliced q A c f),
          mkSized nf nf B))).

    (* sc:193-205  calculate_schur_complement_vector *)
    Definition calculate_schur_complement_vector (vector : arr) (cf ffi : sized)
      : result (arr * arr) :=
      bind (part (fst vector) dim) (fun q =>
      let c := contact_ids q in
      let f := free_ids q in
      let split := unstack q (snd vector) in
      let vector_contact := ((dim * snd c)%nat, stack_column (snd c) (fun i k => split (fst c + i)%nat k)) in
      let vector_free := ((dim * snd f)%nat, stack_column (snd f) (fun i k => split (fst f + i)%nat k)) in
      bind (sized_mv ffi vector_free) (fun w =>
      bind (sized_mv cf w) (fun z =>
      bind (broadcast Rminus vector_contact z) (fun r => Ok (r, vector_free))))).

    (* sc:32-63  __init__ after Optimization.__init__ *)
    Definition init (lhs : sized) (rhs : arr) : result schur :=
      bind (calculate_schur_complement_matrices lhs) (fun '(s, fc, cf, ffi) =>
      bind (calculate_schur_complement_vector rhs cf ffi) (fun '(nf, ff) =>
      Ok (mkSchur s fc cf ffi nf ff))).

    (* sc:147-190  iterate after statement.update: only the forces are computed anew *)
    Definition iterate (s : schur) (rhs : arr) : result schur :=
      bind (calculate_schur_complement_vector rhs (contact_x_free s) (free_x_free_inverted s))
        (fun '(nf, ff) =>
        Ok (mkSchur (node_relations s) (free_x_contact s) (contact_x_free s) (free_x_free_inverted s) nf ff)).

    (* sc:108-115  truncate_free_nodes *)
    Definition truncate_free_nodes (initial_guess : arr) : result arr :=
      if ((dim =? 2)%nat || driving_vector)%bool then
        bind (part (fst initial_guess) 2) (fun q =>
        let c := snd (contact_ids q) in
        Ok ((2 * c)%nat, fun r => snd initial_guess (r / c * q + r mod c)%nat))
      else Ok (Nat.min contact_count (fst initial_guess), snd initial_guess).

    (* sc:117-126  complement_free_nodes *)
    Definition complement_free_nodes (s : schur) (truncated_solution : arr) : result arr :=
      bind (sized_mv (free_x_contact s) truncated_solution) (fun r =>
      bind (broadcast Rminus (forces_free s) r) (fun r' => sized_mv (free_x_free_inverted s) r')).

    (* sc:128-139  merge *)
    Definition merge (solution_contact solution_free : arr) : result arr :=
      if ((dim =? 2)%nat || driving_vector)%bool then
        bind (part (fst solution_contact) 2) (fun c =>
        bind (part (fst solution_free) 2) (fun f =>
        let q := (c + f)%nat in
        Ok ((2 * q)%nat, fun r =>
          if (r mod q <? c)%nat then snd solution_contact (r / q * c + r mod q)%nat
          else snd solution_free (r / q * f + (r mod q - c))%nat)))
      else Ok ((fst solution_contact + fst solution_free)%nat, fun r =>
        if (r <? fst solution_contact)%nat then snd solution_contact r
        else snd solution_free (r - fst solution_contact)%nat).

    (* sc:91-102  padding with as many zeros *)
    Definition extend (x : arr) : arr :=
      ((fst x * 2)%nat, fun i => if (i <? fst x)%nat then snd x i else 0).

    (* sc:76-106  _solve_impl; [optimise] is Optimization._solve_impl *)
    Definition solve_impl (optimise : arr -> arr) (s : schur) (initial_guess : arr) : result arr :=
      bind (truncate_free_nodes initial_guess) (fun t =>
      let t' := if driving_vector then head (fst t / 2) t else t in
      let solution_contact := optimise t' in
      bind (complement_free_nodes s solution_contact) (fun solution_free =>
      if driving_vector then merge (extend solution_contact) (extend solution_free)
      else merge solution_contact solution_free)).
  End Sizes.
End Schur.

(* sc:46  statement.left_hand_side.data, sc:54  statement.right_hand_side: the arrays the
   statement's references show *)
Definition shown_matrix (h : StatementModel.heap) (r : StatementModel.mref) : sized :=
  mkSized (StatementModel.m_rows r) (StatementModel.m_cols r) (StatementModel.load_m h r).
Definition shown_vector (h : StatementModel.heap) (r : StatementModel.vref) : arr :=
  (StatementModel.v_len r, StatementModel.load_v h r).
