(* Model of a step solver together with its statement: the parts of the library that the drivers
   of TimeModel take as parameters.
   Sources: /repo/conmech/solvers/solver.py (cited so:), /repo/conmech/solvers/direct.py (di:),
   /repo/conmech/solvers/optimization/global_optimization.py (gl:),
   /repo/conmech/solvers/optimization/schur_complement.py (sc:).
   Simplification: at each update the five arrays of the solver are given to the statement as new
   arrays with the same entries; the statement only reads them. *)
From Coq Require Import Reals List Arith Bool String.
From Verif Require Import PyModel RVec DirichletModel StatementModel RegistryModel TimeModel.
Import ListNotations.
Local Open Scope R_scope.

Section Method.
  Context {F : Type}.
  Variable integrate : F -> R -> F * result (nat * vec).
  Variable b : body.
  Variable k : kind.

  (* the statement as it is after an update: so:39, statement.left_hand_side, .right_hand_side *)
  Record method := mkMethod { m_world : StatementModel.world F; m_lhs : smat; m_rhs : vref }.

  (* so:43-47  the arrays of the solver *)
  Definition hand_over (x : vectors) (dt t : R) : @M F given :=
    let n := (b_dimension b * b_count b)%nat in
    mbind (new_v n (vec_b x)) (fun rb =>
    mbind (new_v n (vec_u x)) (fun ru =>
    mbind (new_v n (vec_v x)) (fun rv =>
    mbind (new_v (b_count b) (vec_t x)) (fun rt =>
    mbind (new_v (b_count b) (vec_p x)) (fun rp =>
    ret (mkGiven rb ru rv rt rp dt t)))))).

  (* so:53-63  Solver.__init__, with current_time = 0 (so:42) *)
  Definition setup (w : StatementModel.world F) (x : vectors) (dt : R) : result method :=
    match mbind (hand_over x dt 0) (fun g => update integrate b k (initial_variables g)) w with
    | (w', Ok (l, r)) => Ok (mkMethod w' l r)
    | (_, Err e) => Err e
    end.

  (* iterate() of the class c: gl:32-67, sc:149-190, so:70-71; what the Schur classes do next with
     the new right-hand side is SchurModel.iterate *)
  Definition iterate (c : solver_class) (i : method) (x : vectors) (dt t : R) : result method :=
    match mbind (hand_over x dt t) (fun g =>
          match iterate_variables c g with
          | None => ret None
          | Some var => mbind (update integrate b k var) (fun lr => ret (Some lr))
          end) (m_world i) with
    | (_, Ok None) => Ok i
    | (w', Ok (Some (l, r))) => Ok (mkMethod w' l r)
    | (_, Err e) => Err e
    end.

  (* di:84-92  Direct._solve_impl without a contact law: np.linalg.solve is [linsolve], on a matrix
     of the given size; shorter answers are filled up with zeros *)
  Variable linsolve : nat -> mat -> vec -> result vec.
  Definition direct_solve_impl (i : method) (guess_length : nat) : result (nat * vec) :=
    let n := v_len (m_rhs i) in
    bind (linsolve n (load_m (hp (m_world i)) (sm_data (m_lhs i))) (load_v (hp (m_world i)) (m_rhs i))) (fun x =>
    if (n <? guess_length)%nat then Ok (guess_length, fun j => if (j <? n)%nat then x j else 0)
    else Ok (n, x)).

  (* so:84-99  Solver.solve for it; the guess has the length of the displacement *)
  Definition direct_answer (i : method) (guess variable_old displacement : vec) (dt : R) : result (nat * vec) :=
    bind (direct_solve_impl i (b_dimension b * b_count b)) (fun '(len, x) =>
    bind (b_conditions b (dimension_in k (b_dimension b)) (dirichlet_cond_name k)) (fun conds =>
    Ok (len, overwrite_all conds x))).
End Method.
Arguments method : clear implicits.
