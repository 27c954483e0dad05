(* Model of the two step solvers of a coupled problem together with their statements: the parts of the
   library that the coupled drivers of TimeModel take as parameters.
   Sources: /repo/conmech/simulations/problem_solver.py (cited ps:), /repo/conmech/solvers/direct.py (di:),
   /repo/conmech/solvers/solver.py (so:).
   Simplifications: the arrays given to a statement are new ones with the same entries, which it only
   reads; the two statements of one body share its operators and loads in the code, here each solver
   has a copy of them (operators are never written to, and loads answer alike however often they are
   asked: ForcesProofs). *)
From Coq Require Import Reals List Arith Bool String.
From Verif Require Import PyModel RVec DirichletModel StatementModel RegistryModel StateModel TimeModel MethodModel ProblemModel.
Import ListNotations.
Local Open Scope R_scope.

Section Renewal.
  Context {F : Type}.
  Variable integrate : F -> R -> F * result (nat * vec).
  Variable b : body.
  Variable k : kind.

  (* the statement told of new variables *)
  Definition told (var : @M F variables) (i : method F) : result (method F) :=
    match mbind var (update integrate b k) (m_world i) with
    | (w, Ok (l, r)) => Ok (mkMethod w l r)
    | (_, Err e) => Err e
    end.

  (* ps:206-215  the first statement: displacement and velocity before the step; one array is both
     temperature and electric potential *)
  Definition renew (i : method F) (u v y : vec) (dt t : R) : result (method F) :=
    let n := (b_dimension b * b_count b)%nat in
    told (mbind (new_v n u) (fun ru =>
          mbind (new_v n v) (fun rv =>
          mbind (new_v (b_count b) y) (fun ry =>
          ret (mkVariables None (Some ru) (Some rv) (Some ry) (Some ry) (Some dt) (Some t)))))) i.

  (* ps:225-233  the second statement: new displacement and velocity, temperature and potential before
     the step; no time *)
  Definition second_renew (j : method F) (u v th p : vec) (dt : R) : result (method F) :=
    let n := (b_dimension b * b_count b)%nat in
    told (mbind (new_v n u) (fun ru =>
          mbind (new_v n v) (fun rv =>
          mbind (new_v (b_count b) th) (fun rt =>
          mbind (new_v (b_count b) p) (fun rp =>
          ret (mkVariables None (Some ru) (Some rv) (Some rt) (Some rp) (Some dt) None)))))) j.

  (* so:84-99, di:84-92  the answer of the class Direct to a guess with one number for each node *)
  Definition second_direct_answer (linsolve : nat -> mat -> vec -> result vec) (j : method F)
      (guess variable_old displacement : vec) (dt : R) : result (nat * vec) :=
    bind (direct_solve_impl linsolve j (b_count b)) (fun '(len, x) =>
    bind (b_conditions b (dimension_in k (b_dimension b)) (dirichlet_cond_name k)) (fun conds =>
    Ok (len, overwrite_all conds x))).
End Renewal.

Section Solvers.
  Context {V : Type}.
  Notation stepper := (stepper (method forces)).

  (* ps:89-148  both step solvers of a problem, for statements of the kinds k and k2 *)
  Definition coupled_solvers (pb : problem) (bt : built) (k k2 : kind) (m0 : store V)
    : result (store V * stepper * stepper) :=
    bind (step_solver pb bt k m0) (fun d =>
    bind (step_solver pb bt k2 (d_mem d)) (fun d2 =>
    Ok (d_mem d2, d_sv d, d_sv d2))).
End Solvers.

(* ps:506-572, 599-668  a run of a coupled problem: solve() with the two solvers of the class cls, whose
   answers are the arguments *)
Definition coupled_run {V W : Type} (bt : built) (thermal : bool) (k k2 : kind) (cls : solver_class)
  (answer second_answer : method forces -> vec -> vec -> vec -> R -> result (nat * vec))
  (n : nat) (u0 v0 e0 : vec) (out : list BinNums.Z) (m : store V) (s1 s2 : stepper (method forces))
  : option (@pair V W (method forces) (method forces) * result (list (state W))) :=
  let integrate := integrate_forces (bt_mesh bt) (bt_basic bt) in
  let b := bt_body bt in
  coupled_solve (b_dimension b) (b_count b) (start_positions bt) thermal
    (MethodModel.iterate integrate b k cls) (MethodModel.iterate integrate b k2 cls)
    (renew integrate b k) (second_renew integrate b k2) answer second_answer n u0 v0 e0 out m s1 s2.
