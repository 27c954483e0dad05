(* Specification of runs with step solvers that are accurate to a tolerance only (C110): the forces
   at the nodes balance up to the tolerance. *)
From Coq Require Import Reals List Arith.
From Verif Require Import PyModel RVec MeshModel MeshBuildModel NormalsModel StatementModel OptimisationModel MethodModel ProblemModel ProblemSpec.
Local Open Scope R_scope.

(* in every row of the system held the answer leaves a residual of at most tol. Without contact laws these residuals are
   the components of the gradient of the loss; scipy.optimize.minimize is asked to stop when its estimate of the gradient
   is at most tol (/repo/conmech/solvers/optimization/optimization.py:226-242). That it does is a hypothesis here, not
   a fact of the code: with the limit maxiter reached, the answer is used all the same. *)
Definition answers_within {F} (size : nat) (tol : R) (raw : method F -> vec -> vec -> vec -> R -> result (nat * vec)) : Prop :=
  forall i guess v u dt len z, v_len (m_rhs i) = size -> raw i guess v u dt = Ok (len, z) ->
  forall a, (a < size)%nat ->
    Rabs (mv size (load_m (hp (m_world i)) (sm_data (m_lhs i))) z a - load_v (hp (m_world i)) (m_rhs i) a) <= tol.

(* /repo/conmech/solvers/solver.py:84-99  Solver.solve: raw is _solve_impl; then the prescribed values are
   written into the answer *)
Definition finished {F} (b : body) (k : kind) (raw : method F -> vec -> vec -> vec -> R -> result (nat * vec)) :
    method F -> vec -> vec -> vec -> R -> result (nat * vec) :=
  fun i guess v u dt => bind (raw i guess v u dt) (written b k).

(* forces at the nodes, none larger than tol *)
Definition slight (size : nat) (tol : R) (r : vec) : Prop := forall a, (a < size)%nat -> Rabs (r a) <= tol.
(* their virtual work *)
Definition push_work (size : nat) (r v : vec) : R := sum size (fun a => v a * r a).

Section Pushed.
  Variables (m : @MeshData P2 vec) (fixed : P2 -> bool) (r : vec).
  Notation n := (2 * List.length (m_nodes m))%nat.
  Notation gradients := (gradients coord2 zero2 m).
  Notation gradient := (gradient coord2 zero2 m).
  Notation load_work := (load_work coord2 zero2 m).

  (* the balances of ProblemSpec with the additional forces r *)
  Definition moves_pushed (rho th ze mu la : R) (f g : P2 -> vec) (a w u : vec) : Prop :=
    forall v G H K, vanishes m fixed 2 v -> gradients v G -> gradients w H -> gradients u K ->
    inertia_work coord2 zero2 m 2 rho a v + stress_work coord2 zero2 m None th ze G H + stress_work coord2 zero2 m None mu la G K
    = load_work 2 f g v + push_work n r v.
  Definition flows_pushed (th ze mu la : R) (f g : P2 -> vec) (w u : vec) : Prop :=
    forall v G H K, vanishes m fixed 2 v -> gradients v G -> gradients w H -> gradients u K ->
    stress_work coord2 zero2 m None th ze G H + stress_work coord2 zero2 m None mu la G K = load_work 2 f g v + push_work n r v.
  Definition swings_pushed (rho c : R) (f g : P2 -> vec) (a u : vec) : Prop :=
    forall v G K, vanishes m fixed 1 v -> gradient v G -> gradient u K ->
    inertia_work coord2 zero2 m 1 rho a v + flux_work coord2 zero2 m None c G K = load_work 1 f g v + push_work (List.length (m_nodes m)) r v.
  Definition balances_pushed (density : option (nat -> R)) (mu la : R) (f g : P2 -> vec) (u : vec) : Prop :=
    forall v G H, vanishes m fixed 2 v -> gradients v G -> gradients u H ->
    stress_work coord2 zero2 m density mu la G H = load_work 2 f g v + push_work n r v.
End Pushed.

(* two states of the same time whose fields differ by at most e *)
Definition alike (size : nat) (e : R) (w w' : StateModel.view) : Prop :=
  StateModel.view_time w = StateModel.view_time w' /\ forall i, (i < size)%nat ->
    Rabs (StateModel.view_displacement w i - StateModel.view_displacement w' i) <= e /\
    Rabs (StateModel.view_velocity w i - StateModel.view_velocity w' i) <= e.
