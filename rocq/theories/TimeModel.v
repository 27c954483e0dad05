(* Model of the drivers that march in time.
   Sources: /repo/conmech/simulations/problem_solver.py (cited ps:), /repo/conmech/solvers/solver.py
   (so:), /repo/conmech/state/state.py (st:).
   The step solvers themselves are parameters: [answer] is Solver.solve (so:84-99) for the method
   chosen and [iterate] its iterate(); both may raise.  Their answers are new arrays.
   Simplifications: real numbers for doubles; initial_displacement(nodes) and its likes return an
   array of the right shape, given here by its entries; what is printed is not modelled, but the
   division by the number of steps for it is; **kwargs of the minimisers are part of [answer]. *)
From Coq Require Import Reals List Arith ZArith Bool String.
From Verif Require Import PyModel RVec StateModel.
Import ListNotations.
Local Open Scope R_scope.

(* the arrays a solver hands to its statement: so:43-47 *)
Record vectors := mkVectors { vec_b : vec; vec_u : vec; vec_v : vec; vec_t : vec; vec_p : vec }.

(* so:27-66  a step solver: what it keeps of the problem, its five arrays and its clock *)
Record stepper (I : Type) := mkStepper {
  inner : I;
  b_vector : nat;
  u_vector : nat;
  v_vector : nat;
  t_vector : nat;
  p_vector : nat;
  current_time : R;
  time_step : R }.
Arguments mkStepper {I}.
Arguments inner {I}.
Arguments b_vector {I}.
Arguments u_vector {I}.
Arguments v_vector {I}.
Arguments t_vector {I}.
Arguments p_vector {I}.
Arguments current_time {I}.
Arguments time_step {I}.

Definition with_inner {I} (s : stepper I) (i : I) : stepper I :=
  mkStepper i (b_vector s) (u_vector s) (v_vector s) (t_vector s) (p_vector s) (current_time s) (time_step s).
Definition with_clock {I} (s : stepper I) (t : R) : stepper I :=
  mkStepper (inner s) (b_vector s) (u_vector s) (v_vector s) (t_vector s) (p_vector s) t (time_step s).

Inductive coordinates := Displacement | Velocity | OtherCoordinates.

(* consecutive differences as numbers of steps: range(n) of a negative n is empty *)
Fixpoint steps_between (from : Z) (l : list Z) : list nat :=
  match l with
  | [] => []
  | x :: l => Z.to_nat (x - from) :: steps_between x l
  end.

(* ps:390, 402  output_step = (0, *output_step) if output_step else (0, n_steps); np.diff *)
Definition schedule (n_steps : nat) (output_step : list Z) : list nat :=
  match output_step with
  | [] => steps_between 0 [Z.of_nat n_steps]
  | _ => steps_between 0 output_step
  end.

Section Time.
  Context {V W I : Type}.
  Variables (dimension nodes_count : nat) (nodes : vec).
  (* iterate(): arrays, time step, current time *)
  Variable iterate : I -> vectors -> R -> R -> result I.
  (* solve(initial_guess): variable_old, displacement, time step; the length of the answer is told *)
  Variable answer : I -> vec -> vec -> vec -> R -> result (nat * vec).

  (* the driver between two statements: the store, the state being computed, the step solver,
     ps:84-85 done and to_do *)
  Record world := mkWorld {
    mem : store V;
    st : state W;
    sv : stepper I;
    done : nat;
    to_do : nat }.

  Definition arrays (m : store V) (s : stepper I) : vectors :=
    mkVectors (load m (b_vector s)) (load m (u_vector s)) (load m (v_vector s))
              (load m (t_vector s)) (load m (p_vector s)).

  (* so:36-47  a new step solver; [setup] is what its class makes of the statement, which has been
     updated with the arrays as they are now (so:53-64) *)
  Definition new_solver (setup : vectors -> R -> result I) (dt : R) (m : store V) : store V * result (stepper I) :=
    let '(m1, b) := alloc m (fun _ => 0) in
    let '(m2, u) := alloc m1 (fun _ => 0) in
    let '(m3, v) := alloc m2 (fun _ => 0) in
    let '(m4, t) := alloc m3 (fun _ => 0) in
    let '(m5, p) := alloc m4 (fun _ => 0) in
    match setup (mkVectors (load m5 b) (load m5 u) (load m5 v) (load m5 t) (load m5 p)) dt with
    | Err e => (m5, Err e)
    | Ok i => (m5, Ok (mkStepper i b u v t p 0 dt))
    end.

  (* self.step_solver.iterate() *)
  Definition call_iterate (w : world) : world * result unit :=
    match iterate (inner (sv w)) (arrays (mem w) (sv w)) (time_step (sv w)) (current_time (sv w)) with
    | Err e => (w, Err e)
    | Ok i => (mkWorld (mem w) (st w) (with_inner (sv w) i) (done w) (to_do w), Ok tt)
    end.

  (* ps:182-184  the end of one step *)
  Definition finish_step (w : world) : world * result unit :=
    match call_iterate w with
    | (w1, Err e) => (w1, Err e)
    | (w1, Ok _) =>
        let w2 := mkWorld (mem w1) (st w1) (sv w1) (S (done w1)) (to_do w1) in
        if (to_do w2 =? 0)%nat then (w2, Err ZeroDivision) else (w2, Ok tt)
    end.

  (* ps:186-189  find_solution: the new array *)
  Definition find_solution (c : coordinates) (w : world) : world * result (nat * nat) :=
    let go guess :=
      match answer (inner (sv w)) guess (load (mem w) (v_vector (sv w))) (load (mem w) (u_vector (sv w)))
              (time_step (sv w)) with
      | Err e => (w, Err e)
      | Ok (len, x) =>
          let '(m, cell) := alloc (mem w) x in
          (mkWorld m (st w) (sv w) (done w) (to_do w), Ok (len, cell))
      end in
    match c with
    | Displacement => go (load (mem w) (displacement (st w)))
    | Velocity => go (load (mem w) (velocity (st w)))
    | OtherCoordinates => (w, Err ValueError)      (* st:96 *)
    end.

  (* ps:157-184  one pass of the loop of run *)
  Definition step (c : coordinates) (w : world) : world * result unit :=
    let w1 := mkWorld (mem w) (st w) (with_clock (sv w) (current_time (sv w) + time_step (sv w))) (done w) (to_do w) in
    match find_solution c w1 with
    | (w2, Err e) => (w2, Err e)
    | (w2, Ok (len, cell)) =>
        match c with
        | Displacement =>
            match set_displacement dimension nodes_count nodes (mem w2) (st w2) len cell (current_time (sv w2)) true with
            | (m, s, Err e) => (mkWorld m s (sv w2) (done w2) (to_do w2), Err e)
            | (m, s, Ok _) =>
                let m1 := write m (b_vector (sv w2)) (load m (absement s)) in
                let m2 := write m1 (u_vector (sv w2)) (load m1 (displacement s)) in
                finish_step (mkWorld m2 s (sv w2) (done w2) (to_do w2))
            end
        | Velocity =>
            match set_velocity dimension nodes_count nodes (mem w2) (st w2) len cell (current_time (sv w2)) true with
            | (m, s, Err e) => (mkWorld m s (sv w2) (done w2) (to_do w2), Err e)
            | (m, s, Ok _) =>
                let m1 := write m (u_vector (sv w2)) (load m (displacement s)) in
                let m2 := write m1 (v_vector (sv w2)) (load m1 (velocity s)) in
                finish_step (mkWorld m2 s (sv w2) (done w2) (to_do w2))
            end
        | OtherCoordinates => (w2, Err ValueError)
        end
    end.

  Fixpoint steps (c : coordinates) (n : nat) (w : world) : world * result unit :=
    match n with
    | O => (w, Ok tt)
    | S n => match step c w with
             | (w1, Ok _) => steps c n w1
             | (w1, Err e) => (w1, Err e)
             end
    end.

  (* ps:139-184  run; [given]: the products passed, as references *)
  Definition run (c : coordinates) (given : list nat) (n : nat) (w : world) : world * result unit :=
    let s := fold_left (fun s r => inject_product s (p_name (get_product (mem w) r)) r) given (st w) in
    steps c n (mkWorld (mem w) s (sv w) (done w) (to_do w)).

  (* ps:406-410, 473-477, 734-738  the loop over the output steps *)
  Fixpoint outputs (c : coordinates) (given : list nat) (ns : list nat) (w : world)
    : world * result (list (state W)) :=
    match ns with
    | [] => (w, Ok [])
    | n :: ns =>
        match run c given n w with
        | (w1, Err e) => (w1, Err e)
        | (w1, Ok _) =>
            let '(m, s) := copy nodes (mem w1) (st w1) in
            match outputs c given ns (mkWorld m (st w1) (sv w1) (done w1) (to_do w1)) with
            | (w2, Err e) => (w2, Err e)
            | (w2, Ok l) => (w2, Ok (s :: l))
            end
        end
    end.

  (* what is left of a driver between two calls of solve() *)
  Record driver := mkDriver { d_mem : store V; d_sv : stepper I; d_done : nat; d_to_do : nat }.

  Definition leave {A} (r : world * result A) : driver * result A :=
    (mkDriver (mem (fst r)) (sv (fst r)) (done (fst r)) (to_do (fst r)), snd r).

  (* ps:318-338  StaticSolver.solve *)
  Definition static_solve (initial_displacement : vec) (given : list nat) (d : driver)
    : driver * result (state W) :=
    let '(m0, s) := new_state nodes PlainState (d_mem d) in
    let m1 := write m0 (displacement s) initial_displacement in
    let m2 := write m1 (u_vector (d_sv d)) (load m1 (displacement s)) in
    match call_iterate (mkWorld m2 s (d_sv d) (d_done d) (d_to_do d)) with
    | (w, Err e) => leave (w, Err e)
    | (w, Ok _) =>
        match run Displacement given 1 w with
        | (w1, Err e) => leave (w1, Err e)
        | (w1, Ok _) => leave (w1, Ok (st w1))
        end
    end.

  (* ps:369-410  QuasistaticRelaxation.solve *)
  Definition relaxation_solve (n_steps : nat) (initial_absement initial_displacement : vec)
    (output_step : list Z) (given : list nat) (d : driver) : driver * result (list (state W)) :=
    let '(m0, s) := new_state nodes PlainState (d_mem d) in
    let m1 := write m0 (absement s) initial_absement in
    let m2 := write m1 (displacement s) initial_displacement in
    let m3 := write m2 (b_vector (d_sv d)) (load m2 (absement s)) in
    let m4 := write m3 (u_vector (d_sv d)) (load m3 (displacement s)) in
    match call_iterate (mkWorld m4 s (d_sv d) (d_done d) (d_to_do d)) with
    | (w, Err e) => leave (w, Err e)
    | (w, Ok _) =>
        leave (outputs Displacement given (schedule n_steps output_step) (mkWorld (mem w) (st w) (sv w) 0 n_steps))
    end.

  (* ps:436-477  TimeDependentSolver.solve *)
  Definition dynamic_solve (n_steps : nat) (initial_displacement initial_velocity : vec)
    (output_step : list Z) (given : list nat) (d : driver) : driver * result (list (state W)) :=
    let '(m0, s) := new_state nodes PlainState (d_mem d) in
    let m1 := write m0 (displacement s) initial_displacement in
    let m2 := write m1 (velocity s) initial_velocity in
    let m3 := write m2 (u_vector (d_sv d)) (load m2 (displacement s)) in
    let m4 := write m3 (v_vector (d_sv d)) (load m3 (velocity s)) in
    match call_iterate (mkWorld m4 s (d_sv d) (d_done d) (d_to_do d)) with
    | (w, Err e) => leave (w, Err e)
    | (w, Ok _) =>
        leave (outputs Velocity given (schedule n_steps output_step) (mkWorld (mem w) (st w) (sv w) 0 n_steps))
    end.

  (* ps:692-738  WaveSolver.solve; [from]: the state to resume from *)
  Definition wave_solve (n_steps : nat) (initial_displacement initial_velocity : vec) (from : option (state W))
    (output_step : list Z) (given : list nat) (d : driver) : driver * state W * result (list (state W)) :=
    let '(m2, s) :=
      match from with
      | Some s => (d_mem d, s)
      | None =>
          let '(m0, s) := new_state nodes PlainState (d_mem d) in
          let m1 := write m0 (displacement s) initial_displacement in
          (write m1 (velocity s) initial_velocity, s)
      end in
    let sv1 := with_clock (d_sv d) (time s) in
    let m3 := write m2 (u_vector sv1) (load m2 (displacement s)) in
    let m4 := write m3 (v_vector sv1) (load m3 (velocity s)) in
    match call_iterate (mkWorld m4 s sv1 (d_done d) (d_to_do d)) with
    | (w, Err e) => (fst (leave (w, Ok tt)), st w, Err e)
    | (w, Ok _) =>
        let '(w1, r) := outputs Velocity given (schedule n_steps output_step) (mkWorld (mem w) (st w) (sv w) 0 n_steps) in
        (fst (leave (w1, Ok tt)), st w1, r)
    end.

  (* ps:284-294  PoissonSolver.solve, with its second step solver *)
  Definition poisson_solve (d : driver) : driver * result (state W) :=
    let '(m0, s) := new_state nodes TemperatureState (d_mem d) in
    match extra s with
    | Thermal t =>
        let m1 := write m0 (t_vector (d_sv d)) (load m0 t) in
        match call_iterate (mkWorld m1 s (d_sv d) (d_done d) (d_to_do d)) with
        | (w, Err e) => leave (w, Err e)
        | (w, Ok _) =>
            match answer (inner (sv w)) (load (mem w) t) (load (mem w) (v_vector (sv w)))
                    (load (mem w) (u_vector (sv w))) (time_step (sv w)) with
            | Err e => leave (w, Err e)
            | Ok (_, x) =>
                let '(m2, cell) := alloc (mem w) x in
                leave (mkWorld m2 (st w) (sv w) (done w) (to_do w), Ok (set_extra (st w) cell))
            end
        end
    | _ => leave (mkWorld m0 s (d_sv d) (d_done d) (d_to_do d), Err AttributeError)
    end.
End Time.
Arguments world : clear implicits.
Arguments driver : clear implicits.

(* ps:191-262, 480-668  the drivers of coupled problems: two step solvers *)
Section Coupled.
  Context {V W I J : Type}.
  Variables (dimension nodes_count : nat) (nodes : vec).
  Variable thermal : bool.
  Variable iterate : I -> vectors -> R -> R -> result I.
  Variable second_iterate : J -> vectors -> R -> R -> result J.
  (* ps:206-220  statement.update with (displacement, velocity, temperature = potential), the time
     step and the time, and for Schur solvers the new forces *)
  Variable update : I -> vec -> vec -> vec -> R -> R -> result I.
  (* ps:225-238  the same for the second solver: (displacement, velocity, temperature, potential)
     and the time step; no time is told *)
  Variable second_update : J -> vec -> vec -> vec -> vec -> R -> result J.
  Variable answer : I -> vec -> vec -> vec -> R -> result (nat * vec).
  Variable second_answer : J -> vec -> vec -> vec -> R -> result (nat * vec).

  Record pair := mkPair { p_mem : store V; p_st : state W; p_one : stepper I; p_two : stepper J }.

  Definition size := (dimension * nodes_count)%nat.

  (* ps:241-244 *)
  Definition distance (x x' y y' : vec) : R :=
    sqrt (sum size (fun i => (x i - x' i) * (x i - x' i)) + sum nodes_count (fun i => (y' i - y i) * (y' i - y i))).

  (* the local variables of the loop: solution and solution_t with their old versions are new
     arrays in every pass; norm is inf before the first *)
  Record loop := mkLoop {
    l_one : I;
    l_two : J;
    l_x : vec;        (* solution *)
    l_y : vec;        (* solution_t *)
    l_norm : option R;
    l_fuse : Z;
    l_minimum : Z;
    l_passes : nat }. (* not in the code: how many passes were made *)

  (* ps:202  the condition of the loop *)
  Definition again (l : loop) : bool :=
    (0 <? l_minimum l)%Z
    || ((match l_norm l with None => true | Some n => if Rlt_dec (1 / 1000) n then true else false end)
        && negb (l_fuse l =? 0)%Z).

  (* ps:203-246  one pass; an answer of an unexpected length makes the sums with the old arrays
     raise ValueError (simplification: answers of length 1 would be broadcast) *)
  Definition pass (old_u old_v old_t old_p : vec) (one : stepper I) (two : stepper J)
      (one_v one_u two_v two_u : vec) (l : loop) : result loop :=
    bind (update (l_one l) old_u old_v (l_y l) (time_step one) (current_time one)) (fun i =>
    bind (answer i (l_x l) one_v one_u (time_step one)) (fun '(len, x) =>
    if (len =? size)%nat then
      let u := fun k => old_u k + time_step one * x k in
      bind (second_update (l_two l) u x old_t old_p (time_step two)) (fun j =>
      bind (second_answer j (l_y l) two_v two_u (time_step two)) (fun '(len_t, y) =>
      if (len_t =? nodes_count)%nat then
        Ok (mkLoop i j x y (Some (distance x (l_x l) (l_y l) y)) (l_fuse l - 1) (l_minimum l - 1) (S (l_passes l)))
      else Err ValueError))
    else Err ValueError)).

  (* [None]: more passes than [fuel] *)
  Fixpoint passes (fuel : nat) (old_u old_v old_t old_p : vec) (one : stepper I) (two : stepper J)
      (one_v one_u two_v two_u : vec) (l : loop) : option (result loop) :=
    if again l then
      match fuel with
      | O => None
      | S fuel =>
          match pass old_u old_v old_t old_p one two one_v one_u two_v two_u l with
          | Err e => Some (Err e)
          | Ok l1 => passes fuel old_u old_v old_t old_p one two one_v one_u two_v two_u l1
          end
      end
    else Some (Ok l).

  (* ps:191-262  find_solution_uzawa; [x], [y]: the current guesses *)
  Definition uzawa (x y : vec) (w : pair) : option (pair * result (nat * nat)) :=
    let m := p_mem w in
    let one := p_one w in
    let two := p_two w in
    match passes 10 (load m (u_vector one)) (load m (v_vector one)) (load m (t_vector one)) (load m (p_vector one))
            one two (load m (v_vector one)) (load m (u_vector one)) (load m (v_vector two)) (load m (u_vector two))
            (mkLoop (inner one) (inner two) x y None 10 5 0) with
    | None => None
    | Some (Err e) => Some (w, Err e)
    | Some (Ok l) =>
        let '(m1, cx) := alloc m (l_x l) in
        let '(m2, cy) := alloc m1 (l_y l) in
        let '(m3, cu) := alloc m2 (fun k => load m2 (u_vector one) k + time_step one * load m2 cx k) in
        let '(m4, cu') := alloc m3 (fun k => load m3 (u_vector one) k + time_step two * load m3 cx k) in
        Some (mkPair m4 (p_st w)
                (mkStepper (l_one l) (b_vector one) cu cx cy cy (current_time one) (time_step one))
                (mkStepper (l_two l) (b_vector two) cu' cx cy cy (current_time two) (time_step two)),
              Ok (cx, cy))
    end.

  (* ps:556-571, 650-665  one time step *)
  Definition coupled_step (n_steps : nat) (x y : nat) (w : pair) : option (pair * result (nat * nat)) :=
    if (n_steps =? 0)%nat then Some (w, Err ZeroDivision) else
    let one := with_clock (p_one w) (current_time (p_one w) + time_step (p_one w)) in
    let two := with_clock (p_two w) (current_time (p_two w) + time_step (p_two w)) in
    match uzawa (load (p_mem w) x) (load (p_mem w) y) (mkPair (p_mem w) (p_st w) one two) with
    | None => None
    | Some (w1, Err e) => Some (w1, Err e)
    | Some (w1, Ok (cx, cy)) =>
        match set_velocity dimension nodes_count nodes (p_mem w1) (p_st w1) size cx (current_time (p_one w1)) true with
        | (m, s, Err e) => Some (mkPair m s (p_one w1) (p_two w1), Err e)
        | (m, s, Ok _) => Some (mkPair m (set_extra s cy) (p_one w1) (p_two w1), Ok (cx, cy))
        end
    end.

  Fixpoint coupled_steps (n_steps n : nat) (x y : nat) (w : pair) : option (pair * result (nat * nat)) :=
    match n with
    | O => Some (w, Ok (x, y))
    | S n => match coupled_step n_steps x y w with
             | Some (w1, Ok (x1, y1)) => coupled_steps n_steps n x1 y1 w1
             | r => r
             end
    end.

  (* ps:553-572, 647-668  the loop over the output steps *)
  Fixpoint coupled_outputs (n_steps : nat) (ns : list nat) (x y : nat) (w : pair)
    : option (pair * result (list (state W))) :=
    match ns with
    | [] => Some (w, Ok [])
    | n :: ns =>
        match coupled_steps n_steps n x y w with
        | None => None
        | Some (w1, Err e) => Some (w1, Err e)
        | Some (w1, Ok (x1, y1)) =>
            let '(m, s) := copy nodes (p_mem w1) (p_st w1) in
            match coupled_outputs n_steps ns x1 y1 (mkPair m (p_st w1) (p_one w1) (p_two w1)) with
            | None => None
            | Some (w2, Err e) => Some (w2, Err e)
            | Some (w2, Ok l) => Some (w2, Ok (s :: l))
            end
        end
    end.

  (* ps:538, 631  state.velocity.reshape(2, -1): the array (nodes_count, dimension) read row by row *)
  Definition reshaped (x : vec) : vec := fun i => x (i mod dimension * nodes_count + i / dimension)%nat.

  (* ps:506-572 TemperatureTimeDependentSolver.solve run to its end, ps:599-668
     PiezoelectricTimeDependentSolver.solve.  [d]: both step solvers and the store *)
  Definition coupled_solve (n_steps : nat) (initial_displacement initial_velocity initial_extra : vec)
    (output_step : list Z) (m : store V) (one : stepper I) (two : stepper J)
    : option (pair * result (list (state W))) :=
    let '(m0, s) := new_state nodes (if thermal then TemperatureState else PiezoelectricState) m in
    match extra s with
    | Plain => Some (mkPair m0 s one two, Err AttributeError)
    | Thermal t | Electric t =>
        let m1 := write m0 (displacement s) initial_displacement in
        let m2 := write m1 (velocity s) initial_velocity in
        let m3 := write m2 t initial_extra in
        if (Nat.modulo size 2 =? 0)%nat then
          (* a view in the code; it is only read *)
          let '(m4, x) := alloc m3 (reshaped (load m3 (velocity s))) in
          let m5 := write m4 (u_vector one) (load m4 (displacement s)) in
          let m6 := write m5 (v_vector one) (load m5 (velocity s)) in
          let m7 := write m6 (if thermal then t_vector one else p_vector one) (load m6 t) in
          let m8 := write m7 (u_vector two) (load m7 (displacement s)) in
          let m9 := write m8 (v_vector two) (load m8 (velocity s)) in
          let m10 := write m9 (if thermal then t_vector two else p_vector two) (load m9 t) in
          match iterate (inner one) (arrays m10 one) (time_step one) (current_time one) with
          | Err e => Some (mkPair m10 s one two, Err e)
          | Ok i =>
              match second_iterate (inner two) (arrays m10 two) (time_step two) (current_time two) with
              | Err e => Some (mkPair m10 s (with_inner one i) two, Err e)
              | Ok j =>
                  coupled_outputs n_steps (schedule n_steps output_step) x t
                    (mkPair m10 s (with_inner one i) (with_inner two j))
              end
          end
        else Some (mkPair m3 s one two, Err ValueError)
    end.
End Coupled.
