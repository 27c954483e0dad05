(* Model of the contact functionals and of the contact laws.
   Sources: /repo/conmech/solvers/solver_methods.py (sm), /repo/conmech/helpers/nph.py (nph),
   /repo/conmech/dynamics/contact/*.py.
   Simplifications: real numbers instead of doubles; numba's compilation and its type
   signatures are not modelled; an array index out of range (undefined in compiled code)
   reads a junk value, the theorems exclude it by hypotheses; prange without parallel=True is
   range; laws are pure total functions. *)
From Coq Require Import Reals List Arith Bool.
From Verif Require Import PyModel RVec.
Import ListNotations.
Local Open Scope R_scope.

(* a one dimensional array: length and entries *)
Definition arr := (nat * vec)%type.

(* the entries as a list *)
Definition entries (a : arr) : list R := map (snd a) (seq 0 (fst a)).

(* numpy broadcasting of a binary operation on one dimensional arrays *)
Definition broadcast (f : R -> R -> R) (a b : arr) : result arr :=
  if (fst a =? fst b)%nat then Ok (fst a, fun i => f (snd a i) (snd b i))
  else if (fst a =? 1)%nat then Ok (fst b, fun i => f (snd a 0%nat) (snd b i))
  else if (fst b =? 1)%nat then Ok (fst a, fun i => f (snd a i) (snd b 0%nat))
  else Err ValueError.

(* a.sum() and c * a *)
Definition total (a : arr) : R := sum (fst a) (snd a).
Definition times (c : R) (a : arr) : arr := (fst a, fun i => c * snd a i).

(* sm:32-39 and sm:49-56  the value read for one node and component *)
Definition read (vector full_vector : arr) (dimension i node : nat) : R :=
  let offset := (fst vector / dimension)%nat in
  let offset_full := (fst full_vector / dimension)%nat in
  if (node <? offset)%nat then snd vector (i * offset + node)%nat
  else snd full_vector (i * offset_full + node)%nat.

(* sm:28-40  interpolate_node_between: an array of length dimension *)
Definition interpolate_node_between (edge : list nat) (vector full_vector : arr) (dimension : nat) : arr :=
  (dimension, fun i =>
     fold_left (fun acc node => acc + read vector full_vector dimension i node / INR (List.length edge)) edge 0).

(* sm:43-57  get_nodes: column 0 is the mean, column n + 1 the value at the n-th node *)
Definition get_nodes (edge : list nat) (vector full_vector : arr) (dimension : nat) : mat :=
  fun i column =>
    match column with
    | O => fold_left (fun acc node => acc + read vector full_vector dimension i node / INR (List.length edge)) edge 0
    | S n => 0 + read vector full_vector dimension i (nth n edge 0%nat)
    end.

(* nph:39-43  length *)
Definition length (edge : list nat) (nodes : nat -> vec) : R :=
  let a := nodes (nth 0 edge 0%nat) in
  let b := nodes (nth 1 edge 0%nat) in
  sqrt ((a 0%nat - b 0%nat) ^ 2 + (a 1%nat - b 1%nat) ^ 2).

(* an optional callable or number, the argument of njit *)
Inductive callable (A : Type) :=
  | Nothing
  | Number (c : R)
  | Function (f : A -> A -> R -> R).
Arguments Nothing {A}.
Arguments Number {A}.
Arguments Function {A}.

(* sm:151-160  njit *)
Definition njit {A} (func : callable A) (value : R) : A -> A -> R -> R :=
  match func with
  | Nothing => fun _ _ _ => value
  | Number c => fun _ _ _ => c
  | Function f => f
  end.

(* a matrix with its shape *)
Record sized := mkSized { rows : nat; cols : nat; data : mat }.

(* matrix @ vector *)
Definition sized_mv (A : sized) (x : arr) : result arr :=
  if (cols A =? fst x)%nat then Ok (rows A, mv (cols A) (data A) (snd x)) else Err ValueError.

(* np.dot of two vectors *)
Definition arr_dot (x y : arr) : result R :=
  if (fst x =? fst y)%nat then Ok (dot (fst x) (snd x) (snd y)) else Err ValueError.

(* x[:n] and x[n:] *)
Definition head (n : nat) (x : arr) : arr := (Nat.min n (fst x), snd x).
Definition tail (n : nat) (x : arr) : arr := ((fst x - n)%nat, fun i => snd x (n + i)%nat).

(* ------------------------------------------- make_cost_functional *)

Section Functional.
  (* sm:163-170 and sm:259-267  the conditions after njit, the two dimensions;
     [width] is the number of columns of contact_normals *)
  Variables (normal_condition normal_condition_bound : callable R)
            (tangential_condition : callable (list R)) (tangential_condition_bound : callable R)
            (problem_dimension variable_dimension : nat).
  Variables (nodes : nat -> vec) (width : nat) (contact_normals : nat -> vec).

  (* sm:176-178 and sm:274-276  contact_cost *)
  Definition contact_cost (length normal normal_bound tangential tangential_bound : R) : R :=
    length * (normal_bound * normal + tangential_bound * tangential).

  (* v.n and v - (v.n) n *)
  Definition split (v normal_vector : arr) : result (R * arr) :=
    bind (broadcast Rmult v normal_vector) (fun p =>
      bind (broadcast Rminus v (times (total p) normal_vector)) (fun t => Ok (total p, t))).

  (* sm:192-218 and sm:290-317  the body of the loop over node_ *)
  Definition point_cost (edge : list nat) (normal_vector vm static_displacement : arr) (dt : R)
    : result R :=
    bind (if (variable_dimension =? 1)%nat then Ok (snd vm 0%nat, (0%nat, fun _ => 0))
          else split vm normal_vector) (fun '(vm_normal, vm_tangential) =>
    bind (split (interpolate_node_between edge static_displacement static_displacement problem_dimension)
                normal_vector) (fun '(static_normal, static_tangential) =>
    Ok (contact_cost
          (length edge nodes / INR (List.length edge + 1))
          (njit normal_condition 0 vm_normal static_normal dt)
          (njit normal_condition_bound 1 vm_normal static_normal dt)
          (njit tangential_condition 0 (entries vm_tangential) (entries static_tangential) dt)
          (njit tangential_condition_bound 1 vm_normal static_normal dt)))).

  (* for x in l: acc = f(acc, x), where f may raise *)
  Fixpoint accumulate {A B} (f : A -> B -> result A) (l : list B) (acc : A) : result A :=
    match l with
    | [] => Ok acc
    | x :: rest => bind (f acc x) (fun acc' => accumulate f rest acc')
    end.

  (* column node_ of vms *)
  Definition column (vms : mat) (node_ : nat) : arr := (variable_dimension, fun i => vms i node_).

  (* sm:180-219  contact_cost_functional *)
  Definition contact_cost_functional (var var_old static_displacement : arr)
      (contact_boundary : list (list nat)) (dt : R) : result R :=
    accumulate (fun cost ei =>
      let edge := nth ei contact_boundary [] in
      let normal_vector := (width, contact_normals ei) in
      let vms := get_nodes edge var var_old variable_dimension in
      accumulate (fun cost node_ =>
        bind (point_cost edge normal_vector (column vms node_) static_displacement dt)
             (fun c => Ok (cost + c)))
        (seq 0 (List.length edge + 1)) cost)
      (seq 0 (List.length contact_boundary)) 0.

  (* sm:237-254  cost_functional; the single entry of the returned array *)
  Definition cost_functional (lhs : sized) (rhs : arr) (var var_old u_vector : arr)
      (contact_boundary : list (list nat)) (dt : R) : result R :=
    bind (contact_cost_functional var var_old u_vector contact_boundary dt) (fun ju =>
    let ind := rows lhs in
    bind (sized_mv lhs (head ind var)) (fun Av =>
    bind (arr_dot Av (head ind var)) (fun vAv =>
    bind (arr_dot rhs (head ind var)) (fun fv =>
    Ok (0.5 * vAv - fv + ju))))).

  (* ----------------------------------------------- make_subgradient *)

  (* x[i] += c *)
  Definition add_at (x : arr) (i : nat) (c : R) : arr :=
    (fst x, fun k => if (k =? i)%nat then snd x k + c else snd x k).

  (* sm:278-325  contact_subgradient *)
  Definition contact_subgradient (var var_old static_displacement : arr)
      (contact_boundary : list (list nat)) (dt : R) : result arr :=
    let offset := (fst var / variable_dimension)%nat in
    accumulate (fun cost ei =>
      let edge := nth ei contact_boundary [] in
      let normal_vector := (width, contact_normals ei) in
      let vms := get_nodes edge var var_old variable_dimension in
      accumulate (fun cost node_ =>
        bind (point_cost edge normal_vector (column vms node_) static_displacement dt)
          (fun subgrad => Ok
             (fold_left (fun cost node =>
                fold_left (fun cost i =>
                  if (node <? offset)%nat
                  then add_at cost (i * offset + node)
                         (contact_normals ei i / INR (List.length edge) * subgrad)
                  else cost)
                  (seq 0 variable_dimension) cost)
                edge cost)))
        (seq 0 (List.length edge + 1)) cost)
      (seq 0 (List.length contact_boundary)) (fst var, fun _ => 0).

  (* sm:327-349  the returned gradient; only_boundary drops the linear part.  The assignment
     result[:ind] = result_ needs a source of length min(ind, len(var)) (or 1) *)
  Definition subgradient (only_boundary : bool) (lhs : sized) (rhs : arr)
      (var var_old u_vector : arr) (contact_boundary : list (list nat)) (dt : R) : result arr :=
    bind (contact_subgradient var var_old u_vector contact_boundary dt) (fun dj =>
    let ind := rows lhs in
    bind (if only_boundary then Ok dj
          else bind (sized_mv lhs (head ind var)) (fun Av =>
               bind (broadcast Rminus Av rhs) (fun r => broadcast Rplus r dj))) (fun result_ =>
    if (fst result_ =? Nat.min ind (fst var))%nat
    then Ok (fst var, fun i => if (i <? ind)%nat then snd result_ i else 0)
    else if (fst result_ =? 1)%nat
    then Ok (fst var, fun i => if (i <? ind)%nat then snd result_ 0%nat else 0)
    else Err ValueError)).
End Functional.

(* --------------------------------------------------- make_equation *)

Section Equation.
  Variables (problem_dimension : nat) (nodes : nat -> vec) (width : nat) (contact_normals : nat -> vec).

  (* sm:99-129  contact_part; jn is called with zero displacement and zero time step *)
  Definition contact_part (jn : R -> R -> R -> R) (u_vector : arr) (contact_boundary : list (list nat))
    : result arr :=
    let offset := (fst u_vector / problem_dimension)%nat in
    accumulate (fun contact_vector ei =>
      let edge := nth ei contact_boundary [] in
      let n_id_0 := nth 0 edge 0%nat in
      let n_id_1 := nth 1 edge 0%nat in
      let normal_vector := contact_normals ei in
      let ums := get_nodes edge u_vector u_vector problem_dimension in
      accumulate (fun contact_vector node_ =>
        bind (broadcast Rmult (problem_dimension, fun i => ums i node_) (width, normal_vector)) (fun p =>
        let um_normal := total p in
        let edge_len := length edge nodes / INR (List.length edge + 1) in
        let j_x := edge_len * 0.5 * (jn um_normal 0 0 * normal_vector 0%nat) in
        let j_y := edge_len * 0.5 * (jn um_normal 0 0 * normal_vector 1%nat) in
        let c0 := if (n_id_0 <? offset)%nat
                  then add_at (add_at contact_vector n_id_0 j_x) (n_id_0 + offset) j_y
                  else contact_vector in
        Ok (if (n_id_1 <? offset)%nat
            then add_at (add_at c0 n_id_1 j_x) (n_id_1 + offset) j_y
            else c0)))
        (seq 0 (List.length edge + 1)) contact_vector)
      (seq 0 (List.length contact_boundary)) (fst u_vector, fun _ => 0).

  (* sm:131-146  equation of a direct law: the residual *)
  Definition equation_residual (jn : R -> R -> R -> R) (lhs : sized) (rhs var : arr)
      (contact_boundary : list (list nat)) : result arr :=
    bind (contact_part jn var contact_boundary) (fun c =>
    bind (sized_mv lhs var) (fun Av =>
    bind (broadcast Rplus Av c) (fun s => broadcast Rminus s rhs))).

  (* sm:66-94  equation of an interior law: the single entry of the returned array *)
  Definition equation_energy (contact : callable R) (lhs : sized) (rhs var displacement : arr)
      (volume_multiplier : sized) (time_step : R) : result R :=
    let ind := rows lhs in
    let response := (ind, fun i => njit contact 0 (snd var i) (snd displacement i) time_step) in
    bind (sized_mv lhs (head ind var)) (fun Av =>
    bind (arr_dot Av (head ind var)) (fun vAv =>
    bind (arr_dot rhs (head ind var)) (fun fv =>
    bind (sized_mv volume_multiplier response) (fun Mr =>
    bind (arr_dot Mr (fst (head ind var), fun _ => 1)) (fun contact_energy =>
    bind (arr_dot (tail ind var) (tail ind var)) (fun rest =>
    Ok (0.5 * vAv - fv + 0.5 * contact_energy + rest))))))).
End Equation.

(* ---------------------------------------------------- contact laws *)

(* a contact law: contact_law.py:22-107 gives the defaults (both bounds 1, no friction);
   None: the class has no subderivative_normal_direction *)
Record contact_law := mkLaw {
  potential_normal_direction : R -> R -> R -> R;
  potential_tangential_direction : list R -> list R -> R -> R;
  normal_bound : R -> R -> R -> R;
  tangential_bound : R -> R -> R -> R;
  subderivative_normal_direction : option (R -> R -> R -> R) }.

(* x <= y and x < y *)
Definition leb (x y : R) : bool := if Rle_dec x y then true else false.
Definition ltb (x y : R) : bool := if Rlt_dec x y then true else false.

(* relu_slope_contact_law.py:14-32  make_slope_contact_law *)
Definition make_slope_contact_law (slope : R) : contact_law := {|
  potential_normal_direction := fun var_nu _ _ =>
    if leb var_nu 0 then 0 else 0.5 * slope * var_nu ^ 2;
  potential_tangential_direction := fun _ _ _ => 0;
  normal_bound := fun _ _ _ => 1;
  tangential_bound := fun _ _ _ => 1;
  subderivative_normal_direction := Some (fun var_nu _ _ =>
    if leb var_nu 0 then 0 else slope * var_nu) |}.

(* constant_constact_law.py:28-46  make_const_contact_law *)
Definition make_const_contact_law (resistance : R) : contact_law := {|
  potential_normal_direction := fun var_nu static_displacement_nu _ =>
    if leb var_nu 0 then 0 * static_displacement_nu
    else (resistance * var_nu) * static_displacement_nu;
  potential_tangential_direction := fun _ _ _ => 0;
  normal_bound := fun _ _ _ => 1;
  tangential_bound := fun _ _ _ => 1;
  subderivative_normal_direction := Some (fun var_nu _ _ =>
    if leb var_nu 0 then 0 else resistance) |}.

(* damped_normal_compliance.py:23-64  make_damped_norm_compl (interior or not) *)
Definition make_damped_norm_compl (obstacle_level kappa beta : R) : contact_law := {|
  potential_normal_direction := fun var_nu static_displacement_nu dt =>
    let displacement := static_displacement_nu + var_nu * dt in
    if ltb displacement obstacle_level then 0
    else kappa * (displacement - obstacle_level) + beta * var_nu;
  potential_tangential_direction := fun _ _ _ => 0;
  normal_bound := fun var_nu _ _ => 0.5 * var_nu;
  tangential_bound := fun _ _ _ => 1;
  subderivative_normal_direction := Some (fun var_nu static_displacement_nu dt =>
    let displacement := static_displacement_nu + var_nu * dt in
    if ltb displacement obstacle_level then 0 else kappa * dt + beta) |}.

(* --------------------------------------------- Optimization.__init__ *)

(* /repo/conmech/solvers/optimization/optimization.py:74-81  the loss of an optimisation
   solver (WaveStatement with an interior law and StaticPoissonStatement: see below) *)
Definition loss (law : contact_law) (dimension_in dimension_out : nat) (nodes : nat -> vec)
    (width : nat) (contact_normals : nat -> vec) :=
  cost_functional (Function (potential_normal_direction law)) (Function (normal_bound law))
    (Function (potential_tangential_direction law)) (Function (tangential_bound law))
    dimension_in dimension_out nodes width contact_normals.

(* optimization.py:82-87  the subgradient: only the normal subderivative is passed on, the
   other arguments keep their defaults *)
Definition loss_subgradient (sub : R -> R -> R -> R) (nodes : nat -> vec)
    (width : nat) (contact_normals : nat -> vec) :=
  subgradient (Function sub) Nothing Nothing Nothing 2 2 nodes width contact_normals false.

(* optimization.py:88-93  the loss for a WaveStatement with an interior law *)
Definition interior_loss (law : contact_law) :=
  equation_energy (Function (potential_normal_direction law)).

(* optimization.py:95-102  the loss for a StaticPoissonStatement *)
Definition poisson_loss (law : contact_law) (nodes : nat -> vec) (width : nat) (contact_normals : nat -> vec) :=
  cost_functional (Function (potential_normal_direction law)) Nothing Nothing Nothing
    1 1 nodes width contact_normals.
