(* Model of examples/utils.py (u) lines 39-146: gradients of nodal fields recovered at the nodes
   and the two constitutive laws handed to State.constitutive_law (state/state.py:57-82).
   Floating point numbers are real numbers; arrays with one row per node are functions of the
   node number. *)
From Coq Require Import Reals List Arith Bool.
From Verif Require Import RVec PyModel.
Import ListNotations.
Local Open Scope R_scope.

(* u:39-51  calculate_dx_dy; compiled by numba with its default error model, where a zero
   divisor raises ZeroDivisionError *)
Definition calculate_dx_dy (x0 : vec) (u0 : R) (x1 : vec) (u1 : R) (x2 : vec) (u2 : R) : result (R * R) :=
  let a1 := x1 0%nat - x0 0%nat in
  let b1 := x1 1%nat - x0 1%nat in
  let c1 := u1 - u0 in
  let a2 := x2 0%nat - x0 0%nat in
  let b2 := x2 1%nat - x0 1%nat in
  let c2 := u2 - u0 in
  let a := b1 * c2 - b2 * c1 in
  let b := a2 * c1 - a1 * c2 in
  let c := a1 * b2 - b1 * a2 in
  if Req_EM_T c 0 then Err ZeroDivision else Ok (a / c, b / c).

(* the arrays result[:, 0], result[:, 1] and norm of u:55-56; norm holds whole numbers *)
Record sums := mkSums { sum_x : nat -> R; sum_y : nat -> R; norm : nat -> nat }.

(* u:66-68 (and 69-71, 72-74)  what is added at one corner of an element *)
Definition add_corner (dx dy : R) (s : sums) (i : nat) : sums :=
  mkSums (fun n => if (n =? i)%nat then sum_x s n + dx else sum_x s n)
         (fun n => if (n =? i)%nat then sum_y s n + dy else sum_y s n)
         (fun n => if (n =? i)%nat then S (norm s n) else norm s n).

(* u:57-74  one pass of the loop; N = len(f) = len(initial_nodes); node numbers are not negative *)
Definition add_element (N : nat) (nodes : nat -> vec) (f : nat -> R) (s : sums) (e : list nat) : result sums :=
  match e with
  | i :: j :: k :: _ =>
      if ((i <? N) && (j <? N) && (k <? N))%nat then
        bind (calculate_dx_dy (nodes i) (f i) (nodes j) (f j) (nodes k) (f k)) (fun '(dx, dy) =>
          Ok (add_corner dx dy (add_corner dx dy (add_corner dx dy s i) j) k))
      else Err IndexError
  | _ => Err IndexError
  end.

(* u:57-74  the loop over the elements *)
Fixpoint add_elements (N : nat) (nodes : nat -> vec) (f : nat -> R) (els : list (list nat)) (s : sums)
  : result sums :=
  match els with
  | [] => Ok s
  | e :: els => bind (add_element N nodes f s e) (add_elements N nodes f els)
  end.

(* u:54-79  gradient; None is the row of nan left at a node of no element (0 / 0) *)
Definition gradient (N : nat) (nodes : nat -> vec) (els : list (list nat)) (f : nat -> R)
  : result (nat -> option vec) :=
  bind (add_elements N nodes f els (mkSums (fun _ => 0) (fun _ => 0) (fun _ => 0%nat))) (fun s =>
    Ok (fun n => if (norm s n =? 0)%nat then None
                 else Some (fun k => match k with
                                     | 0%nat => sum_x s n / INR (norm s n)
                                     | _ => sum_y s n / INR (norm s n)
                                     end))).

(* u:82-84  grad_u[n, c, k]: derivative k of component c; field n c is the value of component c
   at node n *)
Definition gradients (N : nat) (nodes : nat -> vec) (els : list (list nat)) (field : nat -> vec)
  : result (nat -> option (nat -> vec)) :=
  bind (gradient N nodes els (fun n => field n 0%nat)) (fun gx =>
  bind (gradient N nodes els (fun n => field n 1%nat)) (fun gy =>
    Ok (fun n => match gx n, gy n with
                 | Some x, Some y => Some (fun c => match c with 0%nat => x | _ => y end)
                 | _, _ => None
                 end))).

(* u:86-94 (and 100-108, 127-135)  stress of one kind at one node *)
Definition isotropic_stress (m l : R) (G : nat -> vec) : mat := fun i j =>
  match i, j with
  | 0%nat, 0%nat => 2 * m * G 0%nat 0%nat + l * (G 0%nat 0%nat + G 1%nat 1%nat)
  | S _, S _ => 2 * m * G 1%nat 1%nat + l * (G 0%nat 0%nat + G 1%nat 1%nat)
  | _, _ => m * (G 0%nat 1%nat + G 1%nat 0%nat)
  end.

(* rows of nan absorb whatever is added *)
Definition add_rows (a b : option mat) : option mat :=
  match a, b with Some A, Some B => Some (fun i j => A i j + B i j) | _, _ => None end.

(* u:82-109  viscoelastic_constitutive_law *)
Definition viscoelastic_constitutive_law (mu la th ze : R) (N : nat) (nodes : nat -> vec)
    (els : list (list nat)) (displacement velocity : nat -> vec) : result (nat -> option mat) :=
  bind (gradients N nodes els displacement) (fun grad_u =>
  bind (gradients N nodes els velocity) (fun grad_v =>
    Ok (fun n => add_rows (option_map (isotropic_stress mu la) (grad_u n))
                          (option_map (isotropic_stress th ze) (grad_v n))))).

(* u:112-146  elastic_relaxation_constitutive_law; [relaxation t i j k] is
   setup.relaxation(t)[i, j, k]; += on zeros is = *)
Definition elastic_relaxation_constitutive_law (mu la : R) (relaxation : R -> nat -> nat -> nat -> R)
    (N : nat) (nodes : nat -> vec) (els : list (list nat)) (displacement absement : nat -> vec) (time : R)
  : result (nat -> option mat) :=
  bind (gradients N nodes els displacement) (fun grad_u =>
    let rlx_coef := relaxation time 1%nat 0%nat 1%nat in
    bind (gradients N nodes els absement) (fun grad_v =>
    Ok (fun n => add_rows (option_map (isotropic_stress mu la) (grad_u n))
                          (option_map (fun G => fun i j =>
                             match i, j with
                             | 0%nat, 0%nat => 2 * rlx_coef * G 0%nat 0%nat
                             | S _, S _ => 2 * rlx_coef * G 1%nat 1%nat
                             | _, _ => rlx_coef * (G 0%nat 1%nat + G 1%nat 0%nat)
                             end) (grad_v n))))).

(* state/state.py:72-74  stress_norm at one node (Frobenius norm) *)
Definition stress_norm (s : mat) : R :=
  sqrt (sum 2 (fun i => sum 2 (fun j => s i j * s i j))).
(* state/state.py:76-82  stress_x, stress_y at one node *)
Definition stress_x (s : mat) : R := s 0%nat 0%nat.
Definition stress_y (s : mat) : R := s 1%nat 1%nat.

(* plotting/drawer.py:265-282  draw_stress: the arrows of the nodes [contact] (list of a set, in
   some order), as pairs of tail and vector; no arrow at all if every vector vanishes or when the
   scale is zero *)
Definition draw_stress (scale : R) (displaced : nat -> vec) (stress : nat -> mat) (contact : list nat)
  : list ((R * R) * (R * R)) :=
  if Req_EM_T scale 0 then []
  else
    let v := map (fun n => (0, - stress_y (stress n))) contact in
    if existsb (fun p => if Req_EM_T (fst p) 0 then false else true) v
       || existsb (fun p => if Req_EM_T (snd p) 0 then false else true) v
    then combine (map (fun n => (displaced n 0%nat, displaced n 1%nat)) contact) v
    else [].
