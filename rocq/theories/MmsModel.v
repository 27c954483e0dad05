(* Model of examples/example_manufactured_solution.py (e) lines 33-203: the manufactured solution
   with its data, and the error measures.  Floating point numbers are real numbers; decimal
   constants are exact. *)
From Coq Require Import Reals List Arith Bool.
From Verif Require Import RVec ContactModel.
Import ListNotations.
Local Open Scope R_scope.

(* e:33-48  constants *)
Definition H : R := 1.
Definition W : R := 2.
Definition ALPHA : R := 5 / 100.
Definition E : R := 12000.
Definition NU : R := 42 / 100.
Definition LAMBDA : R := E * NU / ((1 + NU) * (1 - 2 * NU)).
Definition MU : R := E / (2 * (1 + NU)).
Definition C_N_MATCHED : R := LAMBDA + 2 * MU.

(* e:51-64  solution, one row *)
Definition solution (x : vec) : vec := fun c =>
  match c with
  | 0%nat => ALPHA * (2 * x 0%nat * x 1%nat + x 0%nat * (x 1%nat * x 1%nat))
  | _ => - ALPHA * (x 0%nat * x 0%nat) * (1 + x 1%nat)
  end.

(* e:67-96  make_linear_contact_law *)
Definition linear_potential (stiffness var_nu : R) : R :=
  if leb var_nu 0 then 0 else (1 / 2) * stiffness * (var_nu * var_nu).
Definition linear_subderivative (stiffness var_nu : R) : R :=
  if leb var_nu 0 then 0 else stiffness * var_nu.

(* e:105-117  inner_forces *)
Definition inner_forces (x : vec) : vec := fun c =>
  match c with
  | 0%nat => 2 * LAMBDA * ALPHA * x 0%nat
  | _ => - 2 * LAMBDA * ALPHA * (1 + x 1%nat)
  end.

(* e:119-146  outer_forces *)
Definition outer_forces (x : vec) : vec := fun c =>
  let X := x 0%nat in
  let Y := x 1%nat in
  let eps_xx := ALPHA * (2 * Y + Y * Y) in
  let eps_yy := - ALPHA * (X * X) in
  let right := ltb (W - 1 / 1000) X in
  let top := ltb (H - 1 / 1000) Y in
  let r0 := if right then 0 + ((LAMBDA + 2 * MU) * eps_xx + LAMBDA * eps_yy) else 0 in
  let r1 := if top then 0 + (LAMBDA * eps_xx + (LAMBDA + 2 * MU) * eps_yy) else 0 in
  let r := match c with 0%nat => r0 | _ => r1 end in
  if right && top then r / 2 else r.

(* e:148-150  boundaries *)
Definition contact (x : vec) : Prop := x 1%nat = 0.
Definition dirichlet (x : vec) : Prop := x 0%nat = 0.

(* e:153-166  area of one element *)
Definition mms_area (nodes : nat -> vec) (e : list nat) : R :=
  let p k := nodes (nth k e 0%nat) in
  (1 / 2) * Rabs ((p 1%nat 0%nat - p 0%nat 0%nat) * (p 2%nat 1%nat - p 0%nat 1%nat)
                  - (p 2%nat 0%nat - p 0%nat 0%nat) * (p 1%nat 1%nat - p 0%nat 1%nat)).

(* e:156-185  element_integrals[i]; diff n c = exact - approximate value of component c at node n *)
Definition element_integral (nodes : nat -> vec) (diff : nat -> vec) (e : list nat) : R :=
  let d k := diff (nth k e 0%nat) in
  let dot a b := sum 2 (fun c => d a c * d b c) in
  (mms_area nodes e / 6) * (dot 0%nat 0%nat + dot 1%nat 1%nat + dot 2%nat 2%nat + dot 0%nat 1%nat + dot 1%nat 2%nat
                            + dot 2%nat 0%nat).

(* e:187  total_l2_norm *)
Definition total_l2_norm (els : list (list nat)) (nodes exact approx : nat -> vec) : R :=
  sqrt (lsum els (element_integral nodes (fun n c => exact n c - approx n c))).

(* np.add.at(target, elements.ravel(), np.repeat(values, 3)) at entry n: every occurrence of n *)
Definition add_at (els : list (list nat)) (value : list nat -> R) (n : nat) : R :=
  lsum els (fun e => lsum e (fun m => if (m =? n)%nat then value e else 0)).

(* e:189-201  node_l2_errors at node n *)
Definition node_l2_error (els : list (list nat)) (nodes exact approx : nat -> vec) (n : nat) : R :=
  let sq := add_at els (element_integral nodes (fun n c => exact n c - approx n c)) n in
  let area := add_at els (fun e => mms_area nodes e / 3) n in
  let area := if Req_EM_T area 0 then 1 else area in
  sqrt (sq / area).
