(* Model of examples/BartmanSzwarc_Ochal_Tarzia_2026.py (bot) 139-191 _relative_temperature_error and 402-412
   compute_rates. Floating point numbers are real numbers; arrays with one entry per node are functions of the node
   number. Left out: the format of the rates. *)
From Coq Require Import Reals List Arith Bool.
From Verif Require Import RVec PyModel.
Import ListNotations.
Local Open Scope R_scope.

(* bot:150-157  griddata at the nodes of the reference: linear interpolation, None for nan, there the nearest value *)
Definition interpolated (linear : nat -> option R) (near : nat -> R) (i : nat) : R :=
  match linear i with Some v => v | None => near i end.

(* bot:173-189  the loop over the triangles *)
Fixpoint add_squares (N : nat) (nodes : nat -> vec) (diff : nat -> R) (els : list (list nat)) (l2_sq : R) : result R :=
  match els with
  | [] => Ok l2_sq
  | (i :: j :: k :: _) :: els =>
      if ((i <? N) && (j <? N) && (k <? N))%nat then
        let xi := nodes i in
        let xj := nodes j in
        let xk := nodes k in
        let area := 1 / 2 * Rabs ((xj 0%nat - xi 0%nat) * (xk 1%nat - xi 1%nat) - (xk 0%nat - xi 0%nat) * (xj 1%nat - xi 1%nat)) in
        let mloc_factor := area / 12 in
        let a0 := diff i in
        let a1 := diff j in
        let a2 := diff k in
        let contrib := mloc_factor * (2 * (a0 * a0 + a1 * a1 + a2 * a2) + 2 * (a0 * a1 + a0 * a2 + a1 * a2)) in
        add_squares N nodes diff els (l2_sq + contrib)
      else Err IndexError
  | _ :: _ => Err IndexError
  end.

(* bot:139-191  _relative_temperature_error: nodes, elements and values of the reference *)
Definition temperature_error (N : nat) (nodes : nat -> vec) (els : list (list nat)) (ref : nat -> R)
    (linear : nat -> option R) (near : nat -> R) : result R :=
  let diff := fun i => ref i - interpolated linear near i in
  match els with
  | [] => Ok (sqrt (sum N (fun i => diff i * diff i)))
  | _ => bind (add_squares N nodes diff els 0) (fun l2_sq => Ok (sqrt (Rmax l2_sq 0)))
  end.

(* an entry of the table: "--", a number, or inf or nan from the division by log(1) *)
Inductive entry := Dash | Rate (r : R) | NotFinite.

(* bot:404-411  one round of the loop *)
Definition rate_of (prev curr : R * R) : entry :=
  let '(h_prev, e_prev) := prev in
  let '(h_curr, e_curr) := curr in
  if Rlt_dec 0 e_prev then
    if Rlt_dec 0 e_curr then
      if Req_EM_T (ln (h_prev / h_curr)) 0 then NotFinite
      else Rate (ln (e_prev / e_curr) / ln (h_prev / h_curr))
    else Dash
  else Dash.
Fixpoint rates_after (prev : R * R) (l : list (R * R)) : list entry :=
  match l with [] => [] | p :: l => rate_of prev p :: rates_after p l end.
(* bot:402-412  compute_rates; hs and errs have the same length, here a list of pairs *)
Definition compute_rates (l : list (R * R)) : list entry :=
  match l with [] => [Dash] | p :: l => Dash :: rates_after p l end.
