(* Model of the contact laws defined in examples/.  Floating point numbers are real numbers and
   decimal constants are exact; static_displacement and dt are dropped where a law ignores them. *)
From Coq Require Import Reals List Arith Bool String.
From Verif Require Import RVec PyModel ContactModel.
Import ListNotations.
Local Open Scope R_scope.

(* ---- BartmanSzwarc_Bagirrov_Ochal_2025.py (b) ---- *)

(* b:61-119  class Composite: the three functions of the normal direction.  A subderivative of None
   is Python's None, returned if the loop of b:100-102 ends without a return *)
Record composite : Type := {
  composite_potential : R -> result R;
  composite_subderivative : R -> option R;
  composite_sub2derivative : R -> R }.

Section Composite.
  Variable layers : list R.
  Variable alpha beta : R -> R.

  (* len(layers) *)
  Definition L : nat := List.length layers.
  Definition lay (n : nat) : R := nth n layers 0.
  (* b:46 *)
  Definition alphas (n : nat) : R := alpha (lay n).
  (* b:47-48 *)
  Definition betas (n : nat) : R := match n with 0%nat => 0 | _ => beta (lay n) end.
  (* b:49-54 *)
  Definition integ (n : nat) : R := (1 / 2) * (lay (S n) - lay n) * (betas (S n) + alphas n).
  (* b:55  cumsum *)
  Definition cumm (n : nat) : R := sum (S n) integ.
  (* b:56-58; layers that repeat give nan in Python, the theorems exclude them *)
  Definition slope (n : nat) : R := (betas (S n) - alphas n) / (lay (S n) - lay n).
  (* b:59 *)
  Definition const (n : nat) : R := alphas n - lay n * slope n.

  (* b:77-89  the loop over range(len(layers)) with its else branch *)
  Fixpoint potential_loop (v : R) (ns : list nat) : result R :=
    match ns with
    | [] => if (L <=? 1)%nat then Err IndexError
            else Ok (cumm (L - 2) + alphas (L - 1) * (v - lay (L - 1)))
    | n :: ns =>
        if ltb (lay n) v then potential_loop v ns
        else Ok ((if (1 <? n)%nat then 0 + cumm (n - 2) else 0)
                 + (1 / 2) * (v - lay (n - 1)) * (v * slope (n - 1) + const (n - 1) + alphas (n - 1)))
    end.

  (* b:70-90  potential_normal_direction *)
  Definition potential_normal (v : R) : result R :=
    if leb v (lay 0) then Ok 0 else potential_loop v (seq 0 L).

  (* b:100-102 *)
  Fixpoint subderivative_loop (v : R) (ns : list nat) : option R :=
    match ns with
    | [] => None
    | n :: ns => if leb v (lay (S n)) then Some (v * slope n + const n) else subderivative_loop v ns
    end.

  (* b:92-102  subderivative_normal_direction *)
  Definition subderivative_normal (v : R) : option R :=
    if leb v (lay 0) then Some 0
    else if ltb (lay (L - 1)) v then Some (alphas (L - 1))
    else subderivative_loop v (seq 0 (L - 1)).

  (* b:111-118 *)
  Fixpoint sub2derivative_loop (v acc : R) (ns : list nat) : R :=
    match ns with
    | [] => acc
    | n :: ns =>
        if leb (lay n) v then
          let acc := acc + Rmax 0 (betas n - alphas n) in
          let acc := if (0 <? n)%nat then acc + Rmax 0 (alphas (n - 1) - betas n) else acc in
          sub2derivative_loop v acc ns
        else acc + Rmax 0 (- slope (n - 1)) * (v - lay (n - 1))
    end.

  (* b:104-119  sub2derivative_normal_direction *)
  Definition sub2derivative_normal (v : R) : R :=
    if leb v (lay 0) then 0 else sub2derivative_loop v 0 (seq 0 L).

  (* b:45-121  make_composite_contact_law; betas[0] = 0 fails without layers *)
  Definition make_composite_contact_law : result composite :=
    match layers with
    | [] => Err IndexError
    | _ => Ok {| composite_potential := potential_normal;
                 composite_subderivative := subderivative_normal;
                 composite_sub2derivative := sub2derivative_normal |}
    end.
End Composite.

(* b:64-68, Makela_et_al_1998.py:104-107, Jureczka_Ochal_2019.py:42-45
   potential_tangential_direction, a tangential vector with d entries *)
Definition log_potential (d : nat) (tau : vec) : R := ln (sqrt (sum d (fun i => tau i * tau i)) + 1).

(* ---- Makela_et_al_1998.py (m) ---- *)
(* m:36-45 *)
Definition kN : R := 1000.
Definition mm : R := 1 / 1000.
Definition surface : R := 5 * mm * 80 * mm.
Definition k0 : R := 30000000 * kN * surface.
Definition k10 : R := 10000000 * kN * surface.
Definition k11 : R := 10000 * kN * surface.
Definition k20 : R := 5000000 * kN * surface.
Definition k21 : R := 5000 * kN * surface.

(* m:49-62  potential_normal_direction *)
Definition mmlv_potential (var_nu : R) : R :=
  let u := - var_nu in
  if leb u 0 then 0
  else if ltb u (5 / 10 * mm) then k0 * (u * u)
  else if ltb u (1 * mm) then k10 * (u * u) + k11 * u
  else if ltb u (2 * mm) then k20 * (u * u) + k21 * u + 4
  else 16.

(* m:64-77  subderivative_normal_direction *)
Definition mmlv_subderivative (var_nu : R) : R :=
  let u := - var_nu in
  if leb u 0 then 0
  else if ltb u (5 / 10 * mm) then k0 * u * 2
  else if ltb u (1 * mm) then k10 * (u * 2) + k11
  else if ltb u (2 * mm) then k20 * (u * 2) + k21
  else 0.

(* m:79-101  sub2derivative_normal_direction *)
Definition mmlv_sub2derivative (var_nu : R) : R :=
  let u := - var_nu in
  let p1 := 5 / 10 * mm in
  let p2 := 1 * mm in
  let p3 := 2 * mm in
  let acc := 0 in
  if leb u p1 then acc
  else
    let acc := acc + (k0 * p1 * 2 - (k10 * (p1 * 2) + k11)) in
    if ltb u p2 then acc
    else
      let acc := acc + (k10 * (p2 * 2) + k11 - (k20 * (p2 * 2) + k21)) in
      if ltb u p3 then acc
      else acc + (k20 * (p3 * 2) + k21 - 0).

(* m:109-117  subderivative_tangential_direction *)
Definition mmlv_tangential (d : nat) (tau : vec) : vec :=
  let quadsum := sum d (fun i => tau i * tau i) in
  let norm := sqrt quadsum in
  let denom := norm + quadsum in
  let coef := if Req_EM_T denom 0 then 0 else 1 / denom in
  fun i => tau i * coef.

(* ---- BartmanSzwarc_Ochal_Tarzia_2026.py (t) ---- *)
(* t:23 *)
Definition B_COEF : R := 5.

(* t:60-72  potential_normal_direction *)
Definition tarzia_potential (slope r : R) : R :=
  (if ltb r B_COEF then (r - B_COEF) * (r - B_COEF) else 2 * ln (r - B_COEF + 1)) * slope.

(* t:74-86  subderivative_normal_direction *)
Definition tarzia_subderivative (slope r : R) : R :=
  (if ltb r B_COEF then r - B_COEF else 1 / (r - B_COEF + 1)) * slope.

(* ---- Jureczka_Ochal_2019.py (j) ---- *)
(* j:32-40  potential_normal_direction *)
Definition jo2019_potential (var_nu : R) : R :=
  if leb var_nu 0 then 0 else if ltb var_nu (1 / 10) then 10 * var_nu * var_nu else 1 / 10.

(* j:48-54  tangential_bound *)
Definition jo2019_bound (static_displacement_nu : R) : R :=
  if ltb static_displacement_nu 0 then 0
  else if ltb static_displacement_nu (1 / 10) then 8 * static_displacement_nu else 8 / 10.

(* ---- Jureczka_Ochal_Bartman_2023.py (k) ---- *)
(* k:26-34  tangential_bound *)
Definition job2023_bound (friction_bound var_nu : R) : R :=
  let b := 1 / 10 in
  if leb var_nu 0 then 0 else if ltb var_nu b then friction_bound * var_nu else friction_bound * b.

(* k:36-44  potential_normal_direction *)
Definition job2023_potential (limit_value limit var_nu : R) : R :=
  if leb var_nu 0 then 0 else if ltb var_nu limit then limit_value * var_nu else limit_value * limit.

(* k:46-53  potential_tangential_direction *)
Definition job2023_tangential (d : nat) (tau : vec) : R :=
  let norm := sqrt (sum d (fun i => tau i * tau i)) in
  - (3 / 10) * exp (- norm) + 7 / 10 * norm.

(* ---- BartmanSzwarc_Ochal_Sofonea_Tarzia_2025.py (s) ---- *)
(* s:34 *)
Definition GAP : R := 0.

(* s:81-94  potential_normal_direction, EXAMPLE 10 *)
Definition bost_potential (ig var_nu : R) : R :=
  let v := var_nu - GAP in
  let a := 1 / 10 in
  let b := 1 / 10 in
  ig * (if leb v 0 then 0
        else if ltb v b then (a + exp (- b)) / (2 * b) * (v * v)
        else a * v - exp (- v) + ((b + 2) * exp (- b) - a * b) / 2).
