(* Model of examples/error_estimates.py (ee) lines 14-74, 93-122: the distance of a solution from a reference.
   Floating point numbers are real numbers; arrays with one row per node are functions of the node number.
   Left out: reading the pickled states. *)
From Coq Require Import Reals List Arith Bool.
From Verif Require Import RVec PyModel StressModel.
Import ListNotations.
Local Open Scope R_scope.

(* ee:20-22  tri.LinearTriInterpolator: the value at a point, None where it is masked (outside all triangles of the
   solution); .compressed() makes an array of one or no entry of it *)
Definition interpolator := R -> R -> option R.

(* ee:28-69  the term of one element, None for an array without entries: (0,) arrays absorb the others.
   ee:77-90 is a copy of examples/utils.py:39-51, StressModel.calculate_dx_dy; the gradients of the reference are
   computed first, so that a zero divisor raises there *)
Definition element_error (N : nat) (nodes u : nat -> vec) (u1hi u2hi : interpolator) (e : list nat) : result (option R) :=
  match e with
  | i :: j :: k :: _ =>
      if ((i <? N) && (j <? N) && (k <? N))%nat then
        let x0 := nodes i in
        let x1 := nodes j in
        let x2 := nodes k in
        let u1 := u i 0%nat + u j 0%nat + u k 0%nat in
        let u2 := u i 1%nat + u j 1%nat + u k 1%nat in
        bind (calculate_dx_dy x0 (u i 0%nat) x1 (u j 0%nat) x2 (u k 0%nat)) (fun '(u1dx, u1dy) =>
        bind (calculate_dx_dy x0 (u i 1%nat) x1 (u j 1%nat) x2 (u k 1%nat)) (fun '(u2dx, u2dy) =>
        match u1hi (x0 0%nat) (x0 1%nat), u1hi (x1 0%nat) (x1 1%nat), u1hi (x2 0%nat) (x2 1%nat),
              u2hi (x0 0%nat) (x0 1%nat), u2hi (x1 0%nat) (x1 1%nat), u2hi (x2 0%nat) (x2 1%nat) with
        | Some a0, Some a1, Some a2, Some b0, Some b1, Some b2 =>
            bind (calculate_dx_dy x0 a0 x1 a1 x2 a2) (fun '(u1hdx, u1hdy) =>
            bind (calculate_dx_dy x0 b0 x1 b1 x2 b2) (fun '(u2hdx, u2hdy) =>
            let u1h := a0 + a1 + a2 in
            let u2h := b0 + b1 + b2 in
            Ok (Some (sqrt ((u1 - u1h) ^ 2 + (u2 - u2h) ^ 2 + (u1dx - u1hdx) ^ 2 + (u2dy - u2hdy) ^ 2
                            + (u1dy - u1hdy + u2dx - u2hdx) ^ 2)))))
        | _, _, _, _, _, _ => Ok None
        end))
      else Err IndexError
  | _ => Err IndexError
  end.

(* ee:15  ut: the number 0 before the first element, then an array of one or no entry *)
Inductive amount := Start | Number (r : R) | Empty.

(* ee:63  ut += ...: an array of one entry cannot take an array without entries; one without entries stays as it is *)
Definition add_error (t : amount) (x : option R) : result amount :=
  match t, x with
  | Start, Some r => Ok (Number (0 + r))
  | Start, None => Ok Empty
  | Number a, Some r => Ok (Number (a + r))
  | Number _, None => Err ValueError
  | Empty, _ => Ok Empty
  end.

(* ee:27-73  the loop *)
Fixpoint add_errors (N : nat) (nodes u : nat -> vec) (u1hi u2hi : interpolator) (els : list (list nat)) (t : amount) : result amount :=
  match els with
  | [] => Ok t
  | e :: els =>
      bind (element_error N nodes u u1hi u2hi e) (fun x =>
      bind (add_error t x) (add_errors N nodes u u1hi u2hi els))
  end.

(* ee:14-74  compare; its second value is always 0 *)
Definition compare (N : nat) (nodes u : nat -> vec) (els : list (list nat)) (u1hi u2hi : interpolator) : result (amount * R) :=
  bind (add_errors N nodes u u1hi u2hi els Start) (fun ut => Ok (ut, 0)).

(* ee:103-119  error_estimates: the entry of one argument *)
Definition estimate (N : nat) (nodes u : nat -> vec) (els : list (list nat)) (u1hi u2hi : interpolator) : result amount :=
  bind (compare N nodes u els u1hi u2hi) (fun '(ut, _) =>
  match ut with
  | Start => Err ZeroDivision
  | Number r => Ok (Number (r / INR (List.length els)))
  | Empty => Ok Empty
  end).
