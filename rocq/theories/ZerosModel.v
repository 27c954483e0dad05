(* Model of the products that look at a vertical line through a plane mesh.
   Sources: /repo/conmech/state/products/intersection_contact_limit_points.py (cited lp:),
   /repo/conmech/state/products/verticalintersection.py (vi:).
   Simplifications: real numbers instead of doubles. *)
From Coq Require Import Reals R_Ifp List Arith ZArith Bool.
From Verif Require Import PyModel RVec.
Import ListNotations.
Local Open Scope R_scope.

(* a number or masked (outside of the mesh); comparisons with a masked value are false *)
Definition value := option R.
Definition below (v : value) : bool := match v with Some a => if Rlt_dec a 0 then true else false | None => false end.
Definition above (v : value) : bool := match v with Some a => if Rlt_dec 0 a then true else false | None => false end.
Definition equal_zero (v : value) : bool := match v with Some a => if Req_EM_T a 0 then true else false | None => false end.
(* np.sign *)
Definition sign_of (v : value) : value :=
  match v with
  | Some a => Some (if Rlt_dec a 0 then -1 else if Rlt_dec 0 a then 1 else 0)
  | None => None
  end.

Section Zeros.
  (* opt.brentq *)
  Variable brentq : (R -> value) -> R -> R -> result R.
  Variable func : R -> value.
  Variables xmax step : R.

  (* lp:59-66  the loop; None: still running after [fuel] rounds *)
  Fixpoint search (fuel : nat) (x : R) (sign : value) (zeros : list R) : option (result (list R)) :=
    match fuel with
    | 0%nat => None
    | S fuel =>
        if Rle_dec x xmax then
          let f_x := func x in
          let appended :=
            if equal_zero f_x then Ok (zeros ++ [x])
            else if (below f_x && above sign) || (above f_x && below sign)
            then bind (brentq func (x - step) x) (fun r => Ok (zeros ++ [r]))
            else Ok zeros in
          match appended with
          | Ok zeros => search fuel (x + step) (sign_of f_x) zeros
          | Err e => Some (Err e)
          end
        else Some (Ok zeros)
    end.

  (* lp:55-67  estimate_zeros *)
  Definition estimate_zeros (fuel : nat) (xmin : R) : option (result (list R)) :=
    search fuel xmin (sign_of (func xmin)) [].
End Zeros.

(* ------------------------------------------------------------- interpolation *)

(* tri.LinearTriInterpolator: [finder] gives a triangle with the point in it, if there is one; the
   value is that of the plane through the three corner values *)
Definition plane (p : nat -> vec) (z : nat -> R) (x y : R) : R :=
  let det := (p 1%nat 0%nat - p 0%nat 0%nat) * (p 2%nat 1%nat - p 0%nat 1%nat)
           - (p 2%nat 0%nat - p 0%nat 0%nat) * (p 1%nat 1%nat - p 0%nat 1%nat) in
  let b := ((x - p 0%nat 0%nat) * (p 2%nat 1%nat - p 0%nat 1%nat)
          - (p 2%nat 0%nat - p 0%nat 0%nat) * (y - p 0%nat 1%nat)) / det in
  let c := ((p 1%nat 0%nat - p 0%nat 0%nat) * (y - p 0%nat 1%nat)
          - (x - p 0%nat 0%nat) * (p 1%nat 1%nat - p 0%nat 1%nat)) / det in
  (1 - b - c) * z 0%nat + b * z 1%nat + c * z 2%nat.
Definition interpolator (finder : R -> R -> option (list nat)) (nodes : nat -> vec) (field : vec) (x y : R) : value :=
  match finder x y with
  | Some e => Some (plane (fun i => nodes (nth i e 0%nat)) (fun i => field (nth i e 0%nat)) x y)
  | None => None
  end.

(* np.min(nodes[:, 1]), np.max(nodes[:, 1]) *)
Fixpoint extreme (better : R -> R -> R) (n : nat) (f : nat -> R) : result R :=
  match n with
  | 0%nat => Err ValueError
  | S n => match extreme better n f with
           | Ok m => Ok (better m (f n))
           | Err _ => Ok (f n)
           end
  end.
(* len(nodes) ** -1 / 2 *)
Definition step_of (n : nat) : R := / INR n / 2.
(* value - number *)
Definition minus (v : value) (c : R) : value := option_map (fun a => a - c) v.

Section Products.
  Variable brentq : (R -> value) -> R -> R -> result R.
  (* the mesh: dimension, nodes, and the triangle finder made from its elements *)
  Variables (dimension n : nat) (nodes : nat -> vec) (finder : R -> R -> option (list nat)).
  Variable level : R.

  (* lp:34-43 with lp:45-52  VerticalIntersectionContactLimitPoints.update: what is stored under the
     time; [field]: displacement[:, 0] *)
  Definition limit_points (obstacle_level : R) (field : vec) (fuel : nat) : option (result (list R)) :=
    match extreme Rmin n (fun i => nodes i 1%nat), extreme Rmax n (fun i => nodes i 1%nat) with
    | Ok y_min, Ok y_max =>
        if (dimension =? 2)%nat then
          estimate_zeros brentq (fun y => minus (interpolator finder nodes field level y) obstacle_level)
            y_max (step_of n) fuel y_min
        else Some (Err AssertionError)
    | _, _ => Some (Err ValueError)
    end.

  (* np.linspace(a, b, k) *)
  Definition linspace (a b : R) (k : nat) : list R :=
    match k with
    | 0%nat => []
    | 1%nat => [a]
    | S d => map (fun i => a + INR i * ((b - a) / INR d)) (seq 0 k)
    end.
  (* vi:31-42  VerticalIntersection.update *)
  Definition intersection (field : vec) : result (list R * list value) :=
    match extreme Rmin n (fun i => nodes i 1%nat), extreme Rmax n (fun i => nodes i 1%nat) with
    | Ok y_min, Ok y_max =>
        let space := linspace y_min y_max (Z.to_nat (Int_part ((y_max - y_min) / step_of n))) in
        Ok (space, map (fun y => interpolator finder nodes field level y) space)
    | _, _ => Err ValueError
    end.
End Products.
