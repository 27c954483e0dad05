(* Specification of the creep of a body with memory in continuous time (C109). *)
From Coq Require Import Reals List Arith.
From Verif Require Import RVec MeshModel MeshBuildModel NormalsModel StatementModel ProblemModel ProblemSpec StateModel ConvergenceSpec.
Local Open Scope R_scope.

(* at every time the displacement U has the prescribed values, and the elastic stresses of U with the
   stresses that the coefficients C of the time give to the absement Ab balance the loads of the time *)
Definition true_creep (m : @MeshData P2 vec) (id : P2 -> bool) (g : P2 -> R) (fi fo : P2 -> R -> vec) (T mu la : R) (C : R -> tensor)
    (Ab U : R -> vec) : Prop := forall t, 0 <= t <= T ->
  takes m id 2 g (U t) /\ creeps coord2 zero2 m id mu la (C t) (fun p => fi p t) (fun p => fo p t) (Ab t) (U t).

(* coefficients that do not change faster than D *)
Definition paced_tensor (T D : R) (C : R -> tensor) : Prop :=
  forall i j k s t, 0 <= s <= t -> t <= T -> Rabs (C s i j k - C t i j k) <= D * (t - s).

(* a state differs by at most e from the absement Ab and the displacement U of its time *)
Definition within_creep (size : nat) (e : R) (Ab U : R -> vec) (w : view) : Prop := forall i, (i < size)%nat ->
  Rabs (view_absement w i - Ab (view_time w) i) <= e /\ Rabs (view_displacement w i - U (view_time w) i) <= e.

(* the coefficients whose stresses are [rate] times the elastic ones *)
Definition proportional (rate mu la : R) : tensor := fun i j k =>
  rate * match i, j, k with
         | O, O, O | S O, S O, S O => 2 * mu + la
         | O, S O, S O | S O, O, O | O, S O, O | S O, O, S O => mu
         | _, _, _ => la
         end.
