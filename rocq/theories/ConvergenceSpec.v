(* Specification of the motion of a body in continuous time (C106), which the steps of a run approximate. *)
From Coq Require Import Reals List Arith.
From Verif Require Import RVec MeshModel MeshBuildModel NormalsModel ProblemModel ProblemSpec StateModel.
Local Open Scope R_scope.

(* between the times 0 and T the first [size] components of f have the derivatives f' *)
Definition derives (size : nat) (T : R) (f f' : R -> vec) : Prop :=
  forall i t, (i < size)%nat -> 0 <= t <= T -> derivable_pt_lim (fun s => f s i) t (f' t i).
(* ... and f does not change faster than B *)
Definition paced (size : nat) (T B : R) (f : R -> vec) : Prop :=
  forall i s t, (i < size)%nat -> 0 <= s <= t -> t <= T -> Rabs (f s i - f t i) <= B * (t - s).
Definition paced_load (T L : R) (f : P2 -> R -> vec) : Prop :=
  forall p k s t, 0 <= s <= t -> t <= T -> Rabs (f p s k - f p t k) <= L * (t - s).

Section Motions.
  Variables (m : @MeshData P2 vec) (id : P2 -> bool) (g : P2 -> R) (fi fo : P2 -> R -> vec) (T : R).
  (* at every time the velocity has the prescribed values and the forces balance; U, V, A: displacement,
     velocity and acceleration *)
  Definition true_motion (rho th ze mu la : R) (U V A : R -> vec) : Prop := forall t, 0 <= t <= T ->
    takes m id 2 g (V t) /\ moves coord2 zero2 m id rho th ze mu la (fun p => fi p t) (fun p => fo p t) (A t) (V t) (U t).
  Definition true_flow (th ze mu la : R) (U V : R -> vec) : Prop := forall t, 0 <= t <= T ->
    takes m id 2 g (V t) /\ flows coord2 zero2 m id th ze mu la (fun p => fi p t) (fun p => fo p t) (V t) (U t).
  Definition true_swing (rho c : R) (U V A : R -> vec) : Prop := forall t, 0 <= t <= T ->
    takes m id 1 g (V t) /\ swings coord2 zero2 m id rho c (fun p => fi p t) (fun p => fo p t) (A t) (U t).
End Motions.

(* a state differs by at most e from the displacement U and the velocity V of its time *)
Definition within (size : nat) (e : R) (U V : R -> vec) (w : view) : Prop := forall i, (i < size)%nat ->
  Rabs (view_displacement w i - U (view_time w) i) <= e /\ Rabs (view_velocity w i - V (view_time w) i) <= e.

(* the problem with another time step *)
Definition with_step (pb : problem) (h : R) : problem :=
  mkProblem (pr_nodes pb) (pr_elements pb) (pr_boundaries pb) (pr_width pb) (pr_inner pb) (pr_outer pb) (pr_heat pb) (Some h) (pr_material pb) (pr_relaxation pb).
