(* Specification of the limit of the passes of a coupled step (C105): energies in which their errors are
   measured, and how strongly the two fields are coupled. *)
From Coq Require Import Reals List Arith.
From Verif Require Import RVec MeshModel MeshBuildModel NormalsModel FemSpec ProblemSpec MethodModel ProblemModel StateModel CoupledProblemSpec.
Local Open Scope R_scope.

Section Energies.
  Variable m : @MeshData P2 vec.
  Notation inertia_work := (inertia_work coord2 zero2 m).
  Notation stress_work := (stress_work coord2 zero2 m None).
  Notation conduction_work := (conduction_work coord2 zero2 m).

  (* of velocities z *)
  Definition creep_energy (th ze mu la dt : R) (z : vec) (E : R) : Prop :=
    exists G, gradients coord2 zero2 m z G /\ E = stress_work th ze G G + dt * stress_work mu la G G.
  Definition motion_energy (rho th ze mu la dt : R) (z : vec) (E : R) : Prop :=
    exists G, gradients coord2 zero2 m z G /\ E = inertia_work 2 rho z z / dt + stress_work th ze G G + dt * stress_work mu la G G.
  (* of temperatures and potentials y *)
  Definition heat_energy (rho : R) (co : nat -> nat -> R) (dt : R) (y : vec) (E : R) : Prop :=
    exists G, gradient coord2 zero2 m y G /\ E = inertia_work 1 rho y y / dt + conduction_work co G G.
  Definition potential_energy (pm : nat -> nat -> R) (y : vec) (E : R) : Prop :=
    exists G, gradient coord2 zero2 m y G /\ E = conduction_work pm G G.
End Energies.

(* the power of the expansion is at most a multiple of that of the stresses *)
Definition expansion_bounded (ex : nat -> nat -> R) (th ze mu la dt ka : R) : Prop :=
  forall H : nat -> vec, (sum 2 (fun c => sum 2 (fun l => ex c l * H c l))) ^ 2 <=
    ka * (elastic_density 2 th ze H H + dt * elastic_density 2 mu la H H).
Definition piezo_bounded (pz : nat -> nat -> nat -> R) (pm : nat -> nat -> R) (th ze mu la dt ka : R) : Prop :=
  forall (G : vec) (H : nat -> vec), (sum 2 (fun c => sum 2 (fun k => sum 2 (fun l => pz c k l * (G k * H c l))))) ^ 2 <=
    ka * (elastic_density 2 th ze H H + dt * elastic_density 2 mu la H H) * sum 2 (fun k => sum 2 (fun l => pm k l * (G k * G l))).

(* two states show the same time and the same fields *)
Definition alike (size nodes : nat) (w w' : view) (extras extras' : list vec) : Prop :=
  view_time w = view_time w' /\ veq size (view_displacement w) (view_displacement w') /\ veq size (view_velocity w) (view_velocity w') /\
  Forall2 (veq nodes) extras extras'.
