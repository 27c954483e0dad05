(* Which optimiser the keyword "method" asks for, and the feasible vectors of the constrained one. *)
From Coq Require Import Reals List Arith String.
From Verif Require Import RVec RegistrySpec OptimisationModel.
Import ListNotations.
Local Open Scope string_scope.

(* equal to, or beginning with, one of the names, regardless of case *)
Definition named (names : list string) (m : string) : Prop := exists n, In n names /\ same_name m n.
Definition begins (names : list string) (m : string) : Prop := exists n s t, In n names /\ m = s ++ t /\ same_name s n.

Definition adam_asked : string -> Prop := named ["adam"; "torch_adam"].
Definition secant_asked : string -> Prop :=
  named ["quasi secant method"; "limited memory quasi secant method"; "quasi secant method limited memory"; "qsm"; "qsmlm"].
Definition global_secant_asked : string -> Prop :=
  begins ["global quasi secant method"; "global limited memory quasi secant method"; "globqsm"].
Definition discontinuous_asked : string -> Prop := named ["discontinuous gradient"; "discontinuous gradient method"; "dg"].
Definition constrained_asked : string -> Prop := named ["constrained"].

(* the method of scipy and whether the subgradient is passed to it *)
Definition asks (m : string) (r : route) : Prop :=
  match r with
  | Adam => adam_asked m
  | QuasiSecant => secant_asked m
  | GlobalQuasiSecant nstep => nstep = 5%nat /\ global_secant_asked m
  | DiscontinuousGradient => discontinuous_asked m
  | Constrained => constrained_asked m
  | Scipy name true => m = "gradiented " ++ name
  | Scipy name false => name = m /\ ~ adam_asked m /\ ~ secant_asked m /\ ~ global_secant_asked m /\ ~ discontinuous_asked m /\
      ~ constrained_asked m /\ ~ exists s, m = "gradiented " ++ s
  end.

(* second components (of q nodes) of the first nc nodes not below 0 *)
Definition raised (q nc : nat) (x : vec) : Prop := forall i, (i < nc)%nat -> (0 <= x (q + i)%nat)%R.

(* no contact node moves along the outward normal n *)
Definition not_pressed (q nc : nat) (n : vec) (x : vec) : Prop :=
  forall i, (i < nc)%nat -> (x i * n 0%nat + x (q + i)%nat * n 1%nat <= 0)%R.
