(* Concrete cases for the theorems about the cross mesh. *)
From Coq Require Import Reals List Arith ZArith Bool String Lia Lra.
From Verif Require Import Common PyModel RVec MeshBuildModel MeshSpec MeshTotalProofs FemModel FemSpec FemFinalProofs
  StatementModel StatementSpec CrossModel CrossSpec CrossTheorems CrossBuiltProofs CrossFinalProofs.
Import ListNotations.
Local Open Scope string_scope.
Local Open Scope list_scope.
Local Open Scope R_scope.

(* a 5/2 by 1 plate cut into three cells by the bound 1 *)
Lemma plate_request : request (5 / 2) 1 1 3 1.
Proof.
  assert (S1 : steps 1 1 1).
  { split; [lia|]. split; [cbn; lra|]. intros [|m] H; [cbn in H; lra|lia]. }
  assert (S3 : steps (5 / 2) 1 3).
  { split; [lia|]. split; [cbn; lra|]. intros [|[|[|m]]] H; cbn in H; try lra. lia. }
  constructor; auto; cbn; lra.
Qed.

(* clamped on its left edge after placing it at (10, 20) *)
Definition near (c : R) (k : nat) (r : list R) : bool := if Req_EM_T (nth k r 0) c then true else false.
Definition plate_keywords : list (string * ((list R -> bool) * option (list (list R) -> vec))) :=
  [("contact", (near 20 1, None)); ("dirichlet", (near 10 0, None))].
Definition no_values : list (list R) -> vec := fun _ _ => 0.
Definition plate_description : @Description (list R) vec := make_description no_values plate_keywords.
Lemma plate_indicators : dict_get (indicators plate_description) "contact" = Some (near 20 1) /\
  dict_get (indicators plate_description) "dirichlet" = Some (near 10 0) /\
  dict_get (MeshBuildModel.conditions plate_description) "dirichlet" = Some no_values.
Proof. repeat split. Qed.
Lemma plate_mesh : exists m, cross_mesh [5 / 2; 1] 1 (Some [10; 20]) plate_description = Ok m.
Proof.
  apply (cross_mesh_total _ _ _ _ _ plate_request _ 10 20 no_values plate_keywords); [left; reflexivity|].
  constructor; [auto|]. constructor; [auto|constructor].
Qed.
Lemma plate_edge : outline 3 1 (5 / 2 / INR 3) (1 / INR 1) [0; INR 0 * (1 / INR 1)] [0; INR 1 * (1 / INR 1)] /\
  near 10 0 [0 + 10; INR 0 * (1 / INR 1) + 20] = true /\ near 10 0 [0 + 10; INR 1 * (1 / INR 1) + 20] = true.
Proof.
  split; [apply on_left; lia|]. unfold near. cbn [nth]. split; destruct (Req_EM_T _ _); auto; lra.
Qed.

Lemma tiny_request : 0 < 1 / 100000 /\ 0 < 1 /\ steps (1 / 100000) 1 1 /\ 1 / 100000 + 1 / 100000 < tolerance.
Proof.
  split; [lra|]. split; [lra|]. split; [|unfold tolerance; lra]. split; [lia|]. split; [cbn; lra|].
  intros [|m] H; [cbn in H; lra|lia].
Qed.
