(* One triangle, for the examples and the refutation of C115. *)
From Coq Require Import Reals List Arith Lia Lra.
From Verif Require Import RVec PyModel MeshSpec FemSpec RateModel RateSpec RateProofs.
Import ListNotations.
Local Open Scope R_scope.

(* the corners (0, 0), (1, 0), (0, 1) *)
Definition half_square : nat -> vec := fun n c => match n, c with 1%nat, 0%nat => 1 | 2%nat, 1%nat => 1 | _, _ => 0 end.
Lemma half_square_mesh : triangles 3 half_square [[0; 1; 2]%nat].
Proof.
  split; [repeat constructor|]. split; [repeat constructor|]. intros e [<-|[]]. unfold det_2d, corners, half_square. cbn. lra.
Qed.
Lemma not_relative : ~ forall N nodes els ref linear near c r r', triangles N nodes els -> els <> [] -> c <> 0 ->
  temperature_error N nodes els ref linear near = Ok r ->
  temperature_error N nodes els (fun i => c * ref i) (fun i => match linear i with Some v => Some (c * v) | None => None end) (fun i => c * near i) = Ok r' -> r' = r.
Proof.
  intros H. destruct half_square_mesh as (R & L & D). assert (NE : [[0; 1; 2]%nat] <> []) by discriminate.
  destruct (error_value 3 half_square [[0; 1; 2]%nat] (fun _ => 1) (fun _ => Some 0) (fun _ => 0) R L NE) as (Q & _ & E).
  assert (E2 := error_scales 3 half_square [[0; 1; 2]%nat] (fun _ => 1) (fun _ => Some 0) (fun _ => 0) 2 (sqrt Q) R L NE E).
  assert (X := H 3%nat half_square [[0; 1; 2]%nat] (fun _ => 1) (fun _ => Some 0) (fun _ => 0) 2 (sqrt Q) (Rabs 2 * sqrt Q) half_square_mesh NE ltac:(lra) E E2).
  rewrite Rabs_pos_eq in X by lra. assert (Z : sqrt Q = 0) by lra. rewrite Z in E.
  assert (W := proj1 (error_zero 3 half_square [[0; 1; 2]%nat] (fun _ => 1) (fun _ => Some 0) (fun _ => 0) half_square_mesh NE) E [0; 1; 2]%nat 0%nat (or_introl eq_refl) (or_introl eq_refl)).
  cbn in W. lra.
Qed.
Lemma order_example : order 3 2 [(1, 3 * Rpower 1 2); (1 / 2, 3 * Rpower (1 / 2) 2); (1 / 4, 3 * Rpower (1 / 4) 2)].
Proof.
  cbn [order]. split; [lra|]. split; [reflexivity|]. split; [intros q [<-|[<-|[]]]; cbn; lra|]. split; [lra|]. split; [reflexivity|]. split; [intros q [<-|[]]; cbn; lra|].
  split; [lra|]. split; [reflexivity|]. split; [intros q []|exact I].
Qed.
Lemma meaning_example : rate_of (1, 3 * Rpower 1 2) (1 / 2, 3 * Rpower (1 / 2) 2) = Rate 2.
Proof. assert (X := rates_order 3 2 ltac:(lra) _ _ order_example). cbn [rates_after List.length repeat] in X. injection X as X _. exact X. Qed.
