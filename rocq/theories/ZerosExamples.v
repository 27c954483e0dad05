(* A triangle crossed by a line, for the theorems about products along a line. *)
From Coq Require Import Reals List Arith Bool Lia Lra.
From Verif Require Import PyModel RVec MeshSpec FemSpec ZerosModel ZerosSpec ZerosProofs ZerosMeshProofs.
Import ListNotations.
Local Open Scope R_scope.

Definition tri_nodes : nat -> vec := fun i c =>
  match i, c with 1%nat, 0%nat => 1 | 2%nat, 1%nat => 1 | _, _ => 0 end.
Definition tri_els : list (list nat) := [[0; 1; 2]]%nat.
Definition tri_finder (x y : R) : option (list nat) :=
  if Rle_dec 0 x then if Rle_dec 0 y then if Rle_dec (x + y) 1 then Some [0; 1; 2]%nat else None else None else None.
Definition height : vec := fun i => tri_nodes i 1%nat.

Lemma tri_triangles : triangles 3 tri_nodes tri_els.
Proof.
  split; [repeat constructor|]. split; [repeat constructor|].
  intros e [<-|[]]. unfold det_2d, corners, tri_nodes. cbn. lra.
Qed.
Lemma tri_covers x y : covers tri_nodes [0; 1; 2]%nat x y <-> 0 <= x /\ 0 <= y /\ x + y <= 1.
Proof.
  unfold covers, interpolates. split.
  - intros (v & i & j & k & a & b & c & E & A & B & C & S1 & X & Y & _). injection E as <- <- <-. cbn in X, Y. lra.
  - intros (X & Y & XY). exists 0, 0%nat, 1%nat, 2%nat, (1 - x - y), x, y. cbn. repeat split; lra.
Qed.
Lemma tri_finds : finds_triangles tri_nodes tri_els tri_finder.
Proof.
  split.
  - intros x y e H. unfold tri_finder in H.
    destruct (Rle_dec 0 x), (Rle_dec 0 y), (Rle_dec (x + y) 1); try discriminate. injection H as <-.
    split; [left; auto|]. apply tri_covers. auto.
  - intros x y e [<-|[]] C. apply tri_covers in C. unfold tri_finder.
    destruct (Rle_dec 0 x), (Rle_dec 0 y), (Rle_dec (x + y) 1); try discriminate; lra.
Qed.
Lemma tri_value y : interpolator tri_finder tri_nodes height (1 / 4) y =
  if Rle_dec 0 y then if Rle_dec (1 / 4 + y) 1 then Some y else None else None.
Proof.
  unfold interpolator, tri_finder. destruct (Rle_dec 0 (1 / 4)); [|lra].
  destruct (Rle_dec 0 y); auto. destruct (Rle_dec (1 / 4 + y) 1); auto. f_equal.
  unfold plane, height, tri_nodes. cbn. field.
Qed.
Lemma tri_roots : finds_roots (fun y => minus (interpolator tri_finder tri_nodes height (1 / 4) y) (1 / 2))
  (secant (fun y => minus (interpolator tri_finder tri_nodes height (1 / 4) y) (1 / 2))).
Proof.
  intros a b AB C. unfold secant. rewrite !tri_value in *.
  destruct (Rle_dec 0 a) as [A1|]; [|contradiction]. destruct (Rle_dec (1 / 4 + a) 1) as [A2|]; [|contradiction].
  destruct (Rle_dec 0 b) as [B1|]; [|contradiction]. destruct (Rle_dec (1 / 4 + b) 1) as [B2|]; [|contradiction].
  cbn [minus option_map change] in *. eexists. split; [reflexivity|].
  replace (a - (a - 1 / 2) * (b - a) / (b - 1 / 2 - (a - 1 / 2))) with (1 / 2) by (field; lra).
  rewrite tri_value. destruct (Rle_dec 0 (1 / 2)); [|lra]. destruct (Rle_dec (1 / 4 + 1 / 2) 1); [|lra].
  cbn. split; [lra|f_equal; lra].
Qed.
Lemma line_samples : samples 0 1 (1 / 3) 4.
Proof.
  intros k. unfold sample. split.
  - intros K. apply le_INR in K. rewrite S_INR in K. cbn in K. lra.
  - intros K. destruct (Nat.lt_ge_cases k 4); auto. apply le_INR in H. cbn in H. lra.
Qed.
