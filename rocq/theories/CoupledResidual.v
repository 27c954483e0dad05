(* C104: the equations that the fields of a step solve. *)
From Coq Require Import Reals List Arith Lia Lra.
From Verif Require Import RVec TimeSpec CoupledSpec.
Local Open Scope R_scope.

Lemma coupled_residual size nodes first second dt u0 v0 e0 n u v e :
  coupled_motion size nodes first second dt u0 v0 e0 n u v e -> forall j, (j < n)%nat ->
  second (fun c => u j c + dt * v (S j) c) (v (S j)) (e j) (e (S j)) /\
  exists before, first (INR (S j) * dt) (u j) (v j) before (v (S j)) /\
    (sum nodes (fun c => Rsqr (e (S j) c - before c)) <= (1 / 1000) ^ 2 \/
     exists x y, turns first second dt (INR (S j) * dt) (u j) (v j) (e j) 10 x y /\ v (S j) = x 10%nat /\ e (S j) = y 10%nat /\ before = y 9%nat).
Proof.
  intros (_ & _ & _ & H) j L. destruct (H j L) as (_ & r & x & y & T & (R1 & _ & R2) & VX & EY).
  pose proof T as (_ & T2). destruct r as [|r]; [lia|]. destruct (T2 r ltac:(lia)) as (F & SE).
  rewrite VX, EY. split; [exact SE|]. exists (y r). split; [exact F|].
  destruct R2 as [R2|R2].
  - right. injection R2 as ->. exists x, y. split; [exact T|]. auto.
  - left. replace (S r - 1)%nat with r in R2 by lia. unfold change in R2.
    set (a := sum size _) in R2. set (b := sum nodes _) in *.
    assert (A : 0 <= a) by (apply sum_nonneg; intros; apply Rle_0_sqr).
    assert (B : 0 <= b) by (apply sum_nonneg; intros; apply Rle_0_sqr).
    assert (Q := sqrt_sqrt (a + b) ltac:(lra)). assert (P := sqrt_pos (a + b)). nra.
Qed.
