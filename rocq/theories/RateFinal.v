(* References without elements, wrong elements, equal mesh sizes (C115). *)
From Coq Require Import Reals List Arith Bool Lia Lra.
From Verif Require Import RVec PyModel MeshSpec FemSpec RateModel RateSpec RateProofs.
Import ListNotations.
Local Open Scope R_scope.

Lemma error_nodes N nodes ref linear near : exists r, temperature_error N nodes [] ref linear near = Ok r /\ 0 <= r /\
  r * r = sum N (fun i => (ref i - match linear i with Some v => v | None => near i end) ^ 2).
Proof.
  eexists. split; [reflexivity|]. split; [apply sqrt_pos|]. rewrite sqrt_sqrt.
  - apply sum_ext. intros i _. unfold interpolated. destruct (linear i); ring.
  - apply sum_nonneg. intros i _. apply Rle_0_sqr.
Qed.

Lemma add_squares_wrong N nodes w : forall els q, (exists e, In e els /\ ((List.length e < 3)%nat \/ exists k, (k < 3)%nat /\ (N <= nth k e 0)%nat)) ->
  add_squares N nodes w els q = Err IndexError.
Proof.
  induction els as [|e els IH]; intros q (x & I & B); [destruct I|]. cbn [add_squares]. destruct e as [|i [|j [|k e]]]; try reflexivity.
  destruct ((i <? N) && (j <? N) && (k <? N))%nat eqn:C; [|reflexivity]. apply IH. exists x. split; [|exact B]. destruct I as [<-|I]; [|exact I]. exfalso.
  apply andb_prop in C. destruct C as (C & C3). apply andb_prop in C. destruct C as (C1 & C2). apply Nat.ltb_lt in C1, C2, C3.
  destruct B as [B|(n & L & B)]; [cbn in B; lia|]. destruct n as [|[|[|n]]]; cbn in B; lia.
Qed.
Lemma error_wrong N nodes els ref linear near : (exists e, In e els /\ ((List.length e < 3)%nat \/ exists k, (k < 3)%nat /\ (N <= nth k e 0)%nat)) ->
  temperature_error N nodes els ref linear near = Err IndexError.
Proof. intros H. unfold temperature_error. destruct els as [|e els]; [destruct H as (x & [] & _)|]. rewrite add_squares_wrong by exact H. reflexivity. Qed.

Lemma rate_equal h e e' : 0 < h -> 0 < e -> 0 < e' -> rate_of (h, e) (h, e') = NotFinite.
Proof.
  intros H E E'. unfold rate_of. destruct (Rlt_dec 0 e); [|contradiction]. destruct (Rlt_dec 0 e'); [|contradiction]. destruct (Req_EM_T _ 0) as [|N]; [reflexivity|].
  exfalso. apply N. rewrite ln_ratio by assumption. ring.
Qed.
