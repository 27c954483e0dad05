(* The quadrature of volume loads. *)
From Coq Require Import Reals List Arith Lia Lra.
From Verif Require Import RVec FemSpec ProblemSpec.
Import ListNotations.
Local Open Scope R_scope.

Lemma uniform_exact e f c : cross_mean 2 e f (fun _ => c) = c * ((f (nth 0 e 0%nat) + f (nth 1 e 0%nat) + f (nth 2 e 0%nat)) / 3) /\
  cross_mean 2 e f (fun _ => c) = mean_product 2 (fun k => f (nth k e 0%nat)) (fun _ => c).
Proof. unfold cross_mean, mean_product. cbn [sum INR]. split; field. Qed.

Lemma varying_inexact : exists e f h,
  cross_mean 2 e f h <> mean_product 2 (fun k => f (nth k e 0%nat)) (fun k => h (nth k e 0%nat)).
Proof.
  exists [0; 1; 2]%nat, (fun k => if Nat.eqb k 0 then 1 else 0), (fun k => if Nat.eqb k 0 then 1 else 0).
  unfold cross_mean, mean_product. cbn [sum INR nth Nat.eqb]. lra.
Qed.
