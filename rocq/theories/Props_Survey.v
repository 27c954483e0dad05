(* The partition into layers, the labels and marks of the comparison of methods (C113). *)
From Coq Require Import Reals List Arith Bool Lra Lia String.
From Verif Require Import RVec PyModel SurveyModel SurveySpec SurveyProofs.
Import ListNotations.
Local Open Scope R_scope.

(* a positive ratio and at least one part: the points go from start to stop, each part p times the one before *)
Theorem C113_partition : forall a b n p, 0 < p -> (0 < n)%nat ->
  exists l, partition a b n p = Ok l /\ parts_of a b n l /\ in_progression p l /\ (a < b -> increasing_list l).
Proof. exact partition_right. Qed.
Print Assumptions C113_partition.

(* and there is no other such list *)
Theorem C113_only : forall a b n p l, 0 < p -> (0 < n)%nat -> parts_of a b n l -> in_progression p l -> partition a b n p = Ok l.
Proof. exact partition_only. Qed.
Print Assumptions C113_only.

(* no part, or evenly many parts of alternating sign: division by zero *)
Theorem C113_none : forall a b p, partition a b 0 p = Err ZeroDivision.
Proof. exact partition_none. Qed.
Print Assumptions C113_none.
Theorem C113_alternating : forall a b n, partition a b (2 * n) (-1) = Err ZeroDivision.
Proof. exact partition_alternating. Qed.
Print Assumptions C113_alternating.

(* the plot of losses needs a label for every method; the first one without ends it with KeyError *)
Theorem C113_labels : forall ms, Forall (fun m => In m (map fst plot_data)) ms -> exists l, plot_labels ms = Ok l.
Proof. exact plot_labels_known. Qed.
Print Assumptions C113_labels.
Theorem C113_unknown : forall a m b, Forall (fun m => In m (map fst plot_data)) a -> ~ In m (map fst plot_data) ->
  plot_labels (a ++ m :: b) = Err (KeyError m).
Proof. exact plot_labels_unknown. Qed.
Print Assumptions C113_unknown.
(* which happens with the methods that the example itself asks for *)
Theorem C113_script : plot_labels script_methods = Err (KeyError "gradiented CG"%string).
Proof. exact script_fails. Qed.
Print Assumptions C113_script.

(* the best loss is the least one *)
Theorem C113_least : forall x l, least_of (least x l) (x :: l).
Proof. exact least_right. Qed.
Print Assumptions C113_least.
(* it alone is marked as the best *)
Theorem C113_best : forall best loss, marker best loss = Best <-> loss = best.
Proof. exact marker_best. Qed.
Print Assumptions C113_best.
(* for a best loss that is not positive, near means within a tenth and 1/100 *)
Theorem C113_near : forall best loss, best <= 0 -> best <= loss ->
  (marker best loss = Near <-> best < loss /\ loss - best <= Rabs best / 10 + 1 / 100).
Proof. exact marker_near. Qed.
Print Assumptions C113_near.
(* above 1/10 nothing is near *)
Theorem C113_positive : forall best loss, 1 / 10 < best -> best < loss -> marker best loss = Fail.
Proof. exact marker_positive. Qed.
Print Assumptions C113_positive.
Theorem C113_close_refuted : ~ (exists eps, 0 < eps /\ forall best loss, best <= loss <= best + eps -> marker best loss <> Fail).
Proof. exact marker_witness. Qed.
Print Assumptions C113_close_refuted.

(* two parts of [0, 3] with ratio 2 *)
Example C113_partition_example : partition 0 3 2 2 = Ok [0; 1; 3].
Proof.
  apply C113_only; [lra|lia| |].
  - repeat split.
  - intros i I. cbn in I. assert (i = 0)%nat by lia. subst. cbn. lra.
Qed.
(* the methods of the survey of layers have labels *)
Example C113_labels_example : plot_labels survey_methods = Ok ["BFGS"; "CG"; "subgradient"]%string.
Proof. exact survey_labels. Qed.
Example C113_near_example : marker (-10) (-9) = Near /\ marker (-10) (-8) = Fail /\ marker 1 (1 + 1 / 1000) = Fail.
Proof.
  split; [apply C113_near; [lra|lra|]; rewrite Rabs_left by lra; lra|]. split; [|apply C113_positive; lra].
  unfold marker. destruct (Req_EM_T _ _); [lra|]. destruct (Rle_dec _ _); [lra|reflexivity].
Qed.
