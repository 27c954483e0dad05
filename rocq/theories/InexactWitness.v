(* A step solver that leaves the same residual in every row (C110). *)
From Coq Require Import Reals List Arith ZArith Bool String Lia Lra.
From Verif Require Import Common PyModel RVec LinAlg StatementModel MethodModel ProblemModel ProblemSpec ProblemWitness RunStable RunStable RunStable InexactSpec InexactProofs.
Import ListNotations.
Local Open Scope R_scope.

Definition off_answer {F} (tol : R) (full : nat) (i : method F) (guess v u : vec) (dt : R) : result (nat * vec) :=
  bind (elimination_solver (v_len (m_rhs i)) (load_m (hp (m_world i)) (sm_data (m_lhs i))) (fun a => load_v (hp (m_world i)) (m_rhs i) a + tol))
    (fun x => Ok (full, x)).
Lemma off_residual {F} tol full i guess v u dt len z : @off_answer F tol full i guess v u dt = Ok (len, z) ->
  forall a, (a < v_len (m_rhs i))%nat -> mv (v_len (m_rhs i)) (load_m (hp (m_world i)) (sm_data (m_lhs i))) z a - load_v (hp (m_world i)) (m_rhs i) a = tol.
Proof.
  intros H a L. unfold off_answer in H. destruct (elimination_solver _ _ _) as [x|] eqn:E; [|discriminate]. cbn in H. injection H as _ <-.
  assert (S := elimination_sound _ _ _ _ E a L). unfold mv in *. rewrite S. ring.
Qed.
Lemma off_within {F} size full tol : 0 <= tol -> answers_within size tol (@off_answer F tol full).
Proof.
  intros T i guess v u dt len z L H a A. subst size. rewrite (off_residual tol full i guess v u dt len z H a A). rewrite Rabs_pos_eq by exact T. lra.
Qed.
Lemma off_definite {F} size full tol : @answers_definite F size full (off_answer tol full).
Proof.
  intros i guess v u dt L P. unfold off_answer. rewrite L.
  destruct (elimination_works size _ (fun a => load_v (hp (m_world i)) (m_rhs i) a + tol) P) as (x & ->). cbn. eauto.
Qed.
