(* Solvability of positive definite systems. *)
From Coq Require Import Reals List Arith Bool Lia Lra.
From Verif Require Import RVec DirichletSpec.
Local Open Scope R_scope.

Lemma pos_def_pivot n A : pos_def (S n) A -> 0 < A n n.
Proof.
  intros P. specialize (P (fun i => delta i n)). unfold qform, dot, mv in P.
  rewrite (sum_ext (S n) _ (fun i => delta i n * A i n)) in P.
  2:{ intros i Hi. f_equal. rewrite (sum_ext (S n) _ (fun j => delta n j * A i j)).
      - apply sum_delta_l; lia.
      - intros j _. unfold delta. rewrite (Nat.eqb_sym n j). ring. }
  rewrite (sum_ext (S n) _ (fun i => delta n i * A i n)) in P.
  2:{ intros i _. unfold delta. rewrite (Nat.eqb_sym i n). ring. }
  rewrite sum_delta_l in P by lia. apply P. exists n. split; [lia|].
  unfold delta. rewrite Nat.eqb_refl. lra.
Qed.

(* one elimination step from the last unknown *)
Definition reduced (n : nat) (A : mat) : mat := fun i j => A i j - A i n * A n j / A n n.

Lemma pos_def_reduced n A : pos_def (S n) A -> pos_def n (reduced n A).
Proof.
  intros P x [i [Hi Hx]]. pose proof (pos_def_pivot n A P) as Hp.
  set (y := fun j => if (j <? n)%nat then x j else - sum n (fun l => A n l * x l) / A n n).
  assert (E : forall j, (j < n)%nat -> y j = x j).
  { intros j Hj. unfold y. apply Nat.ltb_lt in Hj. rewrite Hj. reflexivity. }
  assert (En : y n = - sum n (fun l => A n l * x l) / A n n).
  { unfold y. rewrite Nat.ltb_irrefl. reflexivity. }
  assert (Q : qform (S n) A y = qform n (reduced n A) x).
  { unfold qform, dot, mv. cbn [sum].
    assert (L : y n * (sum n (fun j => A n j * y j) + A n n * y n) = 0).
    { rewrite (sum_ext n _ (fun j => A n j * x j)) by (intros j Hj; rewrite E; auto).
      rewrite En. field. lra. }
    rewrite L, Rplus_0_r. apply sum_ext. intros k Hk. rewrite E by auto. f_equal.
    rewrite (sum_ext n _ (fun j => A k j * x j)) by (intros j Hj; rewrite E; auto).
    rewrite En. unfold reduced.
    rewrite (sum_ext n (fun j => (A k j - A k n * A n j / A n n) * x j)
      (fun j => A k j * x j - A k n / A n n * (A n j * x j))).
    2:{ intros j _. field. lra. }
    rewrite sum_minus, sum_scal. field. lra. }
  rewrite <- Q. apply P. exists i. split; [lia|]. rewrite E; auto.
Qed.

(* a positive definite system has a solution *)
Lemma pos_def_solvable n A b : pos_def n A -> exists x, solves n A b x.
Proof.
  revert A b. induction n as [|n IH]; intros A b P.
  - exists (fun _ => 0). intros k Hk. lia.
  - pose proof (pos_def_pivot n A P) as Hp.
    destruct (IH (reduced n A) (fun i => b i - A i n * b n / A n n) (pos_def_reduced n A P)) as [x Hx].
    set (y := fun j => if (j <? n)%nat then x j else (b n - sum n (fun l => A n l * x l)) / A n n).
    assert (E : forall j, (j < n)%nat -> y j = x j).
    { intros j Hj. unfold y. apply Nat.ltb_lt in Hj. rewrite Hj. reflexivity. }
    assert (En : y n = (b n - sum n (fun l => A n l * x l)) / A n n).
    { unfold y. rewrite Nat.ltb_irrefl. reflexivity. }
    exists y. intros k Hk. cbn [sum].
    rewrite (sum_ext n _ (fun j => A k j * x j)) by (intros j Hj; rewrite E; auto).
    rewrite En. destruct (Nat.eq_dec k n) as [->|Hne].
    + field. lra.
    + specialize (Hx k ltac:(lia)). cbv beta in Hx. unfold reduced in Hx.
      rewrite (sum_ext n _ (fun j => A k j * x j - A k n / A n n * (A n j * x j))) in Hx.
      2:{ intros j _. field. lra. }
      rewrite sum_minus, sum_scal in Hx.
      replace (b k) with (b k - A k n * b n / A n n + A k n * b n / A n n) by ring.
      rewrite <- Hx. field. lra.
Qed.

Lemma pos_def_at_most_one n A b x y : pos_def n A -> solves n A b x -> solves n A b y -> veq n x y.
Proof.
  intros P H1 H2 i Hi. destruct (Req_dec (x i) (y i)) as [|Hne]; auto. exfalso.
  assert (0 < qform n A (fun j => x j - y j)).
  { apply P. exists i. split; auto. lra. }
  assert (Z : qform n A (fun j => x j - y j) = 0).
  { unfold qform, dot, mv. apply sum_0. intros k Hk.
    rewrite (sum_ext n _ (fun j => A k j * x j - A k j * y j)) by (intros; ring).
    rewrite sum_minus, H1, H2 by auto. ring. }
  lra.
Qed.

(* exactly one *)
Lemma pos_def_exactly_one n A b : pos_def n A ->
  exists x, solves n A b x /\ forall y, solves n A b y -> veq n y x.
Proof.
  intros P. destruct (pos_def_solvable n A b P) as [x Hx]. exists x. split; auto.
  intros y Hy. eapply pos_def_at_most_one; eauto.
Qed.

Lemma pos_def_plus n A B : pos_def n A -> pos_semidef n B -> pos_def n (fun i j => A i j + B i j).
Proof.
  intros PA PB x Hx. unfold qform.
  replace (dot n x (mv n (fun i j => A i j + B i j) x)) with (qform n A x + qform n B x).
  - specialize (PA x Hx). specialize (PB x). lra.
  - unfold qform, dot, mv. rewrite <- sum_plus. apply sum_ext. intros i _.
    rewrite <- Rmult_plus_distr_l. f_equal. rewrite <- sum_plus. apply sum_ext. intros; ring.
Qed.

Lemma qform_scale n A c x : qform n (fun i j => A i j * c) x = c * qform n A x.
Proof.
  unfold qform, dot, mv. rewrite <- sum_scal. apply sum_ext. intros i _.
  rewrite (sum_ext n _ (fun j => A i j * x j * c)) by (intros; ring). rewrite sum_scal_r. ring.
Qed.

Lemma pos_def_scale n A c : 0 < c -> pos_def n A -> pos_def n (fun i j => A i j * c).
Proof. intros Hc P x Hx. rewrite qform_scale. apply Rmult_lt_0_compat; auto. Qed.
Lemma pos_semidef_scale n A c : 0 <= c -> pos_semidef n A -> pos_semidef n (fun i j => A i j * c).
Proof. intros Hc P x. rewrite qform_scale. apply Rmult_le_pos; auto. Qed.
Lemma pos_def_ext n A B : meq n n A B -> pos_def n A -> pos_def n B.
Proof. intros E P x Hx. rewrite <- (qform_meq n A B x E). auto. Qed.

(* a leading block of a positive definite matrix *)
Lemma pos_def_block n m A : (m <= n)%nat -> pos_def n A -> pos_def m A.
Proof.
  intros L P x [i [Hi Hx]]. set (y := fun j => if (j <? m)%nat then x j else 0).
  assert (Hy : forall j, (j < m)%nat -> y j = x j).
  { intros j Hj. unfold y. apply Nat.ltb_lt in Hj. rewrite Hj. reflexivity. }
  assert (Z : forall j, (m <= j)%nat -> y j = 0).
  { intros j Hj. unfold y. apply Nat.ltb_ge in Hj. rewrite Hj. reflexivity. }
  assert (G : forall k f, sum (m + k) (fun j => f j * y j) = sum m (fun j => f j * x j)).
  { intros k f. induction k as [|k IH].
    - rewrite Nat.add_0_r. apply sum_ext. intros j Hj. rewrite Hy; auto.
    - rewrite Nat.add_succ_r. cbn [sum]. rewrite IH, (Z (m + k)%nat) by lia. ring. }
  assert (Q : qform n A y = qform m A x).
  { replace n with (m + (n - m))%nat by lia. unfold qform, dot, mv.
    rewrite (sum_ext _ _ (fun k => sum m (fun j => A k j * x j) * y k)).
    - rewrite G. apply sum_ext. intros; ring.
    - intros k _. rewrite G. ring. }
  rewrite <- Q. apply P. exists i. split; [lia|]. rewrite Hy; auto.
Qed.
