(* C110: implicit Euler for linear systems is stable: small forces in the steps lead to small errors,
   with factors that do not depend on the time step. *)
From Coq Require Import Reals List Arith Lia Lra.
From Verif Require Import RVec LinAlg DirichletSpec FemSpec FemAssemblyProofs AlternationProofs EulerProofs.
Local Open Scope R_scope.

Lemma dot_bound n z r w e : (forall i, (i < n)%nat -> Rabs (z i) <= w) -> (forall i, (i < n)%nat -> Rabs (r i) <= e) -> dot n z r <= INR n * (w * e).
Proof.
  intros Z E. unfold dot. apply (Rle_trans _ (sum n (fun _ => w * e))).
  - apply sum_le. intros i I. apply (Rle_trans _ (Rabs (z i * r i))); [apply RRle_abs|]. rewrite Rabs_mult. apply Rmult_le_compat; auto using Rabs_pos.
  - clear. induction n as [|n IH]; [cbn; lra|]. cbn [sum]. rewrite S_INR. lra.
Qed.
Lemma bilinear_none n (A : mat) x y : (forall i m, A i m = 0) -> bilinear n n A x y = 0.
Proof. intros H. unfold bilinear. apply sum_0. intros i _. apply sum_0. intros m _. rewrite H. ring. Qed.

Section Stable.
  Variables (n : nat) (M C K : mat) (given : nat -> R -> Prop) (T c : R).
  Notation free := (free given).
  Hypothesis SM : symmetric n M.
  Hypothesis SK : symmetric n K.
  Hypothesis PM : pos_semidef n M.
  Hypothesis PC : pos_semidef n C.
  Hypothesis PK : pos_semidef n K.
  Hypothesis T0 : 0 <= T.
  Hypothesis C0 : 0 <= c.

  (* k steps from rest with the forces r *)
  Definition pushed_steps (dt : R) (r : nat -> vec) (u v : nat -> vec) (k : nat) : Prop :=
    forall j, (j < k)%nat -> veq n (u (S j)) (fun i => u j i + dt * v (S j) i) /\ free (v (S j)) /\
    forall z, free z -> bilinear n n M z (fun i => (v (S j) i - v j i) / dt) + bilinear n n C z (v (S j)) + bilinear n n K z (u (S j)) = dot n z (r j).

  Section Run.
  Variables (dt tol : R) (r u v : nat -> vec) (k : nat).
  Hypothesis DT : 0 < dt.
  Hypothesis TOL : 0 <= tol.
  Hypothesis ST : pushed_steps dt r u v k.
  Hypothesis RB : forall j i, (j < k)%nat -> (i < n)%nat -> Rabs (r j i) <= tol.

  Lemma push_identity j : (j < k)%nat ->
    qform n M (v (S j)) + dt * qform n C (v (S j)) + qform n K (u (S j)) =
    bilinear n n M (v (S j)) (v j) + bilinear n n K (u (S j)) (u j) + dt * dot n (v (S j)) (r j).
  Proof.
    intros J. destruct (ST j J) as (E1 & Z & E). specialize (E _ Z). set (z := v (S j)) in *.
    assert (MM : forall x y, bilinear n n M z (fun i => (x i - y i) / dt) = / dt * (bilinear n n M z x - bilinear n n M z y)).
    { intros x y. rewrite <- bilinear_minus_r, <- form_scal. apply bilinear_vec; intros i _; unfold minus; [reflexivity|]. unfold Rdiv. ring. }
    assert (E6 : dt * bilinear n n K z (u (S j)) = qform n K (u (S j)) - bilinear n n K (u (S j)) (u j)).
    { rewrite (form_sym n K SK z), <- form_scal, <- bilinear_q, <- bilinear_minus_r. apply bilinear_vec; intros i I; [reflexivity|].
      unfold minus. rewrite (E1 i I). ring. }
    rewrite MM in E. rewrite <- (bilinear_q n M z), <- (bilinear_q n C z).
    assert (D : dt * / dt = 1) by (field; lra).
    assert (G : bilinear n n M z z - bilinear n n M z (v j) = dt * (/ dt * (bilinear n n M z z - bilinear n n M z (v j)))) by (rewrite <- Rmult_assoc, D; ring).
    nra.
  Qed.

  Lemma push_bound X j : (forall z i, free z -> (i < n)%nat -> Rabs (z i) <= c * norm n X z) -> (j < k)%nat ->
    dot n (v (S j)) (r j) <= INR n * c * tol * norm n X (v (S j)).
  Proof.
    intros CB J. destruct (ST j J) as (_ & Z & _).
    assert (Q := dot_bound n (v (S j)) (r j) (c * norm n X (v (S j))) tol (fun i I => CB _ i Z I) (fun i I => RB j i J I)). lra.
  Qed.
  Lemma displaced w j i : (j <= k)%nat -> (i < n)%nat -> (forall h, (h < j)%nat -> Rabs (v (S h) i) <= w) -> u O i = 0 -> Rabs (u j i) <= INR j * dt * w.
  Proof.
    intros J I W U0. induction j as [|j IH]; [rewrite U0, Rabs_R0; cbn; lra|].
    assert (IHj := IH ltac:(lia) ltac:(intros; apply W; lia)). destruct (ST j ltac:(lia)) as (E & _). rewrite (E i I).
    assert (Q := Rabs_triang (u j i) (dt * v (S j) i)). rewrite Rabs_mult, (Rabs_right dt) in Q by lra.
    assert (X := W j ltac:(lia)). assert (dt * Rabs (v (S j) i) <= dt * w) by (apply Rmult_le_compat_l; lra). rewrite S_INR. lra.
  Qed.

  Hypothesis U0 : veq n (u O) (fun _ => 0).
  Lemma still_form Q x : veq n x (fun _ => 0) -> qform n Q x = 0.
  Proof. intros X. rewrite (qform_ext n Q x (fun _ => 0) X). unfold qform, dot. apply sum_0. intros; ring. Qed.

  Lemma dynamic_push : (forall z i, free z -> (i < n)%nat -> Rabs (z i) <= c * norm n M z) -> veq n (v O) (fun _ => 0) ->
    forall j i, (j <= k)%nat -> INR j * dt <= T -> (i < n)%nat ->
    Rabs (v j i) <= INR n * c * c * T * tol /\ Rabs (u j i) <= T * (INR n * c * c * T * tol).
  Proof.
    intros CB V0. set (l := INR n * c * tol).
    assert (L0 : 0 <= l) by (unfold l; apply Rmult_le_pos; [apply Rmult_le_pos; [apply pos_INR|exact C0]|exact TOL]).
    assert (EN : forall j, (j <= k)%nat -> sqrt (qform n M (v j) + qform n K (u j)) <= INR j * dt * l).
    { induction j as [|j IH]; intros J.
      - rewrite (still_form M _ V0), (still_form K _ U0), Rplus_0_r, sqrt_0. cbn; lra.
      - assert (IHj := IH ltac:(lia)). assert (ID := push_identity j J). assert (PW := push_bound M j CB J). fold l in PW. assert (CC := PC (v (S j))).
        rewrite <- !(norm_square n M PM) in *. rewrite <- !(norm_square n K PK) in *.
        assert (F1 := form_le n M SM PM (v (S j)) (v j)). assert (F2 := form_le n K SK PK (u (S j)) (u j)).
        assert (X0 := norm_nonneg n M (v j)). assert (X1 := norm_nonneg n M (v (S j))). assert (Y0 := norm_nonneg n K (u j)). assert (Y1 := norm_nonneg n K (u (S j))).
        set (x0 := norm n M (v j)) in *. set (x1 := norm n M (v (S j))) in *. set (y0 := norm n K (u j)) in *. set (y1 := norm n K (u (S j))) in *.
        assert (C1 := sqrt_sum_le x0 y0 x1 y1 X0 Y0 X1 Y1). assert (S1 := sqrt_part x1 y1 X1 Y1).
        assert (Q1 : sqrt (x1 * x1 + y1 * y1) * sqrt (x1 * x1 + y1 * y1) = x1 * x1 + y1 * y1) by (apply sqrt_sqrt; nra).
        assert (E1 : 0 <= sqrt (x1 * x1 + y1 * y1)) by apply sqrt_pos.
        set (e1 := sqrt (x1 * x1 + y1 * y1)) in *. set (e0 := sqrt (x0 * x0 + y0 * y0)) in *.
        assert (T1 : dt * dot n (v (S j)) (r j) <= e1 * (l * dt)).
        { apply (Rle_trans _ (dt * (l * x1))); [apply Rmult_le_compat_l; lra|]. replace (dt * (l * x1)) with (x1 * (l * dt)) by ring. apply Rmult_le_compat_r; [nra|exact S1]. }
        assert (0 <= dt * qform n C (v (S j))) by nra.
        assert (GG : e1 * e1 <= e1 * (e0 + l * dt)) by nra. assert (0 <= e0) by apply sqrt_pos. assert (0 <= l * dt) by nra.
        assert (e1 <= e0 + l * dt) by (destruct E1 as [E1|E1]; [apply (Rmult_le_reg_l e1); assumption|rewrite <- E1; lra]).
        rewrite S_INR. lra. }
    assert (EV : forall j i, (j <= k)%nat -> INR j * dt <= T -> (i < n)%nat -> Rabs (v j i) <= INR n * c * c * T * tol).
    { intros [|j] i J TJ I.
      - rewrite (V0 i I), Rabs_R0. repeat apply Rmult_le_pos; auto. apply pos_INR.
      - destruct (ST j J) as (_ & Z & _). apply (Rle_trans _ _ _ (CB _ i Z I)). replace (INR n * c * c * T * tol) with (c * (T * l)) by (unfold l; ring).
        apply Rmult_le_compat_l; [exact C0|]. apply (Rle_trans _ (sqrt (qform n M (v (S j)) + qform n K (u (S j))))).
        + apply sqrt_le_1_alt. assert (X := PK (u (S j))). lra.
        + apply (Rle_trans _ _ _ (EN (S j) J)). apply Rmult_le_compat_r; assumption. }
    intros j i J TJ I. split; [apply EV; assumption|].
    apply (Rle_trans _ (INR j * dt * (INR n * c * c * T * tol))).
    - apply displaced; auto. intros h H. apply EV; [lia| |exact I]. apply (Rle_trans _ (INR j * dt)); [|exact TJ]. apply Rmult_le_compat_r; [lra|apply le_INR; lia].
    - apply Rmult_le_compat_r; [|exact TJ]. repeat apply Rmult_le_pos; auto. apply pos_INR.
  Qed.

  Lemma quasistatic_push : (forall i m, M i m = 0) -> symmetric n C -> (forall z i, free z -> (i < n)%nat -> Rabs (z i) <= c * norm n C z) ->
    let ka := c * (INR n * c) * (1 + sqrt (size n K) * c * sqrt (T / 2)) in
    forall j i, (j <= k)%nat -> INR j * dt <= T -> (i < n)%nat ->
    ((0 < j)%nat -> Rabs (v j i) <= ka * tol) /\ Rabs (u j i) <= T * (ka * tol).
  Proof.
    intros M0 SC CB ka. set (l := INR n * c * tol). set (kk := sqrt (size n K) * c).
    assert (K0 : 0 <= kk) by (apply Rmult_le_pos; [apply sqrt_pos|exact C0]).
    assert (L0 : 0 <= l) by (unfold l; apply Rmult_le_pos; [apply Rmult_le_pos; [apply pos_INR|exact C0]|exact TOL]).
    assert (KC : forall z, free z -> norm n K z <= kk * norm n C z).
    { intros z Z. unfold kk. rewrite Rmult_assoc. apply norm_bound; [apply Rmult_le_pos; [exact C0|apply norm_nonneg]|]. intros i I. apply CB; assumption. }
    assert (EN : forall j, (j <= k)%nat -> qform n K (u j) <= INR j * dt * (l * l / 2)).
    { induction j as [|j IH]; intros J; [rewrite (still_form K _ U0); cbn; lra|].
      assert (IHj := IH ltac:(lia)). assert (ID := push_identity j J). assert (PW := push_bound C j CB J). fold l in PW.
      rewrite <- (bilinear_q n M), !(bilinear_none n M _ _ M0) in ID.
      assert (F2 := form_le n K SK PK (u (S j)) (u j)).
      rewrite <- !(norm_square n K PK) in *. rewrite <- !(norm_square n C PC) in *.
      set (y0 := norm n K (u j)) in *. set (y1 := norm n K (u (S j))) in *. set (w := norm n C (v (S j))) in *.
      assert (T3 : dt * dot n (v (S j)) (r j) <= dt * (l * w)) by (apply Rmult_le_compat_l; lra).
      assert (0 <= dt * ((w - l / 2) * (w - l / 2))) by (apply Rmult_le_pos; [lra|apply Rle_0_sqr]).
      assert (0 <= (y1 - y0) * (y1 - y0)) by apply Rle_0_sqr. rewrite S_INR. nra. }
    assert (EK : forall j, (j <= k)%nat -> INR j * dt <= T -> norm n K (u j) <= sqrt (T / 2) * l).
    { intros j J TJ. unfold norm. rewrite <- (sqrt_square l L0), <- sqrt_mult_alt by lra. apply sqrt_le_1_alt.
      apply (Rle_trans _ _ _ (EN j J)). assert (0 <= l * l) by nra. nra. }
    assert (EV : forall j i, (0 < j <= k)%nat -> INR j * dt <= T -> (i < n)%nat -> Rabs (v j i) <= ka * tol).
    { intros [|j] i J TJ I; [lia|]. assert (JK : (j < k)%nat) by lia. destruct (ST j JK) as (_ & Z & E). specialize (E _ Z).
      apply (Rle_trans _ _ _ (CB _ i Z I)). replace (ka * tol) with (c * (l + kk * (sqrt (T / 2) * l))) by (unfold ka, l, kk; ring).
      apply Rmult_le_compat_l; [exact C0|]. rewrite (bilinear_none n M _ _ M0), bilinear_q in E.
      assert (F4 := form_ge n K SK PK (v (S j)) (u (S j))). rewrite <- (norm_square n C PC) in E. assert (PW := push_bound C j CB JK). fold l in PW.
      assert (KZ := KC _ Z). assert (YB := EK (S j) ltac:(lia) TJ).
      assert (Y1 := norm_nonneg n K (u (S j))). assert (C1 := norm_nonneg n C (v (S j))).
      set (y1 := norm n K (u (S j))) in *. set (w := norm n C (v (S j))) in *. set (q := norm n K (v (S j))) in *.
      assert (q * y1 <= kk * w * y1) by (apply Rmult_le_compat_r; assumption).
      assert (kk * y1 <= kk * (sqrt (T / 2) * l)) by (apply Rmult_le_compat_l; assumption).
      assert (w <= l + kk * y1); [|lra].
      assert (0 <= kk * y1) by (apply Rmult_le_pos; assumption).
      destruct C1 as [C1|C1]; [apply (Rmult_le_reg_l w); [exact C1|nra]|rewrite <- C1; lra]. }
    assert (KA : 0 <= ka * tol).
    { apply Rmult_le_pos; [|exact TOL]. unfold ka. fold kk. apply Rmult_le_pos.
      - apply Rmult_le_pos; [exact C0|]. apply Rmult_le_pos; [apply pos_INR|exact C0].
      - assert (0 <= kk * sqrt (T / 2)) by (apply Rmult_le_pos; [exact K0|apply sqrt_pos]). lra. }
    intros j i J TJ I. split; [intros JP; apply EV; auto|].
    apply (Rle_trans _ (INR j * dt * (ka * tol))).
    - apply displaced; auto. intros h H. apply EV; [lia| |exact I]. apply (Rle_trans _ (INR j * dt)); [|exact TJ]. apply Rmult_le_compat_r; [lra|apply le_INR; lia].
    - apply Rmult_le_compat_r; assumption.
  Qed.
  End Run.

  (* equilibrium *)
  Lemma static_push r u tol : 0 <= tol -> (forall i, (i < n)%nat -> Rabs (r i) <= tol) -> (forall z i, free z -> (i < n)%nat -> Rabs (z i) <= c * norm n K z) ->
    free u -> bilinear n n K u u = dot n u r -> forall i, (i < n)%nat -> Rabs (u i) <= INR n * c * c * tol.
  Proof.
    intros TOL RB CB Z E i I. apply (Rle_trans _ _ _ (CB _ i Z I)). replace (INR n * c * c * tol) with (c * (INR n * c * tol)) by ring.
    apply Rmult_le_compat_l; [exact C0|]. assert (Q := dot_bound n u r (c * norm n K u) tol (fun i I => CB _ i Z I) RB).
    rewrite <- E, bilinear_q, <- (norm_square n K PK) in Q. destruct (norm_nonneg n K u) as [P|P].
    - apply (Rmult_le_reg_l (norm n K u)); [exact P|]. lra.
    - rewrite <- P. apply Rmult_le_pos; [apply Rmult_le_pos; [apply pos_INR|exact C0]|exact TOL].
  Qed.
End Stable.
