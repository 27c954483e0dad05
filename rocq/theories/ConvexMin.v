(* Strongly convex functions of finitely many variables have exactly one minimiser. *)
From Coq Require Import Reals List Arith Bool Lia Lra Psatz.
From Verif Require Import RVec LinAlg ContactSpec.
Local Open Scope R_scope.

(* ------------------------------------------------------ one variable *)

Section OneVariable.
  Variables (f : R -> R) (c : R).
  Hypothesis Hc : 0 < c.
  Hypothesis Hf : forall x y t, 0 <= t <= 1 ->
    f ((1 - t) * x + t * y) <= (1 - t) * f x + t * f y - c * t * (1 - t) * (x - y) ^ 2.

  Lemma one_convex x y t : 0 <= t <= 1 -> f ((1 - t) * x + t * y) <= (1 - t) * f x + t * f y.
  Proof.
    intros Ht. pose proof (Hf x y t Ht).
    assert (0 <= c * t * (1 - t) * (x - y) ^ 2); [|lra].
    apply Rmult_le_pos; [|apply pow2_ge_0]. repeat apply Rmult_le_pos; lra.
  Qed.

  Lemma right_bounds x h : 0 <= h <= 1 ->
    f (x + h) <= f x + h * (f (x + 1) - f x) /\ f x - h * (f (x - 1) - f x) <= f (x + h).
  Proof.
    intros Hh. split.
    - replace (x + h) with ((1 - h) * x + h * (x + 1)) at 1 by ring.
      pose proof (one_convex x (x + 1) h Hh). lra.
    - assert (P : 0 < 1 + h) by lra.
      pose proof (one_convex (x + h) (x - 1) (h / (1 + h))) as H.
      replace ((1 - h / (1 + h)) * (x + h) + h / (1 + h) * (x - 1)) with x in H by (field; lra).
      assert (T : 0 <= h / (1 + h) <= 1).
      { split; [apply Rmult_le_pos; [lra|apply Rlt_le, Rinv_0_lt_compat; lra]|].
        apply (Rmult_le_reg_r (1 + h)); [lra|]. unfold Rdiv. rewrite Rmult_assoc, Rinv_l by lra. lra. }
      specialize (H T). apply (Rmult_le_compat_l (1 + h)) in H; [|lra].
      replace ((1 + h) * ((1 - h / (1 + h)) * f (x + h) + h / (1 + h) * f (x - 1)))
        with (f (x + h) + h * f (x - 1)) in H by (field; lra). lra.
  Qed.

  Lemma left_bounds x h : 0 <= h <= 1 ->
    f (x - h) <= f x + h * (f (x - 1) - f x) /\ f x - h * (f (x + 1) - f x) <= f (x - h).
  Proof.
    intros Hh. split.
    - replace (x - h) with ((1 - h) * x + h * (x - 1)) at 1 by ring.
      pose proof (one_convex x (x - 1) h Hh). lra.
    - assert (P : 0 < 1 + h) by lra.
      pose proof (one_convex (x - h) (x + 1) (h / (1 + h))) as H.
      replace ((1 - h / (1 + h)) * (x - h) + h / (1 + h) * (x + 1)) with x in H by (field; lra).
      assert (T : 0 <= h / (1 + h) <= 1).
      { split; [apply Rmult_le_pos; [lra|apply Rlt_le, Rinv_0_lt_compat; lra]|].
        apply (Rmult_le_reg_r (1 + h)); [lra|]. unfold Rdiv. rewrite Rmult_assoc, Rinv_l by lra. lra. }
      specialize (H T). apply (Rmult_le_compat_l (1 + h)) in H; [|lra].
      replace ((1 + h) * ((1 - h / (1 + h)) * f (x - h) + h / (1 + h) * f (x + 1)))
        with (f (x - h) + h * f (x + 1)) in H by (field; lra). lra.
  Qed.

  Lemma one_lipschitz x y : Rabs (y - x) <= 1 ->
    Rabs (f y - f x) <= Rabs (y - x) * (Rabs (f (x + 1) - f x) + Rabs (f (x - 1) - f x)).
  Proof.
    intros H. destruct (Rle_dec x y) as [L|L].
    - rewrite (Rabs_pos_eq (y - x)) in * by lra.
      destruct (right_bounds x (y - x)) as [B1 B2]; [lra|].
      replace (x + (y - x)) with y in * by ring.
      pose proof (Rle_abs (f (x + 1) - f x)). pose proof (Rle_abs (f (x - 1) - f x)).
      pose proof (Rabs_pos (f (x + 1) - f x)). pose proof (Rabs_pos (f (x - 1) - f x)).
      assert (0 <= y - x) by lra. apply Rabs_le. split; nra.
    - rewrite (Rabs_left (y - x)) in * by lra.
      destruct (left_bounds x (x - y)) as [B1 B2]; [lra|].
      replace (x - (x - y)) with y in * by ring.
      pose proof (Rle_abs (f (x + 1) - f x)). pose proof (Rle_abs (f (x - 1) - f x)).
      pose proof (Rabs_pos (f (x + 1) - f x)). pose proof (Rabs_pos (f (x - 1) - f x)).
      assert (0 <= x - y) by lra. apply Rabs_le. split; nra.
  Qed.

  Lemma one_continuous x : continuity_pt f x.
  Proof.
    set (K := Rabs (f (x + 1) - f x) + Rabs (f (x - 1) - f x)).
    assert (K0 : 0 <= K) by (unfold K; pose proof (Rabs_pos (f (x + 1) - f x)); pose proof (Rabs_pos (f (x - 1) - f x)); lra).
    intros eps Heps. exists (Rmin 1 (eps / (K + 1))).
    assert (Q : 0 < eps / (K + 1)) by (apply Rdiv_lt_0_compat; lra).
    split; [apply Rmin_pos; lra|].
    intros y [_ Hy]. simpl in Hy |- *. unfold R_dist in *.
    pose proof (Rmin_l 1 (eps / (K + 1))). pose proof (Rmin_r 1 (eps / (K + 1))).
    pose proof (one_lipschitz x y ltac:(lra)) as HL. fold K in HL.
    apply Rle_lt_trans with (1 := HL).
    apply Rle_lt_trans with (Rabs (y - x) * (K + 1)).
    - apply Rmult_le_compat_l; [apply Rabs_pos|lra].
    - apply (Rmult_lt_reg_r (/ (K + 1))); [apply Rinv_0_lt_compat; lra|].
      rewrite Rmult_assoc, Rinv_r by lra. unfold Rdiv in *. lra.
  Qed.

  Lemma one_coercive y : f y < f 0 -> Rabs y <= 1 + (Rabs (f 0 - f 1) + Rabs (f 0 - f (-1))) / c.
  Proof.
    intros H.
    assert (S0 : 0 <= (Rabs (f 0 - f 1) + Rabs (f 0 - f (-1))) / c).
    { apply Rmult_le_pos; [|apply Rlt_le, Rinv_0_lt_compat; lra].
      pose proof (Rabs_pos (f 0 - f 1)). pose proof (Rabs_pos (f 0 - f (-1))). lra. }
    destruct (Rle_dec (Rabs y) 1) as [|L]; [lra|].
    assert (L1 : 1 < Rabs y) by lra. clear L.
    set (t := / Rabs y).
    assert (Ht : 0 < t < 1).
    { unfold t. split; [apply Rinv_0_lt_compat; lra|].
      rewrite <- Rinv_1. apply Rinv_lt_contravar; lra. }
    assert (Hty : t * Rabs y = 1) by (unfold t; apply Rinv_l; lra).
    pose proof (Hf 0 y t ltac:(lra)) as HC.
    assert (Hsq : (0 - y) ^ 2 = Rabs y ^ 2) by (rewrite pow2_abs; ring).
    rewrite Hsq in HC.
    assert (E : c * t * (1 - t) * Rabs y ^ 2 = c * (Rabs y - 1)).
    { replace (c * t * (1 - t) * Rabs y ^ 2) with (c * (t * Rabs y) * (Rabs y - t * Rabs y)) by ring.
      rewrite Hty. ring. }
    rewrite E in HC.
    assert (HB : (1 - t) * f 0 + t * f y <= f 0) by nra.
    assert (G : c * (Rabs y - 1) <= Rabs (f 0 - f 1) + Rabs (f 0 - f (-1))).
    { pose proof (Rabs_pos (f 0 - f 1)). pose proof (Rabs_pos (f 0 - f (-1))).
      pose proof (Rle_abs (f 0 - f 1)). pose proof (Rle_abs (f 0 - f (-1))).
      destruct (Rle_dec 0 y) as [L|L].
      - rewrite (Rabs_pos_eq y L) in Hty, HC |- *.
        replace ((1 - t) * 0 + t * y) with 1 in HC by lra. lra.
      - rewrite (Rabs_left y) in Hty, HC |- * by lra.
        replace ((1 - t) * 0 + t * y) with (-1) in HC by lra. lra. }
    assert (Rabs y - 1 <= (Rabs (f 0 - f 1) + Rabs (f 0 - f (-1))) / c); [|lra].
    apply (Rmult_le_reg_l c); [lra|]. unfold Rdiv.
    replace (c * ((Rabs (f 0 - f 1) + Rabs (f 0 - f (-1))) * / c))
      with (Rabs (f 0 - f 1) + Rabs (f 0 - f (-1))) by (field; lra). exact G.
  Qed.

  Lemma one_minimum : exists m, forall y, f m <= f y.
  Proof.
    set (B := 1 + (Rabs (f 0 - f 1) + Rabs (f 0 - f (-1))) / c).
    assert (HB : 0 < B).
    { unfold B. assert (0 <= (Rabs (f 0 - f 1) + Rabs (f 0 - f (-1))) / c); [|lra].
      apply Rmult_le_pos; [|apply Rlt_le, Rinv_0_lt_compat; lra].
      pose proof (Rabs_pos (f 0 - f 1)). pose proof (Rabs_pos (f 0 - f (-1))). lra. }
    destruct (continuity_ab_min f (- B) B ltac:(lra)) as (m & Hm & Hin).
    { intros x _. apply one_continuous. }
    exists m. intros y. destruct (Rle_dec (f 0) (f y)) as [L|L].
    - pose proof (Hm 0 ltac:(lra)). lra.
    - apply Hm. pose proof (one_coercive y ltac:(lra)) as H. fold B in H.
      revert H. unfold Rabs. destruct (Rcase_abs y); lra.
  Qed.
End OneVariable.

(* ------------------------------------------------- several variables *)

(* F only sees the first n entries *)
Definition local_in (n : nat) (F : vec -> R) : Prop := forall x y, veq n x y -> F x = F y.

(* convex with modulus the quadratic form of A *)
Definition strongly (n : nat) (A : mat) (F : vec -> R) : Prop :=
  forall x y t, 0 <= t <= 1 ->
  F (between t x y) <= (1 - t) * F x + t * F y - / 2 * t * (1 - t) * qform n A (fun i => x i - y i).

(* the vector x with entry n replaced *)
Definition extended (n : nat) (x : vec) (s : R) : vec := fun i => if (i =? n)%nat then s else x i.

Lemma extended_low n x s i : (i < n)%nat -> extended n x s i = x i.
Proof. intros H. unfold extended. replace (i =? n)%nat with false; auto. symmetry. apply Nat.eqb_neq. lia. Qed.
Lemma extended_at n x s : extended n x s n = s.
Proof. unfold extended. rewrite Nat.eqb_refl. reflexivity. Qed.
Lemma extended_veq n x y s : veq n x y -> veq (S n) (extended n x s) (extended n y s).
Proof.
  intros H i Hi. destruct (Nat.eq_dec i n) as [-> | Hne]; [rewrite !extended_at; auto|].
  rewrite !extended_low by lia. apply H. lia.
Qed.

Lemma qform_split n A z : symmetric (S n) A -> A n n <> 0 ->
  qform (S n) A z = qform n (reduced n A) z + A n n * (z n + sum n (fun l => A n l * z l) / A n n) ^ 2.
Proof.
  intros HS Hp. unfold qform, dot, mv. cbn [sum].
  set (s := sum n (fun l => A n l * z l)).
  rewrite (sum_ext n (fun i => z i * (sum n (fun j => A i j * z j) + A i n * z n))
     (fun i => z i * sum n (fun j => A i j * z j) + z n * (A n i * z i))).
  2:{ intros i Hi. rewrite (HS i n) by lia. ring. }
  rewrite sum_plus, sum_scal. fold s.
  rewrite (sum_ext n (fun i => z i * sum n (fun j => reduced n A i j * z j))
     (fun i => z i * sum n (fun j => A i j * z j) - s / A n n * (A n i * z i))).
  2:{ intros i Hi. rewrite (sum_ext n _ (fun j => A i j * z j - A i n / A n n * (A n j * z j))).
      - rewrite sum_minus, sum_scal. fold s. rewrite (HS i n) by lia. field. auto.
      - intros j _. unfold reduced. field. auto. }
  rewrite sum_minus, sum_scal. fold s. field. auto.
Qed.

Lemma reduced_symmetric n A : symmetric (S n) A -> symmetric n (reduced n A).
Proof.
  intros HS i j Hi Hj. unfold reduced. rewrite (HS i j), (HS i n), (HS n j) by lia. unfold Rdiv. ring.
Qed.

(* value of the partial minimum over the last entry *)
Lemma partial_minimum (F : vec -> R) n :
  (forall x, exists s, forall r, F (extended n x s) <= F (extended n x r)) ->
  exists g : vec -> R, (forall x s, g x <= F (extended n x s)) /\ (forall x, exists s, g x = F (extended n x s)).
Proof.
  intros H.
  assert (Hb : forall x, bound (fun v => exists s, v = - F (extended n x s))).
  { intros x. destruct (H x) as [s Hs]. exists (- F (extended n x s)). intros v [r ->]. specialize (Hs r). lra. }
  assert (Hn : forall x, exists v, exists s, v = - F (extended n x s)).
  { intros x. exists (- F (extended n x 0)), 0. reflexivity. }
  set (g := fun x => - proj1_sig (completeness _ (Hb x) (Hn x))).
  assert (Hg : forall x, is_lub (fun v => exists s, v = - F (extended n x s)) (- g x)).
  { intros x. unfold g. rewrite Ropp_involutive. exact (proj2_sig (completeness _ (Hb x) (Hn x))). }
  exists g. split.
  - intros x s. destruct (Hg x) as [U _]. specialize (U (- F (extended n x s)) (ex_intro _ s eq_refl)). lra.
  - intros x. destruct (H x) as [s Hs]. exists s. destruct (Hg x) as [U L].
    specialize (U (- F (extended n x s)) (ex_intro _ s eq_refl)).
    assert (- g x <= - F (extended n x s)).
    { apply L. intros v [r ->]. specialize (Hs r). lra. }
    lra.
Qed.

Theorem strong_minimum n : forall A F, symmetric n A -> pos_def n A -> local_in n F -> strongly n A F ->
  exists x, forall y, F x <= F y.
Proof.
  induction n as [|n IH]; intros A F HS HP HL HF.
  - exists (fun _ => 0). intros y. right. apply HL. intros i Hi. lia.
  - pose proof (pos_def_pivot n A HP) as Hp.
    assert (HB : forall t x y s r, veq (S n) (between t (extended n x s) (extended n y r))
                   (extended n (between t x y) ((1 - t) * s + t * r))).
    { intros t x y s r i Hi. destruct (Nat.eq_dec i n) as [-> | Hne].
      - unfold between. rewrite !extended_at. reflexivity.
      - unfold between. rewrite !extended_low by lia. reflexivity. }
    destruct (partial_minimum F n) as (g & G1 & G2).
    { intros x. apply (one_minimum (fun s => F (extended n x s)) (/ 2 * A n n)); [lra|].
      intros s r t Ht.
      pose proof (HF (extended n x s) (extended n x r) t Ht) as H.
      rewrite (HL _ _ (HB t x x s r)) in H.
      assert (E : veq (S n) (extended n (between t x x) ((1 - t) * s + t * r)) (extended n x ((1 - t) * s + t * r))).
      { apply extended_veq. intros i _. unfold between. ring. }
      rewrite (HL _ _ E) in H.
      replace (/ 2 * A n n * t * (1 - t) * (s - r) ^ 2)
        with (/ 2 * t * (1 - t) * (A n n * (s - r) ^ 2)); [|ring].
      replace (A n n * (s - r) ^ 2) with (qform (S n) A (fun i => extended n x s i - extended n x r i)); [exact H|].
      rewrite (qform_ext (S n) A _ (fun i => (s - r) * delta n i)).
      2:{ intros i Hi. destruct (Nat.eq_dec i n) as [-> | Hne].
          - rewrite !extended_at. unfold delta. rewrite Nat.eqb_refl. ring.
          - rewrite !extended_low by lia. unfold delta. replace (n =? i)%nat with false; [ring|].
            symmetry. apply Nat.eqb_neq. lia. }
      unfold qform, dot, mv.
      rewrite (sum_ext (S n) _ (fun i => delta n i * ((s - r) ^ 2 * A i n))).
      - rewrite sum_delta_l by lia. ring.
      - intros i _. rewrite (sum_ext (S n) _ (fun j => delta n j * ((s - r) * A i j))) by (intros; ring).
        rewrite sum_delta_l by lia. ring. }
    destruct (IH (reduced n A) g (reduced_symmetric n A HS) (pos_def_reduced n A HP)) as [x Hx].
    + intros x y E. destruct (G2 x) as [s Hs], (G2 y) as [r Hr].
      pose proof (G1 x r) as B1. pose proof (G1 y s) as B2.
      rewrite (HL _ _ (extended_veq n x y r E)) in B1. rewrite <- (HL _ _ (extended_veq n x y s E)) in B2. lra.
    + intros x y t Ht. destruct (G2 x) as [s Hs], (G2 y) as [r Hr].
      pose proof (G1 (between t x y) ((1 - t) * s + t * r)) as B.
      pose proof (HF (extended n x s) (extended n y r) t Ht) as H.
      rewrite (HL _ _ (HB t x y s r)) in H. rewrite Hs, Hr.
      assert (Q : qform n (reduced n A) (fun i => x i - y i)
                  <= qform (S n) A (fun i => extended n x s i - extended n y r i)).
      { rewrite (qform_split n A) by (auto; lra).
        rewrite (qform_ext n (reduced n A) (fun i => extended n x s i - extended n y r i) (fun i => x i - y i)).
        2:{ intros i Hi. rewrite !extended_low by auto. reflexivity. }
        match goal with |- _ <= _ + A n n * ?w ^ 2 => pose proof (pow2_ge_0 w); nra end. }
      assert (0 <= / 2 * t * (1 - t)) by nra. nra.
    + destruct (G2 x) as [s Hs]. exists (extended n x s). intros y.
      rewrite <- Hs. apply Rle_trans with (1 := Hx y).
      assert (E : veq (S n) (extended n y (y n)) y).
      { intros i Hi. destruct (Nat.eq_dec i n) as [-> | Hne]; [apply extended_at|apply extended_low; lia]. }
      rewrite <- (HL _ _ E). apply G1.
Qed.

Theorem strong_unique n A F x y : pos_def n A -> strongly n A F ->
  (forall z, F x <= F z) -> (forall z, F y <= F z) -> veq n x y.
Proof.
  intros HP HF Hx Hy. destruct (vec_zero_dec n (fun i => x i - y i)) as [Hne | Hz].
  - exfalso. specialize (HP _ Hne). pose proof (HF x y (/ 2) ltac:(lra)) as H.
    pose proof (Hx (between (/ 2) x y)). pose proof (Hy x). pose proof (Hx y). lra.
  - intros i Hi. specialize (Hz i Hi). cbv beta in Hz. lra.
Qed.

(* a quadratic energy plus a convex function *)
Lemma qform_between n A x y t : symmetric n A ->
  qform n A (between t x y)
  = (1 - t) * qform n A x + t * qform n A y - t * (1 - t) * qform n A (fun i => x i - y i).
Proof.
  intros HS.
  assert (E : forall z, qform n A z = dot n z (mv n A z)) by reflexivity.
  assert (M : forall i, mv n A (between t x y) i = (1 - t) * mv n A x i + t * mv n A y i).
  { intros i. unfold between. rewrite mv_plus, !mv_scal. reflexivity. }
  assert (D : forall i, mv n A (fun i => x i - y i) i = mv n A x i - mv n A y i) by (intros; apply mv_minus).
  pose proof (dot_mv_sym n A x y HS) as S.
  rewrite !E. unfold dot in *.
  rewrite (sum_ext n (fun i => between t x y i * _)
    (fun i => (1 - t) * (1 - t) * (x i * mv n A x i) + (1 - t) * t * (x i * mv n A y i)
              + ((1 - t) * t * (y i * mv n A x i) + t * t * (y i * mv n A y i)))).
  2:{ intros i _. rewrite M. unfold between. ring. }
  rewrite (sum_ext n (fun i => (x i - y i) * _)
    (fun i => x i * mv n A x i - x i * mv n A y i - (y i * mv n A x i - y i * mv n A y i))).
  2:{ intros i _. rewrite D. ring. }
  rewrite !sum_plus, !sum_minus, !sum_scal, S. ring.
Qed.

Lemma quadratic_strongly n A b J : symmetric n A -> convex J ->
  strongly n A (fun x => quadratic n A b x + J x).
Proof.
  intros HS HJ x y t Ht. unfold quadratic. rewrite qform_between by auto.
  specialize (HJ x y t Ht).
  replace (dot n b (between t x y)) with ((1 - t) * dot n b x + t * dot n b y).
  2:{ unfold between. rewrite dot_plus_r, !dot_scal_r. reflexivity. }
  lra.
Qed.

Lemma quadratic_local n A b J : local_in n J -> local_in n (fun x => quadratic n A b x + J x).
Proof.
  intros HJ x y E. cbv beta. rewrite (HJ x y E). unfold quadratic. rewrite (qform_ext n A x y E).
  rewrite (dot_ext n b b x y) by (auto; intros ? ?; reflexivity). reflexivity.
Qed.

(* a quadratic energy plus a convex function has exactly one minimiser *)
Theorem quadratic_exactly_one n A b J : symmetric n A -> pos_def n A -> convex J -> local_in n J ->
  exists x, (forall y, quadratic n A b x + J x <= quadratic n A b y + J y) /\
    forall x', (forall y, quadratic n A b x' + J x' <= quadratic n A b y + J y) -> veq n x' x.
Proof.
  intros HS HP HJ HL.
  pose proof (quadratic_strongly n A b J HS HJ) as HF.
  destruct (strong_minimum n A _ HS HP (quadratic_local n A b J HL) HF) as [x Hx].
  exists x. split; [exact Hx|]. intros x' Hx'. exact (strong_unique n A _ x' x HP HF Hx' Hx).
Qed.

(* characterisation by a variational inequality *)
Theorem variational_inequality n A b J x : symmetric n A -> pos_semidef n A -> convex J ->
  ((forall y, quadratic n A b x + J x <= quadratic n A b y + J y) <->
   (forall y, dot n b (fun i => y i - x i) <= dot n (mv n A x) (fun i => y i - x i) + J y - J x)).
Proof.
  intros HS HP HJ.
  assert (E : forall y, quadratic n A b y - quadratic n A b x
    = dot n (mv n A x) (fun i => y i - x i) - dot n b (fun i => y i - x i) + / 2 * qform n A (fun i => y i - x i)).
  { intros y. unfold quadratic, qform. rewrite (dot_minus_r n b).
    rewrite (dot_ext n (fun i => y i - x i) (fun i => y i - x i) (mv n A (fun i => y i - x i))
               (fun i => mv n A y i - mv n A x i));
      [|intros ? ?; reflexivity|intros i _; apply mv_minus].
    rewrite !dot_minus_r, !dot_minus_l, !(dot_comm n (mv n A x)).
    rewrite (dot_mv_sym n A x y HS). lra. }
  split.
  - intros H y.
    destruct (Rle_dec (dot n b (fun i => y i - x i)) (dot n (mv n A x) (fun i => y i - x i) + J y - J x)) as [|L]; auto.
    exfalso.
    set (gap := dot n b (fun i => y i - x i) - (dot n (mv n A x) (fun i => y i - x i) + J y - J x)).
    assert (Hgap : 0 < gap) by (unfold gap; lra).
    set (q := qform n A (fun i => y i - x i)). assert (Hq : 0 <= q) by apply HP.
    set (t := Rmin 1 (gap / (q + 1))).
    assert (Ht : 0 < t <= 1).
    { unfold t. split; [apply Rmin_pos; [lra|apply Rdiv_lt_0_compat; lra]|apply Rmin_l]. }
    assert (Htq : t * q <= gap).
    { apply Rle_trans with (gap / (q + 1) * (q + 1)).
      - apply Rle_trans with (t * (q + 1)); [nra|]. apply Rmult_le_compat_r; [lra|apply Rmin_r].
      - unfold Rdiv. rewrite Rmult_assoc, Rinv_l by lra. lra. }
    specialize (H (between t x y)). specialize (HJ x y t ltac:(lra)).
    assert (E1 := E (between t x y)).
    assert (W : veq n (fun i => between t x y i - x i) (fun i => t * (y i - x i))).
    { intros i _. unfold between. ring. }
    rewrite (dot_ext n (mv n A x) (mv n A x) _ _ ltac:(intros ? ?; reflexivity) W) in E1.
    rewrite (dot_ext n b b _ _ ltac:(intros ? ?; reflexivity) W) in E1.
    rewrite (qform_ext n A _ _ W) in E1. rewrite !dot_scal_r in E1.
    replace (qform n A (fun i => t * (y i - x i))) with (t * t * q) in E1.
    2:{ unfold q, qform. rewrite dot_scal_l.
        rewrite (dot_ext n (fun i => y i - x i) (fun i => y i - x i) (mv n A (fun i => t * (y i - x i)))
                   (fun i => t * mv n A (fun i => y i - x i) i));
          [|intros ? ?; reflexivity|intros i _; apply mv_scal].
        rewrite dot_scal_r. ring. }
    assert (t * gap <= / 2 * (t * t * q)) by (unfold gap; lra).
    assert (gap <= / 2 * (t * q)) by (apply (Rmult_le_reg_l t); lra).
    lra.
  - intros H y. specialize (H y). pose proof (E y). pose proof (HP (fun i => y i - x i)). lra.
Qed.

(* without J: the minimisers are the solutions of the linear system *)
Lemma const_convex : convex (fun _ => 0).
Proof. intros x y t _. lra. Qed.
