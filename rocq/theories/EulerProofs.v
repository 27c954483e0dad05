(* Implicit Euler for linear systems: the error against a smooth solution is at most a multiple of
   the time step. *)
From Coq Require Import Reals List Arith Lia Lra.
From Verif Require Import RVec LinAlg DirichletSpec FemSpec FemAssemblyProofs AlternationProofs.
Local Open Scope R_scope.

Section Form.
  Variables (n : nat) (A : mat).
  Hypothesis SY : symmetric n A.
  Hypothesis PS : pos_semidef n A.
  Notation B := (bilinear n n A).
  Notation q := (qform n A).
  Definition norm (x : vec) : R := sqrt (q x).

  Lemma norm_nonneg x : 0 <= norm x.
  Proof. apply sqrt_pos. Qed.
  Lemma norm_square x : norm x * norm x = q x.
  Proof. apply sqrt_sqrt, PS. Qed.
  Lemma form_sym x y : B x y = B y x.
  Proof. rewrite !bilinear_dot. apply dot_mv_sym, SY. Qed.
  Lemma form_plus z x y : B z (fun i => x i + y i) = B z x + B z y.
  Proof. unfold bilinear. rewrite <- sum_plus. apply sum_ext. intros i _. rewrite <- sum_plus. apply sum_ext. intros; ring. Qed.
  Lemma form_scal z c x : B z (fun i => c * x i) = c * B z x.
  Proof. unfold bilinear. rewrite <- sum_scal. apply sum_ext. intros i _. rewrite <- sum_scal. apply sum_ext. intros; ring. Qed.
  Lemma form_ext x x' y y' : veq n x x' -> veq n y y' -> B x y = B x' y'.
  Proof. intros. apply bilinear_vec; assumption. Qed.

  Lemma form_cs x y : B x y * B x y <= q x * q y.
  Proof.
    assert (Q : forall s t, 0 <= s * s * q x + 2 * s * t * B x y + t * t * q y).
    { intros s t. assert (P := PS (fun i => s * x i + t * y i)). rewrite <- bilinear_q in P.
      rewrite form_plus, !form_scal, (form_sym _ x), (form_sym _ y), !form_plus, !form_scal, !bilinear_q, (form_sym y x) in P. lra. }
    assert (X := PS x). assert (Y := PS y). destruct (Rle_or_lt (q x) 0) as [X0|X0].
    - assert (E : q x = 0) by lra. assert (B x y = 0) as ->; [|rewrite E; lra].
      set (b := B x y) in *. destruct (Req_dec b 0) as [|N]; [assumption|]. exfalso.
      assert (P := Q (- ((q y + 1) / b)) 1). rewrite E in P. replace (2 * - ((q y + 1) / b) * 1 * b) with (- 2 * (q y + 1)) in P by (field; exact N). lra.
    - assert (P := Q (- B x y) (q x)). assert (0 <= q x * (q x * q y - B x y * B x y)) by nra.
      destruct (Rle_or_lt (B x y * B x y) (q x * q y)); [assumption|]. exfalso. nra.
  Qed.
  Lemma form_le x y : B x y <= norm x * norm y.
  Proof.
    assert (C := form_cs x y). rewrite <- !norm_square in C. assert (X := norm_nonneg x). assert (Y := norm_nonneg y).
    assert (0 <= norm x * norm y) by (apply Rmult_le_pos; assumption).
    destruct (Rle_or_lt (B x y) (norm x * norm y)); [assumption|]. exfalso. nra.
  Qed.
  Lemma form_ge x y : - (norm x * norm y) <= B x y.
  Proof.
    assert (C := form_cs x y). rewrite <- !norm_square in C. assert (X := norm_nonneg x). assert (Y := norm_nonneg y).
    assert (0 <= norm x * norm y) by (apply Rmult_le_pos; assumption).
    destruct (Rle_or_lt (- (norm x * norm y)) (B x y)); [assumption|]. exfalso. nra.
  Qed.
  Lemma norm_ext x y : veq n x y -> norm x = norm y.
  Proof. intros E. unfold norm. f_equal. apply qform_ext, E. Qed.

  (* bounded by the entries *)
  Definition size : R := sum n (fun i => sum n (fun j => Rabs (A i j))).
  Lemma size_nonneg : 0 <= size.
  Proof. apply sum_nonneg. intros i _. apply sum_nonneg. intros j _. apply Rabs_pos. Qed.
  Lemma form_bound x y b c : (forall i, (i < n)%nat -> Rabs (x i) <= b) -> (forall i, (i < n)%nat -> Rabs (y i) <= c) -> B x y <= size * (b * c).
  Proof.
    intros X Y. unfold bilinear, size. rewrite <- sum_scal_r. apply sum_le. intros i Hi. rewrite <- sum_scal_r. apply sum_le. intros j Hj.
    replace (x i * A i j * y j) with (A i j * x i * y j) by ring. apply (Rle_trans _ (Rabs (A i j * x i * y j))); [apply RRle_abs|]. rewrite !Rabs_mult, Rmult_assoc.
    apply Rmult_le_compat_l; [apply Rabs_pos|]. apply Rmult_le_compat; [apply Rabs_pos|apply Rabs_pos|auto|auto].
  Qed.
  Lemma norm_bound x b : 0 <= b -> (forall i, (i < n)%nat -> Rabs (x i) <= b) -> norm x <= sqrt size * b.
  Proof.
    intros B0 X. assert (F := form_bound x x b b X X). rewrite bilinear_q in F. unfold norm.
    apply (Rle_trans _ (sqrt (size * (b * b)))); [apply sqrt_le_1_alt; exact F|].
    rewrite sqrt_mult_alt by apply size_nonneg. rewrite sqrt_square by exact B0. lra.
  Qed.

  (* a component of a field without values on [given] *)
  Variable given : nat -> R -> Prop.
  Hypothesis RG : forall i v, given i v -> (i < n)%nat.
  Hypothesis FD : free_definite n A given.
  Definition free (z : vec) : Prop := forall i v, given i v -> z i = 0.

  Lemma component_bound : exists c, 0 <= c /\ forall z i, free z -> (i < n)%nat -> Rabs (z i) <= c * norm z.
  Proof.
    assert (ONE : forall k, exists c, 0 <= c /\ forall z, free z -> (k < n)%nat -> Rabs (z k) <= c * norm z).
    { intros k. destruct (weakly_solvable n A (fun i v => (exists w, given i w) /\ v = 0) (delta k)) as (w & W0 & W).
      - intros i v ((w & G) & _). eapply RG, G.
      - intros i v w (_ & ->) (_ & ->). reflexivity.
      - intros x X. apply FD. intros d v G. apply (X d 0). eauto.
      - exists (norm w). split; [apply norm_nonneg|]. intros z Z K.
        assert (E : B z w = z k).
        { rewrite W; [unfold dot; rewrite <- (sum_delta_l n k z K); apply sum_ext; intros; ring|]. intros i v ((y & G) & _). eapply Z, G. }
        assert (F1 := form_le z w). assert (F2 := form_ge z w). rewrite E in F1, F2. apply Rabs_le. lra. }
    assert (ALL : forall k, exists c, 0 <= c /\ forall z i, free z -> (i < k)%nat -> (i < n)%nat -> Rabs (z i) <= c * norm z).
    { induction k as [|k (c & C & H)]; [exists 0; split; [lra|]; intros; lia|]. destruct (ONE k) as (d & D & HD).
      exists (c + d). split; [lra|]. intros z i Z I L. assert (0 <= norm z) by apply norm_nonneg.
      destruct (Nat.eq_dec i k) as [->|N].
      - assert (Q := HD z Z L). nra.
      - assert (Q := H z i Z ltac:(lia) L). nra. }
    destruct (ALL n) as (c & C & H). exists c. split; [exact C|]. intros z i Z I. apply H; auto.
  Qed.
End Form.

(* derivatives of sums *)
Lemma sum_derivable n (f f' : nat -> R -> R) t : (forall i, (i < n)%nat -> derivable_pt_lim (f i) t (f' i t)) ->
  derivable_pt_lim (fun s => sum n (fun i => f i s)) t (sum n (fun i => f' i t)).
Proof.
  induction n as [|n IH]; intros H; cbn; [apply derivable_pt_lim_const|].
  apply (derivable_pt_lim_plus (fun s => sum n (fun i => f i s)) (f n)); [apply IH; intros; apply H; lia|apply H; lia].
Qed.

Section Curve.
  Variables (n : nat) (a b : R).
  Variables (f f' : R -> vec).
  Hypothesis AB : a < b.
  Hypothesis DE : forall i t, (i < n)%nat -> a <= t <= b -> derivable_pt_lim (fun s => f s i) t (f' t i).

  Lemma form_mvt A z : exists c, a < c < b /\ bilinear n n A z (minus (f b) (f a)) = (b - a) * bilinear n n A z (f' c).
  Proof.
    set (w := fun j => sum n (fun i => A i j * z i)).
    assert (E : forall y, bilinear n n A z y = sum n (fun j => w j * y j)).
    { intros y. unfold bilinear, w. rewrite sum_swap. apply sum_ext. intros j _. rewrite <- sum_scal_r. apply sum_ext. intros; ring. }
    destruct (MVT_cor2 (fun s => sum n (fun j => w j * f s j)) (fun s => sum n (fun j => w j * f' s j)) a b AB) as (c & C & I).
    { intros t T. apply (sum_derivable n (fun j s => w j * f s j) (fun j s => w j * f' s j)). intros j J. apply (derivable_pt_lim_scal (fun s => f s j)). auto. }
    exists c. split; [exact I|]. rewrite !E. unfold minus. rewrite Rmult_comm, <- C, <- sum_minus. apply sum_ext. intros; ring.
  Qed.
  (* the first order expansion about the end *)
  Lemma taylor A L : symmetric n A -> pos_semidef n A -> 0 <= L -> (forall t, a <= t <= b -> norm n A (minus (f' t) (f' b)) <= L * (b - t)) ->
    norm n A (fun i => f b i - f a i - (b - a) * f' b i) <= L * (b - a) * (b - a).
  Proof.
    intros SY PS L0 LI. set (z := fun i => f b i - f a i - (b - a) * f' b i).
    destruct (form_mvt A z) as (c & C & E). assert (LC := LI c ltac:(lra)).
    assert (Q : qform n A z = (b - a) * bilinear n n A z (minus (f' c) (f' b))).
    { rewrite <- bilinear_q. rewrite bilinear_minus_r, Rmult_minus_distr_l, <- E, bilinear_minus_r, <- form_scal, <- !bilinear_minus_r. reflexivity. }
    assert (F := form_le n A SY PS z (minus (f' c) (f' b))). rewrite <- (norm_square n A PS z) in Q.
    assert (Z := norm_nonneg n A z). set (nz := norm n A z) in *. set (nd := norm n A (minus (f' c) (f' b))) in *. set (bb := bilinear n n A z _) in *.
    assert (ND : nd <= L * (b - a)) by (apply (Rle_trans _ (L * (b - c))); [exact LC|apply Rmult_le_compat_l; lra]).
    destruct Z as [Z|Z]; [|rewrite <- Z; apply Rmult_le_pos; [apply Rmult_le_pos; lra|lra]].
    apply (Rmult_le_reg_r nz); [exact Z|]. rewrite Q. replace (L * (b - a) * (b - a) * nz) with ((b - a) * (nz * (L * (b - a)))) by ring.
    apply Rmult_le_compat_l; [lra|]. apply (Rle_trans _ _ _ F). apply Rmult_le_compat_l; lra.
  Qed.
End Curve.
(* the same for one component *)
Lemma taylor_component (f f' : R -> R) a b L : a < b -> (forall t, a <= t <= b -> derivable_pt_lim f t (f' t)) -> 0 <= L ->
  (forall t, a <= t <= b -> Rabs (f' t - f' b) <= L * (b - t)) -> Rabs (f b - f a - (b - a) * f' b) <= L * (b - a) * (b - a).
Proof.
  intros AB DE L0 LI. destruct (MVT_cor2 f f' a b AB DE) as (c & C & I). assert (LC := LI c ltac:(lra)).
  replace (f b - f a - (b - a) * f' b) with ((f' c - f' b) * (b - a)) by lra. rewrite Rabs_mult, (Rabs_right (b - a)) by lra.
  apply Rmult_le_compat_r; [lra|]. apply (Rle_trans _ _ _ LC). apply Rmult_le_compat_l; lra.
Qed.

Lemma sqrt_sum_le x0 y0 x1 y1 : 0 <= x0 -> 0 <= y0 -> 0 <= x1 -> 0 <= y1 ->
  x1 * x0 + y1 * y0 <= sqrt (x1 * x1 + y1 * y1) * sqrt (x0 * x0 + y0 * y0).
Proof.
  intros X0 Y0 X1 Y1. rewrite <- sqrt_mult_alt by nra. rewrite <- (sqrt_square (x1 * x0 + y1 * y0)) by nra.
  apply sqrt_le_1_alt. assert (0 <= (x1 * y0 - y1 * x0) * (x1 * y0 - y1 * x0)) by apply Rle_0_sqr. nra.
Qed.
Lemma sqrt_part x y : 0 <= x -> 0 <= y -> x <= sqrt (x * x + y * y).
Proof. intros X Y. rewrite <- (sqrt_square x) at 1 by exact X. apply sqrt_le_1_alt. nra. Qed.

Section Scheme.
  Variables (n : nat) (M C K : mat) (given : nat -> R -> Prop) (T : R).
  Variables (U V A : R -> vec) (F : R -> vec -> R).
  Notation free := (free given).
  Hypothesis SM : symmetric n M.
  Hypothesis SK : symmetric n K.
  Hypothesis PM : pos_semidef n M.
  Hypothesis PC : pos_semidef n C.
  Hypothesis PK : pos_semidef n K.
  (* the solution *)
  Hypothesis VT : forall t i x, 0 <= t <= T -> given i x -> V t i = x.
  Hypothesis EX : forall t z, 0 <= t <= T -> free z -> bilinear n n M z (A t) + bilinear n n C z (V t) + bilinear n n K z (U t) = F t z.
  Hypothesis DU : forall i t, (i < n)%nat -> 0 <= t <= T -> derivable_pt_lim (fun s => U s i) t (V t i).

  (* k steps *)
  Definition stepped (dt : R) (u v : nat -> vec) (k : nat) : Prop := forall j, (j < k)%nat ->
    (forall i, u (S j) i = u j i + dt * v (S j) i) /\ (forall i x, given i x -> v (S j) i = x) /\
    forall z, free z -> bilinear n n M z (fun i => (v (S j) i - v j i) / dt) + bilinear n n C z (v (S j)) + bilinear n n K z (u (S j)) = F (INR j * dt) z.

  Section Run.
  Variables (dt : R) (u v : nat -> vec) (k : nat).
  Hypothesis DT : 0 < dt.
  Hypothesis ST : stepped dt u v k.
  Notation at_ j := (INR j * dt).
  Definition eu (j : nat) : vec := minus (u j) (U (at_ j)).
  Definition ev (j : nat) : vec := minus (v j) (V (at_ j)).
  Definition pu (j : nat) : vec := fun i => U (at_ (S j)) i - U (at_ j) i - (at_ (S j) - at_ j) * V (at_ (S j)) i.
  Definition pv (j : nat) : vec := fun i => V (at_ (S j)) i - V (at_ j) i - (at_ (S j) - at_ j) * A (at_ (S j)) i.

  Lemma at_next j : at_ (S j) = at_ j + dt.
  Proof. rewrite S_INR. ring. Qed.
  Lemma at_range j : at_ (S j) <= T -> 0 <= at_ j /\ at_ j < at_ (S j) /\ 0 <= at_ (S j) <= T.
  Proof. intros H. rewrite at_next in *. assert (0 <= at_ j) by (apply Rmult_le_pos; [apply pos_INR|lra]). lra. Qed.
  Lemma ev_free j : (j < k)%nat -> at_ (S j) <= T -> free (ev (S j)).
  Proof.
    intros J L i x G. destruct (ST j J) as (_ & B & _). unfold ev, minus. rewrite (B i x G), (VT _ i x (proj2 (proj2 (at_range j L))) G). ring.
  Qed.
  Lemma eu_next j i : (j < k)%nat -> eu (S j) i = eu j i + dt * ev (S j) i - pu j i.
  Proof. intros J. destruct (ST j J) as (E & _). unfold eu, ev, pu, minus. rewrite E, at_next. ring. Qed.

  Lemma identity j : (j < k)%nat -> at_ (S j) <= T ->
    qform n M (ev (S j)) + dt * qform n C (ev (S j)) + qform n K (eu (S j)) =
    bilinear n n M (ev (S j)) (ev j) + bilinear n n K (eu (S j)) (eu j) - bilinear n n M (ev (S j)) (pv j) - bilinear n n K (eu (S j)) (pu j)
    + dt * (F (at_ j) (ev (S j)) - F (at_ (S j)) (ev (S j))).
  Proof.
    intros J L. assert (Z := ev_free j J L). destruct (ST j J) as (_ & _ & E). specialize (E _ Z).
    assert (X := EX _ _ (proj2 (proj2 (at_range j L))) Z).
    set (z := ev (S j)) in *.
    assert (MM : forall x y, bilinear n n M z (fun i => (x i - y i) / dt) = / dt * (bilinear n n M z x - bilinear n n M z y)).
    { intros x y. rewrite <- bilinear_minus_r, <- form_scal. apply bilinear_vec; intros i _; unfold minus; [reflexivity|]. unfold Rdiv. ring. }
    assert (E1 : bilinear n n M z z = bilinear n n M z (v (S j)) - bilinear n n M z (V (at_ (S j)))) by (unfold z at 2; apply bilinear_minus_r).
    assert (E2 : bilinear n n M z (ev j) = bilinear n n M z (v j) - bilinear n n M z (V (at_ j))) by apply bilinear_minus_r.
    assert (E3 : bilinear n n M z (pv j) = bilinear n n M z (V (at_ (S j))) - bilinear n n M z (V (at_ j)) - dt * bilinear n n M z (A (at_ (S j)))).
    { rewrite <- bilinear_minus_r, <- form_scal, <- bilinear_minus_r. apply bilinear_vec; intros i _; [reflexivity|]. unfold pv, minus. rewrite at_next. ring. }
    assert (E4 : bilinear n n C z z = bilinear n n C z (v (S j)) - bilinear n n C z (V (at_ (S j)))) by (unfold z at 2; apply bilinear_minus_r).
    assert (E5 : bilinear n n K z (eu (S j)) = bilinear n n K z (u (S j)) - bilinear n n K z (U (at_ (S j)))) by apply bilinear_minus_r.
    assert (E6 : dt * bilinear n n K z (eu (S j)) = qform n K (eu (S j)) - bilinear n n K (eu (S j)) (eu j) + bilinear n n K (eu (S j)) (pu j)).
    { rewrite (form_sym n K SK z), <- form_scal, <- bilinear_q, <- bilinear_minus_r, <- form_plus. apply bilinear_vec; intros i _; [reflexivity|].
      unfold minus. rewrite (eu_next j i J). unfold z. ring. }
    rewrite MM in E. rewrite <- (bilinear_q n M z), <- (bilinear_q n C z). rewrite E1, E2, E3, E4.
    assert (D : dt * / dt = 1) by (field; lra).
    assert (G : bilinear n n M z (v (S j)) - bilinear n n M z (v j) = dt * (/ dt * (bilinear n n M z (v (S j)) - bilinear n n M z (v j)))) by (rewrite <- Rmult_assoc, D; ring).
    rewrite E5 in E6. nra.
  Qed.

  Lemma ahead j : at_ (S j) - at_ j = dt.
  Proof. rewrite at_next. ring. Qed.
  Lemma pu_bound B j : at_ (S j) <= T -> 0 <= B -> (forall s t, 0 <= s <= t -> t <= T -> norm n K (minus (V s) (V t)) <= B * (t - s)) -> norm n K (pu j) <= B * dt * dt.
  Proof.
    intros L B0 LI. destruct (at_range j L) as (R0 & R1 & R2). replace (B * dt * dt) with (B * (at_ (S j) - at_ j) * (at_ (S j) - at_ j)) by (rewrite ahead; ring). unfold pu.
    apply (taylor n (at_ j) (at_ (S j)) U V R1); auto.
    - intros i t I X. apply DU; [exact I|lra].
    - intros t X. apply LI; lra.
  Qed.

  (* a step adds little to the error *)
  Lemma dynamic_step a b l j : (j < k)%nat -> at_ (S j) <= T -> 0 <= a -> 0 <= b -> 0 <= l ->
    (forall i t, (i < n)%nat -> 0 <= t <= T -> derivable_pt_lim (fun s => V s i) t (A t i)) ->
    (forall s t, 0 <= s <= t -> t <= T -> norm n M (minus (A s) (A t)) <= a * (t - s)) ->
    (forall s t, 0 <= s <= t -> t <= T -> norm n K (minus (V s) (V t)) <= b * (t - s)) ->
    (forall s t z, 0 <= s <= t -> t <= T -> free z -> F s z - F t z <= l * (t - s) * norm n M z) ->
    sqrt (qform n M (ev (S j)) + qform n K (eu (S j))) <= sqrt (qform n M (ev j) + qform n K (eu j)) + (a + b + l) * dt * dt.
  Proof.
    intros J L A0 B0 L0 DV LA LB LF. destruct (at_range j L) as (R0 & R1 & R2).
    assert (BU := pu_bound b j L B0 LB).
    assert (BV : norm n M (pv j) <= a * dt * dt).
    { replace (a * dt * dt) with (a * (at_ (S j) - at_ j) * (at_ (S j) - at_ j)) by (rewrite ahead; ring). unfold pv. apply (taylor n (at_ j) (at_ (S j)) V A R1); auto.
      - intros i t I X. apply DV; [exact I|lra].
      - intros t X. apply LA; lra. }
    assert (BF := LF (at_ j) (at_ (S j)) (ev (S j)) ltac:(lra) ltac:(lra) (ev_free j J L)). rewrite ahead in BF.
    assert (ID := identity j J L). assert (CC := PC (ev (S j))).
    rewrite <- !(norm_square n M PM) in *. rewrite <- !(norm_square n K PK) in *.
    assert (F1 := form_le n M SM PM (ev (S j)) (ev j)). assert (F2 := form_le n K SK PK (eu (S j)) (eu j)).
    assert (F3 := form_ge n M SM PM (ev (S j)) (pv j)). assert (F4 := form_ge n K SK PK (eu (S j)) (pu j)).
    assert (X0 := norm_nonneg n M (ev j)). assert (X1 := norm_nonneg n M (ev (S j))). assert (Y0 := norm_nonneg n K (eu j)). assert (Y1 := norm_nonneg n K (eu (S j))).
    set (x0 := norm n M (ev j)) in *. set (x1 := norm n M (ev (S j))) in *. set (y0 := norm n K (eu j)) in *. set (y1 := norm n K (eu (S j))) in *.
    set (p := norm n M (pv j)) in *. set (r := norm n K (pu j)) in *.
    assert (C1 := sqrt_sum_le x0 y0 x1 y1 X0 Y0 X1 Y1). assert (S1 := sqrt_part x1 y1 X1 Y1). assert (S2 := sqrt_part y1 x1 Y1 X1). rewrite (Rplus_comm (y1 * y1)) in S2.
    assert (Q1 : sqrt (x1 * x1 + y1 * y1) * sqrt (x1 * x1 + y1 * y1) = x1 * x1 + y1 * y1) by (apply sqrt_sqrt; nra).
    assert (E0 := sqrt_pos (x0 * x0 + y0 * y0)).
    set (e1 := sqrt (x1 * x1 + y1 * y1)) in *. set (e0 := sqrt (x0 * x0 + y0 * y0)) in *.
    assert (D2 : 0 <= dt * dt) by nra.
    assert (T1 : x1 * p <= e1 * (a * dt * dt)) by (apply Rmult_le_compat; [exact X1|apply norm_nonneg|exact S1|exact BV]).
    assert (T2 : y1 * r <= e1 * (b * dt * dt)) by (apply Rmult_le_compat; [exact Y1|apply norm_nonneg|exact S2|exact BU]).
    assert (T3 : dt * (F (at_ j) (ev (S j)) - F (at_ (S j)) (ev (S j))) <= e1 * (l * dt * dt)).
    { apply (Rle_trans _ (dt * (l * dt * x1))); [apply Rmult_le_compat_l; lra|]. replace (dt * (l * dt * x1)) with (x1 * (l * dt * dt)) by ring.
      apply Rmult_le_compat_r; [nra|exact S1]. }
    assert (GG : e1 * e1 <= e1 * (e0 + (a + b + l) * dt * dt)) by nra.
    assert (E1 : 0 <= e1) by apply sqrt_pos. assert (0 <= (a + b + l) * dt * dt) by (rewrite Rmult_assoc; apply Rmult_le_pos; lra).
    destruct E1 as [E1|E1]; [apply (Rmult_le_reg_l e1); assumption|]. rewrite <- E1. lra.
  Qed.

  Lemma quasistatic_step b l j : (j < k)%nat -> at_ (S j) <= T -> 0 <= b -> 0 <= l -> (forall i m, M i m = 0) -> symmetric n C ->
    (forall s t, 0 <= s <= t -> t <= T -> norm n K (minus (V s) (V t)) <= b * (t - s)) ->
    (forall s t z, 0 <= s <= t -> t <= T -> free z -> F s z - F t z <= l * (t - s) * norm n C z) ->
    qform n K (eu (S j)) <= qform n K (eu j) + 2 * (b * dt * dt) * norm n K (eu (S j)) + l * l * dt * dt * dt / 2.
  Proof.
    intros J L B0 L0 M0 SC LB LF. destruct (at_range j L) as (R0 & R1 & R2). assert (BU := pu_bound b j L B0 LB).
    assert (BF := LF (at_ j) (at_ (S j)) (ev (S j)) ltac:(lra) ltac:(lra) (ev_free j J L)). rewrite ahead in BF.
    assert (ID := identity j J L).
    assert (Z : forall x y, bilinear n n M x y = 0) by (intros x y; unfold bilinear; apply sum_0; intros i _; apply sum_0; intros m _; rewrite M0; ring).
    rewrite <- (bilinear_q n M), !Z in ID.
    assert (F2 := form_le n K SK PK (eu (S j)) (eu j)). assert (F4 := form_ge n K SK PK (eu (S j)) (pu j)).
    rewrite <- !(norm_square n K PK) in *. rewrite <- !(norm_square n C PC) in *.
    assert (Y0 := norm_nonneg n K (eu j)). assert (Y1 := norm_nonneg n K (eu (S j))). assert (R9 := norm_nonneg n K (pu j)).
    set (y0 := norm n K (eu j)) in *. set (y1 := norm n K (eu (S j))) in *. set (r := norm n K (pu j)) in *. set (c := norm n C (ev (S j))) in *.
    assert (T2 : y1 * r <= y1 * (b * dt * dt)) by (apply Rmult_le_compat_l; assumption).
    assert (T3 : dt * (F (at_ j) (ev (S j)) - F (at_ (S j)) (ev (S j))) <= dt * (l * dt * c)) by (apply Rmult_le_compat_l; lra).
    assert (T4 : dt * (l * dt * c) <= dt * (c * c) + l * l * dt * dt * dt / 4).
    { assert (0 <= dt * ((c - l * dt / 2) * (c - l * dt / 2))) by (apply Rmult_le_pos; [lra|apply Rle_0_sqr]). nra. }
    assert (0 <= (y1 - y0) * (y1 - y0)) by apply Rle_0_sqr. nra.
  Qed.

  (* the velocity follows the displacement *)
  Lemma quasistatic_velocity ka l j : (j < k)%nat -> at_ (S j) <= T -> 0 <= ka -> 0 <= l -> (forall i m, M i m = 0) -> symmetric n C ->
    (forall z, free z -> norm n K z <= ka * norm n C z) ->
    (forall s t z, 0 <= s <= t -> t <= T -> free z -> F s z - F t z <= l * (t - s) * norm n C z) ->
    norm n C (ev (S j)) <= l * dt + ka * norm n K (eu (S j)).
  Proof.
    intros J L K0 L0 M0 SC KA LF. destruct (at_range j L) as (R0 & R1 & R2). assert (Z := ev_free j J L).
    assert (BF := LF (at_ j) (at_ (S j)) (ev (S j)) ltac:(lra) ltac:(lra) Z). rewrite ahead in BF. assert (KZ := KA _ Z).
    destruct (ST j J) as (_ & _ & E). specialize (E _ Z). assert (X := EX _ _ R2 Z).
    assert (ZM : forall x y, bilinear n n M x y = 0) by (intros x y; unfold bilinear; apply sum_0; intros i _; apply sum_0; intros m _; rewrite M0; ring).
    rewrite ZM in E, X.
    assert (E4 : qform n C (ev (S j)) = bilinear n n C (ev (S j)) (v (S j)) - bilinear n n C (ev (S j)) (V (at_ (S j)))) by (rewrite <- bilinear_q; unfold ev at 2; apply bilinear_minus_r).
    assert (E5 : bilinear n n K (ev (S j)) (eu (S j)) = bilinear n n K (ev (S j)) (u (S j)) - bilinear n n K (ev (S j)) (U (at_ (S j)))) by apply bilinear_minus_r.
    assert (F4 := form_ge n K SK PK (ev (S j)) (eu (S j))). rewrite <- (norm_square n C PC) in E4.
    assert (Y1 := norm_nonneg n K (eu (S j))). assert (C1 := norm_nonneg n C (ev (S j))).
    set (y1 := norm n K (eu (S j))) in *. set (c := norm n C (ev (S j))) in *. set (w := norm n K (ev (S j))) in *.
    assert (w * y1 <= ka * c * y1) by (apply Rmult_le_compat_r; assumption).
    destruct C1 as [C1|C1]; [apply (Rmult_le_reg_l c); nra|]. rewrite <- C1. apply Rplus_le_le_0_compat; apply Rmult_le_pos; lra.
  Qed.

  (* displacements from velocities *)
  Lemma displacement_error b e i j : (j <= k)%nat -> at_ j <= T -> (i < n)%nat -> 0 <= b -> 0 <= e ->
    (forall s t, 0 <= s <= t -> t <= T -> Rabs (V s i - V t i) <= b * (t - s)) ->
    (forall h, (0 < h <= j)%nat -> Rabs (ev h i) <= e) -> eu 0 i = 0 -> Rabs (eu j i) <= at_ j * (e + b * dt).
  Proof.
    intros J L I B0 E0 LI EV U0. induction j as [|j IH]; [rewrite U0, Rabs_R0; cbn; lra|].
    destruct (at_range j L) as (R0 & R1 & R2).
    assert (IHj := IH ltac:(lia) ltac:(lra) ltac:(intros; apply EV; lia)). rewrite (eu_next j i) by lia.
    assert (PB : Rabs (pu j i) <= b * dt * dt).
    { unfold pu. rewrite ahead. assert (Q := taylor_component (fun s => U s i) (fun s => V s i) (at_ j) (at_ (S j)) b R1). rewrite ahead in Q. apply Q; auto.
      - intros t X. apply DU; [exact I|lra].
      - intros t X. apply LI; lra. }
    assert (EB := EV (S j) ltac:(lia)). replace (eu j i + dt * ev (S j) i - pu j i) with (eu j i + (dt * ev (S j) i + - pu j i)) by ring.
    assert (Q1 := Rabs_triang (eu j i) (dt * ev (S j) i + - pu j i)). assert (Q2 := Rabs_triang (dt * ev (S j) i) (- pu j i)).
    rewrite Rabs_Ropp, Rabs_mult, (Rabs_right dt) in Q2 by lra. rewrite at_next.
    assert (dt * Rabs (ev (S j) i) <= dt * e) by (apply Rmult_le_compat_l; lra). nra.
  Qed.
  End Run.

  Variables (B L c : R).
  Hypothesis T0 : 0 <= T.
  Hypothesis B0 : 0 <= B.
  Hypothesis L0 : 0 <= L.
  Hypothesis C0 : 0 <= c.
  Hypothesis LV : forall i s t, (i < n)%nat -> 0 <= s <= t -> t <= T -> Rabs (V s i - V t i) <= B * (t - s).
  Hypothesis LF : forall s t z w, 0 <= s <= t -> t <= T -> 0 <= w -> (forall i, (i < n)%nat -> Rabs (z i) <= w) -> F s z - F t z <= L * (t - s) * w.

  Lemma norm_curve Q (f : R -> vec) : (forall i s t, (i < n)%nat -> 0 <= s <= t -> t <= T -> Rabs (f s i - f t i) <= B * (t - s)) ->
    forall s t, 0 <= s <= t -> t <= T -> norm n Q (minus (f s) (f t)) <= sqrt (size n Q) * B * (t - s).
  Proof.
    intros H s t S1 S2. rewrite Rmult_assoc. apply norm_bound; [apply Rmult_le_pos; lra|]. intros i I. unfold minus. apply H; auto.
  Qed.

  Lemma dynamic_rate : (forall i t, (i < n)%nat -> 0 <= t <= T -> derivable_pt_lim (fun s => V s i) t (A t i)) ->
    (forall i s t, (i < n)%nat -> 0 <= s <= t -> t <= T -> Rabs (A s i - A t i) <= B * (t - s)) ->
    (forall z i, free z -> (i < n)%nat -> Rabs (z i) <= c * norm n M z) ->
    exists ka, 0 <= ka /\ forall dt u v k, 0 < dt -> stepped dt u v k -> veq n (u O) (U 0) -> veq n (v O) (V 0) ->
      forall j i, (j <= k)%nat -> INR j * dt <= T -> (i < n)%nat ->
      Rabs (u j i - U (INR j * dt) i) <= ka * dt /\ Rabs (v j i - V (INR j * dt) i) <= ka * dt.
  Proof.
    intros DV LA CB. set (a := sqrt (size n M) * B). set (b := sqrt (size n K) * B). set (l := L * c).
    assert (A1 : 0 <= a) by (apply Rmult_le_pos; [apply sqrt_pos|exact B0]). assert (B1 : 0 <= b) by (apply Rmult_le_pos; [apply sqrt_pos|exact B0]).
    assert (L1 : 0 <= l) by (apply Rmult_le_pos; assumption).
    set (kv := c * (T * (a + b + l))). set (ku := T * (kv + B)).
    assert (KV : 0 <= kv) by (apply Rmult_le_pos; [exact C0|apply Rmult_le_pos; lra]). assert (KU : 0 <= ku) by (apply Rmult_le_pos; lra).
    exists (ku + kv). split; [lra|]. intros dt u v k DT ST U0 V0.
    assert (EN : forall j, (j <= k)%nat -> INR j * dt <= T ->
      sqrt (qform n M (ev dt v j) + qform n K (eu dt u j)) <= INR j * dt * ((a + b + l) * dt)).
    { induction j as [|j IH]; intros J TJ.
      - assert (Z : forall Q x, veq n x (fun _ => 0) -> qform n Q x = 0).
        { intros Q x X. rewrite (qform_ext n Q x (fun _ => 0) X). unfold qform, dot. apply sum_0. intros; ring. }
        rewrite !Z, Rplus_0_r, sqrt_0; [cbn; lra| |]; intros i I; unfold eu, ev, minus; cbn [INR]; rewrite Rmult_0_l; [rewrite (U0 i I)|rewrite (V0 i I)]; ring.
      - assert (R0 := at_range dt DT j TJ). assert (TJ0 : INR j * dt <= T) by lra. assert (IHj := IH ltac:(lia) TJ0).
        assert (Q := dynamic_step dt u v k DT ST a b l j ltac:(lia) TJ A1 B1 L1 DV (norm_curve M A LA) (norm_curve K V LV)).
        assert (LFM : forall s t z, 0 <= s <= t -> t <= T -> free z -> F s z - F t z <= l * (t - s) * norm n M z).
        { intros s t z S1 S2 Z. assert (0 <= norm n M z) by apply norm_nonneg.
          assert (X := LF s t z (c * norm n M z) S1 S2 ltac:(apply Rmult_le_pos; assumption) ltac:(intros; apply CB; assumption)). unfold l. lra. }
        specialize (Q LFM). rewrite S_INR. nra. }
    assert (EV : forall j i, (j <= k)%nat -> INR j * dt <= T -> (i < n)%nat -> Rabs (ev dt v j i) <= kv * dt).
    { intros [|j] i J TJ I.
      - unfold ev, minus. cbn [INR]. rewrite Rmult_0_l, (V0 i I), Rminus_diag_eq, Rabs_R0 by reflexivity. apply Rmult_le_pos; lra.
      - apply (Rle_trans _ _ _ (CB _ i (ev_free dt u v k DT ST j ltac:(lia) TJ) I)). unfold kv. rewrite !Rmult_assoc. apply Rmult_le_compat_l; [exact C0|].
        apply (Rle_trans _ (sqrt (qform n M (ev dt v (S j)) + qform n K (eu dt u (S j))))).
        + apply sqrt_le_1_alt. assert (X := PK (eu dt u (S j))). lra.
        + apply (Rle_trans _ _ _ (EN (S j) J TJ)). apply Rmult_le_compat_r; [apply Rmult_le_pos; lra|exact TJ]. }
    intros j i J TJ I. split.
    - assert (DE := displacement_error dt u v k DT ST B (kv * dt) i j J TJ I B0 ltac:(apply Rmult_le_pos; lra) (fun s t => LV i s t I)).
      assert (X : Rabs (eu dt u j i) <= INR j * dt * (kv * dt + B * dt)).
      { apply DE.
        - intros h H. apply EV; [lia| |exact I]. apply (Rle_trans _ (INR j * dt)); [|exact TJ]. apply Rmult_le_compat_r; [lra|apply le_INR; lia].
        - unfold eu, minus. cbn [INR]. rewrite Rmult_0_l, (U0 i I). ring. }
      unfold eu, minus in X. apply (Rle_trans _ _ _ X). unfold ku.
      assert (INR j * dt * (kv * dt + B * dt) <= T * (kv * dt + B * dt)) by (apply Rmult_le_compat_r; [nra|exact TJ]). nra.
    - assert (X := EV j i J TJ I). unfold ev, minus in X. apply (Rle_trans _ _ _ X). apply Rmult_le_compat_r; lra.
  Qed.

  Lemma quasistatic_rate : (forall i m, M i m = 0) -> symmetric n C -> (forall z i, free z -> (i < n)%nat -> Rabs (z i) <= c * norm n C z) ->
    exists ka, 0 <= ka /\ forall dt u v k, 0 < dt -> stepped dt u v k -> veq n (u O) (U 0) ->
      forall j i, (j <= k)%nat -> INR j * dt <= T -> (i < n)%nat ->
      Rabs (u j i - U (INR j * dt) i) <= ka * dt /\ ((0 < j)%nat -> Rabs (v j i - V (INR j * dt) i) <= ka * dt).
  Proof.
    intros M0 SC CB. set (b := sqrt (size n K) * B). set (l := L * c). set (kk := sqrt (size n K) * c).
    assert (B1 : 0 <= b) by (apply Rmult_le_pos; [apply sqrt_pos|exact B0]). assert (L1 : 0 <= l) by (apply Rmult_le_pos; assumption).
    assert (K1 : 0 <= kk) by (apply Rmult_le_pos; [apply sqrt_pos|exact C0]).
    set (X := 2 * T * b + sqrt (T / 2) * l). assert (X0 : 0 <= X) by (apply Rplus_le_le_0_compat; [apply Rmult_le_pos; lra|apply Rmult_le_pos; [apply sqrt_pos|exact L1]]).
    set (kv := c * (l + kk * X)). assert (KV : 0 <= kv) by (apply Rmult_le_pos; [exact C0|apply Rplus_le_le_0_compat; [exact L1|apply Rmult_le_pos; assumption]]).
    set (ku := T * (kv + B)). assert (KU : 0 <= ku) by (apply Rmult_le_pos; lra).
    exists (ku + kv). split; [lra|]. intros dt u v k DT ST U0.
    assert (LFC : forall s t z, 0 <= s <= t -> t <= T -> free z -> F s z - F t z <= l * (t - s) * norm n C z).
    { intros s t z S1 S2 Z. assert (0 <= norm n C z) by apply norm_nonneg.
      assert (Y := LF s t z (c * norm n C z) S1 S2 ltac:(apply Rmult_le_pos; assumption) ltac:(intros; apply CB; assumption)). unfold l. lra. }
    assert (KC : forall z, free z -> norm n K z <= kk * norm n C z).
    { intros z Z. unfold kk. rewrite Rmult_assoc. apply norm_bound; [apply Rmult_le_pos; [exact C0|apply norm_nonneg]|]. intros i I. apply CB; assumption. }
    assert (SUM : forall j w, (j <= k)%nat -> INR j * dt <= T -> (forall h, (h <= j)%nat -> norm n K (eu dt u h) <= w) ->
      qform n K (eu dt u j) <= INR j * dt * (2 * (b * dt) * w + l * l * dt * dt / 2)).
    { induction j as [|j IH]; intros w J TJ W.
      - rewrite (qform_ext n K _ (fun _ => 0)).
        + unfold qform, dot. rewrite sum_0 by (intros; ring). cbn [INR]. lra.
        + intros i I. unfold eu, minus. cbn [INR]. rewrite Rmult_0_l, (U0 i I). ring.
      - assert (R0 := at_range dt DT j TJ). assert (TJ0 : INR j * dt <= T) by lra.
        assert (IHj := IH w ltac:(lia) TJ0 (fun h H => W h ltac:(lia))).
        assert (Q := quasistatic_step dt u v k DT ST b l j ltac:(lia) TJ B1 L1 M0 SC (norm_curve K V LV) LFC).
        assert (WS := W (S j) ltac:(lia)). assert (2 * (b * dt * dt) * norm n K (eu dt u (S j)) <= 2 * (b * dt * dt) * w).
        { apply Rmult_le_compat_l; [|exact WS]. assert (0 <= b * (dt * dt)) by (apply Rmult_le_pos; nra). lra. }
        rewrite S_INR. nra. }
    assert (EK : forall j, (j <= k)%nat -> INR j * dt <= T -> forall h, (h <= j)%nat -> norm n K (eu dt u h) <= X * dt).
    { induction j as [|j IH]; intros J TJ h H.
      - assert (h = O) by lia. subst. assert (Q := SUM O (norm n K (eu dt u O)) ltac:(lia) TJ ltac:(intros h H'; assert (h = O) as -> by lia; lra)).
        cbn [INR] in Q. rewrite !Rmult_0_l in Q. assert (qform n K (eu dt u 0) = 0) as E by (assert (P := PK (eu dt u 0)); lra).
        unfold norm. rewrite E, sqrt_0. apply Rmult_le_pos; lra.
      - assert (R0 := at_range dt DT j TJ). assert (TJ0 : INR j * dt <= T) by lra. assert (IHj := IH ltac:(lia) TJ0).
        destruct (Nat.eq_dec h (S j)) as [->|NE]; [|apply IHj; lia].
        destruct (Rle_or_lt (norm n K (eu dt u (S j))) (X * dt)) as [|GT]; [assumption|]. exfalso.
        set (e := norm n K (eu dt u (S j))) in *.
        assert (Q := SUM (S j) e J TJ). rewrite <- (norm_square n K PK) in Q. fold e in Q.
        assert (W : forall h, (h <= S j)%nat -> norm n K (eu dt u h) <= e).
        { intros g G. destruct (Nat.eq_dec g (S j)) as [->|NG]; [apply Rle_refl|]. assert (Y := IHj g ltac:(lia)). lra. }
        specialize (Q W). assert (E0 : 0 < e) by (assert (0 <= X * dt) by (apply Rmult_le_pos; lra); lra).
        assert (Q2 : e * e <= T * (2 * (b * dt) * e + l * l * dt * dt / 2)).
        { apply (Rle_trans _ _ _ Q). apply Rmult_le_compat_r; [|exact TJ].
          assert (0 <= b * dt * e) by (apply Rmult_le_pos; [apply Rmult_le_pos; lra|lra]). assert (0 <= (l * dt) * (l * dt)) by apply Rle_0_sqr. lra. }
        set (s := sqrt (T / 2)) in *. assert (SS : s * s = T / 2) by (apply sqrt_sqrt; lra). assert (S0 : 0 <= s) by apply sqrt_pos.
        set (r := s * l * dt). assert (R1 : 0 <= r) by (apply Rmult_le_pos; [apply Rmult_le_pos; assumption|lra]).
        assert (RR : r * r = T * (l * l * dt * dt / 2)) by (unfold r; replace (s * l * dt * (s * l * dt)) with (s * s * (l * l * dt * dt)) by ring; rewrite SS; field).
        assert (EQ : X * dt = 2 * T * b * dt + r) by (unfold X, r; ring). rewrite EQ in GT.
        set (y := 2 * T * b * dt) in *. assert (Y0 : 0 <= y) by (unfold y; apply Rmult_le_pos; [apply Rmult_le_pos; lra|lra]).
        assert (Q3 : e * e <= y * e + r * r) by (rewrite RR; unfold y; lra).
        assert (r * (y + r) <= (e - y) * e) by nra. nra. }
    assert (EV : forall j i, (0 < j <= k)%nat -> INR j * dt <= T -> (i < n)%nat -> Rabs (ev dt v j i) <= kv * dt).
    { intros [|j] i J TJ I; [lia|]. apply (Rle_trans _ _ _ (CB _ i (ev_free dt u v k DT ST j ltac:(lia) TJ) I)). unfold kv. rewrite !Rmult_assoc. apply Rmult_le_compat_l; [exact C0|].
      assert (Q := quasistatic_velocity dt u v k DT ST kk l j ltac:(lia) TJ K1 L1 M0 SC KC LFC). apply (Rle_trans _ _ _ Q).
      assert (Y := EK (S j) ltac:(lia) TJ (S j) (le_n _)). assert (kk * norm n K (eu dt u (S j)) <= kk * (X * dt)) by (apply Rmult_le_compat_l; assumption). lra. }
    intros j i J TJ I. split.
    - assert (DE := displacement_error dt u v k DT ST B (kv * dt) i j J TJ I B0 ltac:(apply Rmult_le_pos; lra) (fun s t => LV i s t I)).
      assert (Y : Rabs (eu dt u j i) <= INR j * dt * (kv * dt + B * dt)).
      { apply DE.
        - intros h H. apply EV; [lia| |exact I]. apply (Rle_trans _ (INR j * dt)); [|exact TJ]. apply Rmult_le_compat_r; [lra|apply le_INR; lia].
        - unfold eu, minus. cbn [INR]. rewrite Rmult_0_l, (U0 i I). ring. }
      unfold eu, minus in Y. apply (Rle_trans _ _ _ Y). unfold ku.
      assert (INR j * dt * (kv * dt + B * dt) <= T * (kv * dt + B * dt)) by (apply Rmult_le_compat_r; [nra|exact TJ]). nra.
    - intros JP. assert (Y := EV j i ltac:(lia) TJ I). unfold ev, minus in Y. apply (Rle_trans _ _ _ Y). apply Rmult_le_compat_r; lra.
  Qed.
End Scheme.
