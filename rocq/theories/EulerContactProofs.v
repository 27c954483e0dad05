(* Implicit Euler for variational inequalities with a contact cost: the error against a smooth solution is
   at most a multiple of the time step. *)
From Coq Require Import Reals List Arith Lia Lra FunctionalExtensionality.
From Verif Require Import RVec LinAlg DirichletSpec FemSpec FemAssemblyProofs AlternationProofs EulerProofs.
Local Open Scope R_scope.

(* the largest component *)
Fixpoint top (n : nat) (x : vec) : R := match n with O => 0 | S n => Rmax (top n x) (Rabs (x n)) end.
Lemma top_nonneg n x : 0 <= top n x.
Proof. induction n; cbn; [lra|]. apply (Rle_trans _ _ _ IHn). apply Rmax_l. Qed.
Lemma top_ge n x i : (i < n)%nat -> Rabs (x i) <= top n x.
Proof.
  induction n; intros H; [lia|]. cbn. destruct (Nat.eq_dec i n) as [->|NE]; [apply Rmax_r|].
  apply (Rle_trans _ (top n x)); [apply IHn; lia|apply Rmax_l].
Qed.
Lemma top_le n x b : 0 <= b -> (forall i, (i < n)%nat -> Rabs (x i) <= b) -> top n x <= b.
Proof. intros B. induction n; intros H; cbn; [exact B|]. apply Rmax_lub; [apply IHn; intros; apply H; lia|apply H; lia]. Qed.

Lemma gronwall kap be dt (s : nat -> R) k : 0 <= kap -> 0 <= be -> 0 < dt -> s O <= 0 ->
  (forall j, (j < k)%nat -> s (S j) <= (1 + kap * dt) * s j + be * dt * dt) ->
  forall j, (j <= k)%nat -> s j <= INR j * dt * (be * dt) * exp (kap * (INR j * dt)).
Proof.
  intros K B D S0 H. induction j as [|j IH]; intros J; [cbn [INR]; lra|].
  assert (Q := H j ltac:(lia)). assert (IHj := IH ltac:(lia)). rewrite S_INR.
  set (x := INR j * dt) in *. assert (X : 0 <= x) by (apply Rmult_le_pos; [apply pos_INR|lra]).
  replace ((INR j + 1) * dt) with (x + dt) by (unfold x; ring). rewrite Rmult_plus_distr_l, exp_plus.
  assert (E1 : 1 + kap * dt <= exp (kap * dt)) by (apply exp_ineq1_le). assert (KD : 0 <= kap * dt) by (apply Rmult_le_pos; lra).
  assert (E2 : 1 <= exp (kap * x)).
  { apply (Rle_trans _ (1 + kap * x)); [|apply exp_ineq1_le]. assert (0 <= kap * x) by (apply Rmult_le_pos; assumption). lra. }
  set (ex := exp (kap * x)) in *. set (ed := exp (kap * dt)) in *. set (bd := be * dt). assert (BD : 0 <= bd) by (apply Rmult_le_pos; lra).
  assert (P1 : (1 + kap * dt) * s j <= ed * (x * bd * ex)).
  { apply (Rle_trans _ ((1 + kap * dt) * (x * bd * ex))); [apply Rmult_le_compat_l; [lra|exact IHj]|].
    apply Rmult_le_compat_r; [|exact E1]. apply Rmult_le_pos; [apply Rmult_le_pos; assumption|lra]. }
  assert (P2 : bd * dt <= dt * bd * (ex * ed)).
  { assert (1 <= ex * ed) by nra. assert (0 <= dt * bd) by (apply Rmult_le_pos; lra). nra. }
  fold bd in Q. nra.
Qed.

Section Scheme.
  Variables (n : nat) (M C K : mat) (given : nat -> R -> Prop) (T : R).
  Variables (U V A : R -> vec) (F : R -> vec -> R) (J : vec -> vec -> R).
  Notation free := (free given).
  Definition admits (w : vec) : Prop := forall i x, given i x -> w i = x.
  Hypothesis SM : symmetric n M.
  Hypothesis SK : symmetric n K.
  Hypothesis PM : pos_semidef n M.
  Hypothesis PC : pos_semidef n C.
  Hypothesis PK : pos_semidef n K.
  Hypothesis FO : forall t z, F t (fun i => - z i) = - F t z.
  (* the solution *)
  Hypothesis VT : forall t, 0 <= t <= T -> admits (V t).
  Hypothesis EX : forall t w, 0 <= t <= T -> admits w ->
    F t (minus w (V t)) <= bilinear n n M (minus w (V t)) (A t) + bilinear n n C (minus w (V t)) (V t) + bilinear n n K (minus w (V t)) (U t) + J (U t) w - J (U t) (V t).
  Hypothesis DU : forall i t, (i < n)%nat -> 0 <= t <= T -> derivable_pt_lim (fun s => U s i) t (V t i).

  (* k steps; the cost of contact of a step is that of the displacement before it *)
  Definition slid (Jd : vec -> vec -> R) (dt : R) (u v : nat -> vec) (k : nat) : Prop := forall j, (j < k)%nat ->
    (forall i, u (S j) i = u j i + dt * v (S j) i) /\ admits (v (S j)) /\
    forall w, admits w -> F (INR j * dt) (minus w (v (S j))) <= bilinear n n M (minus w (v (S j))) (fun i => (v (S j) i - v j i) / dt)
      + bilinear n n C (minus w (v (S j))) (v (S j)) + bilinear n n K (minus w (v (S j))) (u (S j)) + Jd (u j) w - Jd (u j) (v (S j)).

  Variables (lam B L c : R).
  Hypothesis LM0 : 0 <= lam.
  Hypothesis T0 : 0 <= T.
  Hypothesis B0 : 0 <= B.
  Hypothesis L0 : 0 <= L.
  Hypothesis C0 : 0 <= c.
  Hypothesis LU : forall i s t, (i < n)%nat -> 0 <= s <= t -> t <= T -> Rabs (U s i - U t i) <= B * (t - s).
  Hypothesis LV : forall i s t, (i < n)%nat -> 0 <= s <= t -> t <= T -> Rabs (V s i - V t i) <= B * (t - s).
  Hypothesis LF : forall s t z w, 0 <= s <= t -> t <= T -> 0 <= w -> (forall i, (i < n)%nat -> Rabs (z i) <= w) -> F s z - F t z <= L * (t - s) * w.
  (* costs of contact at two displacements, one of them that of steps of length dt *)
  Definition close (Jd : vec -> vec -> R) (dt : R) : Prop := forall s s' v w, Jd s v - Jd s w + J s' w - J s' v <= lam * (top n (minus s s') + dt) * top n (minus w v).

  Section Run.
  Variables (Jd : vec -> vec -> R) (dt : R) (u v : nat -> vec) (k : nat).
  Hypothesis CL : close Jd dt.
  Hypothesis DT : 0 < dt.
  Hypothesis ST : slid Jd dt u v k.
  Notation at_ j := (INR j * dt).
  Definition du (j : nat) : vec := minus (u j) (U (at_ j)).
  Definition dv (j : nat) : vec := minus (v j) (V (at_ j)).
  Definition qu (j : nat) : vec := fun i => U (at_ (S j)) i - U (at_ j) i - (at_ (S j) - at_ j) * V (at_ (S j)) i.
  Definition qv (j : nat) : vec := fun i => V (at_ (S j)) i - V (at_ j) i - (at_ (S j) - at_ j) * A (at_ (S j)) i.

  Lemma dv_free j : (j < k)%nat -> at_ (S j) <= T -> free (dv (S j)).
  Proof.
    intros Hj H i x G. destruct (ST j Hj) as (_ & X & _). unfold dv, minus. rewrite (X i x G), (VT _ (proj2 (proj2 (at_range T dt DT j H))) i x G). ring.
  Qed.
  Lemma du_next j i : (j < k)%nat -> du (S j) i = du j i + dt * dv (S j) i - qu j i.
  Proof. intros Hj. destruct (ST j Hj) as (E & _). unfold du, dv, qu, minus. rewrite E, at_next. ring. Qed.
  Lemma qu_top j i : at_ (S j) <= T -> (i < n)%nat -> Rabs (qu j i) <= B * dt * dt.
  Proof.
    intros H I. destruct (at_range T dt DT j H) as (R0 & R1 & R2). unfold qu.
    assert (Q := taylor_component (fun s => U s i) (fun s => V s i) (at_ j) (at_ (S j)) B R1). rewrite ahead in Q |- *. apply Q; auto.
    - intros t X. apply DU; [exact I|lra].
    - intros t X. apply LV; [exact I|lra|lra].
  Qed.

  (* the two inequalities together *)
  Lemma both j : (j < k)%nat -> at_ (S j) <= T ->
    bilinear n n M (dv (S j)) (fun i => (v (S j) i - v j i) / dt) - bilinear n n M (dv (S j)) (A (at_ (S j))) + qform n C (dv (S j)) + bilinear n n K (dv (S j)) (du (S j))
    <= F (at_ j) (dv (S j)) - F (at_ (S j)) (dv (S j)) + lam * (top n (du j) + (B + 1) * dt) * top n (dv (S j)).
  Proof.
    intros Hj H. destruct (at_range T dt DT j H) as (R0 & R1 & R2). destruct (ST j Hj) as (_ & AD & VI).
    assert (X1 := VI _ (VT _ R2)). assert (X2 := EX _ _ R2 AD). fold (dv (S j)) in X2.
    assert (NE : minus (V (at_ (S j))) (v (S j)) = (fun i => - dv (S j) i)) by (apply functional_extensionality; intros i; unfold minus, dv, minus; ring).
    rewrite NE, FO in X1.
    assert (NB : forall Q x, bilinear n n Q (fun i => - dv (S j) i) x = - bilinear n n Q (dv (S j)) x).
    { intros Q x. unfold bilinear. replace (- sum n (fun a => sum n (fun b => dv (S j) a * Q a b * x b))) with (-1 * sum n (fun a => sum n (fun b => dv (S j) a * Q a b * x b))) by ring.
      rewrite <- sum_scal. apply sum_ext. intros a _. rewrite <- sum_scal. apply sum_ext. intros; ring. }
    rewrite !NB in X1. set (z := dv (S j)) in *.
    assert (E4 : qform n C z = bilinear n n C z (v (S j)) - bilinear n n C z (V (at_ (S j)))) by (rewrite <- bilinear_q; unfold z at 2; apply bilinear_minus_r).
    assert (E5 : bilinear n n K z (du (S j)) = bilinear n n K z (u (S j)) - bilinear n n K z (U (at_ (S j)))) by apply bilinear_minus_r.
    assert (CC := CL (u j) (U (at_ (S j))) (V (at_ (S j))) (v (S j))). change (minus (v (S j)) (V (at_ (S j)))) with z in CC.
    assert (TU : top n (minus (u j) (U (at_ (S j)))) <= top n (du j) + B * dt).
    { apply top_le; [assert (0 <= top n (du j)) by apply top_nonneg; assert (0 <= B * dt) by (apply Rmult_le_pos; lra); lra|]. intros i I.
      replace (minus (u j) (U (at_ (S j))) i) with (du j i + (U (at_ j) i - U (at_ (S j)) i)) by (unfold minus, du, minus; ring).
      apply (Rle_trans _ _ _ (Rabs_triang _ _)). apply Rplus_le_compat; [apply top_ge, I|].
      assert (Q := LU i (at_ j) (at_ (S j)) I ltac:(lra) ltac:(lra)). rewrite ahead in Q. exact Q. }
    assert (ZT := top_nonneg n z).
    assert (Y : lam * (top n (minus (u j) (U (at_ (S j)))) + dt) * top n z <= lam * (top n (du j) + (B + 1) * dt) * top n z) by (apply Rmult_le_compat_r; [exact ZT|apply Rmult_le_compat_l; [exact LM0|lra]]).
    lra.
  Qed.

  Lemma du_top j x : (j < k)%nat -> at_ (S j) <= T -> top n (dv (S j)) <= x -> 0 <= x -> top n (du (S j)) <= top n (du j) + dt * x + B * dt * dt.
  Proof.
    intros Hj H X X0. assert (0 <= dt * x) by (apply Rmult_le_pos; lra). assert (0 <= B * dt * dt) by (rewrite Rmult_assoc; apply Rmult_le_pos; nra).
    assert (0 <= top n (du j)) by apply top_nonneg. apply top_le; [lra|]. intros i I. rewrite (du_next j i Hj).
    replace (du j i + dt * dv (S j) i - qu j i) with (du j i + (dt * dv (S j) i + - qu j i)) by ring.
    assert (Q1 := Rabs_triang (du j i) (dt * dv (S j) i + - qu j i)). assert (Q2 := Rabs_triang (dt * dv (S j) i) (- qu j i)).
    rewrite Rabs_Ropp, Rabs_mult, (Rabs_right dt) in Q2 by lra. assert (Q3 := qu_top j i H I). assert (Q4 := top_ge n (du j) i I). assert (Q5 := top_ge n (dv (S j)) i I).
    assert (dt * Rabs (dv (S j) i) <= dt * x) by (apply Rmult_le_compat_l; lra). lra.
  Qed.

  (* a step with inertia *)
  Lemma slide_step a b j : (j < k)%nat -> at_ (S j) <= T -> 0 <= a -> 0 <= b ->
    (forall i t, (i < n)%nat -> 0 <= t <= T -> derivable_pt_lim (fun s => V s i) t (A t i)) ->
    (forall s t, 0 <= s <= t -> t <= T -> norm n M (minus (A s) (A t)) <= a * (t - s)) ->
    (forall s t, 0 <= s <= t -> t <= T -> norm n K (minus (V s) (V t)) <= b * (t - s)) ->
    (forall z i, free z -> (i < n)%nat -> Rabs (z i) <= c * norm n M z) ->
    sqrt (qform n M (dv (S j)) + qform n K (du (S j))) <= sqrt (qform n M (dv j) + qform n K (du j)) + (a + b + L * c) * dt * dt + dt * (lam * c * (top n (du j) + (B + 1) * dt)).
  Proof.
    intros Hj H A0 Bb DV LA LB CB. destruct (at_range T dt DT j H) as (R0 & R1 & R2).
    assert (BU : norm n K (qu j) <= b * dt * dt).
    { replace (b * dt * dt) with (b * (at_ (S j) - at_ j) * (at_ (S j) - at_ j)) by (rewrite ahead; ring). unfold qu. apply (taylor n (at_ j) (at_ (S j)) U V R1); auto.
      - intros i t I X. apply DU; [exact I|lra].
      - intros t X. apply LB; lra. }
    assert (BV : norm n M (qv j) <= a * dt * dt).
    { replace (a * dt * dt) with (a * (at_ (S j) - at_ j) * (at_ (S j) - at_ j)) by (rewrite ahead; ring). unfold qv. apply (taylor n (at_ j) (at_ (S j)) V A R1); auto.
      - intros i t I X. apply DV; [exact I|lra].
      - intros t X. apply LA; lra. }
    assert (Z := dv_free j Hj H). assert (BO := both j Hj H). assert (CC := PC (dv (S j))).
    set (z := dv (S j)) in *.
    assert (ZT : top n z <= c * norm n M z) by (apply top_le; [apply Rmult_le_pos; [exact C0|apply norm_nonneg]|intros i I; apply CB; assumption]).
    assert (BF := LF (at_ j) (at_ (S j)) z (c * norm n M z) ltac:(lra) ltac:(lra) ltac:(apply Rmult_le_pos; [exact C0|apply norm_nonneg]) ltac:(intros i I; apply CB; assumption)). rewrite ahead in BF.
    assert (MM : forall x y, bilinear n n M z (fun i => (x i - y i) / dt) = / dt * (bilinear n n M z x - bilinear n n M z y)).
    { intros x y. rewrite <- bilinear_minus_r, <- form_scal. apply bilinear_vec; intros i _; unfold minus; [reflexivity|]. unfold Rdiv. ring. }
    assert (E1 : bilinear n n M z z = bilinear n n M z (v (S j)) - bilinear n n M z (V (at_ (S j)))) by (unfold z at 2; apply bilinear_minus_r).
    assert (E2 : bilinear n n M z (dv j) = bilinear n n M z (v j) - bilinear n n M z (V (at_ j))) by apply bilinear_minus_r.
    assert (E3 : bilinear n n M z (qv j) = bilinear n n M z (V (at_ (S j))) - bilinear n n M z (V (at_ j)) - dt * bilinear n n M z (A (at_ (S j)))).
    { rewrite <- bilinear_minus_r, <- form_scal, <- bilinear_minus_r. apply bilinear_vec; intros i _; [reflexivity|]. unfold qv, minus. rewrite at_next. ring. }
    assert (E6 : dt * bilinear n n K z (du (S j)) = qform n K (du (S j)) - bilinear n n K (du (S j)) (du j) + bilinear n n K (du (S j)) (qu j)).
    { rewrite (form_sym n K SK z), <- form_scal, <- bilinear_q, <- bilinear_minus_r, <- form_plus. apply bilinear_vec; intros i _; [reflexivity|].
      unfold minus. rewrite (du_next j i Hj). unfold z. ring. }
    rewrite MM in BO.
    assert (ID : qform n M z + qform n K (du (S j)) <= bilinear n n M z (dv j) + bilinear n n K (du (S j)) (du j) - bilinear n n M z (qv j) - bilinear n n K (du (S j)) (qu j)
      + dt * (F (at_ j) z - F (at_ (S j)) z + lam * (top n (du j) + (B + 1) * dt) * top n z)).
    { apply (Rmult_le_compat_l dt) in BO; [|lra]. rewrite <- (bilinear_q n M z), E1, E2, E3.
      assert (D : dt * / dt = 1) by (field; lra).
      assert (G : bilinear n n M z (v (S j)) - bilinear n n M z (v j) = dt * (/ dt * (bilinear n n M z (v (S j)) - bilinear n n M z (v j)))) by (rewrite <- Rmult_assoc, D; ring).
      assert (0 <= dt * qform n C z) by (apply Rmult_le_pos; lra). nra. }
    clear BO MM E1 E2 E3 E6.
    assert (TD := top_nonneg n (du j)). set (y := top n (du j)) in *.
    assert (F5 : lam * (y + (B + 1) * dt) * top n z <= lam * c * (y + (B + 1) * dt) * norm n M z).
    { apply (Rle_trans _ (lam * (y + (B + 1) * dt) * (c * norm n M z))); [|right; ring]. apply Rmult_le_compat_l; [|exact ZT]. apply Rmult_le_pos; [exact LM0|]. assert (0 <= (B + 1) * dt) by (apply Rmult_le_pos; lra). lra. }
    rewrite <- !(norm_square n M PM) in *. rewrite <- !(norm_square n K PK) in *.
    assert (F1 := form_le n M SM PM z (dv j)). assert (F2 := form_le n K SK PK (du (S j)) (du j)).
    assert (F3 := form_ge n M SM PM z (qv j)). assert (F4 := form_ge n K SK PK (du (S j)) (qu j)).
    assert (X0 := norm_nonneg n M (dv j)). assert (X1 := norm_nonneg n M z). assert (Y0 := norm_nonneg n K (du j)). assert (Y1 := norm_nonneg n K (du (S j))).
    set (x0 := norm n M (dv j)) in *. set (x1 := norm n M z) in *. set (y0 := norm n K (du j)) in *. set (y1 := norm n K (du (S j))) in *.
    set (p := norm n M (qv j)) in *. set (r := norm n K (qu j)) in *.
    assert (C1 := sqrt_sum_le x0 y0 x1 y1 X0 Y0 X1 Y1). assert (S1 := sqrt_part x1 y1 X1 Y1). assert (S2 := sqrt_part y1 x1 Y1 X1). rewrite (Rplus_comm (y1 * y1)) in S2.
    assert (Q1 : sqrt (x1 * x1 + y1 * y1) * sqrt (x1 * x1 + y1 * y1) = x1 * x1 + y1 * y1) by (apply sqrt_sqrt; nra).
    assert (E0 := sqrt_pos (x0 * x0 + y0 * y0)).
    set (e1 := sqrt (x1 * x1 + y1 * y1)) in *. set (e0 := sqrt (x0 * x0 + y0 * y0)) in *.
    assert (D2 : 0 <= dt * dt) by nra.
    assert (T1 : x1 * p <= e1 * (a * dt * dt)) by (apply Rmult_le_compat; [exact X1|apply norm_nonneg|exact S1|exact BV]).
    assert (T2 : y1 * r <= e1 * (b * dt * dt)) by (apply Rmult_le_compat; [exact Y1|apply norm_nonneg|exact S2|exact BU]).
    assert (T3 : dt * (F (at_ j) z - F (at_ (S j)) z) <= e1 * (L * c * dt * dt)).
    { apply (Rle_trans _ (dt * (L * dt * (c * x1)))); [apply Rmult_le_compat_l; lra|]. replace (dt * (L * dt * (c * x1))) with (x1 * (L * c * dt * dt)) by ring.
      apply Rmult_le_compat_r; [rewrite Rmult_assoc; apply Rmult_le_pos; [apply Rmult_le_pos; assumption|exact D2]|exact S1]. }
    set (mu := lam * c * (y + (B + 1) * dt)) in *.
    assert (MU : 0 <= mu) by (apply Rmult_le_pos; [apply Rmult_le_pos; assumption|assert (0 <= (B + 1) * dt) by (apply Rmult_le_pos; lra); lra]).
    assert (T4 : dt * (lam * (y + (B + 1) * dt) * top n z) <= e1 * (dt * mu)).
    { apply (Rle_trans _ (dt * (mu * x1))); [apply Rmult_le_compat_l; lra|]. replace (dt * (mu * x1)) with (x1 * (dt * mu)) by ring. apply Rmult_le_compat_r; [apply Rmult_le_pos; lra|exact S1]. }
    assert (GG : e1 * e1 <= e1 * (e0 + (a + b + L * c) * dt * dt + dt * mu)) by nra.
    assert (E1 : 0 <= e1) by apply sqrt_pos. assert (0 <= (a + b + L * c) * dt * dt) by (rewrite Rmult_assoc; apply Rmult_le_pos; [assert (0 <= L * c) by (apply Rmult_le_pos; assumption); lra|exact D2]).
    assert (0 <= dt * mu) by (apply Rmult_le_pos; lra).
    destruct E1 as [E1|E1]; [apply (Rmult_le_reg_l e1); assumption|]. rewrite <- E1. lra.
  Qed.

  (* a step without inertia *)
  Lemma drag_step j : (j < k)%nat -> at_ (S j) <= T -> (forall i l, M i l = 0) ->
    (forall z i, free z -> (i < n)%nat -> Rabs (z i) <= c * norm n C z) ->
    norm n C (dv (S j)) <= (L * c * dt + size n K * c * (B * dt * dt) + lam * c * (B + 1) * dt) + (lam * c + size n K * c) * top n (du j).
  Proof.
    intros Hj H M0 CB. destruct (at_range T dt DT j H) as (R0 & R1 & R2).
    assert (Z := dv_free j Hj H). assert (BO := both j Hj H). set (z := dv (S j)) in *.
    assert (ZM : forall x y, bilinear n n M x y = 0) by (intros x y; unfold bilinear; apply sum_0; intros i _; apply sum_0; intros l _; rewrite M0; ring). rewrite !ZM in BO.
    assert (N0 := norm_nonneg n C z). assert (CN : 0 <= c * norm n C z) by (apply Rmult_le_pos; assumption).
    assert (ZT : top n z <= c * norm n C z) by (apply top_le; [exact CN|intros i I; apply CB; assumption]).
    assert (BF := LF (at_ j) (at_ (S j)) z (c * norm n C z) ltac:(lra) ltac:(lra) CN ltac:(intros i I; apply CB; assumption)). rewrite ahead in BF.
    set (y := top n (du j)) in *. assert (Y0 : 0 <= y) by apply top_nonneg. assert (BD : 0 <= (B + 1) * dt) by (apply Rmult_le_pos; lra). assert (BDD : 0 <= B * dt * dt) by (apply Rmult_le_pos; [apply Rmult_le_pos; lra|lra]).
    assert (KE : - (size n K * ((y + B * dt * dt) * (c * norm n C z))) <= bilinear n n K z (du (S j))).
    { assert (E : bilinear n n K z (du (S j)) = bilinear n n K z (minus (du j) (qu j)) + dt * qform n K z).
      { rewrite <- bilinear_q, <- form_scal, <- form_plus. apply bilinear_vec; intros i _; [reflexivity|]. rewrite (du_next j i Hj). unfold minus, z. ring. }
      rewrite E. assert (0 <= dt * qform n K z) by (apply Rmult_le_pos; [lra|apply PK]).
      assert (FB := form_bound n K (fun i => - (minus (du j) (qu j)) i) z (y + B * dt * dt) (c * norm n C z)).
      assert (SW : bilinear n n K (fun i => - (minus (du j) (qu j)) i) z = - bilinear n n K z (minus (du j) (qu j))).
      { rewrite (form_sym n K SK). rewrite (bilinear_vec n n K z z (fun i => - (minus (du j) (qu j)) i) (fun i => -1 * (minus (du j) (qu j)) i)); [rewrite form_scal; ring|intros i _; reflexivity|intros i _; ring]. }
      rewrite SW in FB. enough (- bilinear n n K z (minus (du j) (qu j)) <= size n K * ((y + B * dt * dt) * (c * norm n C z))) by lra. apply FB.
      - intros i I. rewrite Rabs_Ropp. unfold minus. apply (Rle_trans _ (Rabs (du j i) + Rabs (qu j i))).
        + unfold Rminus. apply (Rle_trans _ _ _ (Rabs_triang _ _)). rewrite Rabs_Ropp. lra.
        + apply Rplus_le_compat; [apply top_ge, I|apply qu_top; assumption].
      - intros i I. apply CB; assumption. }
    assert (F5 : lam * (y + (B + 1) * dt) * top n z <= lam * (y + (B + 1) * dt) * (c * norm n C z)) by (apply Rmult_le_compat_l; [apply Rmult_le_pos; lra|exact ZT]).
    rewrite <- (norm_square n C PC) in BO. set (x := norm n C z) in *.
    assert (SK0 := size_nonneg n K). set (sk := size n K) in *.
    assert (GG : x * x <= x * ((L * c * dt + sk * c * (B * dt * dt) + lam * c * (B + 1) * dt) + (lam * c + sk * c) * y)) by nra.
    destruct N0 as [N0|N0]; [apply (Rmult_le_reg_l x); assumption|]. rewrite <- N0.
    assert (0 <= L * c) by (apply Rmult_le_pos; assumption). assert (0 <= sk * c) by (apply Rmult_le_pos; assumption). assert (LC : 0 <= lam * c) by (apply Rmult_le_pos; assumption).
    assert (0 <= L * c * dt) by (apply Rmult_le_pos; lra). assert (0 <= sk * c * (B * dt * dt)) by (apply Rmult_le_pos; assumption).
    assert (0 <= lam * c * (B + 1) * dt) by (rewrite Rmult_assoc; apply Rmult_le_pos; assumption). assert (0 <= (lam * c + sk * c) * y) by (apply Rmult_le_pos; lra). lra.
  Qed.
  End Run.

  Lemma zero_top (x : vec) : veq n x (fun _ => 0) -> top n x = 0.
  Proof.
    intros X. apply Rle_antisym; [|apply top_nonneg]. apply top_le; [lra|]. intros i I. rewrite (X i I), Rabs_R0. lra.
  Qed.

  Lemma slide_rate : (forall i t, (i < n)%nat -> 0 <= t <= T -> derivable_pt_lim (fun s => V s i) t (A t i)) ->
    (forall i s t, (i < n)%nat -> 0 <= s <= t -> t <= T -> Rabs (A s i - A t i) <= B * (t - s)) ->
    (forall z i, free z -> (i < n)%nat -> Rabs (z i) <= c * norm n M z) ->
    exists ka, 0 <= ka /\ forall Jd dt u v k, close Jd dt -> 0 < dt -> slid Jd dt u v k -> veq n (u O) (U 0) -> veq n (v O) (V 0) ->
      forall j i, (j <= k)%nat -> INR j * dt <= T -> (i < n)%nat ->
      Rabs (u j i - U (INR j * dt) i) <= ka * dt /\ Rabs (v j i - V (INR j * dt) i) <= ka * dt.
  Proof.
    intros DV LA CB. set (a := sqrt (size n M) * B). set (b := sqrt (size n K) * B).
    assert (A1 : 0 <= a) by (apply Rmult_le_pos; [apply sqrt_pos|exact B0]). assert (B1 : 0 <= b) by (apply Rmult_le_pos; [apply sqrt_pos|exact B0]).
    assert (LC : 0 <= L * c) by (apply Rmult_le_pos; assumption). set (mu := lam * c). assert (MU : 0 <= mu) by (apply Rmult_le_pos; assumption).
    assert (MB : 0 <= mu * (B + 1)) by (apply Rmult_le_pos; lra).
    set (al := a + b + L * c + mu * (B + 1)). assert (AL : 0 <= al) by (unfold al; lra).
    assert (CT : 0 <= c * T) by (apply Rmult_le_pos; assumption).
    set (kap := c + (1 + c * T) * mu). assert (KP : 0 <= kap) by (unfold kap; assert (0 <= (1 + c * T) * mu) by (apply Rmult_le_pos; lra); lra).
    set (be := B + (1 + c * T) * al). assert (BE : 0 <= be) by (unfold be; assert (0 <= (1 + c * T) * al) by (apply Rmult_le_pos; lra); lra).
    set (ka := T * be * exp (kap * T)).
    assert (KA : 0 <= ka) by (apply Rmult_le_pos; [apply Rmult_le_pos; assumption|left; apply exp_pos]).
    exists (ka + c * ka). assert (CK : 0 <= c * ka) by (apply Rmult_le_pos; assumption). split; [lra|]. intros Jd dt u v k CL DT ST U0 V0.
    assert (ZU : veq n (du dt u O) (fun _ => 0)) by (intros i I; unfold du, minus; cbn [INR]; rewrite Rmult_0_l, (U0 i I); ring).
    assert (ZV : veq n (dv dt v O) (fun _ => 0)) by (intros i I; unfold dv, minus; cbn [INR]; rewrite Rmult_0_l, (V0 i I); ring).
    assert (ZQ : forall Q x, veq n x (fun _ => 0) -> qform n Q x = 0).
    { intros Q x X. rewrite (qform_ext n Q x (fun _ => 0) X). unfold qform, dot. apply sum_0. intros; ring. }
    intros j i Hj TJ I.
    set (e := fun h => sqrt (qform n M (dv dt v h) + qform n K (du dt u h))).
    assert (EN : e j + top n (du dt u j) <= INR j * dt * (be * dt) * exp (kap * (INR j * dt))).
    { apply (gronwall kap be dt (fun h => e h + top n (du dt u h)) j KP BE DT); [| |lia].
      - unfold e. rewrite (ZQ M _ ZV), (ZQ K _ ZU), (zero_top _ ZU), !Rplus_0_r, sqrt_0. lra.
      - intros h Hh. assert (TH : INR (S h) * dt <= T).
        { apply (Rle_trans _ (INR j * dt)); [|exact TJ]. apply Rmult_le_compat_r; [lra|apply le_INR; lia]. }
        assert (Q := slide_step Jd dt u v k CL DT ST a b h ltac:(lia) TH A1 B1 DV (norm_curve n T B B0 M A LA) (norm_curve n T B B0 K V LV) CB).
        fold (e (S h)) in Q. fold (e h) in Q. fold mu in Q.
        assert (VT1 : top n (dv dt v (S h)) <= c * e (S h)).
        { apply top_le; [apply Rmult_le_pos; [exact C0|apply sqrt_pos]|]. intros x X.
          apply (Rle_trans _ _ _ (CB _ x (dv_free Jd dt u v k DT ST h ltac:(lia) TH) X)). apply Rmult_le_compat_l; [exact C0|].
          apply sqrt_le_1_alt. assert (P := PK (du dt u (S h))). lra. }
        assert (E1 : 0 <= e (S h)) by apply sqrt_pos. assert (E0 : 0 <= e h) by apply sqrt_pos.
        assert (CE : 0 <= c * e (S h)) by (apply Rmult_le_pos; assumption).
        assert (D := du_top Jd dt u v k DT ST h (c * e (S h)) ltac:(lia) TH VT1 CE).
        set (y0 := top n (du dt u h)) in *. set (y1 := top n (du dt u (S h))) in *. assert (Y0 : 0 <= y0) by apply top_nonneg.
        assert (DL : dt <= T). { rewrite S_INR in TH. assert (0 <= INR h * dt) by (apply Rmult_le_pos; [apply pos_INR|lra]). lra. }
        assert (Q' : e (S h) <= e h + al * (dt * dt) + dt * mu * y0) by (unfold al; nra).
        assert (CD : c * dt <= c * T) by (apply Rmult_le_compat_l; assumption).
        assert (W : 0 <= al * (dt * dt) + dt * mu * y0).
        { apply Rplus_le_le_0_compat; apply Rmult_le_pos; try assumption; [nra|apply Rmult_le_pos; lra]. }
        assert (CC : c * dt * e (S h) <= c * dt * (e h + (al * (dt * dt) + dt * mu * y0))) by (apply Rmult_le_compat_l; [apply Rmult_le_pos; lra|lra]).
        assert (CW : c * dt * (al * (dt * dt) + dt * mu * y0) <= c * T * (al * (dt * dt) + dt * mu * y0)) by (apply Rmult_le_compat_r; assumption).
        unfold kap, be. assert (0 <= c * dt * y0) by (apply Rmult_le_pos; [apply Rmult_le_pos; lra|assumption]).
        assert (0 <= (1 + c * T) * mu * dt * e h) by (repeat apply Rmult_le_pos; lra). nra. }
    assert (KB : INR j * dt * (be * dt) * exp (kap * (INR j * dt)) <= ka * dt).
    { unfold ka. replace (T * be * exp (kap * T) * dt) with (T * (be * dt) * exp (kap * T)) by ring.
      assert (J0 : 0 <= INR j * dt) by (apply Rmult_le_pos; [apply pos_INR|lra]). assert (BD : 0 <= be * dt) by (apply Rmult_le_pos; lra).
      apply Rmult_le_compat; [apply Rmult_le_pos; assumption|left; apply exp_pos|apply Rmult_le_compat_r; assumption|].
      destruct (Rle_lt_or_eq_dec (kap * (INR j * dt)) (kap * T)) as [X|X]; [apply Rmult_le_compat_l; assumption|left; apply exp_increasing, X|rewrite X; lra]. }
    assert (E0 : 0 <= e j) by apply sqrt_pos. assert (Y0 := top_nonneg n (du dt u j)).
    split.
    - assert (X := top_ge n (du dt u j) i I). unfold du at 1 in X. unfold minus in X. assert (0 <= c * ka * dt) by (apply Rmult_le_pos; lra). lra.
    - assert (X : Rabs (dv dt v j i) <= c * e j).
      { destruct j as [|j]; [rewrite (ZV i I), Rabs_R0; apply Rmult_le_pos; assumption|].
        apply (Rle_trans _ _ _ (CB _ i (dv_free Jd dt u v k DT ST j ltac:(lia) TJ) I)). apply Rmult_le_compat_l; [exact C0|].
        apply sqrt_le_1_alt. assert (P := PK (du dt u (S j))). lra. }
      unfold dv, minus in X. assert (c * e j <= c * (ka * dt)) by (apply Rmult_le_compat_l; lra). assert (0 <= ka * dt) by (apply Rmult_le_pos; lra). lra.
  Qed.

  Lemma drag_rate : (forall i l, M i l = 0) -> (forall z i, free z -> (i < n)%nat -> Rabs (z i) <= c * norm n C z) ->
    exists ka, 0 <= ka /\ forall Jd dt u v k, close Jd dt -> 0 < dt -> slid Jd dt u v k -> veq n (u O) (U 0) ->
      forall j i, (j <= k)%nat -> INR j * dt <= T -> (i < n)%nat ->
      Rabs (u j i - U (INR j * dt) i) <= ka * dt /\ ((0 < j)%nat -> Rabs (v j i - V (INR j * dt) i) <= ka * dt).
  Proof.
    intros M0 CB. assert (SK0 := size_nonneg n K). set (sk := size n K) in *.
    set (al := L * c + sk * c * (B * T) + lam * c * (B + 1)). set (mu := lam * c + sk * c).
    assert (AL : 0 <= al) by (unfold al; repeat apply Rplus_le_le_0_compat; repeat apply Rmult_le_pos; lra).
    assert (MU : 0 <= mu) by (unfold mu; apply Rplus_le_le_0_compat; apply Rmult_le_pos; assumption).
    set (kap := c * mu). assert (KP : 0 <= kap) by (apply Rmult_le_pos; assumption).
    set (be := c * al + B). assert (CA : 0 <= c * al) by (apply Rmult_le_pos; assumption). assert (BE : 0 <= be) by (unfold be; lra).
    set (ku := T * be * exp (kap * T)).
    assert (KU : 0 <= ku) by (apply Rmult_le_pos; [apply Rmult_le_pos; assumption|left; apply exp_pos]).
    set (kv := c * (al + mu * ku)). assert (KV : 0 <= kv) by (apply Rmult_le_pos; [exact C0|apply Rplus_le_le_0_compat; [exact AL|apply Rmult_le_pos; assumption]]).
    exists (ku + kv). split; [lra|]. intros Jd dt u v k CL DT ST U0.
    assert (ZU : veq n (du dt u O) (fun _ => 0)) by (intros i I; unfold du, minus; cbn [INR]; rewrite Rmult_0_l, (U0 i I); ring).
    assert (SV : forall h, (h < k)%nat -> INR (S h) * dt <= T -> norm n C (dv dt v (S h)) <= al * dt + mu * top n (du dt u h)).
    { intros h Hh TH. assert (Q := drag_step Jd dt u v k CL DT ST h Hh TH M0 CB). fold sk in Q. fold mu in Q.
      assert (DL : dt <= T). { rewrite S_INR in TH. assert (0 <= INR h * dt) by (apply Rmult_le_pos; [apply pos_INR|lra]). lra. }
      assert (X : sk * c * (B * dt * dt) <= sk * c * (B * T) * dt).
      { assert (0 <= sk * c * B * dt) by (repeat apply Rmult_le_pos; lra). nra. }
      unfold al. lra. }
    assert (UB : forall j, (j <= k)%nat -> INR j * dt <= T -> top n (du dt u j) <= ku * dt).
    { intros j Hj TJ. apply (Rle_trans _ (INR j * dt * (be * dt) * exp (kap * (INR j * dt)))).
      - apply (gronwall kap be dt (fun h => top n (du dt u h)) j KP BE DT); [rewrite (zero_top _ ZU); lra| |lia].
        intros h Hh. assert (TH : INR (S h) * dt <= T).
        { apply (Rle_trans _ (INR j * dt)); [|exact TJ]. apply Rmult_le_compat_r; [lra|apply le_INR; lia]. }
        assert (Y0 := top_nonneg n (du dt u h)). set (x := c * (al * dt + mu * top n (du dt u h))).
        assert (X0 : 0 <= x). { apply Rmult_le_pos; [exact C0|]. apply Rplus_le_le_0_compat; apply Rmult_le_pos; lra. }
        assert (VX : top n (dv dt v (S h)) <= x).
        { apply top_le; [exact X0|]. intros i I. apply (Rle_trans _ _ _ (CB _ i (dv_free Jd dt u v k DT ST h ltac:(lia) TH) I)).
          apply Rmult_le_compat_l; [exact C0|apply SV; [lia|exact TH]]. }
        assert (D := du_top Jd dt u v k DT ST h x ltac:(lia) TH VX X0). unfold x in D. unfold kap, be. nra.
      - unfold ku. replace (T * be * exp (kap * T) * dt) with (T * (be * dt) * exp (kap * T)) by ring.
        assert (J0 : 0 <= INR j * dt) by (apply Rmult_le_pos; [apply pos_INR|lra]). assert (BD : 0 <= be * dt) by (apply Rmult_le_pos; lra).
        apply Rmult_le_compat; [apply Rmult_le_pos; assumption|left; apply exp_pos|apply Rmult_le_compat_r; assumption|].
        destruct (Rle_lt_or_eq_dec (kap * (INR j * dt)) (kap * T)) as [X|X]; [apply Rmult_le_compat_l; assumption|left; apply exp_increasing, X|rewrite X; lra]. }
    intros j i Hj TJ I. split.
    - assert (X := top_ge n (du dt u j) i I). assert (Y := UB j Hj TJ). unfold du at 1 in X. unfold minus in X. assert (0 <= kv * dt) by (apply Rmult_le_pos; lra). lra.
    - intros JP. destruct j as [|j]; [lia|]. destruct (at_range T dt DT j TJ) as (R0 & R1 & R2).
      assert (X := CB _ i (dv_free Jd dt u v k DT ST j ltac:(lia) TJ) I). assert (Y := SV j ltac:(lia) TJ). assert (Z := UB j ltac:(lia) ltac:(lra)).
      unfold dv at 1 in X. unfold minus in X. apply (Rle_trans _ _ _ X).
      assert (mu * top n (du dt u j) <= mu * (ku * dt)) by (apply Rmult_le_compat_l; assumption).
      assert (c * norm n C (dv dt v (S j)) <= c * ((al + mu * ku) * dt)) by (apply Rmult_le_compat_l; lra). unfold kv. assert (0 <= ku * dt) by (apply Rmult_le_pos; lra). lra.
  Qed.
End Scheme.
