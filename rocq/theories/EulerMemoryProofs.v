(* Implicit Euler for materials with memory: the error against a smooth solution is at most a
   multiple of the time step. *)
From Coq Require Import Reals List Arith Lia Lra.
From Verif Require Import RVec LinAlg DirichletSpec FemSpec FemAssemblyProofs AlternationProofs EulerProofs.
Local Open Scope R_scope.

Lemma term_below n (f : nat -> R) i : (forall k, (k < n)%nat -> 0 <= f k) -> (i < n)%nat -> f i <= sum n f.
Proof.
  induction n as [|n IH]; intros P I; [lia|]. cbn [sum]. assert (X := P n ltac:(lia)). assert (S0 : 0 <= sum n f) by (apply sum_nonneg; intros; apply P; lia).
  destruct (Nat.eq_dec i n) as [->|NE]; [lra|]. assert (f i <= sum n f) by (apply IH; [intros; apply P; lia|lia]). lra.
Qed.

Section Memory.
  Variables (n : nat) (K : mat) (Q : R -> mat) (given : nat -> R -> Prop) (T : R).
  Variables (Ab U : R -> vec) (F : R -> vec -> R).
  Notation free := (free given).
  Hypothesis SK : symmetric n K.
  Hypothesis PK : pos_semidef n K.
  Hypothesis PQ : forall t, 0 <= t <= T -> pos_semidef n (Q t).
  Hypothesis UT : forall t i x, 0 <= t <= T -> given i x -> U t i = x.
  Hypothesis EX : forall t z, 0 <= t <= T -> free z -> bilinear n n K z (U t) + bilinear n n (Q t) z (Ab t) = F t z.
  Hypothesis DA : forall i t, (i < n)%nat -> 0 <= t <= T -> derivable_pt_lim (fun s => Ab s i) t (U t i).
  Variables (B L D c : R).
  Hypothesis T0 : 0 <= T.
  Hypothesis B0 : 0 <= B.
  Hypothesis L0 : 0 <= L.
  Hypothesis D0 : 0 <= D.
  Hypothesis C0 : 0 <= c.
  Hypothesis LU : forall i s t, (i < n)%nat -> 0 <= s <= t -> t <= T -> Rabs (U s i - U t i) <= B * (t - s).
  Hypothesis LF : forall s t z w, 0 <= s <= t -> t <= T -> 0 <= w -> (forall i, (i < n)%nat -> Rabs (z i) <= w) -> F s z - F t z <= L * (t - s) * w.
  Hypothesis LQ : forall i j s t, (i < n)%nat -> (j < n)%nat -> 0 <= s <= t -> t <= T -> Rabs (Q s i j - Q t i j) <= D * (t - s).
  Hypothesis CB : forall z i, free z -> (i < n)%nat -> Rabs (z i) <= c * norm n K z.

  (* steps with the operator and the loads of the time before the step *)
  Definition remembered (dt : R) (ab u : nat -> vec) (k : nat) : Prop := forall j, (j < k)%nat ->
    (forall i, ab (S j) i = ab j i + dt * u (S j) i) /\ (forall i x, given i x -> u (S j) i = x) /\
    forall z, free z -> bilinear n n K z (u (S j)) + bilinear n n (Q (INR j * dt)) z (ab (S j)) = F (INR j * dt) z.

  Lemma bilinear_bound A r x y b b' : (forall i j, (i < n)%nat -> (j < n)%nat -> Rabs (A i j) <= r) -> 0 <= r -> 0 <= b -> 0 <= b' ->
    (forall i, (i < n)%nat -> Rabs (x i) <= b) -> (forall i, (i < n)%nat -> Rabs (y i) <= b') ->
    bilinear n n A x y <= INR n * (INR n * r) * (b * b').
  Proof.
    intros HA R0 B1 B2 X Y. unfold bilinear.
    assert (CS : forall k v, sum k (fun _ => v) = INR k * v).
    { induction k as [|k IH]; intros v; [cbn; ring|]. cbn [sum]. rewrite IH, S_INR. ring. }
    apply (Rle_trans _ (sum n (fun _ => sum n (fun _ => r * (b * b'))))); [|rewrite !CS; apply Req_le; ring].
    apply sum_le. intros i I. apply sum_le. intros j J.
    apply (Rle_trans _ _ _ (RRle_abs _)). rewrite !Rabs_mult.
    specialize (HA i j I J). specialize (X i I). specialize (Y j J).
    assert (P1 := Rabs_pos (A i j)). assert (P2 := Rabs_pos (x i)). assert (P3 := Rabs_pos (y j)).
    assert (Rabs (x i) * Rabs (y j) <= b * b') by (apply Rmult_le_compat; assumption).
    assert (0 <= Rabs (x i) * Rabs (y j)) by (apply Rmult_le_pos; assumption).
    assert (E : Rabs (A i j) * (Rabs (x i) * Rabs (y j)) <= r * (b * b')) by (apply Rmult_le_compat; assumption). lra.
  Qed.
  Lemma operator_bound : exists r, 0 <= r /\ forall t i j, 0 <= t <= T -> (i < n)%nat -> (j < n)%nat -> Rabs (Q t i j) <= r.
  Proof.
    exists (size n (Q 0) + D * T). assert (S0 := size_nonneg n (Q 0)). split; [apply Rplus_le_le_0_compat; [exact S0|apply Rmult_le_pos; assumption]|].
    intros t i j TT I J. assert (X := LQ i j 0 t I J ltac:(lra) (proj2 TT)).
    assert (Y : Rabs (Q 0 i j) <= size n (Q 0)).
    { unfold size. apply (Rle_trans _ (sum n (fun j => Rabs (Q 0 i j)))).
      - apply (term_below n (fun j => Rabs (Q 0 i j)) j); [intros; apply Rabs_pos|exact J].
      - apply (term_below n (fun i => sum n (fun j => Rabs (Q 0 i j))) i); [intros; apply sum_nonneg; intros; apply Rabs_pos|exact I]. }
    assert (D * (t - 0) <= D * T) by (apply Rmult_le_compat_l; lra).
    assert (Z := Rabs_triang (Q 0 i j) (- (Q 0 i j - Q t i j))). rewrite Rabs_Ropp in Z.
    replace (Q 0 i j + - (Q 0 i j - Q t i j)) with (Q t i j) in Z by ring. lra.
  Qed.
  (* the solution stays bounded *)
  Lemma absement_bound : exists b, 0 <= b /\ forall t i, 0 <= t <= T -> (i < n)%nat -> Rabs (Ab t i) <= b.
  Proof.
    set (a0 := sum n (fun i => Rabs (Ab 0 i))). set (u0 := sum n (fun i => Rabs (U 0 i))).
    assert (A0 : 0 <= a0) by (apply sum_nonneg; intros; apply Rabs_pos). assert (U0 : 0 <= u0) by (apply sum_nonneg; intros; apply Rabs_pos).
    assert (BT : 0 <= B * T) by (apply Rmult_le_pos; assumption). assert (BTT : 0 <= B * T * T) by (apply Rmult_le_pos; assumption).
    assert (UTT : 0 <= T * (u0 + B * T)) by (apply Rmult_le_pos; lra).
    exists (a0 + T * (u0 + B * T) + B * T * T). split; [lra|]. intros t i TT I.
    assert (X0 : Rabs (Ab 0 i) <= a0) by (apply (term_below n (fun i => Rabs (Ab 0 i)) i); [intros; apply Rabs_pos|exact I]).
    assert (Y0 : Rabs (U 0 i) <= u0) by (apply (term_below n (fun i => Rabs (U 0 i)) i); [intros; apply Rabs_pos|exact I]).
    destruct (Req_dec t 0) as [->|NT]; [lra|].
    assert (X := taylor_component (fun s => Ab s i) (fun s => U s i) 0 t B ltac:(lra) ltac:(intros; apply DA; [exact I|lra]) B0 ltac:(intros; apply LU; [exact I|lra|lra])).
    rewrite !Rminus_0_r in X. cbv beta in X. assert (Y := LU i 0 t I ltac:(lra) (proj2 TT)). rewrite Rminus_0_r in Y.
    assert (B * t <= B * T) by (apply Rmult_le_compat_l; lra). assert (B * t * t <= B * T * T) by (apply Rmult_le_compat; [apply Rmult_le_pos; lra|lra|lra|lra]).
    assert (Z := Rabs_triang (U 0 i) (- (U 0 i - U t i))). rewrite Rabs_Ropp in Z. replace (U 0 i + - (U 0 i - U t i)) with (U t i) in Z by ring.
    assert (Rabs (t * U t i) <= T * (u0 + B * T)) by (rewrite Rabs_mult, (Rabs_right t) by lra; apply Rmult_le_compat; [lra|apply Rabs_pos|lra|lra]).
    assert (W := Rabs_triang (Ab t i - Ab 0 i - t * U t i) (Ab 0 i + t * U t i)). replace (Ab t i - Ab 0 i - t * U t i + (Ab 0 i + t * U t i)) with (Ab t i) in W by ring.
    assert (W' := Rabs_triang (Ab 0 i) (t * U t i)). lra.
  Qed.

  Section Run.
  Variables (dt : R) (ab u : nat -> vec) (k : nat) (r M : R).
  Hypothesis DT : 0 < dt.
  Hypothesis ST : remembered dt ab u k.
  Hypothesis R0 : 0 <= r.
  Hypothesis M0 : 0 <= M.
  Hypothesis QB : forall t i j, 0 <= t <= T -> (i < n)%nat -> (j < n)%nat -> Rabs (Q t i j) <= r.
  Hypothesis AB : forall t i, 0 <= t <= T -> (i < n)%nat -> Rabs (Ab t i) <= M.
  Notation at_ j := (INR j * dt).
  Definition ea (j : nat) : vec := minus (ab j) (Ab (at_ j)).
  Definition ed (j : nat) : vec := minus (u j) (U (at_ j)).
  Definition pa (j : nat) : vec := fun i => Ab (at_ (S j)) i - Ab (at_ j) i - dt * U (at_ (S j)) i.

  Lemma ed_free j : (j < k)%nat -> at_ (S j) <= T -> free (ed (S j)).
  Proof.
    intros J TJ i x G. destruct (ST j J) as (_ & H & _). unfold ed, minus. rewrite (H i x G), (UT (at_ (S j)) i x); [ring| |exact G].
    split; [|exact TJ]. apply Rmult_le_pos; [apply pos_INR|lra].
  Qed.
  Lemma ea_next j i : (j < k)%nat -> ea (S j) i = ea j i + dt * ed (S j) i - pa j i.
  Proof. intros J. destruct (ST j J) as (H & _). unfold ea, ed, pa, minus. rewrite H. ring. Qed.
  Lemma pa_bound j i : at_ (S j) <= T -> (i < n)%nat -> Rabs (pa j i) <= B * dt * dt.
  Proof.
    intros TJ I. destruct (at_range T dt DT j TJ) as (X0 & X1 & X2).
    assert (X := taylor_component (fun s => Ab s i) (fun s => U s i) (at_ j) (at_ (S j)) B X1 ltac:(intros; apply DA; [exact I|lra]) B0 ltac:(intros; apply LU; [exact I|lra|lra])).
    rewrite (ahead dt j) in X. exact X.
  Qed.

  Lemma memory_step al j : (j < k)%nat -> at_ (S j) <= T -> 0 <= al -> (forall i, (i < n)%nat -> Rabs (ea j i) <= al) ->
    norm n K (ed (S j)) <= c * (L * dt + INR n * (INR n * r) * (al + B * dt * dt) + INR n * (INR n * (D * dt)) * M).
  Proof.
    intros J TJ A0 EA. destruct (at_range T dt DT j TJ) as (X0 & X1 & X2). set (z := ed (S j)). assert (Z := ed_free j J TJ). fold z in Z.
    destruct (ST j J) as (_ & _ & H). assert (E1 := H z Z). assert (E2 := EX (at_ (S j)) z ltac:(lra) Z). clear H.
    set (N0 := norm n K z). assert (NN : 0 <= N0) by apply norm_nonneg. set (w := c * N0). assert (W0 : 0 <= w) by (apply Rmult_le_pos; assumption).
    assert (ZW : forall i, (i < n)%nat -> Rabs (z i) <= w) by (intros i I; apply CB; assumption).
    assert (EF := LF (at_ j) (at_ (S j)) z w ltac:(lra) TJ W0 ZW). rewrite (ahead dt j) in EF.
    assert (BD : 0 <= B * dt * dt) by (apply Rmult_le_pos; [apply Rmult_le_pos; lra|lra]).
    (* absement of the step *)
    assert (E3 : bilinear n n (Q (at_ j)) z (ab (S j)) = bilinear n n (Q (at_ j)) z (Ab (at_ (S j))) + bilinear n n (Q (at_ j)) z (minus (ea j) (pa j)) + dt * bilinear n n (Q (at_ j)) z z).
    { rewrite <- form_scal, <- !form_plus. apply form_ext; [intros i _; reflexivity|]. intros i _. assert (X := ea_next j i J). unfold minus. fold z in X. unfold ea in X at 1. unfold minus in X at 1. lra. }
    assert (P := PQ (at_ j) ltac:(lra) z). rewrite <- bilinear_q in P.
    assert (P' : 0 <= dt * bilinear n n (Q (at_ j)) z z) by (apply Rmult_le_pos; lra).
    assert (E4 : - bilinear n n (Q (at_ j)) z (minus (ea j) (pa j)) <= INR n * (INR n * r) * (w * (al + B * dt * dt))).
    { replace (- bilinear n n (Q (at_ j)) z (minus (ea j) (pa j))) with (bilinear n n (Q (at_ j)) z (fun i => (-1) * minus (ea j) (pa j) i)) by (rewrite form_scal; ring).
      apply bilinear_bound; auto; [intros; apply QB; auto; lra|lra|].
      intros i I. rewrite Rabs_mult, (Rabs_left (-1)) by lra. replace (- -1) with 1 by ring. rewrite Rmult_1_l. unfold minus. assert (X := Rabs_triang (ea j i) (- pa j i)). rewrite Rabs_Ropp in X.
      assert (Y := EA i I). assert (Y' := pa_bound j i TJ I). unfold Rminus. lra. }
    assert (E5 : bilinear n n (Q (at_ (S j))) z (Ab (at_ (S j))) - bilinear n n (Q (at_ j)) z (Ab (at_ (S j))) <= INR n * (INR n * (D * dt)) * (w * M)).
    { replace (bilinear n n (Q (at_ (S j))) z (Ab (at_ (S j))) - bilinear n n (Q (at_ j)) z (Ab (at_ (S j)))) with
        (bilinear n n (fun a b => Q (at_ (S j)) a b - Q (at_ j) a b) z (Ab (at_ (S j)))).
      2:{ unfold bilinear. rewrite <- sum_minus. apply sum_ext. intros i _. rewrite <- sum_minus. apply sum_ext. intros; ring. }
      apply bilinear_bound; auto; [|apply Rmult_le_pos; lra].
      intros a b A1 B1. rewrite Rabs_minus_sym. assert (X := LQ a b (at_ j) (at_ (S j)) A1 B1 ltac:(lra) TJ). rewrite (ahead dt j) in X. exact X. }
    assert (E6 : bilinear n n K z (u (S j)) - bilinear n n K z (U (at_ (S j))) = N0 * N0).
    { unfold N0. rewrite (norm_square n K PK), <- bilinear_q. unfold bilinear. rewrite <- sum_minus. apply sum_ext. intros i _. rewrite <- sum_minus. apply sum_ext. intros b _.
      unfold z at 4. unfold ed, minus. ring. }
    assert (E7 : N0 * N0 <= w * (L * dt + INR n * (INR n * r) * (al + B * dt * dt) + INR n * (INR n * (D * dt)) * M)).
    { replace (w * (L * dt + INR n * (INR n * r) * (al + B * dt * dt) + INR n * (INR n * (D * dt)) * M)) with
        (L * dt * w + INR n * (INR n * r) * (w * (al + B * dt * dt)) + INR n * (INR n * (D * dt)) * (w * M)) by ring. lra. }
    set (G := L * dt + INR n * (INR n * r) * (al + B * dt * dt) + INR n * (INR n * (D * dt)) * M) in *. unfold w in E7. fold N0.
    destruct (Rle_or_lt N0 0) as [NZ|NP].
    - assert (IN := pos_INR n). assert (0 <= L * dt) by (apply Rmult_le_pos; lra). assert (0 <= INR n * (INR n * r) * (al + B * dt * dt)) by (repeat apply Rmult_le_pos; lra).
      assert (0 <= INR n * (INR n * (D * dt)) * M) by (repeat apply Rmult_le_pos; lra). assert (0 <= c * G) by (apply Rmult_le_pos; [exact C0|unfold G; lra]). lra.
    - apply (Rmult_le_reg_r N0); [exact NP|]. lra.
  Qed.
  End Run.

  Lemma memory_rate : exists ka, 0 <= ka /\ forall dt ab u k, 0 < dt -> remembered dt ab u k -> veq n (ab O) (Ab 0) ->
    forall j i, (j <= k)%nat -> INR j * dt <= T -> (i < n)%nat ->
    Rabs (ab j i - Ab (INR j * dt) i) <= ka * dt /\ ((0 < j)%nat -> Rabs (u j i - U (INR j * dt) i) <= ka * dt).
  Proof.
    destruct operator_bound as (r & R0 & QB). destruct absement_bound as (M & M0 & AB). assert (IN := pos_INR n).
    set (nn := INR n * INR n). assert (NN : 0 <= nn) by (apply Rmult_le_pos; assumption).
    set (kp := c * c * nn * r). assert (KP : 0 <= kp) by (unfold kp; repeat apply Rmult_le_pos; assumption).
    set (G := c * c * (L + nn * r * B * T + nn * D * M)).
    assert (G0 : 0 <= G). { unfold G. apply Rmult_le_pos; [apply Rmult_le_pos; assumption|]. repeat apply Rplus_le_le_0_compat; repeat apply Rmult_le_pos; assumption. }
    set (ka := T * (G + B) * exp (kp * T)). assert (KA : 0 <= ka) by (unfold ka; repeat apply Rmult_le_pos; try lra; left; apply exp_pos).
    assert (KK : 0 <= kp * ka) by (apply Rmult_le_pos; assumption).
    exists (ka + (kp * ka + G)). split; [lra|]. intros dt ab u k DT ST A0.
    assert (DV : forall al j i, (j < k)%nat -> INR (S j) * dt <= T -> 0 <= al -> (forall i, (i < n)%nat -> Rabs (ea dt ab j i) <= al) -> (i < n)%nat -> Rabs (ed dt u (S j) i) <= kp * al + G * dt).
    { intros al j i J TJ AL EA I. apply (Rle_trans _ _ _ (CB _ i (ed_free dt ab u k DT ST j J TJ) I)).
      apply (Rle_trans _ _ _ (Rmult_le_compat_l c _ _ C0 (memory_step dt ab u k r M DT ST R0 M0 QB AB al j J TJ AL EA))).
      destruct (at_range T dt DT j TJ) as (X0 & X1 & X2). assert (DTT : dt <= T) by (rewrite S_INR in TJ; lra).
      assert (B * dt * dt <= B * T * dt) by (apply Rmult_le_compat_r; [lra|apply Rmult_le_compat_l; lra]).
      assert (nn * r * (B * dt * dt) <= nn * r * (B * T * dt)) by (apply Rmult_le_compat_l; [apply Rmult_le_pos; assumption|assumption]).
      unfold kp, G. apply (Rle_trans _ (c * c * (L * dt + nn * r * al + nn * r * (B * T * dt) + nn * D * M * dt))); [|apply Req_le; ring].
      rewrite <- Rmult_assoc. apply Rmult_le_compat_l; [apply Rmult_le_pos; assumption|].
      replace (L * dt + INR n * (INR n * r) * (al + B * dt * dt) + INR n * (INR n * (D * dt)) * M) with (L * dt + nn * r * al + nn * r * (B * dt * dt) + nn * D * M * dt) by (unfold nn; ring). lra. }
    assert (EA : forall j i, (j <= k)%nat -> INR j * dt <= T -> (i < n)%nat -> Rabs (ea dt ab j i) <= INR j * dt * ((G + B) * dt) * exp (kp * (INR j * dt))).
    { induction j as [|j IH]; intros i J TJ I.
      - unfold ea, minus. cbn [INR]. rewrite !Rmult_0_l, (A0 i I), Rminus_diag_eq, Rabs_R0 by reflexivity. lra.
      - destruct (at_range T dt DT j TJ) as (X0 & X1 & X2).
        set (al := INR j * dt * ((G + B) * dt) * exp (kp * (INR j * dt))) in *. assert (AL : 0 <= al) by (unfold al; repeat apply Rmult_le_pos; try lra; try apply pos_INR; left; apply exp_pos).
        assert (IHj : forall i, (i < n)%nat -> Rabs (ea dt ab j i) <= al) by (intros; apply IH; [lia|lra|assumption]).
        rewrite (ea_next dt ab u k ST j i) by lia. assert (Y1 := DV al j i ltac:(lia) TJ AL IHj I). assert (Y2 := pa_bound dt DT j i TJ I). assert (Y3 := IHj i I).
        replace (ea dt ab j i + dt * ed dt u (S j) i - pa dt j i) with (ea dt ab j i + (dt * ed dt u (S j) i + - pa dt j i)) by ring.
        assert (Q1 := Rabs_triang (ea dt ab j i) (dt * ed dt u (S j) i + - pa dt j i)). assert (Q2 := Rabs_triang (dt * ed dt u (S j) i) (- pa dt j i)).
        rewrite Rabs_Ropp, Rabs_mult, (Rabs_right dt) in Q2 by lra. assert (dt * Rabs (ed dt u (S j) i) <= dt * (kp * al + G * dt)) by (apply Rmult_le_compat_l; lra).
        apply (Rle_trans _ ((1 + kp * dt) * al + (G + B) * dt * dt)); [lra|].
        assert (KD : 0 <= kp * dt) by (apply Rmult_le_pos; lra).
        assert (E1 : 1 + kp * dt <= exp (kp * dt)) by (destruct KD as [KD|<-]; [left; apply exp_ineq1; lra|rewrite exp_0; lra]).
        assert (E2 : exp (kp * (INR (S j) * dt)) = exp (kp * dt) * exp (kp * (INR j * dt))) by (rewrite <- exp_plus; f_equal; rewrite S_INR; ring).
        assert (E3 : 1 <= exp (kp * (INR (S j) * dt))).
        { assert (0 <= kp * (INR (S j) * dt)) as [X|<-] by (apply Rmult_le_pos; lra); [assert (Z := exp_ineq1 _ (Rgt_not_eq _ _ X)); lra|rewrite exp_0; lra]. }
        assert (E4 : (1 + kp * dt) * al <= INR j * dt * ((G + B) * dt) * exp (kp * (INR (S j) * dt))).
        { apply (Rle_trans _ (exp (kp * dt) * al)); [apply Rmult_le_compat_r; assumption|]. rewrite E2. unfold al. apply Req_le. ring. }
        assert (E5 : (G + B) * dt * dt * 1 <= (G + B) * dt * dt * exp (kp * (INR (S j) * dt))) by (apply Rmult_le_compat_l; [repeat apply Rmult_le_pos; lra|exact E3]).
        rewrite S_INR at 1. lra. }
    assert (EK : forall j i, (j <= k)%nat -> INR j * dt <= T -> (i < n)%nat -> Rabs (ea dt ab j i) <= ka * dt).
    { intros j i J TJ I. apply (Rle_trans _ _ _ (EA j i J TJ I)). unfold ka.
      assert (P0 : 0 <= INR j * dt) by (apply Rmult_le_pos; [apply pos_INR|lra]).
      assert (EE : exp (kp * (INR j * dt)) <= exp (kp * T)).
      { assert (kp * (INR j * dt) <= kp * T) as [X|X] by (apply Rmult_le_compat_l; assumption); [left; apply exp_increasing; exact X|rewrite X; apply Rle_refl]. }
      replace (T * (G + B) * exp (kp * T) * dt) with (T * ((G + B) * dt) * exp (kp * T)) by ring.
      apply Rmult_le_compat; [repeat apply Rmult_le_pos; try lra; apply pos_INR|left; apply exp_pos| |exact EE]. apply Rmult_le_compat_r; [apply Rmult_le_pos; lra|exact TJ]. }
    intros j i J TJ I. split.
    - assert (X := EK j i J TJ I). unfold ea, minus in X. apply (Rle_trans _ _ _ X). apply Rmult_le_compat_r; lra.
    - intros JP. destruct j as [|j]; [lia|]. destruct (at_range T dt DT j TJ) as (X0 & X1 & X2).
      assert (X := DV (ka * dt) j i ltac:(lia) TJ ltac:(apply Rmult_le_pos; lra) (fun i I => EK j i ltac:(lia) ltac:(lra) I) I). unfold ed, minus in X.
      apply (Rle_trans _ _ _ X). assert (0 <= ka * dt) by (apply Rmult_le_pos; lra). lra.
  Qed.
End Memory.
