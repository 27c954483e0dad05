(* The systems of the statements against the balance laws: C30, C31, C32, C34, C59. *)
From Coq Require Import Reals List Arith Bool String Lia Lra.
From Verif Require Import Common PyModel RVec LinAlg DofModel DofSpec DirichletModel DirichletSpec DirichletProofs
  StatementModel StatementSpec StatementProofs StatementValueProofs.
Import ListNotations.
Local Open Scope list_scope.
Local Open Scope R_scope.

(* the law each class stands for *)
Definition law_of (p : physics) (k : kind) : vec -> nat -> Prop :=
  match k with
  | StaticPoisson => poisson_law p
  | Wave => wave_law p
  | StaticDisplacement => static_law p
  | QuasistaticRelaxation => relaxation_law p
  | QuasistaticVelocity => quasistatic_law p (fun _ => 0)
  | DynamicVelocity => dynamic_law p (fun _ => 0)
  | DynamicVelocityWithTemperature => dynamic_law p (thermal_load p)
  | Temperature => heat_law p
  | Piezoelectric => potential_law p
  | QuasistaticVelocityWithPiezoelectric => quasistatic_law p (fun i => - electric_load p i)
  | DynamicVelocityWithPiezoelectric => dynamic_law p (electric_load p)
  end.

Lemma mv_advanced p m A old x i : mv m A (advanced p old x) i = mv m A old i + ph_dt p * mv m A x i.
Proof.
  unfold mv, advanced. rewrite <- sum_scal, <- sum_plus. apply sum_ext. intros; ring.
Qed.
Lemma mv_rate p m A old x i : mv m A (rate p old x) i = mv m A x i / ph_dt p - mv m A old i / ph_dt p.
Proof.
  unfold mv, rate, Rdiv. rewrite <- !sum_scal_r, <- sum_minus. apply sum_ext. intros; ring.
Qed.

Lemma row_plus m (A B : nat -> R) (x : vec) :
  sum m (fun l => (A l + B l) * x l) = sum m (fun l => A l * x l) + sum m (fun l => B l * x l).
Proof. rewrite <- sum_plus. apply sum_ext. intros; ring. Qed.
Lemma row_scale m (A : nat -> R) c (x : vec) :
  sum m (fun l => A l * c * x l) = c * sum m (fun l => A l * x l).
Proof. rewrite <- sum_scal. apply sum_ext. intros; ring. Qed.

Section Laws.
  Context {F : Type}.
  Variable integrate : F -> R -> F * result (nat * vec).
  Variable b : body.
  Variable var : variables.
  Variable p : physics.
  Notation world := (world F).
  Notation reads := (reads integrate b var p).
  Notation unknowns := (unknowns b).

  Lemma row_law k x i : sized b p ->
    (sum (unknowns k) (fun l => lmat p k i l * x l) = rvec b p k i <-> law_of p k x i).
  Proof.
    intros [HN Hn].
    destruct k; cbn [law_of]; cbv [lmat rvec StatementValueProofs.unknowns qvec dvec wave_law
      poisson_law static_law relaxation_law quasistatic_law dynamic_law heat_law potential_law thermal_load electric_load];
      rewrite ?mv_advanced, ?mv_rate, ?HN, ?Hn, ?row_plus, ?row_scale;
      repeat (change (sum ?m (fun l => ?A i l * ?y l)) with (mv m A y i));
      unfold Rdiv; rewrite ?Rmult_1_l, ?(Rmult_comm (/ ph_dt p)); split; intros; lra.
  Qed.

  Lemma solves_ext m A A' r r' x : meq m m A A' -> veq m r r' -> solves m A r x -> solves m A' r' x.
  Proof.
    intros HA Hr H k Hk. rewrite <- Hr by auto. rewrite <- (H k Hk). apply sum_ext. intros l Hl.
    rewrite HA; auto.
  Qed.

  (* the arrays read back after the update *)
  Definition solved (k : kind) (w' : world) (lr : smat * vref) (x : vec) : Prop :=
    solves (unknowns k) (load_m (hp w') (sm_data (fst lr))) (load_v (hp w') (snd lr)) x.

  Lemma solved_final k conds w w' lr x : update_post integrate b var p k conds w w' lr ->
    (solved k w' lr x <-> solves (unknowns k) (lhs (final b p k conds)) (rhs (final b p k conds)) x).
  Proof.
    intros (_ & _ & _ & _ & (_ & _ & _ & V1) & (_ & _ & V2)). unfold solved. split; intros H.
    - eapply solves_ext; [exact V1|exact V2|exact H].
    - eapply solves_ext; [|  |exact H]; intros i; intros; symmetry; [apply V1|apply V2]; auto.
  Qed.

  (* C30 *)
  Lemma update_balance k w conds : reads k w -> conditions b k = Ok conds ->
    well_shaped (unknowns k) conds -> consistent (prescribed conds) ->
    exists w' lr, update integrate b k var w = (w', Ok lr) /\
      forall x, solved k w' lr x <-> obeys (unknowns k) (prescribed conds) (law_of p k) x.
  Proof.
    intros HR HC HW HK.
    destruct (update_value integrate b var p k w conds HR HC HW) as (w' & lr & E & P).
    exists w', lr. split; auto. intros x. rewrite (solved_final _ _ _ _ _ _ P).
    unfold final. rewrite elimination_equiv by auto.
    destruct HR as [HS _]. unfold solves_constrained, obeys. split; intros [H1 H2]; split; auto;
      intros i Hi Hp; apply (row_law k x i HS); auto.
  Qed.

  (* C31 *)
  (* definite on the vectors that vanish at the prescribed dofs *)
  Definition definite_free (n : nat) (conds : list condition) (A : mat) : Prop :=
    forall x, (forall d v, prescribed conds d v -> x d = 0) ->
      (exists i, (i < n)%nat /\ x i <> 0) -> 0 < qform n A x.

  Definition stable_kind (conds : list condition) (k : kind) : Prop :=
    match k with
    | DynamicVelocity | DynamicVelocityWithTemperature | DynamicVelocityWithPiezoelectric =>
        definite_free (ph_n p) conds (mass p) /\ pos_semidef (ph_n p) (damping p) /\
        pos_semidef (ph_n p) (stiffness p)
    | Wave => definite_free (ph_N p) conds (mass p) /\ pos_semidef (ph_N p) (laplace p)
    | Temperature => definite_free (ph_N p) conds (mass p) /\ pos_semidef (ph_N p) (conduction p)
    | StaticPoisson => definite_free (ph_N p) conds (laplace p)
    | Piezoelectric => definite_free (ph_N p) conds (dielectric p)
    | StaticDisplacement => definite_free (ph_n p) conds (stiffness p)
    | QuasistaticRelaxation => definite_free (ph_n p) conds (stiffness p) /\ pos_semidef (ph_n p) (memory p)
    | QuasistaticVelocity | QuasistaticVelocityWithPiezoelectric =>
        definite_free (ph_n p) conds (damping p) /\ pos_semidef (ph_n p) (stiffness p)
    end.

  Lemma df_plus n conds A B : definite_free n conds A -> pos_semidef n B ->
    definite_free n conds (fun i j => A i j + B i j).
  Proof.
    intros HA HB x H0 Hx. pose proof (HA x H0 Hx). pose proof (HB x). rewrite qform_plus. lra.
  Qed.
  Lemma df_scale n conds A c : 0 < c -> definite_free n conds A -> definite_free n conds (fun i j => A i j * c).
  Proof. intros Hc HA x H0 Hx. rewrite qform_scale. apply Rmult_lt_0_compat; auto. Qed.
  Lemma df_ext n conds A B : (forall i j, A i j = B i j) -> definite_free n conds A -> definite_free n conds B.
  Proof.
    intros H HA x H0 Hx. replace (qform n B x) with (qform n A x); [auto|].
    unfold qform, dot, mv. apply sum_ext. intros i _. f_equal. apply sum_ext. intros j _. rewrite H. ring.
  Qed.
  Lemma pos_def_free n conds A : pos_def n A -> definite_free n conds A.
  Proof. intros H x _ Hx. apply H; auto. Qed.

  Lemma lmat_definite conds k : sized b p -> 0 < ph_dt p -> stable_kind conds k ->
    definite_free (unknowns k) conds (lmat p k).
  Proof.
    intros [HN Hn] Hdt HS.
    assert (Hq : 0 < 1 / ph_dt p) by (apply Rdiv_lt_0_compat; lra).
    assert (D : definite_free (ph_n p) conds (mass p) -> pos_semidef (ph_n p) (damping p) -> pos_semidef (ph_n p) (stiffness p) ->
      definite_free (ph_n p) conds (fun i j => damping p i j + mass p i j * (1 / ph_dt p) + stiffness p i j * ph_dt p)).
    { intros H1 H2 H3.
      apply (df_ext _ _ (fun i j => (mass p i j * (1 / ph_dt p) + damping p i j) + stiffness p i j * ph_dt p)).
      { intros i j. ring. }
      apply df_plus; [apply df_plus; [apply df_scale|]|apply pos_semidef_scale]; auto; lra. }
    destruct k; simpl in HS; cbv [lmat StatementValueProofs.unknowns]; rewrite <- ?Hn, <- ?HN; auto.
    - destruct HS. apply df_plus; [apply df_scale|apply pos_semidef_scale]; auto; lra.
    - destruct HS. apply df_plus; [|apply pos_semidef_scale]; auto; lra.
    - destruct HS. apply df_plus; [|apply pos_semidef_scale]; auto; lra.
    - destruct HS as (H1 & H2 & H3). exact (D H1 H2 H3).
    - destruct HS as (H1 & H2 & H3). exact (D H1 H2 H3).
    - destruct HS. apply df_plus; [apply df_scale|]; auto.
    - destruct HS. apply df_plus; [|apply pos_semidef_scale]; auto; lra.
    - destruct HS as (H1 & H2 & H3). exact (D H1 H2 H3).
  Qed.

  Lemma update_unique k w conds : reads k w -> conditions b k = Ok conds ->
    well_shaped (unknowns k) conds -> 0 < ph_dt p -> stable_kind conds k ->
    exists w' lr, update integrate b k var w = (w', Ok lr) /\
      exists x, solved k w' lr x /\ forall y, solved k w' lr y -> veq (unknowns k) y x.
  Proof.
    intros HR HC HW Hdt HS.
    destruct (update_value integrate b var p k w conds HR HC HW) as (w' & lr & E & P).
    exists w', lr. split; auto. destruct HR as [HZ _].
    pose proof (lmat_definite conds k HZ Hdt HS) as PD.
    assert (PF : pos_def (unknowns k) (lhs (final b p k conds))).
    { apply elimination_pos_def; auto. }
    destruct (pos_def_exactly_one _ _ (rhs (final b p k conds)) PF) as (x & Hx & HU).
    exists x. split.
    - apply (solved_final _ _ _ _ _ _ P). exact Hx.
    - intros y Hy. apply HU. apply (solved_final _ _ _ _ _ _ P). exact Hy.
  Qed.

  (* C34 *)
  Definition steady : Prop := forall f t, snd (integrate (fst (integrate f t)) t) = snd (integrate f t).

  Lemma update_again k w conds : steady -> reads k w -> conditions b k = Ok conds ->
    well_shaped (unknowns k) conds ->
    exists w1 lr1 w2 lr2,
      update integrate b k var w = (w1, Ok lr1) /\ update integrate b k var w1 = (w2, Ok lr2) /\
      meq (unknowns k) (unknowns k) (load_m (hp w2) (sm_data (fst lr2))) (load_m (hp w1) (sm_data (fst lr1))) /\
      veq (unknowns k) (load_v (hp w2) (snd lr2)) (load_v (hp w1) (snd lr1)).
  Proof.
    intros HS HR HC HW.
    destruct (update_value integrate b var p k w conds HR HC HW) as (w1 & lr1 & E1 & P1).
    pose proof P1 as (X1 & F1 & T1 & R1 & V1 & U1).
    assert (HR1 : reads k w1).
    { apply (reads_step integrate b var p k w); auto.
      - intros t Ht. rewrite F1, Ht. apply HS.
      - intros ->. rewrite T1. apply HS. }
    destruct (update_value integrate b var p k w1 conds HR1 HC HW) as (w2 & lr2 & E2 & P2).
    pose proof P2 as (X2 & F2 & T2 & R2 & V2 & U2).
    exists w1, lr1, w2, lr2. split; auto. split; auto. split.
    - intros i j Hi Hj. destruct V1 as (_ & _ & _ & V1), V2 as (_ & _ & _ & V2). rewrite V1, V2; auto.
    - intros i Hi. destruct U1 as (_ & _ & U1), U2 as (_ & _ & U2). rewrite U1, U2; auto.
  Qed.
End Laws.

(* ------------------------------------------------------------ energy *)

(* kinetic plus stored energy *)
Definition energy (n : nat) (M E : mat) (u v : vec) : R := qform n M v / 2 + qform n E u / 2.

Lemma qform_diff n A x y : symmetric n A ->
  qform n A (fun i => x i - y i) = qform n A x - 2 * dot n x (mv n A y) + qform n A y.
Proof.
  intros S. unfold qform.
  assert (E : forall z, dot n z (mv n A (fun i => x i - y i)) = dot n z (mv n A x) - dot n z (mv n A y)).
  { intros z. unfold dot, mv. rewrite <- sum_minus. apply sum_ext. intros i _.
    rewrite <- Rmult_minus_distr_l. f_equal. rewrite <- sum_minus. apply sum_ext. intros; ring. }
  rewrite E. rewrite !(dot_minus_l). rewrite (dot_mv_sym n A y x) by auto. ring.
Qed.

(* exact energy balance of one implicit Euler step
     M (v' - v)/dt + C v' + E (u + dt v') = f
   tested with v'; [f] is only required to be the residual up to forces doing no work on v' *)
Lemma energy_balance n M C E dt u v v' f :
  symmetric n M -> symmetric n E -> dt <> 0 ->
  dot n v' (fun i => mv n M (fun j => (v' j - v j) / dt) i + mv n C v' i
                     + mv n E (fun j => u j + dt * v' j) i) = dot n v' f ->
  energy n M E (fun j => u j + dt * v' j) v'
  + dt * qform n C v' + qform n M (fun j => v' j - v j) / 2 + dt ^ 2 * qform n E v' / 2
  = energy n M E u v + dt * dot n v' f.
Proof.
  intros SM SE Hdt H. unfold energy.
  assert (A1 : dot n v' (fun i => mv n M (fun j => (v' j - v j) / dt) i) = (qform n M v' - dot n v' (mv n M v)) / dt).
  { unfold qform. unfold dot at 1. unfold dot, Rdiv. rewrite <- sum_minus, <- sum_scal_r.
    apply sum_ext. intros i _. unfold mv.
    rewrite (sum_ext n _ (fun j => (M i j * v' j - M i j * v j) * / dt)) by (intros; ring).
    rewrite sum_scal_r, sum_minus. ring. }
  assert (A2 : dot n v' (mv n E (fun j => u j + dt * v' j)) = dot n v' (mv n E u) + dt * qform n E v').
  { unfold qform, dot. rewrite <- sum_scal, <- sum_plus. apply sum_ext. intros i _. unfold mv.
    rewrite (sum_ext n _ (fun j => E i j * u j + dt * (E i j * v' j))) by (intros; ring).
    rewrite sum_plus, sum_scal. ring. }
  assert (A3 : qform n E (fun j => u j + dt * v' j) = qform n E u + 2 * dt * dot n v' (mv n E u) + dt ^ 2 * qform n E v').
  { unfold qform at 1.
    assert (Z : forall z, dot n z (mv n E (fun j => u j + dt * v' j)) = dot n z (mv n E u) + dt * dot n z (mv n E v')).
    { intros z. unfold dot. rewrite <- sum_scal, <- sum_plus. apply sum_ext. intros i _. unfold mv.
      rewrite (sum_ext n _ (fun j => E i j * u j + dt * (E i j * v' j))) by (intros; ring).
      rewrite sum_plus, sum_scal. ring. }
    rewrite Z. rewrite !dot_plus_l, !dot_scal_l. rewrite (dot_mv_sym n E u v') by auto. unfold qform. ring. }
  rewrite (qform_diff n M v' v SM), A3.
  assert (B : dot n v' (fun i => mv n M (fun j => (v' j - v j) / dt) i + mv n C v' i
                     + mv n E (fun j => u j + dt * v' j) i)
      = (qform n M v' - dot n v' (mv n M v)) / dt + qform n C v' + (dot n v' (mv n E u) + dt * qform n E v')).
  { rewrite <- A1, <- A2. unfold qform, dot. rewrite <- !sum_plus. apply sum_ext. intros; ring. }
  rewrite B in H. rewrite <- H. field. exact Hdt.
Qed.
