(* A step solver with its statement: what an update leaves, for every kind of statement. *)
From Coq Require Import Reals List Arith Bool String Lia Lra.
From Verif Require Import Common PyModel RVec DofModel DofSpec DirichletModel DirichletSpec DirichletProofs
  StatementModel StatementSpec StatementProofs StatementValueProofs StatementLawProofs StatementEnergyProofs
  RegistryModel RegistrySpec RegistryProofs DispatchProofs TimeModel TimeSpec MethodModel.
Import ListNotations.
Local Open Scope list_scope.
Local Open Scope R_scope.

Section Equipment.
  Context {F : Type}.
  Variable integrate : F -> R -> F * result (nat * vec).
  Variable b : body.
  Variable k : kind.
  Variable p : physics.
  (* the loads as functions of time, and the relaxation operator *)
  Variable loads : R -> vec.
  Variable relaxations : R -> mat.
  (* force objects that answer with the loads, and go on doing so *)
  Variables forceful heated : F -> Prop.
  Notation world := (StatementModel.world F).
  Let N := b_count b.
  Let d := b_dimension b.
  Let n := (d * N)%nat.
  Let ops := b_ops b.

  (* the time that the loads are asked for *)
  Definition load_moment (t : R) : R := match k with StaticDisplacement => 0 | _ => t end.

  (* the data of a step with these arrays at this time *)
  Definition moment (x : vectors) (dt t : R) : physics :=
    mkPhysics (ph_N p) (ph_n p) (mass p) (stiffness p) (damping p) (relaxations t) (laplace p) (conduction p)
      (dielectric p) (expansion p) (coupling p) (loads (load_moment t)) (heat p)
      (vec_b x) (vec_u x) (vec_v x) (vec_t x) (vec_p x) dt.

  (* only these kinds divide by the time step or need it *)
  Definition can_step (dt : R) : Prop :=
    match k with StaticPoisson | StaticDisplacement | Piezoelectric => True | _ => dt <> 0 end.

  Definition force_length : nat := match k with Wave => N | _ => n end.
  Definition keeps_force : Prop := forall f t, forceful f ->
    snd (integrate f t) = Ok (force_length, loads t) /\ forceful (fst (integrate f t)).
  Definition keeps_heat : Prop := forall f, heated f ->
    snd (integrate f 0) = Ok (N, heat p) /\ heated (fst (integrate f 0)).

  (* the operators of the body, where the statement looks for them, have the values of p *)
  Definition operators (w : world) : Prop :=
    match k with
    | StaticPoisson => has_op (hp w) (o_poisson ops) (1, 1)%nat N N (laplace p)
    | Wave => (d = 2 \/ d = 3)%nat /\ sval (hp w) (o_acceleration ops) (d, d) n n (mass p) /\
        has_op (hp w) (o_poisson ops) (1, 1)%nat N N (laplace p)
    | StaticDisplacement => has_op (hp w) (o_elasticity ops) (d, d) n n (stiffness p)
    | QuasistaticRelaxation =>
        d = 2%nat /\ entrywise b /\ relax_ok b w /\
        (exists f, b_relaxation b = Some f /\
           forall t, exists tn, f (Some t) = Ok tn /\ b_relaxation_matrix b tn = Ok (relaxations t)) /\
        has_op (hp w) (o_elasticity ops) (d, d) n n (stiffness p)
    | QuasistaticVelocity =>
        has_op (hp w) (o_viscosity ops) (d, d) n n (damping p) /\ has_op (hp w) (o_elasticity ops) (d, d) n n (stiffness p)
    | QuasistaticVelocityWithPiezoelectric =>
        has_op (hp w) (o_viscosity ops) (d, d) n n (damping p) /\ has_op (hp w) (o_elasticity ops) (d, d) n n (stiffness p) /\
        (exists ty, has_op (hp w) (o_piezoelectricity ops) ty N n (coupling p))
    | DynamicVelocity =>
        sval (hp w) (o_acceleration ops) (d, d) n n (mass p) /\
        has_op (hp w) (o_viscosity ops) (d, d) n n (damping p) /\ has_op (hp w) (o_elasticity ops) (d, d) n n (stiffness p)
    | DynamicVelocityWithTemperature =>
        sval (hp w) (o_acceleration ops) (d, d) n n (mass p) /\
        has_op (hp w) (o_viscosity ops) (d, d) n n (damping p) /\ has_op (hp w) (o_elasticity ops) (d, d) n n (stiffness p) /\
        (exists ty, has_op (hp w) (o_thermal_expansion ops) ty N n (expansion p))
    | DynamicVelocityWithPiezoelectric =>
        sval (hp w) (o_acceleration ops) (d, d) n n (mass p) /\
        has_op (hp w) (o_viscosity ops) (d, d) n n (damping p) /\ has_op (hp w) (o_elasticity ops) (d, d) n n (stiffness p) /\
        (exists ty, has_op (hp w) (o_piezoelectricity ops) ty N n (coupling p))
    | Temperature =>
        (1 <= d)%nat /\ (exists ty, has_op (hp w) (o_thermal_expansion ops) ty N n (expansion p)) /\
        (exists ty, sval (hp w) (o_acceleration ops) ty n n (mass p)) /\
        (exists ty, has_op (hp w) (o_thermal_conductivity ops) ty N N (conduction p))
    | Piezoelectric =>
        has_op (hp w) (o_permittivity ops) (1, 1)%nat N N (dielectric p) /\
        (exists ty, has_op (hp w) (o_piezoelectricity ops) ty N n (coupling p))
    end.

  (* the heat equations and the one for the potential never ask for forces *)
  Definition asks_force : Prop := match k with StaticPoisson | Temperature | Piezoelectric => False | _ => True end.
  Definition equipped (w : world) : Prop :=
    ph_N p = N /\ ph_n p = n /\ (asks_force -> forceful (w_force w)) /\ (k = StaticPoisson -> heated (w_temperature w)) /\ operators w.

  Hypothesis KF : keeps_force.
  Hypothesis KH : keeps_heat.

  Lemma operators_ext w w' : operators w -> hext (hp w) (hp w') -> (relax_ok b w -> relax_ok b w') -> operators w'.
  Proof.
    intros H X HR.
    assert (O : forall o ty n0 m0 A, has_op (hp w) o ty n0 m0 A -> has_op (hp w') o ty n0 m0 A)
      by (intros; eapply has_op_ext; eauto).
    assert (G : forall o ty n0 m0 A, sval (hp w) o ty n0 m0 A -> sval (hp w') o ty n0 m0 A)
      by (intros; eapply sval_ext; eauto).
    unfold operators in *. destruct k; repeat match goal with
      | H : _ /\ _ |- _ => destruct H
      | H : exists _, has_op _ _ _ _ _ _ |- _ => destruct H
      | H : exists _, sval _ _ _ _ _ _ |- _ => destruct H
      end; eauto 12.
  Qed.

  Lemma relax_same (w w' : world) : hext (hp w) (hp w') -> same w w' -> relax_ok b w -> relax_ok b w'.
  Proof. intros X (S1 & S2 & S3 & S4) H. eapply relax_ok_step; eauto. Qed.

  (* handing over keeps everything and provides the five arrays *)
  Definition handed (x : vectors) (dt t : R) (w w' : world) (g : given) : Prop :=
    hext (hp w) (hp w') /\ same w w' /\ g_dt g = dt /\ g_time g = t /\
    vval (hp w') (g_b g) n (vec_b x) /\ vval (hp w') (g_u g) n (vec_u x) /\ vval (hp w') (g_v g) n (vec_v x) /\
    vval (hp w') (g_t g) N (vec_t x) /\ vval (hp w') (g_p g) N (vec_p x).

  Lemma hand_over_ev x dt t w : ev (hand_over b x dt t) w (handed x dt t w).
  Proof.
    unfold hand_over. cbv zeta. change (b_dimension b * b_count b)%nat with n. change (b_count b) with N.
    apply ev_bind, ev_new_v. intros w1 r1 E1 S1 _ V1.
    apply ev_bind, ev_new_v. intros w2 r2 E2 S2 _ V2.
    apply ev_bind, ev_new_v. intros w3 r3 E3 S3 _ V3.
    apply ev_bind, ev_new_v. intros w4 r4 E4 S4 _ V4.
    apply ev_bind, ev_new_v. intros w5 r5 E5 S5 _ V5.
    apply ev_ret. unfold handed. cbn [g_dt g_time g_b g_u g_v g_t g_p].
    assert (X45 := E5). assert (X35 := hext_trans _ _ _ E4 X45). assert (X25 := hext_trans _ _ _ E3 X35).
    assert (X15 := hext_trans _ _ _ E2 X25). assert (X05 := hext_trans _ _ _ E1 X15).
    split; [exact X05|].
    split; [exact (same_trans _ _ _ S1 (same_trans _ _ _ S2 (same_trans _ _ _ S3 (same_trans _ _ _ S4 S5))))|].
    split; [reflexivity|]. split; [reflexivity|].
    split; [exact (vval_ext _ _ _ _ _ X15 V1)|]. split; [exact (vval_ext _ _ _ _ _ X25 V2)|].
    split; [exact (vval_ext _ _ _ _ _ X35 V3)|]. split; [exact (vval_ext _ _ _ _ _ X45 V4)|]. exact V5.
  Qed.

  Lemma handed_reads x dt t w w' g : equipped w -> can_step dt -> handed x dt t w w' g ->
    reads integrate b (initial_variables g) (moment x dt t) k w' /\ equipped w'.
  Proof.
    intros (E1 & E2 & E3 & E4 & E5) Hdt (X & S & G1 & G2 & V1 & V2 & V3 & V4 & V5).
    assert (E5' : operators w') by (eapply operators_ext; [exact E5|exact X|apply relax_same; auto]).
    pose proof S as (S1 & S2 & S3 & S4).
    assert (E3' : asks_force -> forceful (w_force w')) by (rewrite S1; exact E3).
    assert (E4' : k = StaticPoisson -> heated (w_temperature w')) by (intros Q; rewrite S2; auto).
    split; [|split; [exact E1|split; [exact E2|split; [exact E3'|split; [exact E4'|exact E5']]]]].
    split; [split; [exact E1|exact E2]|].
    assert (T : dt <> 0 -> timed (initial_variables g) (moment x dt t)).
    { intros Z. split; [cbn; rewrite G1; reflexivity|exact Z]. }
    unfold can_step in Hdt.
    assert (FA : asks_force -> forall s, snd (integrate (w_force w') s) = Ok (force_length, loads s)) by (intros Q s; apply KF; auto).
    assert (FM : exists s, time (initial_variables g) = Some s /\
              (asks_force -> k <> StaticDisplacement -> snd (integrate (w_force w') s) = Ok (force_length, load (moment x dt t)))).
    { exists t. split; [cbn; rewrite G2; reflexivity|]. intros A Q. rewrite (FA A). unfold moment, load_moment. cbn [load].
      destruct k; try reflexivity. contradiction. }
    assert (VB : has_vec (hp w') (absement (initial_variables g)) n (ph_b (moment x dt t))) by (eexists; split; [reflexivity|exact V1]).
    assert (VU : has_vec (hp w') (displacement (initial_variables g)) n (ph_u (moment x dt t))) by (eexists; split; [reflexivity|exact V2]).
    assert (VV : has_vec (hp w') (velocity (initial_variables g)) n (ph_v (moment x dt t))) by (eexists; split; [reflexivity|exact V3]).
    assert (VT : has_vec (hp w') (temperature (initial_variables g)) N (ph_th (moment x dt t))) by (eexists; split; [reflexivity|exact V4]).
    assert (VP : has_vec (hp w') (electric_potential (initial_variables g)) N (ph_phi (moment x dt t))) by (eexists; split; [reflexivity|exact V5]).
    unfold operators in E5'. unfold force_length, asks_force in FM, FA. unfold dynamic_inputs, quasistatic_inputs, force_at.
    fold N d n ops.
    destruct k eqn:K; try (assert (FM' := FM); destruct FM' as (s & Q1 & Q2); try specialize (Q2 Logic.I ltac:(discriminate)));
      try specialize (T Hdt).
    - split; [exact E5'|]. apply KH. auto.
    - destruct E5' as (D & O1 & O2). split; [exact D|]. split; [exact T|]. split; [eauto|].
      assert (L : (N <= n)%nat) by (unfold n; destruct D as [D|D]; rewrite D; lia).
      split; [exists n; split; [exact L|exact VU]|]. split; [exists n; split; [exact L|exact VV]|]. split; [exact O1|exact O2].
    - split; [exact E5'|]. rewrite (FA Logic.I). unfold moment, load_moment. rewrite K. reflexivity.
    - destruct E5' as (D & O1 & O2 & (f & O3 & O4) & O5). split; [exact D|]. split; [exact T|]. split; [exact O1|].
      split; [exact O2|]. split; [|split; [exact VB|exact O5]].
      destruct (O4 t) as (tn & T1 & T2). exists t, f, tn. 
      assert (st : s = t) by (cbn in Q1; rewrite G2 in Q1; congruence). subst s.
      split; [exact Q1|]. split; [exact Q2|]. split; [exact O3|]. split; [exact T1|exact T2].
    - destruct E5' as (O1 & O2). eauto 10.
    - destruct E5' as (O1 & O2 & O3). eauto 12.
    - destruct E5' as (O1 & O2 & O3 & O4). split; [eauto 12|]. split; [exact VT|exact O4].
    - destruct E5' as (O1 & O2 & O3 & O4). split; [exact T|]. eauto 12.
    - destruct E5' as (O1 & O2). eauto 10.
    - destruct E5' as (O1 & O2 & O3). split; [eauto 12|]. split; [exact VP|exact O3].
    - destruct E5' as (O1 & O2 & O3 & O4). split; [eauto 12|]. split; [exact VP|exact O4].
  Qed.

  Variable conds : list condition.
  Hypothesis HC : conditions b k = Ok conds.
  Hypothesis HW : well_shaped (unknowns b k) conds.

  (* the system that the solver holds *)
  Definition holds_solution (i : method F) (y : vec) : Prop :=
    solved b k (m_world i) (m_lhs i, m_rhs i) y.

  (* the state of a solver after an update with these arrays at this time *)
  Definition updated (x : vectors) (dt t : R) (i : method F) : Prop :=
    equipped (m_world i) /\ v_len (m_rhs i) = unknowns b k /\
    meq (unknowns b k) (unknowns b k) (load_m (hp (m_world i)) (sm_data (m_lhs i))) (lhs (final b (moment x dt t) k conds)) /\
    veq (unknowns b k) (load_v (hp (m_world i)) (m_rhs i)) (rhs (final b (moment x dt t) k conds)) /\
    (forall y, holds_solution i y -> step_solved integrate b k (moment x dt t) y) /\
    m_rows (sm_data (m_lhs i)) = unknowns b k /\ m_cols (sm_data (m_lhs i)) = unknowns b k.

  Lemma update_updated x dt t w w' g : equipped w -> can_step dt -> handed x dt t w w' g ->
    exists w2 l r, update integrate b k (initial_variables g) w' = (w2, Ok (l, r)) /\ updated x dt t (mkMethod w2 l r).
  Proof.
    intros E Hdt H. destruct (handed_reads _ _ _ _ _ _ E Hdt H) as [R E'].
    destruct (update_value integrate b (initial_variables g) (moment x dt t) k w' conds R HC HW) as (w2 & [l r] & U & P).
    exists w2, l, r. split; [exact U|].
    destruct P as (X & P1 & P2 & P3 & P4 & P5). cbn [fst snd] in P4, P5.
    destruct E' as (E1 & E2 & E3 & E4 & E5).
    split; [|split; [|split; [|split; [|split; [|split]]]]].
    - cbn [m_world]. split; [exact E1|]. split; [exact E2|]. split; [|split].
      + intros A. specialize (E3 A). rewrite P1. destruct (force_time (initial_variables g) k) as [s|]; [apply KF; exact E3|exact E3].
      + intros Q. rewrite P2. rewrite Q. apply KH. apply E4. exact Q.
      + eapply operators_ext; [exact E5|exact X|exact P3].
    - cbn. apply P5.
    - cbn. apply P4.
    - cbn. apply P5.
    - intros y Hy. exists (initial_variables g), w', w2, (l, r). split; [exact R|]. split; [exact U|exact Hy].
    - cbn. apply P4.
    - cbn. apply P4.
  Qed.

  Lemma setup_updated w x dt : equipped w -> can_step dt ->
    exists i, setup integrate b k w x dt = Ok i /\ updated x dt 0 i.
  Proof.
    intros E Hdt. destruct (hand_over_ev x dt 0 w) as (w1 & g & G & H).
    destruct (update_updated _ _ _ _ _ _ E Hdt H) as (w2 & l & r & U & P).
    exists (mkMethod w2 l r). split; [|exact P]. unfold setup, mbind. rewrite G, U. reflexivity.
  Qed.

  (* a class of solver whose iterate() says as much as the constructor about kind k *)
  Definition renews (c : solver_class) : Prop :=
    forall g, exists var, iterate_variables c g = Some var /\
      forall w, update integrate b k var w = update integrate b k (initial_variables g) w.

  Lemma iterate_updated c i x dt t : renews c -> equipped (m_world i) -> can_step dt ->
    exists i', iterate integrate b k c i x dt t = Ok i' /\ updated x dt t i'.
  Proof.
    intros RN E Hdt. destruct (hand_over_ev x dt t (m_world i)) as (w1 & g & G & H).
    destruct (update_updated _ _ _ _ _ _ E Hdt H) as (w2 & l & r & U & P).
    exists (mkMethod w2 l r). split; [|exact P]. destruct (RN g) as (var & V1 & V2).
    unfold iterate, mbind. rewrite G, V1, V2, U. reflexivity.
  Qed.

  Lemma iterate_idle c i x dt t : (forall g, iterate_variables c g = None) -> iterate integrate b k c i x dt t = Ok i.
  Proof.
    intros H. destruct (hand_over_ev x dt t (m_world i)) as (w1 & g & G & _).
    unfold iterate, mbind. rewrite G, H. reflexivity.
  Qed.
End Equipment.

(* the classes found in the registry for a problem renew its statements *)
Lemma library_renews {F} (integrate : F -> R -> F * result (nat * vec)) b p name c k :
  get_by_name installed name (mro p) = Ok c -> statement_kind p k -> c <> RelaxedGlobal ->
  (forall g, iterate_variables c g <> None) -> renews integrate b k c.
Proof.
  intros G K N H g. destruct (iterate_variables c g) as [var|] eqn:E; [|destruct (H g E)].
  exists var. split; [reflexivity|]. intros w. exact (handed_over integrate b p name c k g var G K E N w).
Qed.
