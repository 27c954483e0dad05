(* C109: the states of the runs of bodies with memory; uniqueness of the creep; the exponential decay
   of the displacements of bodies whose memory is proportional to their elasticity. *)
From Coq Require Import Reals List Arith ZArith Bool String Lia Lra.
From Verif Require Import Common PyModel RVec LinAlg MeshModel MeshBuildModel MeshSpec NormalsModel
  FemModel FemSpec FemFormProofs ForcesModel ForcesSpec DirichletSpec StatementModel StatementSpec RegistryModel StateModel StateLemmas TimeModel TimeSpec TimeProofs TimeTheorems
  RunProofs HistoryProofs SolveProofs MarchProofs MethodModel RunSpec
  ProblemModel ProblemSpec ProblemProofs ProblemReady ProblemTheorems ProblemUnique ProblemTotal ProblemFinal ProblemWitness CoupledLimitProofs
  ConvergenceSpec ConvergenceProofs ConvergenceFinal ConvergenceUnique ConvergenceMemorySpec ConvergenceMemoryProofs.
Import ListNotations.
Local Open Scope string_scope.
Local Open Scope list_scope.
Local Open Scope R_scope.

Section Final.
  Variables (pb : problem) (ic id : P2 -> bool) (g : P2 -> R).
  Hypothesis PO : posed pb ic id g.
  Variable bt : built.
  Hypothesis PR : construct pb = Ok bt.
  Notation N := (List.length (m_nodes (bt_mesh bt))).
  Notation m := (bt_mesh bt).
  Notation b := (bt_body bt).
  Variables (fi fo : P2 -> R -> vec) (T B L D mu la : R) (f : option R -> result tensor) (C : R -> tensor).
  Notation goes k c := (MethodModel.iterate (integrate_forces m (bt_basic bt)) b k c).

  Lemma relaxation_converges (Ab U : R -> vec) :
    loaded pb 2 fi fo -> elastic (pr_material pb) = Some (mu, la) -> clamped_mesh pb id ->
    pr_relaxation pb = Some f -> (forall t, f (Some t) = Ok (C t)) -> (forall t G, 0 <= t <= T -> 0 <= memory_density (C t) G G) ->
    0 < mu -> 0 <= la -> 0 <= T -> 0 <= B -> 0 <= L -> 0 <= D -> paced_load T L fi -> paced_load T L fo -> paced_tensor T D C ->
    derives (2 * N) T Ab U -> paced (2 * N) T B U -> true_creep m id g fi fo T mu la C Ab U ->
    exists ka, 0 <= ka /\ forall V' W h (answer : method forces -> vec -> vec -> vec -> R -> result (nat * vec)) u0 (m0 : store V') (d d' : driver V' (method forces)) n out given (l : list (state W)),
      0 < h -> answers_exactly (2 * N) answer ->
      step_solver (with_step pb h) bt QuasistaticRelaxation m0 = Ok d -> in_stock (d_mem d) given -> non_decreasing 0 (requested n out) ->
      relaxation_solve (b_dimension b) (b_count b) (start_positions bt) (goes QuasistaticRelaxation RelaxedSchur) answer n (Ab 0) u0 out given d = (d', Ok l) ->
      forall j (s : state W), nth_error l j = Some s -> 0 < view_time (look (d_mem d') s) <= T -> within_creep (2 * N) (ka * h) Ab U (look (d_mem d') s).
  Proof.
    intros LD EL HU RF RC PC MU LA T0 B0 L0 D0 PI PF PT DA LU TC. destruct (built_ready pb ic id g PO bt PR) as (ops & RD & _).
    destruct (creep_rate pb ic id g PO bt ops RD fi fo T mu la C EL B L D Ab U HU MU LA T0 B0 L0 D0 PI PF PT PC DA LU TC) as (ka & K0 & HK).
    exists ka. split; [exact K0|]. intros V' W h answer u0 m0 d d' n out given l HP AE SS IS ND RU j s SJ LT.
    destruct (relaxation_final (W:=W) (with_step pb h) ic id g (posed_step pb ic id g h PO) bt PR answer fi fo mu la f C m0 d d' n (Ab 0) u0 out given l
      LD EL RF RC (Rgt_not_eq _ _ HP) AE SS IS ND RU) as (ab & u & MO & LE & SH).
    destruct (nth_error (requested n out) j) as [q|] eqn:Q; [|apply nth_error_None in Q; assert (j < List.length l)%nat by (apply nth_error_Some; congruence); lia].
    destruct (SH j q s Q SJ) as (E1 & E2 & E3). intros i I. rewrite E1, E2, E3. rewrite E1 in LT. cbn in LT |- *.
    assert (QP : (0 < Z.to_nat q)%nat) by (destruct (Z.to_nat q); [cbn in LT; lra|lia]).
    destruct (HK h (Ab 0) u0 _ ab u HP MO (fun _ _ => eq_refl) (Z.to_nat q) i (requested_range n out j q ND Q) (proj2 LT) I) as (X1 & X2). auto.
  Qed.

  Lemma creep_one (Ab U Ab' U' : R -> vec) :
    loaded pb 2 fi fo -> elastic (pr_material pb) = Some (mu, la) -> clamped_mesh pb id ->
    pr_relaxation pb = Some f -> (forall t, f (Some t) = Ok (C t)) -> (forall t G, 0 <= memory_density (C t) G G) ->
    0 < mu -> 0 <= la -> 0 <= T -> 0 <= B -> 0 <= L -> 0 <= D -> paced_load T L fi -> paced_load T L fo -> paced_tensor T D C ->
    derives (2 * N) T Ab U -> paced (2 * N) T B U -> true_creep m id g fi fo T mu la C Ab U ->
    derives (2 * N) T Ab' U' -> paced (2 * N) T B U' -> true_creep m id g fi fo T mu la C Ab' U' ->
    veq (2 * N) (Ab 0) (Ab' 0) -> forall t, 0 < t <= T -> veq (2 * N) (Ab t) (Ab' t) /\ veq (2 * N) (U t) (U' t).
  Proof.
    intros LD EL HU RF RC PC MU LA T0 B0 L0 D0 PI PF PT DA LU TC DA' LU' TC' QA t [TP T2].
    destruct (built_ready pb ic id g PO bt PR) as (ops & RD & _).
    destruct (creep_rate pb ic id g PO bt ops RD fi fo T mu la C EL B L D Ab U HU MU LA T0 B0 L0 D0 PI PF PT (fun t G _ => PC t G) DA LU TC) as (ka & K0 & HK).
    destruct (creep_rate pb ic id g PO bt ops RD fi fo T mu la C EL B L D Ab' U' HU MU LA T0 B0 L0 D0 PI PF PT (fun t G _ => PC t G) DA' LU' TC') as (ka' & K0' & HK').
    assert (W : forall n, (0 < n)%nat -> exists u v : nat -> vec, forall i, (i < 2 * N)%nat ->
      (Rabs (u n i - Ab (INR n * (t / INR n)) i) <= ka * (t / INR n) /\ Rabs (v n i - U (INR n * (t / INR n)) i) <= ka * (t / INR n)) /\
      (Rabs (u n i - Ab' (INR n * (t / INR n)) i) <= ka' * (t / INR n) /\ Rabs (v n i - U' (INR n * (t / INR n)) i) <= ka' * (t / INR n))).
    { intros n NP. assert (IP : 0 < INR n) by (apply lt_0_INR; exact NP). assert (HP : 0 < t / INR n) by (apply Rdiv_lt_0_compat; assumption).
      assert (ET : INR n * (t / INR n) = t) by (field; lra). destruct (all_steps n) as (ND & LS).
      destruct (relaxation_total (V:=R) (W:=unit) (with_step pb (t / INR n)) ic id g (posed_step pb ic id g _ PO) bt PR (exact_answer (2 * N)) fi fo mu la f C no_memory n []
        LD EL MU LA HU RF RC PC HP (exact_exactly _ _) (exact_definite _ _) ND ltac:(lia)) as (d & _ & H).
      destruct (H (Ab 0) (U 0)) as (d' & l & _ & u & v & MO & _). rewrite LS in MO. exists u, v. intros i I. split.
      - destruct (HK _ _ _ _ u v HP MO (fun _ _ => eq_refl) n i (le_n n) ltac:(lra) I) as (X & Y). auto.
      - destruct (HK' _ _ _ _ u v HP MO QA n i (le_n n) ltac:(lra) I) as (X & Y). auto. }
    split.
    - apply (approached (2 * N) Ab Ab' ka ka' t K0 K0' TP). intros n NP. destruct (W n NP) as (u & v & H). exists u. intros i I. destruct (H i I) as ((X & _) & (Y & _)). auto.
    - apply (approached (2 * N) U U' ka ka' t K0 K0' TP). intros n NP. destruct (W n NP) as (u & v & H). exists v. intros i I. destruct (H i I) as ((_ & X) & (_ & Y)). auto.
  Qed.
End Final.

(* memory in proportion to the elasticity *)
Lemma proportional_density rate mu la G H : memory_density (proportional rate mu la) G H = rate * elastic_density 2 mu la G H.
Proof. unfold memory_density, proportional, elastic_density, strain, divergence. cbn [sum]. field. Qed.
Lemma proportional_nonneg rate mu la G : 0 <= rate -> 0 <= mu -> 0 <= la -> 0 <= memory_density (proportional rate mu la) G G.
Proof.
  intros R0 M L. rewrite proportional_density. apply Rmult_le_pos; [exact R0|]. unfold elastic_density. apply Rplus_le_le_0_compat.
  - apply Rmult_le_pos; [lra|]. apply sum_nonneg; intros; apply sum_nonneg; intros; apply Rle_0_sqr.
  - apply Rmult_le_pos; [exact L|apply Rle_0_sqr].
Qed.

(* e^(-rate t) and its integral *)
Definition decay (rate t : R) : R := exp (- rate * t).
Definition decayed (rate t : R) : R := (1 - decay rate t) / rate.
Lemma decay_slope rate t : derivable_pt_lim (decay rate) t (- rate * decay rate t).
Proof.
  assert (H := derivable_pt_lim_comp (fun s => - rate * s) exp t (- rate * 1) (exp (- rate * t)) (derivable_pt_lim_scal (fun s => s) (- rate) t 1 (derivable_pt_lim_id t)) (derivable_pt_lim_exp _)).
  unfold decay. replace (- rate * exp (- rate * t)) with (exp (- rate * t) * (- rate * 1)) by ring. exact H.
Qed.
Lemma decayed_slope rate t : 0 < rate -> derivable_pt_lim (decayed rate) t (decay rate t).
Proof.
  intros R0. assert (H := derivable_pt_lim_scal _ (/ rate) t _ (derivable_pt_lim_minus _ _ t _ _ (derivable_pt_lim_const 1 t) (decay_slope rate t))).
  replace (decay rate t) with (/ rate * (0 - - rate * decay rate t)) by (field; lra).
  intros eps EP. destruct (H eps EP) as (de & HD). exists de. intros x XN XL. specialize (HD x XN XL). unfold mult_real_fct, minus_fct, fct_cte in HD.
  replace (decayed rate (t + x) - decayed rate t) with (/ rate * (1 - decay rate (t + x)) - / rate * (1 - decay rate t)) by (unfold decayed; field; lra). exact HD.
Qed.
Lemma decay_range rate t : 0 <= rate -> 0 <= t -> 0 < decay rate t <= 1.
Proof.
  intros R0 T0. split; [apply exp_pos|]. unfold decay. rewrite <- exp_0. assert (0 <= rate * t) as X by (apply Rmult_le_pos; assumption).
  assert (- rate * t <= 0) as [Y|Y] by lra; [left; apply exp_increasing; exact Y|rewrite Y; apply Rle_refl].
Qed.
Lemma decay_paced rate s t : 0 <= rate -> 0 <= s <= t -> Rabs (decay rate s - decay rate t) <= rate * (t - s).
Proof.
  intros R0 [S0 ST]. destruct (Req_dec s t) as [->|NE]; [rewrite !Rminus_diag_eq, Rabs_R0 by reflexivity; lra|].
  destruct (MVT_cor2 (decay rate) (fun x => - rate * decay rate x) s t ltac:(lra) (fun x _ => decay_slope rate x)) as (c & E & I).
  rewrite Rabs_minus_sym, E. replace (- rate * decay rate c * (t - s)) with (- (rate * decay rate c * (t - s))) by ring. rewrite Rabs_Ropp, Rabs_right.
  - apply Rmult_le_compat_r; [lra|]. destruct (decay_range rate c R0 ltac:(lra)). apply (Rle_trans _ (rate * 1)); [apply Rmult_le_compat_l; lra|lra].
  - apply Rle_ge. destruct (decay_range rate c R0 ltac:(lra)). repeat apply Rmult_le_pos; lra.
Qed.

Lemma decay_derives size rate (u : vec) T : 0 < rate -> derives size T (fun t i => decayed rate t * u i) (fun t i => decay rate t * u i).
Proof. intros RP i t I TT. exact (derivable_pt_lim_scal_right (decayed rate) t (decay rate t) (u i) (decayed_slope rate t RP)). Qed.
Lemma decay_all_paced size rate (u : vec) T : 0 < rate -> exists B, 0 <= B /\ paced size T B (fun t i => decay rate t * u i).
Proof.
  intros RP. set (b := sum size (fun i => Rabs (u i))). assert (B0 : 0 <= b) by (apply sum_nonneg; intros; apply Rabs_pos).
  exists (rate * b). split; [apply Rmult_le_pos; lra|]. intros i s t I ST TT.
  replace (decay rate s * u i - decay rate t * u i) with ((decay rate s - decay rate t) * u i) by ring. rewrite Rabs_mult.
  replace (rate * b * (t - s)) with (rate * (t - s) * b) by ring. apply Rmult_le_compat; [apply Rabs_pos|apply Rabs_pos|apply decay_paced; lra|].
  apply (EulerMemoryProofs.term_below size (fun i => Rabs (u i)) i); [intros; apply Rabs_pos|exact I].
Qed.

Section Decay.
  Variables (pb : problem) (ic id : P2 -> bool).
  Hypothesis PO : posed pb ic id (fun _ => 0).
  Variable bt : built.
  Hypothesis PR : construct pb = Ok bt.
  Notation N := (List.length (m_nodes (bt_mesh bt))).
  Notation m := (bt_mesh bt).
  Variables (fi fo : P2 -> vec) (mu la rate : R).
  Hypothesis EL : elastic (pr_material pb) = Some (mu, la).
  Hypothesis RP : 0 < rate.
  Variable u : vec.
  Hypothesis TU : takes m id 2 (fun _ => 0) u.
  Hypothesis BU : balances coord2 zero2 m None id mu la fi fo u.

  Lemma creep_decays T : true_creep m id (fun _ => 0) (fun p _ => fi p) (fun p _ => fo p) T mu la (fun _ => proportional rate mu la)
    (fun t i => decayed rate t * u i) (fun t i => decay rate t * u i).
  Proof.
    intros t _. split; [intros n k p A B E; rewrite (TU n k p A B E); ring|].
    intros v G H K VZ HG HH HK. destruct (built_ready _ _ _ _ PO bt PR) as (ops & RD & _). destruct (grads pb ic id _ PO bt ops RD u) as (J & HJ).
    transitivity (load_work coord2 zero2 m 2 fi fo v); [|reflexivity]. rewrite <- (BU v G J VZ HG HJ).
    assert (E1 : mesh_integral (element_area (node_table coord2 zero2 (m_nodes m))) None (m_elements m) (fun e => memory_density (proportional rate mu la) (fun c => G c e) (fun c => K c e))
      = rate * stress_work coord2 zero2 m None mu la G K).
    { unfold stress_work, mesh_integral, integral. rewrite <- lsum_scal. apply lsum_ext. intros e _. rewrite proportional_density. ring. }
    rewrite E1, (elastic_is pb ic id _ PO bt ops RD mu la v _ G H EL HG HH), (elastic_is pb ic id _ PO bt ops RD mu la v _ G K EL HG HK), (elastic_is pb ic id _ PO bt ops RD mu la v u G J EL HG HJ).
    rewrite !EulerProofs.form_scal. unfold decayed. field. lra.
  Qed.

  Lemma relaxation_decays T f : loaded pb 2 (fun p _ => fi p) (fun p _ => fo p) -> clamped_mesh pb id ->
    pr_relaxation pb = Some f -> (forall t, f (Some t) = Ok (proportional rate mu la)) -> 0 < mu -> 0 <= la -> 0 <= T ->
    exists ka, 0 <= ka /\ forall V' W h (answer : method forces -> vec -> vec -> vec -> R -> result (nat * vec)) u0 (m0 : store V') (d d' : driver V' (method forces)) n out given (l : list (state W)),
      0 < h -> answers_exactly (2 * N) answer ->
      step_solver (with_step pb h) bt QuasistaticRelaxation m0 = Ok d -> in_stock (d_mem d) given -> non_decreasing 0 (requested n out) ->
      relaxation_solve (b_dimension (bt_body bt)) (b_count (bt_body bt)) (start_positions bt)
        (MethodModel.iterate (integrate_forces m (bt_basic bt)) (bt_body bt) QuasistaticRelaxation RelaxedSchur) answer n (fun _ => 0) u0 out given d = (d', Ok l) ->
      forall j (s : state W) i, nth_error l j = Some s -> 0 < view_time (look (d_mem d') s) <= T -> (i < 2 * N)%nat ->
        Rabs (view_displacement (look (d_mem d') s) i - exp (- rate * view_time (look (d_mem d') s)) * u i) <= ka * h.
  Proof.
    intros LD HU RF RC MU LA T0. destruct (decay_all_paced (2 * N) rate u T RP) as (B & B0 & PB).
    assert (Z : forall x : R, Rabs (x - x) = 0) by (intros x; rewrite Rminus_diag_eq, Rabs_R0 by reflexivity; reflexivity).
    destruct (relaxation_converges pb ic id (fun _ => 0) PO bt PR (fun p _ => fi p) (fun p _ => fo p) T B 0 0 mu la f (fun _ => proportional rate mu la)
      (fun t i => decayed rate t * u i) (fun t i => decay rate t * u i)) as (ka & K0 & HK); auto; try lra.
    - intros t G _. apply proportional_nonneg; lra.
    - intros p k s t _ _. rewrite Z. lra.
    - intros p k s t _ _. rewrite Z. lra.
    - intros i j k s t _ _. rewrite Z. lra.
    - exact (decay_derives (2 * N) rate u T RP).
    - apply creep_decays.
    - exists ka. split; [exact K0|]. intros V' W h answer u0 m0 d d' n out given l HP AE SS IS ND RU j s i SJ LT I.
      assert (A0 : (fun _ : nat => 0) = (fun i => decayed rate 0 * u i)).
      { apply FunctionalExtensionality.functional_extensionality. intros x. unfold decayed, decay. rewrite Rmult_0_r, exp_0. field. lra. }
      rewrite A0 in RU. exact (proj2 (HK V' W h answer u0 m0 d d' n out given l HP AE SS IS ND RU j s SJ LT i I)).
  Qed.

  (* the steps themselves decay geometrically *)
  Lemma relaxation_geometric f : loaded pb 2 (fun p _ => fi p) (fun p _ => fo p) -> clamped_mesh pb id ->
    pr_relaxation pb = Some f -> (forall t, f (Some t) = Ok (proportional rate mu la)) -> 0 < mu -> 0 <= la ->
    forall {V' W} h (answer : method forces -> vec -> vec -> vec -> R -> result (nat * vec)) u0 (m0 : store V') (d d' : driver V' (method forces)) n out given (l : list (state W)),
      0 < h -> answers_exactly (2 * N) answer ->
      step_solver (with_step pb h) bt QuasistaticRelaxation m0 = Ok d -> in_stock (d_mem d) given -> non_decreasing 0 (requested n out) ->
      relaxation_solve (b_dimension (bt_body bt)) (b_count (bt_body bt)) (start_positions bt)
        (MethodModel.iterate (integrate_forces m (bt_basic bt)) (bt_body bt) QuasistaticRelaxation RelaxedSchur) answer n (fun _ => 0) u0 out given d = (d', Ok l) ->
      forall j q (s : state W) i, nth_error (requested n out) j = Some q -> nth_error l j = Some s -> (0 < q)%Z -> (i < 2 * N)%nat ->
        view_displacement (look (d_mem d') s) i = u i / (1 + rate * h) ^ Z.to_nat q.
  Proof.
    intros LD HU RF RC MU LA V' W h answer u0 m0 d d' n out given l HP AE SS IS ND RU j q s i Q SJ QP I.
    assert (PO' := posed_step pb ic id _ h PO).
    destruct (relaxation_final (W:=W) (with_step pb h) ic id _ PO' bt PR answer (fun p _ => fi p) (fun p _ => fo p) mu la f (fun _ => proportional rate mu la) m0 d d' n _ u0 out given l
      LD EL RF RC (Rgt_not_eq _ _ HP) AE SS IS ND RU) as (ab & v & MO & LE & SH).
    destruct (SH j q s Q SJ) as (E1 & E2 & E3). rewrite E3. clear E1 E2 E3 SH.
    destruct (built_ready (with_step pb h) ic id _ PO' bt PR) as (ops & RD & _).
    assert (ST := creep_settled (with_step pb h) ic id _ PO' bt None ops RD Logic.I h HP eq_refl mu la (fun _ => proportional rate mu la) (fun _ p => fi p) (fun _ p => fo p)
      HU EL MU LA (fun _ G => proportional_nonneg rate mu la G (Rlt_le _ _ RP) (Rlt_le _ _ MU) LA)).
    assert (X1 : 0 < 1 + rate * h) by (assert (0 < rate * h) by (apply Rmult_lt_0_compat; assumption); lra). set (x := 1 + rate * h) in *.
    assert (XP : forall k, 0 < x ^ k) by (intros; apply pow_lt; exact X1).
    assert (EX : motion h (takes m id 2 (fun _ => 0))
      (fun t a w y => creeps coord2 zero2 m id mu la (proportional rate mu la) (fun p => fi p) (fun p => fo p) y w)
      (fun _ => 0) u0 (TimeTheorems.last_step n out) (fun k i => (1 - / x ^ k) / rate * u i) (fun k => match k with O => u0 | S _ => fun i => / x ^ k * u i end)).
    { split; [apply FunctionalExtensionality.functional_extensionality; intros y; cbn; field; lra|]. split; [reflexivity|]. intros k _. split; [|split].
      - intros y. assert (P := XP k). cbn [pow]. assert (EH : h = (x - 1) / rate) by (unfold x; field; lra). rewrite EH. field. repeat split; lra.
      - intros a b p A B E. rewrite (TU a b p A B E). ring.
      - intros w G H K VZ HG HH HK. destruct (grads (with_step pb h) ic id _ PO' bt ops RD u) as (J & HJ). transitivity (load_work coord2 zero2 m 2 fi fo w); [rewrite <- (BU w G J VZ HG HJ)|reflexivity].
        assert (E1 : mesh_integral (element_area (node_table coord2 zero2 (m_nodes m))) None (m_elements m) (fun e => memory_density (proportional rate mu la) (fun c => G c e) (fun c => K c e))
          = rate * stress_work coord2 zero2 m None mu la G K).
        { unfold stress_work, mesh_integral, integral. rewrite <- lsum_scal. apply lsum_ext. intros e _. rewrite proportional_density. ring. }
        rewrite E1, (elastic_is (with_step pb h) ic id _ PO' bt ops RD mu la w _ G H EL HG HH), (elastic_is (with_step pb h) ic id _ PO' bt ops RD mu la w _ G K EL HG HK),
          (elastic_is (with_step pb h) ic id _ PO' bt ops RD mu la w u G J EL HG HJ).
        rewrite !EulerProofs.form_scal. assert (P := XP (S k)). field. split; lra. }
    destruct (motion_unique id (fun _ => 0) bt h 2 _ _ _ _ _ _ _ _ ST MO EX (Z.to_nat q) (requested_range n out j q ND Q)) as (_ & EU).
    rewrite (EU i) by lia. destruct (Z.to_nat q) as [|k] eqn:ZQ; [lia|]. assert (P := XP (S k)). field. lra.
  Qed.
End Decay.
