(* C106: the states that the runs with small time steps return. *)
From Coq Require Import Reals List Arith ZArith Bool String Lia Lra.
From Verif Require Import Common PyModel RVec LinAlg MeshModel MeshBuildModel MeshSpec NormalsModel
  FemModel FemSpec ForcesModel ForcesSpec StatementModel StatementSpec RegistryModel StateModel StateLemmas TimeModel TimeSpec TimeProofs TimeTheorems
  RunProofs HistoryProofs SolveProofs MarchProofs MethodModel RunSpec
  ProblemModel ProblemSpec ProblemProofs ProblemReady ProblemTheorems ProblemUnique ProblemFinal ConvergenceSpec ConvergenceProofs.
Import ListNotations.
Local Open Scope string_scope.
Local Open Scope list_scope.
Local Open Scope R_scope.

Lemma posed_step pb ic id g h : posed pb ic id g -> posed (with_step pb h) ic id g.
Proof. intros [A B C D E F]. constructor; assumption. Qed.
Lemma requested_range n out j q : non_decreasing 0 (requested n out) -> nth_error (requested n out) j = Some q -> (Z.to_nat q <= TimeTheorems.last_step n out)%nat.
Proof. intros ND E. unfold last_step. assert (X := non_decreasing_last _ _ _ ND (nth_error_In _ _ E)). lia. Qed.

Section Final.
  Variables (pb : problem) (ic id : P2 -> bool) (g : P2 -> R).
  Hypothesis PO : posed pb ic id g.
  Variable bt : built.
  Hypothesis PR : construct pb = Ok bt.
  Notation N := (List.length (m_nodes (bt_mesh bt))).
  Notation m := (bt_mesh bt).
  Notation b := (bt_body bt).
  Notation rho := (mass_density (pr_material pb)).
  Variables (fi fo : P2 -> R -> vec) (T B L : R) (U V A : R -> vec).
  Notation goes k c := (MethodModel.iterate (integrate_forces m (bt_basic bt)) b k c).

  Lemma dynamic_converges th ze mu la :
    loaded pb 2 fi fo -> elastic (pr_material pb) = Some (mu, la) -> viscous (pr_material pb) = Some (th, ze) ->
    0 < rho -> 0 <= mu -> 0 <= la -> 0 <= th -> 0 <= ze -> 0 <= T -> 0 <= B -> 0 <= L -> paced_load T L fi -> paced_load T L fo ->
    derives (2 * N) T U V -> derives (2 * N) T V A -> paced (2 * N) T B V -> paced (2 * N) T B A ->
    true_motion m id g fi fo T rho th ze mu la U V A ->
    exists ka, 0 <= ka /\ forall {V' W} h (answer : method forces -> vec -> vec -> vec -> R -> result (nat * vec)) cls (m0 : store V') (d d' : driver V' (method forces)) n out given (l : list (state W)),
      0 < h -> answers_exactly (2 * N) answer -> cls = DynamicGlobal \/ cls = DynamicSchur ->
      step_solver (with_step pb h) bt DynamicVelocity m0 = Ok d -> in_stock (d_mem d) given -> non_decreasing 0 (requested n out) ->
      dynamic_solve (b_dimension b) (b_count b) (start_positions bt) (goes DynamicVelocity cls) answer n (U 0) (V 0) out given d = (d', Ok l) ->
      forall j (s : state W), nth_error l j = Some s -> view_time (look (d_mem d') s) <= T -> within (2 * N) (ka * h) U V (look (d_mem d') s).
  Proof.
    intros LD EL VI RM MU LA TH ZE T0 B0 L0 PI PF DU DV LV LAC TM. destruct (built_ready pb ic id g PO bt PR) as (ops & RD & _).
    destruct (motion_rate pb ic id g PO bt ops RD fi fo T th ze mu la EL VI MU LA TH ZE T0 B L B0 L0 PI PF U V A RM DU DV LV LAC TM) as (ka & K0 & HK).
    exists ka. split; [exact K0|]. intros V' W h answer cls m0 d d' n out given l HP AE CL SS IS ND RU j s SJ LT.
    destruct (dynamic_final (W:=W) (with_step pb h) ic id g (posed_step pb ic id g h PO) bt PR answer fi fo cls th ze mu la m0 d d' n (U 0) (V 0) out given l
      LD EL VI (Rgt_not_eq _ _ HP) AE CL SS IS ND RU) as (u & v & MO & LE & SH).
    destruct (nth_error (requested n out) j) as [q|] eqn:Q; [|apply nth_error_None in Q; assert (j < List.length l)%nat by (apply nth_error_Some; congruence); lia].
    destruct (SH j q s Q SJ) as (E1 & E2 & E3). intros i I. rewrite E1, E2, E3. rewrite E1 in LT.
    exact (HK h (U 0) (V 0) _ u v HP MO (fun _ _ => eq_refl) (fun _ _ => eq_refl) (Z.to_nat q) i (requested_range n out j q ND Q) LT I).
  Qed.

  (* without inertia the first velocity does not matter; the velocity of the state of time 0 is the given one *)
  Lemma quasistatic_converges th ze mu la :
    loaded pb 2 fi fo -> elastic (pr_material pb) = Some (mu, la) -> viscous (pr_material pb) = Some (th, ze) -> clamped_mesh pb id ->
    0 <= mu -> 0 <= la -> 0 < th -> 0 <= ze -> 0 <= T -> 0 <= B -> 0 <= L -> paced_load T L fi -> paced_load T L fo ->
    derives (2 * N) T U V -> paced (2 * N) T B V ->
    true_flow m id g fi fo T th ze mu la U V ->
    exists ka, 0 <= ka /\ forall {V' W} h (answer : method forces -> vec -> vec -> vec -> R -> result (nat * vec)) cls v0 (m0 : store V') (d d' : driver V' (method forces)) n out given (l : list (state W)),
      0 < h -> answers_exactly (2 * N) answer -> cls = QuasistaticGlobal \/ cls = QuasistaticSchur ->
      step_solver (with_step pb h) bt QuasistaticVelocity m0 = Ok d -> in_stock (d_mem d) given -> non_decreasing 0 (requested n out) ->
      dynamic_solve (b_dimension b) (b_count b) (start_positions bt) (goes QuasistaticVelocity cls) answer n (U 0) v0 out given d = (d', Ok l) ->
      forall j (s : state W), nth_error l j = Some s -> 0 < view_time (look (d_mem d') s) <= T -> within (2 * N) (ka * h) U V (look (d_mem d') s).
  Proof.
    intros LD EL VI HU MU LA TH ZE T0 B0 L0 PI PF DU LV TM. destruct (built_ready pb ic id g PO bt PR) as (ops & RD & _).
    destruct (flow_rate pb ic id g PO bt ops RD fi fo T th ze mu la EL VI MU LA (Rlt_le _ _ TH) ZE T0 B L B0 L0 PI PF U V HU TH DU LV TM) as (ka & K0 & HK).
    exists ka. split; [exact K0|]. intros V' W h answer cls v0 m0 d d' n out given l HP AE CL SS IS ND RU j s SJ LT.
    destruct (quasistatic_final (W:=W) (with_step pb h) ic id g (posed_step pb ic id g h PO) bt PR answer fi fo cls th ze mu la m0 d d' n (U 0) v0 out given l
      LD EL VI (Rgt_not_eq _ _ HP) AE CL SS IS ND RU) as (u & v & MO & LE & SH).
    destruct (nth_error (requested n out) j) as [q|] eqn:Q; [|apply nth_error_None in Q; assert (j < List.length l)%nat by (apply nth_error_Some; congruence); lia].
    destruct (SH j q s Q SJ) as (E1 & E2 & E3). intros i I. rewrite E1, E2, E3. rewrite E1 in LT. cbn in LT |- *.
    assert (QP : (0 < Z.to_nat q)%nat) by (destruct (Z.to_nat q); [cbn in LT; lra|lia]).
    destruct (HK h (U 0) v0 _ u v HP MO (fun _ _ => eq_refl) (Z.to_nat q) i (requested_range n out j q ND Q) (proj2 LT) I) as (X1 & X2). auto.
  Qed.

  Lemma wave_converges c :
    loaded pb 1 fi fo -> membrane (pr_material pb) = Some c -> 0 < rho -> 0 <= T -> 0 <= B -> 0 <= L -> paced_load T L fi -> paced_load T L fo ->
    derives N T U V -> derives N T V A -> paced N T B V -> paced N T B A ->
    true_swing m id g fi fo T rho c U V A ->
    exists ka, 0 <= ka /\ forall {V' W} h (answer : method forces -> vec -> vec -> vec -> R -> result (nat * vec)) cls (m0 : store V') (d d' : driver V' (method forces)) n out given s0 (l : list (state W)),
      0 < h -> answers_exactly N answer -> cls = DynamicGlobal \/ cls = DynamicSchur ->
      step_solver (with_step pb h) bt Wave m0 = Ok d -> in_stock (d_mem d) given -> non_decreasing 0 (requested n out) ->
      wave_solve (b_dimension b) (b_count b) (start_positions bt) (goes Wave cls) answer n (U 0) (V 0) None out given d = (d', s0, Ok l) ->
      forall j (s : state W), nth_error l j = Some s -> view_time (look (d_mem d') s) <= T -> within N (ka * h) U V (look (d_mem d') s).
  Proof.
    intros LD ME RM T0 B0 L0 PI PF DU DV LV LAC TM. destruct (built_ready pb ic id g PO bt PR) as (ops & RD & _).
    destruct (swing_rate pb ic id g PO bt ops RD fi fo T c B L U V A ME T0 B0 L0 PI PF RM DU DV LV LAC TM) as (ka & K0 & HK).
    exists ka. split; [exact K0|]. intros V' W h answer cls m0 d d' n out given s0 l HP AE CL SS IS ND RU j s SJ LT.
    destruct (wave_final (W:=W) (with_step pb h) ic id g (posed_step pb ic id g h PO) bt PR answer fi fo cls c m0 d d' n (U 0) (V 0) out given s0 l
      LD ME (Rgt_not_eq _ _ HP) AE CL SS IS ND RU) as (u & v & MO & LE & SH).
    destruct (nth_error (requested n out) j) as [q|] eqn:Q; [|apply nth_error_None in Q; assert (j < List.length l)%nat by (apply nth_error_Some; congruence); lia].
    destruct (SH j q s Q SJ) as (E1 & E2 & E3). intros i I. rewrite E1, E2, E3. rewrite E1 in LT.
    exact (HK h (U 0) (V 0) _ u v HP MO (fun _ _ => eq_refl) (fun _ _ => eq_refl) (Z.to_nat q) i (requested_range n out j q ND Q) LT I).
  Qed.
End Final.
