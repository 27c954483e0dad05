(* C110: runs with small residuals against exact runs and against the motion in continuous time. *)
From Coq Require Import Reals List Arith ZArith Bool String Lia Lra FunctionalExtensionality.
From Verif Require Import Common PyModel RVec LinAlg MeshModel MeshBuildModel MeshSpec NormalsModel
  DofModel DofSpec DirichletModel DirichletSpec DirichletProofs
  FemModel FemSpec FemAssemblyProofs FemFormProofs FemBasicProofs FemMeshProofs FemPipelineProofs ForcesModel ForcesSpec
  StatementModel StatementSpec StatementProofs StatementValueProofs StatementLawProofs
  RegistryModel RegistrySpec StateModel TimeModel TimeSpec StateLemmas TimeProofs RunProofs HistoryProofs SolveProofs MarchProofs TimeTheorems
  OptimisationModel MethodModel MethodProofs RunSpec WholeRunProofs RunTheorems
  ProblemModel ProblemSpec ProblemProofs ProblemReady ProblemTheorems ProblemUnique ProblemTotal ProblemFinal ProblemContactProofs ProblemWitness
  FemFinalProofs AlternationProofs CoupledLimitProofs EulerProofs ConvergenceSpec ConvergenceProofs ConvergenceFinal
  InexactSpec InexactEuler InexactProofs.
Import ListNotations.
Local Open Scope string_scope.
Local Open Scope list_scope.
Local Open Scope R_scope.

Lemma finite_choice {X} (P : nat -> X -> Prop) (x0 : X) k : (forall j, (j < k)%nat -> exists x, P j x) -> exists f, forall j, (j < k)%nat -> P j (f j).
Proof.
  induction k as [|k IH]; intros H; [exists (fun _ => x0); intros; lia|].
  destruct IH as (f & F); [intros; apply H; lia|]. destruct (H k) as (x & X0); [lia|].
  exists (fun j => if (j =? k)%nat then x else f j). intros j J. destruct (Nat.eqb_spec j k) as [->|]; [exact X0|apply F; lia].
Qed.
Lemma near_sum x y z a c : Rabs (x - y) <= a -> Rabs (y - z) <= c -> Rabs (x - z) <= a + c.
Proof. intros A C. replace (x - z) with ((x - y) + (y - z)) by ring. assert (T := Rabs_triang (x - y) (y - z)). lra. Qed.

Section Close.
  Variables (pb : problem) (ic id : P2 -> bool) (g : P2 -> R).
  Hypothesis PO : posed pb ic id g.
  Variables (bt : built) (ops : FemModel.operators).
  Hypothesis RD : ready pb bt None ops.
  Notation m := (bt_mesh bt).
  Notation N := (List.length (m_nodes m)).
  Notation rho := (mass_density (pr_material pb)).
  Variables fi fo : P2 -> R -> vec.
  Notation loads := (nodal_load m (bt_basic bt) fi fo).
  Notation Ma := (acceleration_operator ops).
  Notation Vi := (some_mat (viscosity ops)).
  Notation El := (some_mat (elasticity ops)).
  Notation Po := (some_mat (poisson_operator ops)).
  Notation no := (fun _ _ : nat => 0).
  Notation given := (fixed_dof id g bt).
  Variable T : R.
  Hypothesis T0 : 0 <= T.

  Lemma minus_free dim x y : takes m id dim g x -> takes m id dim g y -> free (given dim) (minus x y).
  Proof. intros A B i v G. unfold minus. rewrite (proj1 (takes_dof id g bt dim x) A i v G), (proj1 (takes_dof id g bt dim y) B i v G). ring. Qed.
  Lemma quotient_minus n (Q : mat) z (a a' c c' : vec) dt : bilinear n n Q z (fun i => (a i - a' i) / dt) - bilinear n n Q z (fun i => (c i - c' i) / dt)
    = bilinear n n Q z (fun i => (minus a c i - minus a' c' i) / dt).
  Proof. rewrite <- bilinear_minus_r. apply bilinear_vec; intros i _; [reflexivity|]. unfold minus, Rdiv. ring. Qed.

  Section Plane.
  Variables (th ze mu la : R).
  Hypothesis EL : elastic (pr_material pb) = Some (mu, la).
  Hypothesis VI : viscous (pr_material pb) = Some (th, ze).

  Lemma moves_pushed_weak r t a w y : moves_pushed m id r rho th ze mu la (fun p => fi p t) (fun p => fo p t) a w y ->
    forall z, free (given 2) z -> bilinear (2 * N) (2 * N) Ma z a + bilinear (2 * N) (2 * N) Vi z w + bilinear (2 * N) (2 * N) El z y = dot (2 * N) z (loads t) + dot (2 * N) z r.
  Proof.
    intros MV z Z. destruct (grads pb ic id g PO bt ops RD z) as (G & HG). destruct (grads pb ic id g PO bt ops RD w) as (H & HH). destruct (grads pb ic id g PO bt ops RD y) as (K & HK).
    apply (vanishes_dof id g bt) in Z. assert (E := MV z G H K Z HG HH HK).
    rewrite (mass_is pb ic id g PO bt ops RD), (viscous_is pb ic id g PO bt ops RD th ze z w G H VI HG HH), (elastic_is pb ic id g PO bt ops RD mu la z y G K EL HG HK) in E.
    rewrite E. rewrite (loads_dot pb ic id g PO bt ops RD fi fo t z). reflexivity.
  Qed.
  Lemma flows_pushed_weak r t w y : flows_pushed m id r th ze mu la (fun p => fi p t) (fun p => fo p t) w y ->
    forall z, free (given 2) z -> bilinear (2 * N) (2 * N) Vi z w + bilinear (2 * N) (2 * N) El z y = dot (2 * N) z (loads t) + dot (2 * N) z r.
  Proof.
    intros MV z Z. destruct (grads pb ic id g PO bt ops RD z) as (G & HG). destruct (grads pb ic id g PO bt ops RD w) as (H & HH). destruct (grads pb ic id g PO bt ops RD y) as (K & HK).
    apply (vanishes_dof id g bt) in Z. assert (E := MV z G H K Z HG HH HK).
    rewrite (viscous_is pb ic id g PO bt ops RD th ze z w G H VI HG HH), (elastic_is pb ic id g PO bt ops RD mu la z y G K EL HG HK) in E.
    rewrite E. rewrite (loads_dot pb ic id g PO bt ops RD fi fo t z). reflexivity.
  Qed.

  Hypothesis MU : 0 <= mu.
  Hypothesis LA : 0 <= la.
  Hypothesis TH : 0 <= th.
  Hypothesis ZE : 0 <= ze.

  Lemma motion_close : 0 < rho -> exists ka, 0 <= ka /\ forall dt tol u0 v0 k u v u' v', 0 < dt -> 0 <= tol ->
      motion dt (takes m id 2 g) (fun t a w y => exists r, slight (2 * N) tol r /\
        moves_pushed m id r rho th ze mu la (fun p => fi p t) (fun p => fo p t) a w y) u0 v0 k u v ->
      motion dt (takes m id 2 g) (fun t a w y => moves coord2 zero2 m id rho th ze mu la (fun p => fi p t) (fun p => fo p t) a w y) u0 v0 k u' v' ->
      forall j i, (j <= k)%nat -> INR j * dt <= T -> (i < 2 * N)%nat -> Rabs (u j i - u' j i) <= ka * tol /\ Rabs (v j i - v' j i) <= ka * tol.
  Proof.
    intros RM.
    assert (SM := ProblemContactProofs.mass_symmetric pb ic id g PO bt None ops RD). assert (SK := elastic_symmetric pb ic id g PO bt None ops RD mu la EL).
    assert (PK := elastic_psd pb ic id g PO bt None ops RD I mu la EL MU LA). assert (PC := viscous_psd pb ic id g PO bt None ops RD I th ze VI TH ZE).
    destruct (fixed_conds pb ic id g PO bt None ops RD 2) as (conds & MC & _).
    assert (FD := definite_dof pb ic id g PO bt ops RD 2 conds Ma MC (proj1 (mass_definite pb ic id g PO bt None ops RD conds RM))).
    assert (PM : pos_semidef (2 * N) Ma).
    { apply pos_def_semidef. destruct RD as (_ & _ & HO & _). destruct (plane pb ic id g PO bt None ops RD) as (HT & _ & HR). exact (proj2 (mass_block_2d _ _ _ _ None ops HT HO HR RM)). }
    destruct (component_bound (2 * N) Ma SM PM (given 2) (fun i v => fixed_dof_range id g bt 2 i v) FD) as (c & C0 & CB).
    set (k1 := INR (2 * N) * c * c * T). assert (K1 : 0 <= k1) by (unfold k1; repeat apply Rmult_le_pos; auto; apply pos_INR).
    exists (k1 + T * k1). assert (0 <= T * k1) by (apply Rmult_le_pos; assumption). split; [lra|].
    intros dt tol u0 v0 k u v u' v' DT TOL (U1 & V1 & M1) (U2 & V2 & M2).
    destruct (finite_choice (fun j r => slight (2 * N) tol r /\ moves_pushed m id r rho th ze mu la (fun p => fi p (INR j * dt)) (fun p => fo p (INR j * dt))
      (fun i => (v (S j) i - v j i) / dt) (v (S j)) (u (S j))) (fun _ => 0) k) as (r & RR).
    { intros j J. destruct (M1 j J) as (_ & _ & X). exact X. }
    assert (ST : pushed_steps (2 * N) Ma Vi El (given 2) dt r (fun j => minus (u j) (u' j)) (fun j => minus (v j) (v' j)) k).
    { intros j J. destruct (M1 j J) as (A1 & A2 & _). destruct (M2 j J) as (B1 & B2 & B3). destruct (RR j J) as (_ & A3). split.
      - intros i _. unfold minus. rewrite A1, B1. ring.
      - split; [apply minus_free; assumption|]. intros z Z.
        assert (E1 := moves_pushed_weak _ _ _ _ _ A3 z Z). assert (E2 := moves_weak pb ic id g PO bt ops RD fi fo th ze mu la EL VI _ _ _ _ B3 z Z).
        rewrite <- quotient_minus, !bilinear_minus_r. lra. }
    assert (Q := dynamic_push (2 * N) Ma Vi El (given 2) T c SM SK PM PC PK T0 C0 dt tol r _ _ k DT TOL ST (fun j i J I => proj1 (RR j J) i I)).
    intros j i J TJ I.
    destruct (Q ltac:(intros a _; unfold minus; rewrite U1, U2; ring) CB ltac:(intros a _; unfold minus; rewrite V1, V2; ring) j i J TJ I) as (Q1 & Q2).
    unfold minus in Q1, Q2. fold k1 in Q1, Q2. assert (0 <= k1 * tol) by (apply Rmult_le_pos; assumption). assert (0 <= T * (k1 * tol)) by (apply Rmult_le_pos; assumption). lra.
  Qed.

  Lemma flow_close : clamped_mesh pb id -> 0 < th -> exists ka, 0 <= ka /\ forall dt tol u0 v0 v0' k u v u' v', 0 < dt -> 0 <= tol ->
      motion dt (takes m id 2 g) (fun t a w y => exists r, slight (2 * N) tol r /\
        flows_pushed m id r th ze mu la (fun p => fi p t) (fun p => fo p t) w y) u0 v0 k u v ->
      motion dt (takes m id 2 g) (fun t a w y => flows coord2 zero2 m id th ze mu la (fun p => fi p t) (fun p => fo p t) w y) u0 v0' k u' v' ->
      forall j i, (j <= k)%nat -> INR j * dt <= T -> (i < 2 * N)%nat -> Rabs (u j i - u' j i) <= ka * tol /\ ((0 < j)%nat -> Rabs (v j i - v' j i) <= ka * tol).
  Proof.
    intros HU TP.
    assert (SC := viscous_symmetric pb ic id g PO bt None ops RD). assert (SK := elastic_symmetric pb ic id g PO bt None ops RD mu la EL).
    assert (PK := elastic_psd pb ic id g PO bt None ops RD I mu la EL MU LA). assert (PC := viscous_psd pb ic id g PO bt None ops RD I th ze VI TH ZE).
    destruct (clamped_body pb ic id g PO bt None ops RD HU) as (conds & MC & HH).
    assert (FD := definite_dof pb ic id g PO bt ops RD 2 conds Vi MC (viscous_definite_free pb ic id g PO bt None ops RD I conds th ze HH VI TP ZE)).
    destruct (component_bound (2 * N) Vi SC PC (given 2) (fun i v => fixed_dof_range id g bt 2 i v) FD) as (c & C0 & CB).
    set (k1 := c * (INR (2 * N) * c) * (1 + sqrt (size (2 * N) El) * c * sqrt (T / 2))).
    assert (K1 : 0 <= k1).
    { unfold k1. assert (0 <= sqrt (size (2 * N) El) * c * sqrt (T / 2)) by (repeat apply Rmult_le_pos; auto using sqrt_pos). apply Rmult_le_pos; [|lra]. repeat apply Rmult_le_pos; auto. apply pos_INR. }
    exists (k1 + T * k1). assert (0 <= T * k1) by (apply Rmult_le_pos; assumption). split; [lra|].
    intros dt tol u0 v0 v0' k u v u' v' DT TOL (U1 & V1 & M1) (U2 & V2 & M2).
    destruct (finite_choice (fun j r => slight (2 * N) tol r /\ flows_pushed m id r th ze mu la (fun p => fi p (INR j * dt)) (fun p => fo p (INR j * dt))
      (v (S j)) (u (S j))) (fun _ => 0) k) as (r & RR).
    { intros j J. destruct (M1 j J) as (_ & _ & X). exact X. }
    assert (Z0 : forall x y, bilinear (2 * N) (2 * N) no x y = 0) by (intros; apply bilinear_none; reflexivity).
    assert (ST : pushed_steps (2 * N) no Vi El (given 2) dt r (fun j => minus (u j) (u' j)) (fun j => minus (v j) (v' j)) k).
    { intros j J. destruct (M1 j J) as (A1 & A2 & _). destruct (M2 j J) as (B1 & B2 & B3). destruct (RR j J) as (_ & A3). split.
      - intros i _. unfold minus. rewrite A1, B1. ring.
      - split; [apply minus_free; assumption|]. intros z Z.
        assert (E1 := flows_pushed_weak _ _ _ _ A3 z Z). assert (E2 := flows_weak pb ic id g PO bt ops RD fi fo th ze mu la EL VI _ _ _ B3 z Z).
        rewrite Z0, !bilinear_minus_r. lra. }
    assert (PN : pos_semidef (2 * N) no) by (intros x; rewrite <- bilinear_q, Z0; lra).
    assert (Q := quasistatic_push (2 * N) no Vi El (given 2) T c SK PC PK T0 C0 dt tol r _ _ k DT TOL ST (fun j i J I => proj1 (RR j J) i I)).
    intros j i J TJ I.
    destruct (Q ltac:(intros a _; unfold minus; rewrite U1, U2; ring) ltac:(reflexivity) SC CB j i J TJ I) as (Q1 & Q2).
    unfold minus in Q1, Q2. fold k1 in Q1, Q2. assert (0 <= k1 * tol) by (apply Rmult_le_pos; assumption). assert (0 <= T * (k1 * tol)) by (apply Rmult_le_pos; assumption).
    split; [lra|]. intros JP. specialize (Q1 JP). lra.
  Qed.
  End Plane.

  Lemma swing_close c0 : membrane (pr_material pb) = Some c0 -> 0 < rho -> exists ka, 0 <= ka /\ forall dt tol u0 v0 k u v u' v', 0 < dt -> 0 <= tol ->
      motion dt (takes m id 1 g) (fun t a w y => exists r, slight N tol r /\
        swings_pushed m id r rho c0 (fun p => fi p t) (fun p => fo p t) a y) u0 v0 k u v ->
      motion dt (takes m id 1 g) (fun t a w y => swings coord2 zero2 m id rho c0 (fun p => fi p t) (fun p => fo p t) a y) u0 v0 k u' v' ->
      forall j i, (j <= k)%nat -> INR j * dt <= T -> (i < N)%nat -> Rabs (u j i - u' j i) <= ka * tol /\ Rabs (v j i - v' j i) <= ka * tol.
  Proof.
    intros ME RM. assert (SM := mass1_symmetric pb ic id g PO bt ops RD). assert (SK := swing_symmetric pb ic id g PO bt ops RD c0 ME).
    assert (PK := membrane_psd pb ic id g PO bt None ops RD I c0 ME).
    destruct (fixed_conds pb ic id g PO bt None ops RD 1) as (conds & MC & _).
    assert (FD0 := proj2 (mass_definite pb ic id g PO bt None ops RD conds RM)).
    assert (FD : free_definite N Ma (given 1)).
    { rewrite <- (Nat.mul_1_l N) in FD0 |- *. exact (definite_dof pb ic id g PO bt ops RD 1 conds Ma MC FD0). }
    assert (PM : pos_semidef N Ma).
    { apply pos_def_semidef. destruct RD as (_ & _ & HO & _). destruct (plane pb ic id g PO bt None ops RD) as (HT & _ & HR).
      apply (pos_def_block (2 * N)); [lia|]. exact (proj2 (mass_block_2d _ _ _ _ None ops HT HO HR RM)). }
    assert (RG : forall i v, given 1 i v -> (i < N)%nat) by (intros i v X; apply (fixed_dof_range id g bt 1) in X; lia).
    destruct (component_bound N Ma SM PM (given 1) RG FD) as (c & C0 & CB).
    assert (Z0 : forall x y, bilinear N N no x y = 0) by (intros; apply bilinear_none; reflexivity).
    assert (PC : pos_semidef N no) by (intros x; rewrite <- bilinear_q, Z0; lra).
    set (k1 := INR N * c * c * T). assert (K1 : 0 <= k1) by (unfold k1; repeat apply Rmult_le_pos; auto; apply pos_INR).
    exists (k1 + T * k1). assert (0 <= T * k1) by (apply Rmult_le_pos; assumption). split; [lra|].
    intros dt tol u0 v0 k u v u' v' DT TOL (U1 & V1 & M1) (U2 & V2 & M2).
    destruct (finite_choice (fun j r => slight N tol r /\ swings_pushed m id r rho c0 (fun p => fi p (INR j * dt)) (fun p => fo p (INR j * dt))
      (fun i => (v (S j) i - v j i) / dt) (u (S j))) (fun _ => 0) k) as (r & RR).
    { intros j J. destruct (M1 j J) as (_ & _ & X). exact X. }
    assert (ST : pushed_steps N Ma no Po (given 1) dt r (fun j => minus (u j) (u' j)) (fun j => minus (v j) (v' j)) k).
    { intros j J. destruct (M1 j J) as (A1 & A2 & _). destruct (M2 j J) as (B1 & B2 & B3). destruct (RR j J) as (_ & A3). split.
      - intros i _. unfold minus. rewrite A1, B1. ring.
      - split; [apply minus_free; assumption|]. intros z Z.
        destruct (grad pb ic id g PO bt ops RD z) as (G & HG). destruct (grad pb ic id g PO bt ops RD (u (S j))) as (K & HK). destruct (grad pb ic id g PO bt ops RD (u' (S j))) as (K' & HK').
        apply (vanishes_dof id g bt) in Z. assert (E1 := A3 z G K Z HG HK). assert (E2 := B3 z G K' Z HG HK').
        rewrite (mass1_is pb ic id g PO bt ops RD), (swing_is pb ic id g PO bt ops RD c0 z _ G K ME HG HK) in E1.
        rewrite (mass1_is pb ic id g PO bt ops RD), (swing_is pb ic id g PO bt ops RD c0 z _ G K' ME HG HK') in E2.
        change (push_work N (r j) z) with (dot N z (r j)) in E1.
        rewrite <- quotient_minus, Z0, !bilinear_minus_r. lra. }
    assert (Q := dynamic_push N Ma no Po (given 1) T c SM SK PM PC PK T0 C0 dt tol r _ _ k DT TOL ST (fun j i J I => proj1 (RR j J) i I)).
    intros j i J TJ I.
    destruct (Q ltac:(intros a _; unfold minus; rewrite U1, U2; ring) CB ltac:(intros a _; unfold minus; rewrite V1, V2; ring) j i J TJ I) as (Q1 & Q2).
    unfold minus in Q1, Q2. fold k1 in Q1, Q2. assert (0 <= k1 * tol) by (apply Rmult_le_pos; assumption). assert (0 <= T * (k1 * tol)) by (apply Rmult_le_pos; assumption). lra.
  Qed.
End Close.

Section Final.
  Variables (pb : problem) (ic id : P2 -> bool) (g : P2 -> R).
  Hypothesis PO : posed pb ic id g.
  Variable bt : built.
  Hypothesis PR : construct pb = Ok bt.
  Notation N := (List.length (m_nodes (bt_mesh bt))).
  Notation m := (bt_mesh bt).
  Notation b := (bt_body bt).
  Notation rho := (mass_density (pr_material pb)).
  Variables (fi fo : P2 -> R -> vec).
  Notation goes k c := (MethodModel.iterate (integrate_forces m (bt_basic bt)) b k c).
  Notation solver := (method forces -> vec -> vec -> vec -> R -> result (nat * vec)).

  (* what such runs compute *)
  Lemma dynamic_inexact {V W} (raw : solver) tol cls th ze mu la (m0 : store V) (d d' : driver V (method forces)) n u0 v0 out given (l : list (state W)) :
    loaded pb 2 fi fo -> elastic (pr_material pb) = Some (mu, la) -> viscous (pr_material pb) = Some (th, ze) -> time_step_of pb <> 0 ->
    answers_within (2 * N) tol raw -> cls = DynamicGlobal \/ cls = DynamicSchur ->
    step_solver pb bt DynamicVelocity m0 = Ok d -> in_stock (d_mem d) given -> non_decreasing 0 (requested n out) ->
    dynamic_solve (b_dimension b) (b_count b) (start_positions bt) (goes DynamicVelocity cls) (finished b DynamicVelocity raw) n u0 v0 out given d = (d', Ok l) ->
    exists u v, motion (time_step_of pb) (takes m id 2 g)
        (fun t a w y => exists r, slight (2 * N) tol r /\ moves_pushed m id r rho th ze mu la (fun p => fi p t) (fun p => fo p t) a w y)
        u0 v0 (TimeTheorems.last_step n out) u v /\
      List.length l = List.length (requested n out) /\
      forall j q (s : state W), nth_error (requested n out) j = Some q -> nth_error l j = Some s ->
        shows (time_step_of pb) u v (Z.to_nat q) (look (d_mem d') s).
  Proof.
    intros LD EL VI CS SA CL. destruct (built_ready pb ic id g PO bt PR) as (ops & RD & _).
    eapply (dynamic_pushed pb ic id g PO bt None ops RD raw tol cls fi fo CS th ze mu la); auto.
    destruct CL as [-> | ->]; intros g0; eexists; split; reflexivity.
  Qed.
  Lemma quasistatic_inexact {V W} (raw : solver) tol cls th ze mu la (m0 : store V) (d d' : driver V (method forces)) n u0 v0 out given (l : list (state W)) :
    loaded pb 2 fi fo -> elastic (pr_material pb) = Some (mu, la) -> viscous (pr_material pb) = Some (th, ze) -> time_step_of pb <> 0 ->
    answers_within (2 * N) tol raw -> cls = QuasistaticGlobal \/ cls = QuasistaticSchur ->
    step_solver pb bt QuasistaticVelocity m0 = Ok d -> in_stock (d_mem d) given -> non_decreasing 0 (requested n out) ->
    dynamic_solve (b_dimension b) (b_count b) (start_positions bt) (goes QuasistaticVelocity cls) (finished b QuasistaticVelocity raw) n u0 v0 out given d = (d', Ok l) ->
    exists u v, motion (time_step_of pb) (takes m id 2 g)
        (fun t _ w y => exists r, slight (2 * N) tol r /\ flows_pushed m id r th ze mu la (fun p => fi p t) (fun p => fo p t) w y)
        u0 v0 (TimeTheorems.last_step n out) u v /\
      List.length l = List.length (requested n out) /\
      forall j q (s : state W), nth_error (requested n out) j = Some q -> nth_error l j = Some s ->
        shows (time_step_of pb) u v (Z.to_nat q) (look (d_mem d') s).
  Proof.
    intros LD EL VI CS SA CL. destruct (built_ready pb ic id g PO bt PR) as (ops & RD & _).
    eapply (quasistatic_pushed pb ic id g PO bt None ops RD raw tol cls fi fo CS th ze mu la); auto.
    destruct CL as [-> | ->]; intros g0; eexists; split; reflexivity.
  Qed.
  Lemma wave_inexact {V W} (raw : solver) tol cls c (m0 : store V) (d d' : driver V (method forces)) n u0 v0 out given s0 (l : list (state W)) :
    loaded pb 1 fi fo -> membrane (pr_material pb) = Some c -> time_step_of pb <> 0 ->
    answers_within N tol raw -> cls = DynamicGlobal \/ cls = DynamicSchur ->
    step_solver pb bt Wave m0 = Ok d -> in_stock (d_mem d) given -> non_decreasing 0 (requested n out) ->
    wave_solve (b_dimension b) (b_count b) (start_positions bt) (goes Wave cls) (finished b Wave raw) n u0 v0 None out given d = (d', s0, Ok l) ->
    exists u v, motion (time_step_of pb) (takes m id 1 g)
        (fun t a _ y => exists r, slight N tol r /\ swings_pushed m id r rho c (fun p => fi p t) (fun p => fo p t) a y)
        u0 v0 (TimeTheorems.last_step n out) u v /\
      List.length l = List.length (requested n out) /\
      forall j q (s : state W), nth_error (requested n out) j = Some q -> nth_error l j = Some s ->
        shows (time_step_of pb) u v (Z.to_nat q) (look (d_mem d') s).
  Proof.
    intros LD ME CS SA CL. destruct (built_ready pb ic id g PO bt PR) as (ops & RD & _).
    eapply (wave_pushed pb ic id g PO bt None ops RD raw tol cls fi fo CS c); auto.
    destruct CL as [-> | ->]; intros g0; eexists; split; reflexivity.
  Qed.

  (* such runs go through *)
  Lemma finished_definite k (raw : solver) size : k <> Piezoelectric -> answers_definite size (2 * N) raw -> answers_definite size (2 * N) (finished b k raw).
  Proof.
    intros K A i gu v u dt L P. destruct (A i gu v u dt L P) as (y & E). unfold finished. rewrite E. cbn [bind]. unfold written, OptimisationModel.dim.
    destruct (built_ready pb ic id g PO bt PR) as (ops & RD & _). destruct (body_is pb bt None ops RD) as (D & C & M).
    destruct (fixed_conds pb ic id g PO bt None ops RD (dimension_in k 2)) as (conds & MC & WS & _).
    destruct (fixed_size pb bt None ops RD k conds K MC WS) as (HC & _). unfold StatementValueProofs.conditions in HC. rewrite HC. cbn [bind fst snd]. eauto.
  Qed.
  Lemma dynamic_inexact_total {V W} (raw : solver) cls th ze mu la (m0 : store V) n out :
    loaded pb 2 fi fo -> elastic (pr_material pb) = Some (mu, la) -> viscous (pr_material pb) = Some (th, ze) ->
    0 < rho -> 0 <= mu -> 0 <= la -> 0 <= th -> 0 <= ze -> 0 < time_step_of pb ->
    answers_definite (2 * N) (2 * N) raw -> cls = DynamicGlobal \/ cls = DynamicSchur -> non_decreasing 0 (requested n out) -> n <> O ->
    exists d : driver V (method forces), step_solver pb bt DynamicVelocity m0 = Ok d /\ forall u0 v0, exists d' (l : list (state W)),
      dynamic_solve (b_dimension b) (b_count b) (start_positions bt) (goes DynamicVelocity cls) (finished b DynamicVelocity raw) n u0 v0 out [] d = (d', Ok l).
  Proof.
    intros LD EL VI RM MU LA TH ZE TS AD CL ND NZ. destruct (built_ready pb ic id g PO bt PR) as (ops & RD & _).
    eapply (dynamic_goes pb ic id g PO bt None ops RD); eauto.
    - exact Logic.I.
    - apply finished_definite; [discriminate|exact AD].
    - destruct CL as [-> | ->]; intros g0; eexists; split; reflexivity.
  Qed.
  Lemma quasistatic_inexact_total {V W} (raw : solver) cls th ze mu la (m0 : store V) n out :
    loaded pb 2 fi fo -> elastic (pr_material pb) = Some (mu, la) -> viscous (pr_material pb) = Some (th, ze) -> clamped_mesh pb id ->
    0 <= mu -> 0 <= la -> 0 < th -> 0 <= ze -> 0 < time_step_of pb ->
    answers_definite (2 * N) (2 * N) raw -> cls = QuasistaticGlobal \/ cls = QuasistaticSchur -> non_decreasing 0 (requested n out) -> n <> O ->
    exists d : driver V (method forces), step_solver pb bt QuasistaticVelocity m0 = Ok d /\ forall u0 v0, exists d' (l : list (state W)),
      dynamic_solve (b_dimension b) (b_count b) (start_positions bt) (goes QuasistaticVelocity cls) (finished b QuasistaticVelocity raw) n u0 v0 out [] d = (d', Ok l).
  Proof.
    intros LD EL VI HU MU LA TH ZE TS AD CL ND NZ. destruct (built_ready pb ic id g PO bt PR) as (ops & RD & _).
    eapply (quasistatic_goes pb ic id g PO bt None ops RD); eauto.
    - exact Logic.I.
    - apply finished_definite; [discriminate|exact AD].
    - destruct CL as [-> | ->]; intros g0; eexists; split; reflexivity.
  Qed.
  Lemma wave_inexact_total {V W} (raw : solver) cls c (m0 : store V) n out :
    loaded pb 1 fi fo -> membrane (pr_material pb) = Some c -> 0 < rho -> 0 < time_step_of pb ->
    answers_definite N (2 * N) raw -> cls = DynamicGlobal \/ cls = DynamicSchur -> non_decreasing 0 (requested n out) -> n <> O ->
    exists d : driver V (method forces), step_solver pb bt Wave m0 = Ok d /\ forall u0 v0, exists d' s0 (l : list (state W)),
      wave_solve (b_dimension b) (b_count b) (start_positions bt) (goes Wave cls) (finished b Wave raw) n u0 v0 None out [] d = (d', s0, Ok l).
  Proof.
    intros LD ME RM TS AD CL ND NZ. destruct (built_ready pb ic id g PO bt PR) as (ops & RD & _).
    eapply (wave_goes pb ic id g PO bt None ops RD); eauto.
    - exact Logic.I.
    - apply finished_definite; [discriminate|exact AD].
    - destruct CL as [-> | ->]; intros g0; eexists; split; reflexivity.
  Qed.
  Lemma static_inexact_total {V W} (raw : solver) cls mu la (m0 : store V) :
    loaded pb 2 fi fo -> elastic (pr_material pb) = Some (mu, la) -> 0 < mu -> 0 <= la -> clamped_mesh pb id ->
    answers_definite (2 * N) (2 * N) raw -> (forall g, iterate_variables cls g = None) ->
    exists d : driver V (method forces), step_solver pb bt StaticDisplacement m0 = Ok d /\ forall u0, exists d' (s : state W),
      static_solve (b_dimension b) (b_count b) (start_positions bt) (goes StaticDisplacement cls) (finished b StaticDisplacement raw) u0 [] d = (d', Ok s).
  Proof.
    intros LD EL MU LA HU AD ID. destruct (built_ready pb ic id g PO bt PR) as (ops & RD & _).
    eapply (static_goes pb ic id g PO bt None ops RD); eauto.
    - exact Logic.I.
    - apply finished_definite; [discriminate|exact AD].
  Qed.
End Final.

Section Compare.
  Variables (pb : problem) (ic id : P2 -> bool) (g : P2 -> R).
  Hypothesis PO : posed pb ic id g.
  Variable bt : built.
  Hypothesis PR : construct pb = Ok bt.
  Notation N := (List.length (m_nodes (bt_mesh bt))).
  Notation m := (bt_mesh bt).
  Notation b := (bt_body bt).
  Notation rho := (mass_density (pr_material pb)).
  Variables (fi fo : P2 -> R -> vec).
  Notation goes k c := (MethodModel.iterate (integrate_forces m (bt_basic bt)) b k c).
  Notation solver := (method forces -> vec -> vec -> vec -> R -> result (nat * vec)).
  Variable T : R.
  Hypothesis T0 : 0 <= T.

  Lemma asked_step n out {A} (l : list A) j s : List.length l = List.length (requested n out) -> nth_error l j = Some s -> exists q, nth_error (requested n out) j = Some q.
  Proof.
    intros LE SJ. destruct (nth_error (requested n out) j) as [q|] eqn:Q; [eauto|]. apply nth_error_None in Q. assert (j < List.length l)%nat by (apply nth_error_Some; congruence). lia.
  Qed.

  (* against exact runs *)
  Lemma dynamic_alike th ze mu la : loaded pb 2 fi fo -> elastic (pr_material pb) = Some (mu, la) -> viscous (pr_material pb) = Some (th, ze) ->
    0 < rho -> 0 <= mu -> 0 <= la -> 0 <= th -> 0 <= ze ->
    exists ka, 0 <= ka /\ forall V W V' W' h tol (raw answer : solver) cls cls' (m0 : store V) (m0' : store V') (d e : driver V (method forces)) (d' e' : driver V' (method forces)) u0 v0 n out given given' (l : list (state W)) (l' : list (state W')),
      0 < h -> 0 <= tol -> answers_within (2 * N) tol raw -> answers_exactly (2 * N) answer -> cls = DynamicGlobal \/ cls = DynamicSchur -> cls' = DynamicGlobal \/ cls' = DynamicSchur ->
      step_solver (with_step pb h) bt DynamicVelocity m0 = Ok d -> in_stock (d_mem d) given ->
      step_solver (with_step pb h) bt DynamicVelocity m0' = Ok d' -> in_stock (d_mem d') given' -> non_decreasing 0 (requested n out) ->
      dynamic_solve (b_dimension b) (b_count b) (start_positions bt) (goes DynamicVelocity cls) (finished b DynamicVelocity raw) n u0 v0 out given d = (e, Ok l) ->
      dynamic_solve (b_dimension b) (b_count b) (start_positions bt) (goes DynamicVelocity cls') answer n u0 v0 out given' d' = (e', Ok l') ->
      forall j (s : state W) (s' : state W'), nth_error l j = Some s -> nth_error l' j = Some s' -> view_time (look (d_mem e) s) <= T ->
        alike (2 * N) (ka * tol) (look (d_mem e) s) (look (d_mem e') s').
  Proof.
    intros LD EL VI RM MU LA TH ZE. destruct (built_ready pb ic id g PO bt PR) as (ops & RD & _).
    destruct (motion_close pb ic id g PO bt ops RD fi fo T T0 th ze mu la EL VI MU LA TH ZE RM) as (ka & K0 & HK).
    exists ka. split; [exact K0|]. intros V W V' W' h tol raw answer cls cls' m0 m0' d e d' e' u0 v0 n out given given' l l' HP TOL AW AE CL CL' SS IS SS' IS' ND RU RU' j s s' SJ SJ' LT.
    destruct (dynamic_inexact (W:=W) (with_step pb h) ic id g (posed_step pb ic id g h PO) bt PR fi fo raw tol cls th ze mu la m0 d e n u0 v0 out given l
      LD EL VI (Rgt_not_eq _ _ HP) AW CL SS IS ND RU) as (u & v & MO & LE & SH).
    destruct (dynamic_final (W:=W') (with_step pb h) ic id g (posed_step pb ic id g h PO) bt PR answer fi fo cls' th ze mu la m0' d' e' n u0 v0 out given' l'
      LD EL VI (Rgt_not_eq _ _ HP) AE CL' SS' IS' ND RU') as (u' & v' & MO' & LE' & SH').
    destruct (asked_step n out l j s LE SJ) as (q & Q).
    destruct (SH j q s Q SJ) as (E1 & E2 & E3). destruct (SH' j q s' Q SJ') as (E1' & E2' & E3'). split; [rewrite E1, E1'; reflexivity|].
    intros i I. rewrite E2, E3, E2', E3'. rewrite E1 in LT.
    exact (HK h tol u0 v0 _ u v u' v' HP TOL MO MO' (Z.to_nat q) i (requested_range n out j q ND Q) LT I).
  Qed.
  Lemma quasistatic_alike th ze mu la : loaded pb 2 fi fo -> elastic (pr_material pb) = Some (mu, la) -> viscous (pr_material pb) = Some (th, ze) -> clamped_mesh pb id ->
    0 <= mu -> 0 <= la -> 0 < th -> 0 <= ze ->
    exists ka, 0 <= ka /\ forall V W V' W' h tol (raw answer : solver) cls cls' (m0 : store V) (m0' : store V') (d e : driver V (method forces)) (d' e' : driver V' (method forces)) u0 v0 n out given given' (l : list (state W)) (l' : list (state W')),
      0 < h -> 0 <= tol -> answers_within (2 * N) tol raw -> answers_exactly (2 * N) answer -> cls = QuasistaticGlobal \/ cls = QuasistaticSchur -> cls' = QuasistaticGlobal \/ cls' = QuasistaticSchur ->
      step_solver (with_step pb h) bt QuasistaticVelocity m0 = Ok d -> in_stock (d_mem d) given ->
      step_solver (with_step pb h) bt QuasistaticVelocity m0' = Ok d' -> in_stock (d_mem d') given' -> non_decreasing 0 (requested n out) ->
      dynamic_solve (b_dimension b) (b_count b) (start_positions bt) (goes QuasistaticVelocity cls) (finished b QuasistaticVelocity raw) n u0 v0 out given d = (e, Ok l) ->
      dynamic_solve (b_dimension b) (b_count b) (start_positions bt) (goes QuasistaticVelocity cls') answer n u0 v0 out given' d' = (e', Ok l') ->
      forall j (s : state W) (s' : state W'), nth_error l j = Some s -> nth_error l' j = Some s' -> view_time (look (d_mem e) s) <= T ->
        alike (2 * N) (ka * tol) (look (d_mem e) s) (look (d_mem e') s').
  Proof.
    intros LD EL VI HU MU LA TH ZE. destruct (built_ready pb ic id g PO bt PR) as (ops & RD & _).
    destruct (flow_close pb ic id g PO bt ops RD fi fo T T0 th ze mu la EL VI MU LA (Rlt_le _ _ TH) ZE HU TH) as (ka & K0 & HK).
    exists ka. split; [exact K0|]. intros V W V' W' h tol raw answer cls cls' m0 m0' d e d' e' u0 v0 n out given given' l l' HP TOL AW AE CL CL' SS IS SS' IS' ND RU RU' j s s' SJ SJ' LT.
    destruct (quasistatic_inexact (W:=W) (with_step pb h) ic id g (posed_step pb ic id g h PO) bt PR fi fo raw tol cls th ze mu la m0 d e n u0 v0 out given l
      LD EL VI (Rgt_not_eq _ _ HP) AW CL SS IS ND RU) as (u & v & MO & LE & SH).
    destruct (quasistatic_final (W:=W') (with_step pb h) ic id g (posed_step pb ic id g h PO) bt PR answer fi fo cls' th ze mu la m0' d' e' n u0 v0 out given' l'
      LD EL VI (Rgt_not_eq _ _ HP) AE CL' SS' IS' ND RU') as (u' & v' & MO' & LE' & SH').
    destruct (asked_step n out l j s LE SJ) as (q & Q).
    destruct (SH j q s Q SJ) as (E1 & E2 & E3). destruct (SH' j q s' Q SJ') as (E1' & E2' & E3'). split; [rewrite E1, E1'; reflexivity|].
    intros i I. rewrite E2, E3, E2', E3'. rewrite E1 in LT.
    destruct (HK h tol u0 v0 v0 _ u v u' v' HP TOL MO MO' (Z.to_nat q) i (requested_range n out j q ND Q) LT I) as (X1 & X2). split; [exact X1|].
    destruct (Z.to_nat q) as [|a]; [|apply X2; lia]. destruct MO as (_ & V0 & _). destruct MO' as (_ & V0' & _).
    rewrite V0, V0', Rminus_diag_eq, Rabs_R0 by reflexivity. apply Rmult_le_pos; assumption.
  Qed.
  Lemma wave_alike c : loaded pb 1 fi fo -> membrane (pr_material pb) = Some c -> 0 < rho ->
    exists ka, 0 <= ka /\ forall V W V' W' h tol (raw answer : solver) cls cls' (m0 : store V) (m0' : store V') (d e : driver V (method forces)) (d' e' : driver V' (method forces)) u0 v0 n out given given' s0 s0' (l : list (state W)) (l' : list (state W')),
      0 < h -> 0 <= tol -> answers_within N tol raw -> answers_exactly N answer -> cls = DynamicGlobal \/ cls = DynamicSchur -> cls' = DynamicGlobal \/ cls' = DynamicSchur ->
      step_solver (with_step pb h) bt Wave m0 = Ok d -> in_stock (d_mem d) given ->
      step_solver (with_step pb h) bt Wave m0' = Ok d' -> in_stock (d_mem d') given' -> non_decreasing 0 (requested n out) ->
      wave_solve (b_dimension b) (b_count b) (start_positions bt) (goes Wave cls) (finished b Wave raw) n u0 v0 None out given d = (e, s0, Ok l) ->
      wave_solve (b_dimension b) (b_count b) (start_positions bt) (goes Wave cls') answer n u0 v0 None out given' d' = (e', s0', Ok l') ->
      forall j (s : state W) (s' : state W'), nth_error l j = Some s -> nth_error l' j = Some s' -> view_time (look (d_mem e) s) <= T ->
        alike N (ka * tol) (look (d_mem e) s) (look (d_mem e') s').
  Proof.
    intros LD ME RM. destruct (built_ready pb ic id g PO bt PR) as (ops & RD & _).
    destruct (swing_close pb ic id g PO bt ops RD fi fo T T0 c ME RM) as (ka & K0 & HK).
    exists ka. split; [exact K0|]. intros V W V' W' h tol raw answer cls cls' m0 m0' d e d' e' u0 v0 n out given given' s0 s0' l l' HP TOL AW AE CL CL' SS IS SS' IS' ND RU RU' j s s' SJ SJ' LT.
    destruct (wave_inexact (W:=W) (with_step pb h) ic id g (posed_step pb ic id g h PO) bt PR fi fo raw tol cls c m0 d e n u0 v0 out given s0 l
      LD ME (Rgt_not_eq _ _ HP) AW CL SS IS ND RU) as (u & v & MO & LE & SH).
    destruct (wave_final (W:=W') (with_step pb h) ic id g (posed_step pb ic id g h PO) bt PR answer fi fo cls' c m0' d' e' n u0 v0 out given' s0' l'
      LD ME (Rgt_not_eq _ _ HP) AE CL' SS' IS' ND RU') as (u' & v' & MO' & LE' & SH').
    destruct (asked_step n out l j s LE SJ) as (q & Q).
    destruct (SH j q s Q SJ) as (E1 & E2 & E3). destruct (SH' j q s' Q SJ') as (E1' & E2' & E3'). split; [rewrite E1, E1'; reflexivity|].
    intros i I. rewrite E2, E3, E2', E3'. rewrite E1 in LT.
    exact (HK h tol u0 v0 _ u v u' v' HP TOL MO MO' (Z.to_nat q) i (requested_range n out j q ND Q) LT I).
  Qed.

  (* against the motion in continuous time *)
  Variables (B L : R) (U V A : R -> vec).
  Lemma one_step k : TimeTheorems.last_step 1 [Z.of_nat k] = k /\ non_decreasing 0 (requested 1 [Z.of_nat k]).
  Proof. unfold TimeTheorems.last_step. cbn [requested last non_decreasing]. rewrite Nat2Z.id. split; [reflexivity|]. split; [lia|exact Logic.I]. Qed.

  Lemma dynamic_near th ze mu la :
    loaded pb 2 fi fo -> elastic (pr_material pb) = Some (mu, la) -> viscous (pr_material pb) = Some (th, ze) ->
    0 < rho -> 0 <= mu -> 0 <= la -> 0 <= th -> 0 <= ze -> 0 <= B -> 0 <= L -> paced_load T L fi -> paced_load T L fo ->
    derives (2 * N) T U V -> derives (2 * N) T V A -> paced (2 * N) T B V -> paced (2 * N) T B A ->
    true_motion m id g fi fo T rho th ze mu la U V A ->
    exists ka, 0 <= ka /\ forall V' W h tol (raw : solver) cls (m0 : store V') (d d' : driver V' (method forces)) n out given (l : list (state W)),
      0 < h -> 0 <= tol -> answers_within (2 * N) tol raw -> cls = DynamicGlobal \/ cls = DynamicSchur ->
      step_solver (with_step pb h) bt DynamicVelocity m0 = Ok d -> in_stock (d_mem d) given -> non_decreasing 0 (requested n out) ->
      dynamic_solve (b_dimension b) (b_count b) (start_positions bt) (goes DynamicVelocity cls) (finished b DynamicVelocity raw) n (U 0) (V 0) out given d = (d', Ok l) ->
      forall j (s : state W), nth_error l j = Some s -> view_time (look (d_mem d') s) <= T -> within (2 * N) (ka * (h + tol)) U V (look (d_mem d') s).
  Proof.
    intros LD EL VI RM MU LA TH ZE B0 L0 PI PF DU DV LV LAC TM. destruct (built_ready pb ic id g PO bt PR) as (ops & RD & _).
    destruct (motion_rate pb ic id g PO bt ops RD fi fo T th ze mu la EL VI MU LA TH ZE T0 B L B0 L0 PI PF U V A RM DU DV LV LAC TM) as (k1 & K1 & H1).
    destruct (motion_close pb ic id g PO bt ops RD fi fo T T0 th ze mu la EL VI MU LA TH ZE RM) as (k2 & K2 & H2).
    exists (k1 + k2). split; [lra|]. intros V' W h tol raw cls m0 d d' n out given l HP TOL AW CL SS IS ND RU j s SJ LT.
    destruct (dynamic_inexact (W:=W) (with_step pb h) ic id g (posed_step pb ic id g h PO) bt PR fi fo raw tol cls th ze mu la m0 d d' n (U 0) (V 0) out given l
      LD EL VI (Rgt_not_eq _ _ HP) AW CL SS IS ND RU) as (u & v & MO & LE & SH).
    destruct (asked_step n out l j s LE SJ) as (q & Q). set (k := TimeTheorems.last_step n out) in *. destruct (one_step k) as (OK & ON).
    edestruct (dynamic_total (V:=R) (W:=unit) (with_step pb h) _ _ _ (posed_step _ _ _ _ h PO) bt PR (exact_answer (2 * N)) fi fo DynamicSchur th ze mu la no_memory 1 [Z.of_nat k])
      as (d1 & S1 & X1); [exact LD|exact EL|exact VI|exact RM|exact MU|exact LA|exact TH|exact ZE|exact HP|apply exact_exactly|apply exact_definite|auto|exact ON|discriminate|].
    destruct (X1 (U 0) (V 0)) as (d2 & l2 & _ & u' & v' & MO' & _). rewrite OK in MO'.
    destruct (SH j q s Q SJ) as (E1 & E2 & E3). intros i I. rewrite E1, E2, E3. rewrite E1 in LT.
    assert (QR := requested_range n out j q ND Q). fold k in QR.
    destruct (H1 h (U 0) (V 0) k u' v' HP MO' (fun _ _ => eq_refl) (fun _ _ => eq_refl) (Z.to_nat q) i QR LT I) as (A1 & A2).
    destruct (H2 h tol (U 0) (V 0) k u v u' v' HP TOL MO MO' (Z.to_nat q) i QR LT I) as (C1 & C2).
    assert (D1 := near_sum _ _ _ _ _ C1 A1). assert (D2 := near_sum _ _ _ _ _ C2 A2).
    assert (k2 * tol + k1 * h <= (k1 + k2) * (h + tol)) by (assert (0 <= k2 * h) by (apply Rmult_le_pos; lra); assert (0 <= k1 * tol) by (apply Rmult_le_pos; lra); lra).
    split; [exact (Rle_trans _ _ _ D1 H)|exact (Rle_trans _ _ _ D2 H)].
  Qed.
  Lemma quasistatic_near th ze mu la :
    loaded pb 2 fi fo -> elastic (pr_material pb) = Some (mu, la) -> viscous (pr_material pb) = Some (th, ze) -> clamped_mesh pb id ->
    0 <= mu -> 0 <= la -> 0 < th -> 0 <= ze -> 0 <= B -> 0 <= L -> paced_load T L fi -> paced_load T L fo ->
    derives (2 * N) T U V -> paced (2 * N) T B V ->
    true_flow m id g fi fo T th ze mu la U V ->
    exists ka, 0 <= ka /\ forall V' W h tol (raw : solver) cls v0 (m0 : store V') (d d' : driver V' (method forces)) n out given (l : list (state W)),
      0 < h -> 0 <= tol -> answers_within (2 * N) tol raw -> cls = QuasistaticGlobal \/ cls = QuasistaticSchur ->
      step_solver (with_step pb h) bt QuasistaticVelocity m0 = Ok d -> in_stock (d_mem d) given -> non_decreasing 0 (requested n out) ->
      dynamic_solve (b_dimension b) (b_count b) (start_positions bt) (goes QuasistaticVelocity cls) (finished b QuasistaticVelocity raw) n (U 0) v0 out given d = (d', Ok l) ->
      forall j (s : state W), nth_error l j = Some s -> 0 < view_time (look (d_mem d') s) <= T -> within (2 * N) (ka * (h + tol)) U V (look (d_mem d') s).
  Proof.
    intros LD EL VI HU MU LA TH ZE B0 L0 PI PF DU LV TM. destruct (built_ready pb ic id g PO bt PR) as (ops & RD & _).
    destruct (flow_rate pb ic id g PO bt ops RD fi fo T th ze mu la EL VI MU LA (Rlt_le _ _ TH) ZE T0 B L B0 L0 PI PF U V HU TH DU LV TM) as (k1 & K1 & H1).
    destruct (flow_close pb ic id g PO bt ops RD fi fo T T0 th ze mu la EL VI MU LA (Rlt_le _ _ TH) ZE HU TH) as (k2 & K2 & H2).
    exists (k1 + k2). split; [lra|]. intros V' W h tol raw cls v0 m0 d d' n out given l HP TOL AW CL SS IS ND RU j s SJ LT.
    destruct (quasistatic_inexact (W:=W) (with_step pb h) ic id g (posed_step pb ic id g h PO) bt PR fi fo raw tol cls th ze mu la m0 d d' n (U 0) v0 out given l
      LD EL VI (Rgt_not_eq _ _ HP) AW CL SS IS ND RU) as (u & v & MO & LE & SH).
    destruct (asked_step n out l j s LE SJ) as (q & Q). set (k := TimeTheorems.last_step n out) in *. destruct (one_step k) as (OK & ON).
    edestruct (quasistatic_total (V:=R) (W:=unit) (with_step pb h) _ _ _ (posed_step _ _ _ _ h PO) bt PR (exact_answer (2 * N)) fi fo QuasistaticSchur th ze mu la no_memory 1 [Z.of_nat k])
      as (d1 & S1 & X1); [exact LD|exact EL|exact VI|exact HU|exact MU|exact LA|exact TH|exact ZE|exact HP|apply exact_exactly|apply exact_definite|auto|exact ON|discriminate|].
    destruct (X1 (U 0) v0) as (d2 & l2 & _ & u' & v' & MO' & _). rewrite OK in MO'.
    destruct (SH j q s Q SJ) as (E1 & E2 & E3). intros i I. rewrite E1, E2, E3. rewrite E1 in LT. cbn in LT |- *.
    assert (QP : (0 < Z.to_nat q)%nat) by (destruct (Z.to_nat q); [cbn in LT; lra|lia]).
    assert (QR := requested_range n out j q ND Q). fold k in QR.
    destruct (H1 h (U 0) v0 k u' v' HP MO' (fun _ _ => eq_refl) (Z.to_nat q) i QR (proj2 LT) I) as (A1 & A2). specialize (A2 QP).
    destruct (H2 h tol (U 0) v0 v0 k u v u' v' HP TOL MO MO' (Z.to_nat q) i QR (proj2 LT) I) as (C1 & C2). specialize (C2 QP).
    assert (D1 := near_sum _ _ _ _ _ C1 A1). assert (D2 := near_sum _ _ _ _ _ C2 A2).
    assert (k2 * tol + k1 * h <= (k1 + k2) * (h + tol)) by (assert (0 <= k2 * h) by (apply Rmult_le_pos; lra); assert (0 <= k1 * tol) by (apply Rmult_le_pos; lra); lra).
    split; [exact (Rle_trans _ _ _ D1 H)|exact (Rle_trans _ _ _ D2 H)].
  Qed.
  Lemma wave_near c :
    loaded pb 1 fi fo -> membrane (pr_material pb) = Some c -> 0 < rho -> 0 <= B -> 0 <= L -> paced_load T L fi -> paced_load T L fo ->
    derives N T U V -> derives N T V A -> paced N T B V -> paced N T B A ->
    true_swing m id g fi fo T rho c U V A ->
    exists ka, 0 <= ka /\ forall V' W h tol (raw : solver) cls (m0 : store V') (d d' : driver V' (method forces)) n out given s0 (l : list (state W)),
      0 < h -> 0 <= tol -> answers_within N tol raw -> cls = DynamicGlobal \/ cls = DynamicSchur ->
      step_solver (with_step pb h) bt Wave m0 = Ok d -> in_stock (d_mem d) given -> non_decreasing 0 (requested n out) ->
      wave_solve (b_dimension b) (b_count b) (start_positions bt) (goes Wave cls) (finished b Wave raw) n (U 0) (V 0) None out given d = (d', s0, Ok l) ->
      forall j (s : state W), nth_error l j = Some s -> view_time (look (d_mem d') s) <= T -> within N (ka * (h + tol)) U V (look (d_mem d') s).
  Proof.
    intros LD ME RM B0 L0 PI PF DU DV LV LAC TM. destruct (built_ready pb ic id g PO bt PR) as (ops & RD & _).
    destruct (swing_rate pb ic id g PO bt ops RD fi fo T c B L U V A ME T0 B0 L0 PI PF RM DU DV LV LAC TM) as (k1 & K1 & H1).
    destruct (swing_close pb ic id g PO bt ops RD fi fo T T0 c ME RM) as (k2 & K2 & H2).
    exists (k1 + k2). split; [lra|]. intros V' W h tol raw cls m0 d d' n out given s0 l HP TOL AW CL SS IS ND RU j s SJ LT.
    destruct (wave_inexact (W:=W) (with_step pb h) ic id g (posed_step pb ic id g h PO) bt PR fi fo raw tol cls c m0 d d' n (U 0) (V 0) out given s0 l
      LD ME (Rgt_not_eq _ _ HP) AW CL SS IS ND RU) as (u & v & MO & LE & SH).
    destruct (asked_step n out l j s LE SJ) as (q & Q). set (k := TimeTheorems.last_step n out) in *. destruct (one_step k) as (OK & ON).
    edestruct (wave_total (V:=R) (W:=unit) (with_step pb h) _ _ _ (posed_step _ _ _ _ h PO) bt PR (exact_answer (2 * N)) fi fo DynamicSchur c no_memory 1 [Z.of_nat k])
      as (d1 & S1 & X1); [exact LD|exact ME|exact RM|exact HP|apply exact_exactly|apply exact_definite|auto|exact ON|discriminate|].
    destruct (X1 (U 0) (V 0)) as (d2 & s2 & l2 & _ & u' & v' & MO' & _). rewrite OK in MO'.
    destruct (SH j q s Q SJ) as (E1 & E2 & E3). intros i I. rewrite E1, E2, E3. rewrite E1 in LT.
    assert (QR := requested_range n out j q ND Q). fold k in QR.
    destruct (H1 h (U 0) (V 0) k u' v' HP MO' (fun _ _ => eq_refl) (fun _ _ => eq_refl) (Z.to_nat q) i QR LT I) as (A1 & A2).
    destruct (H2 h tol (U 0) (V 0) k u v u' v' HP TOL MO MO' (Z.to_nat q) i QR LT I) as (C1 & C2).
    assert (D1 := near_sum _ _ _ _ _ C1 A1). assert (D2 := near_sum _ _ _ _ _ C2 A2).
    assert (k2 * tol + k1 * h <= (k1 + k2) * (h + tol)) by (assert (0 <= k2 * h) by (apply Rmult_le_pos; lra); assert (0 <= k1 * tol) by (apply Rmult_le_pos; lra); lra).
    split; [exact (Rle_trans _ _ _ D1 H)|exact (Rle_trans _ _ _ D2 H)].
  Qed.
End Compare.

(* equilibrium, also of reweighted bodies *)
Section Static.
  Variables (pb : problem) (ic id : P2 -> bool) (g : P2 -> R).
  Hypothesis PO : posed pb ic id g.
  Variables (bt : built) (density : option (nat -> R)).
  Hypothesis PR : prepared pb bt density.
  Notation N := (List.length (m_nodes (bt_mesh bt))).
  Notation m := (bt_mesh bt).
  Notation b := (bt_body bt).
  Variables (fi fo : P2 -> R -> vec).
  Notation goes k c := (MethodModel.iterate (integrate_forces m (bt_basic bt)) b k c).
  Notation solver := (method forces -> vec -> vec -> vec -> R -> result (nat * vec)).

  Lemma static_inexact {V W} (raw : solver) tol cls mu la (m0 : store V) (d d' : driver V (method forces)) given u0 (s : state W) :
    loaded pb 2 fi fo -> elastic (pr_material pb) = Some (mu, la) -> answers_within (2 * N) tol raw ->
    (forall g, iterate_variables cls g = None) ->
    step_solver pb bt StaticDisplacement m0 = Ok d -> in_stock (d_mem d) given ->
    static_solve (b_dimension b) (b_count b) (start_positions bt) (goes StaticDisplacement cls) (finished b StaticDisplacement raw) u0 given d = (d', Ok s) ->
    takes m id 2 g (view_displacement (look (d_mem d') s)) /\ exists r, slight (2 * N) tol r /\
    balances_pushed m id r density mu la (fun p => fi p 0) (fun p => fo p 0) (view_displacement (look (d_mem d') s)).
  Proof.
    intros LD EL SA ID. destruct (ProblemReady.prepared_ready pb ic id g PO bt density PR) as (ops & RD).
    exact (static_pushed pb ic id g PO bt density ops RD raw tol cls fi fo mu la m0 d d' given u0 s LD EL SA ID).
  Qed.

  Lemma static_near mu la : loaded pb 2 fi fo -> elastic (pr_material pb) = Some (mu, la) -> 0 < mu -> 0 <= la -> positive_density density -> clamped_mesh pb id ->
    exists ka, 0 <= ka /\ forall V W tol (raw : solver) cls (m0 : store V) (d d' : driver V (method forces)) given u0 (s : state W) u,
      0 <= tol -> answers_within (2 * N) tol raw -> (forall g, iterate_variables cls g = None) ->
      step_solver pb bt StaticDisplacement m0 = Ok d -> in_stock (d_mem d) given ->
      static_solve (b_dimension b) (b_count b) (start_positions bt) (goes StaticDisplacement cls) (finished b StaticDisplacement raw) u0 given d = (d', Ok s) ->
      takes m id 2 g u -> balances coord2 zero2 m density id mu la (fun p => fi p 0) (fun p => fo p 0) u ->
      forall i, (i < 2 * N)%nat -> Rabs (view_displacement (look (d_mem d') s) i - u i) <= ka * tol.
  Proof.
    intros LD EL MU LA PD HU. destruct (ProblemReady.prepared_ready pb ic id g PO bt density PR) as (ops & RD).
    assert (SK := elastic_symmetric pb ic id g PO bt density ops RD mu la EL).
    assert (PK := elastic_psd pb ic id g PO bt density ops RD PD mu la EL (Rlt_le _ _ MU) LA).
    destruct (clamped_body pb ic id g PO bt density ops RD HU) as (conds & MC & HH).
    assert (FD : free_definite (2 * N) (some_mat (elasticity ops)) (fixed_dof id g bt 2)).
    { assert (D := elastic_definite_free pb ic id g PO bt density ops RD PD conds mu la HH EL MU LA). intros x H0 Hx.
      destruct (fixed_conds pb ic id g PO bt density ops RD 2) as (conds' & MC' & _ & _ & HP). rewrite MC in MC'. injection MC' as <-.
      apply D; [|exact Hx]. intros dd v X. apply (H0 dd v). apply HP in X. exact X. }
    destruct (component_bound (2 * N) _ SK PK (fixed_dof id g bt 2) (fun i v => fixed_dof_range id g bt 2 i v) FD) as (c & C0 & CB).
    exists (INR (2 * N) * c * c). split; [repeat apply Rmult_le_pos; auto; apply pos_INR|].
    intros V W tol raw cls m0 d d' given u0 s u TOL SA ID SS IS RU TK BA.
    destruct (static_inexact raw tol cls mu la m0 d d' given u0 s LD EL SA ID SS IS RU) as (TK' & r & SL & BP).
    set (y := view_displacement (look (d_mem d') s)) in *.
    intros i I. change (y i - u i) with (minus y u i).
    assert (Z : free (fixed_dof id g bt 2) (minus y u)) by (apply minus_free; assumption).
    apply (static_push (2 * N) (some_mat (elasticity ops)) (fixed_dof id g bt 2) c PK C0 r (minus y u) tol TOL SL CB Z); [|exact I].
    assert (GR : forall x, exists G, gradients coord2 zero2 m x G).
    { intros x. exact (vanishing_gradients pb ic id g PO bt density ops RD x). }
    destruct (GR (minus y u)) as (G & HG). destruct (GR y) as (H & HY). destruct (GR u) as (K & HK).
    apply (vanishes_dof id g bt) in Z.
    assert (E1 := BP _ G H Z HG HY). assert (E2 := BA _ G K Z HG HK).
    rewrite <- (elastic_work pb ic id g PO bt density ops RD mu la _ _ G H EL HG HY), <- bilinear_sum in E1.
    rewrite <- (elastic_work pb ic id g PO bt density ops RD mu la _ _ G K EL HG HK), <- bilinear_sum in E2.
    change (push_work (2 * N) r (minus y u)) with (dot (2 * N) (minus y u) r) in E1.
    rewrite bilinear_minus_r. lra.
  Qed.
End Static.
