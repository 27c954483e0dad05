(* C107: the states that the runs with contact and small time steps return. *)
From Coq Require Import Reals List Arith ZArith Bool String Lia Lra.
From Verif Require Import Common PyModel RVec LinAlg MeshModel MeshBuildModel MeshSpec NormalsModel FemModel FemSpec ForcesModel ForcesSpec
  DirichletModel DirichletSpec ContactModel ContactSpec ContactCostProofs ConstrainedSpec SchurModel SchurSpec StatementModel StatementSpec StatementValueProofs
  RegistryModel StateModel StateLemmas CopyProofs TimeModel TimeSpec TimeProofs RunProofs HistoryProofs SolveProofs MarchProofs TimeTheorems MethodModel MethodProofs
  RunSpec OptimisationModel OptimisationProofs ContactRunSpec
  ProblemModel ProblemSpec ProblemProofs ProblemReady ProblemTheorems ProblemUnique ProblemFinal
  ProblemContactModel ProblemContactSpec ProblemContactProofs ProblemContactTheorems ProblemContactFinal
  ProblemContactExists ConvergenceSpec ConvergenceFinal ConvergenceUnique ConvergenceContactSpec ConvergenceContactProofs.
Import ListNotations.
Local Open Scope string_scope.
Local Open Scope list_scope.
Local Open Scope R_scope.

(* states of a run that shows steps close to U and V *)
Lemma shown size T U V e h {W} (u v : nat -> vec) n out (l : list (state W)) (look' : state W -> view) :
  non_decreasing 0 (requested n out) -> List.length l = List.length (requested n out) ->
  (forall j q (s : state W), nth_error (requested n out) j = Some q -> nth_error l j = Some s -> shows h u v (Z.to_nat q) (look' s)) ->
  (forall j i, (j <= TimeTheorems.last_step n out)%nat -> INR j * h <= T -> (i < size)%nat ->
    Rabs (u j i - U (INR j * h) i) <= e /\ ((0 < j)%nat \/ v O = V 0 -> Rabs (v j i - V (INR j * h) i) <= e)) ->
  forall j (s : state W), nth_error l j = Some s -> (0 < view_time (look' s) \/ v O = V 0) -> view_time (look' s) <= T -> within size e U V (look' s).
Proof.
  intros ND LE SH HK j s SJ FI LT.
  destruct (nth_error (requested n out) j) as [q|] eqn:Q; [|apply nth_error_None in Q; assert (j < List.length l)%nat by (apply nth_error_Some; congruence); lia].
  destruct (SH j q s Q SJ) as (E1 & E2 & E3). intros i I. rewrite E1, E2, E3. rewrite E1 in LT, FI.
  destruct (HK (Z.to_nat q) i (requested_range n out j q ND Q) LT I) as (X & Y). split; [exact X|]. apply Y.
  destruct FI as [FI|FI]; [left; destruct (Z.to_nat q); [cbn in FI; lra|lia]|right; exact FI].
Qed.

Section Final.
  Variables (pb : problem) (ic id : P2 -> bool) (g : P2 -> R) (fi fo : P2 -> R -> vec) (th ze mu la : R) (law : contact_law).
  Variable bt : built.
  Hypothesis PR : construct pb = Ok bt.
  Notation m := (bt_mesh bt).
  Notation N := (List.length (m_nodes m)).
  Variables (T B L : R).
  Hypothesis TA : tame law.
  Hypothesis T0 : 0 <= T.
  Hypothesis B0 : 0 <= B.
  Hypothesis L0 : 0 <= L.
  Hypothesis PI : paced_load T L fi.
  Hypothesis PF : paced_load T L fo.
  (* the problem with every time step *)
  Notation always k := (forall h, 0 < h -> contact_posed (with_step pb h) ic id g fi fo k th ze mu la law).
  Notation runs k h := (posed_motion (with_step pb h) bt None id g fi fo k th ze mu la law).

  Lemma every_posed k : always k -> posed pb ic id g.
  Proof. intros CP. destruct (cp_posed _ _ _ _ _ _ _ _ _ _ _ _ (CP 1 Rlt_0_1)) as [X1 X2 X3 X4 X5 X6]. constructor; assumption. Qed.
  Lemma every_prepared h : prepared (with_step pb h) bt None.
  Proof. apply constructed. exact PR. Qed.

  Section One.
  Variables (U V A : R -> vec).
  Hypothesis DU : derives (2 * N) T U V.
  Hypothesis LU : paced (2 * N) T B U.
  Hypothesis LV : paced (2 * N) T B V.

  Lemma dynamic_close : always DynamicVelocity -> derives (2 * N) T V A -> paced (2 * N) T B A ->
    true_contact pb bt id g fi fo DynamicVelocity th ze mu la law T U V A ->
    exists ka, 0 <= ka /\ forall h u0 v0 n u v, 0 < h -> runs DynamicVelocity h u0 v0 n u v -> veq (2 * N) u0 (U 0) -> veq (2 * N) v0 (V 0) ->
      forall j i, (j <= n)%nat -> INR j * h <= T -> (i < 2 * N)%nat -> Rabs (u j i - U (INR j * h) i) <= ka * h /\ Rabs (v j i - V (INR j * h) i) <= ka * h.
  Proof.
    intros CP DV LA TM. assert (PO := every_posed _ CP). destruct (built_ready pb ic id g PO bt PR) as (ops & RD & _).
    destruct (cp_sturdy _ _ _ _ _ _ _ _ _ _ _ _ (CP 1 Rlt_0_1)) as (EL & VI & MU & LAM & TH & ZE & RM).
    exact (slide_converges pb ic id g PO bt ops RD fi fo th ze mu la EL VI law T MU LAM TH ZE T0 B L B0 L0 PI PF TA U V A DU LU LV RM DV LA TM).
  Qed.
  Lemma quasistatic_close : always QuasistaticVelocity -> true_contact pb bt id g fi fo QuasistaticVelocity th ze mu la law T U V A ->
    exists ka, 0 <= ka /\ forall h u0 v0 n u v, 0 < h -> runs QuasistaticVelocity h u0 v0 n u v -> veq (2 * N) u0 (U 0) ->
      forall j i, (j <= n)%nat -> INR j * h <= T -> (i < 2 * N)%nat -> Rabs (u j i - U (INR j * h) i) <= ka * h /\ ((0 < j)%nat -> Rabs (v j i - V (INR j * h) i) <= ka * h).
  Proof.
    intros CP TM. assert (PO := every_posed _ CP). destruct (built_ready pb ic id g PO bt PR) as (ops & RD & _).
    destruct (cp_sturdy _ _ _ _ _ _ _ _ _ _ _ _ (CP 1 Rlt_0_1)) as (EL & VI & MU & LAM & TH & ZE & HU).
    exact (drag_converges pb ic id g PO bt ops RD fi fo th ze mu la EL VI law T MU LAM (Rlt_le _ _ TH) ZE T0 B L B0 L0 PI PF TA U V A DU LU LV HU TH TM).
  Qed.

  Lemma dynamic_contact_converges : always DynamicVelocity -> derives (2 * N) T V A -> paced (2 * N) T B A ->
    true_contact pb bt id g fi fo DynamicVelocity th ze mu la law T U V A ->
    exists ka, 0 <= ka /\ forall {V' W} h minimise name maxiter n out given, 0 < h -> (forall i, reliable (minimise (route_of name) i)) -> non_decreasing 0 (requested n out) ->
      (forall (m0 : store V') (d d' : driver V' (method forces)) (l : list (state W)),
        step_solver (with_step pb h) bt DynamicVelocity m0 = Ok d -> in_stock (d_mem d) given ->
        global_motion bt DynamicVelocity law minimise name maxiter n (U 0) (V 0) out given d = (d', Ok l) ->
        forall j (s : state W), nth_error l j = Some s -> view_time (look (d_mem d') s) <= T -> within (2 * N) (ka * h) U V (look (d_mem d') s)) /\
      (forall inv (m0 : store V') (d d' : driver V' (schur_method forces)) (l : list (state W)), inverts inv ->
        schur_step_solver (with_step pb h) bt DynamicVelocity inv m0 = Ok d -> in_stock (d_mem d) given ->
        schur_motion bt DynamicVelocity law minimise name maxiter n (U 0) (V 0) out given d = (d', Ok l) ->
        forall j (s : state W), nth_error l j = Some s -> view_time (look (d_mem d') s) <= T -> within (2 * N) (ka * h) U V (look (d_mem d') s)).
  Proof.
    intros CP DV LA TM. destruct (dynamic_close CP DV LA TM) as (ka & K0 & HK). exists ka. split; [exact K0|].
    intros V' W h minimise name maxiter n out given HP HM ND. split.
    - intros m0 d d' l SS IS RU j s SJ LT.
      destruct (global_final (W:=W) (with_step pb h) ic id g fi fo DynamicVelocity th ze mu la law (CP h HP) bt None (every_prepared h) Logic.I minimise name maxiter HM
        m0 d d' n (U 0) (V 0) out given l Logic.I SS IS ND RU) as (u & v & MO & LE & SH).
      apply (shown (2 * N) T U V (ka * h) h u v n out l (look (d_mem d')) ND LE SH) with (j := j); [|exact SJ|right; apply MO|exact LT].
      intros i x I XT XI. destruct (HK h (U 0) (V 0) _ u v HP MO (fun _ _ => eq_refl) (fun _ _ => eq_refl) i x I XT XI). auto.
    - intros inv m0 d d' l HI SS IS RU j s SJ LT.
      destruct (schur_final (W:=W) (with_step pb h) ic id g fi fo DynamicVelocity th ze mu la law (CP h HP) bt None (every_prepared h) Logic.I minimise name maxiter HM inv HI
        m0 d d' n (U 0) (V 0) out given l Logic.I SS IS ND RU) as (u & v & MO & LE & SH).
      apply (shown (2 * N) T U V (ka * h) h u v n out l (look (d_mem d')) ND LE SH) with (j := j); [|exact SJ|right; apply MO|exact LT].
      intros i x I XT XI. destruct (HK h (U 0) (V 0) _ u v HP MO (fun _ _ => eq_refl) (fun _ _ => eq_refl) i x I XT XI). auto.
  Qed.

  (* without inertia the first velocity does not matter; the velocity of the state of time 0 is the given one *)
  Lemma quasistatic_contact_converges : always QuasistaticVelocity -> true_contact pb bt id g fi fo QuasistaticVelocity th ze mu la law T U V A ->
    exists ka, 0 <= ka /\ forall {V' W} h minimise name maxiter v0 n out given, 0 < h -> (forall i, reliable (minimise (route_of name) i)) -> non_decreasing 0 (requested n out) ->
      (forall (m0 : store V') (d d' : driver V' (method forces)) (l : list (state W)),
        step_solver (with_step pb h) bt QuasistaticVelocity m0 = Ok d -> in_stock (d_mem d) given ->
        global_motion bt QuasistaticVelocity law minimise name maxiter n (U 0) v0 out given d = (d', Ok l) ->
        forall j (s : state W), nth_error l j = Some s -> 0 < view_time (look (d_mem d') s) <= T -> within (2 * N) (ka * h) U V (look (d_mem d') s)) /\
      (forall inv (m0 : store V') (d d' : driver V' (schur_method forces)) (l : list (state W)), inverts inv ->
        schur_step_solver (with_step pb h) bt QuasistaticVelocity inv m0 = Ok d -> in_stock (d_mem d) given ->
        schur_motion bt QuasistaticVelocity law minimise name maxiter n (U 0) v0 out given d = (d', Ok l) ->
        forall j (s : state W), nth_error l j = Some s -> 0 < view_time (look (d_mem d') s) <= T -> within (2 * N) (ka * h) U V (look (d_mem d') s)).
  Proof.
    intros CP TM. destruct (quasistatic_close CP TM) as (ka & K0 & HK). exists ka. split; [exact K0|].
    intros V' W h minimise name maxiter v0 n out given HP HM ND. split.
    - intros m0 d d' l SS IS RU j s SJ (L1 & LT).
      destruct (global_final (W:=W) (with_step pb h) ic id g fi fo QuasistaticVelocity th ze mu la law (CP h HP) bt None (every_prepared h) Logic.I minimise name maxiter HM
        m0 d d' n (U 0) v0 out given l Logic.I SS IS ND RU) as (u & v & MO & LE & SH).
      assert (X := fun i x I XT XI => HK h (U 0) v0 _ u v HP MO (fun _ _ => eq_refl) i x I XT XI).
      intros i I. destruct (nth_error (requested n out) j) as [q|] eqn:Q; [|apply nth_error_None in Q; assert (j < List.length l)%nat by (apply nth_error_Some; congruence); lia].
      destruct (SH j q s Q SJ) as (E1 & E2 & E3). rewrite E1, E2, E3. rewrite E1 in LT, L1.
      destruct (X (Z.to_nat q) i (requested_range n out j q ND Q) LT I) as (Y1 & Y2). split; [exact Y1|]. apply Y2. destruct (Z.to_nat q); [cbn in L1; lra|lia].
    - intros inv m0 d d' l HI SS IS RU j s SJ (L1 & LT).
      destruct (schur_final (W:=W) (with_step pb h) ic id g fi fo QuasistaticVelocity th ze mu la law (CP h HP) bt None (every_prepared h) Logic.I minimise name maxiter HM inv HI
        m0 d d' n (U 0) v0 out given l Logic.I SS IS ND RU) as (u & v & MO & LE & SH).
      assert (X := fun i x I XT XI => HK h (U 0) v0 _ u v HP MO (fun _ _ => eq_refl) i x I XT XI).
      intros i I. destruct (nth_error (requested n out) j) as [q|] eqn:Q; [|apply nth_error_None in Q; assert (j < List.length l)%nat by (apply nth_error_Some; congruence); lia].
      destruct (SH j q s Q SJ) as (E1 & E2 & E3). rewrite E1, E2, E3. rewrite E1 in LT, L1.
      destruct (X (Z.to_nat q) i (requested_range n out j q ND Q) LT I) as (Y1 & Y2). split; [exact Y1|]. apply Y2. destruct (Z.to_nat q); [cbn in L1; lra|lia].
  Qed.
  End One.

  (* one motion *)
  Section Two.
  Variables (U V A U' V' A' : R -> vec).
  Hypothesis DU : derives (2 * N) T U V.
  Hypothesis LU : paced (2 * N) T B U.
  Hypothesis LV : paced (2 * N) T B V.
  Hypothesis DU' : derives (2 * N) T U' V'.
  Hypothesis LU' : paced (2 * N) T B U'.
  Hypothesis LV' : paced (2 * N) T B V'.

  Lemma slide_one : always DynamicVelocity -> derives (2 * N) T V A -> paced (2 * N) T B A -> true_contact pb bt id g fi fo DynamicVelocity th ze mu la law T U V A ->
    derives (2 * N) T V' A' -> paced (2 * N) T B A' -> true_contact pb bt id g fi fo DynamicVelocity th ze mu la law T U' V' A' ->
    veq (2 * N) (U 0) (U' 0) -> veq (2 * N) (V 0) (V' 0) -> forall t, 0 <= t <= T -> veq (2 * N) (U t) (U' t) /\ veq (2 * N) (V t) (V' t).
  Proof.
    intros CP DV LA TM DV' LA' TM' QU QV t [T1 T2]. destruct (Req_dec t 0) as [->|NT]; [auto|]. assert (TP : 0 < t) by lra.
    destruct (dynamic_close U V A DU LU LV CP DV LA TM) as (ka & K0 & HK). destruct (dynamic_close U' V' A' DU' LU' LV' CP DV' LA' TM') as (ka' & K0' & HK').
    assert (W : forall n, (0 < n)%nat -> exists u v : nat -> vec, forall i, (i < 2 * N)%nat ->
      (Rabs (u n i - U (INR n * (t / INR n)) i) <= ka * (t / INR n) /\ Rabs (v n i - V (INR n * (t / INR n)) i) <= ka * (t / INR n)) /\
      (Rabs (u n i - U' (INR n * (t / INR n)) i) <= ka' * (t / INR n) /\ Rabs (v n i - V' (INR n * (t / INR n)) i) <= ka' * (t / INR n))).
    { intros n NP. assert (IP : 0 < INR n) by (apply lt_0_INR; exact NP). assert (HP : 0 < t / INR n) by (apply Rdiv_lt_0_compat; assumption).
      assert (ET : INR n * (t / INR n) = t) by (field; lra).
      destruct (motion_exists (with_step pb (t / INR n)) ic id g fi fo DynamicVelocity th ze mu la law (CP _ HP) bt None (every_prepared _) Logic.I Logic.I (U 0) (V 0) n) as (u & v & MO).
      exists u, v. intros i I. split.
      - exact (HK _ _ _ _ u v HP MO (fun _ _ => eq_refl) (fun _ _ => eq_refl) n i (le_n n) ltac:(lra) I).
      - exact (HK' _ _ _ _ u v HP MO QU QV n i (le_n n) ltac:(lra) I). }
    split.
    - apply (approached (2 * N) U U' ka ka' t K0 K0' TP). intros n NP. destruct (W n NP) as (u & v & H). exists u. intros i I. destruct (H i I) as ((X & _) & (Y & _)). auto.
    - apply (approached (2 * N) V V' ka ka' t K0 K0' TP). intros n NP. destruct (W n NP) as (u & v & H). exists v. intros i I. destruct (H i I) as ((_ & X) & (_ & Y)). auto.
  Qed.
  Lemma drag_one : always QuasistaticVelocity -> true_contact pb bt id g fi fo QuasistaticVelocity th ze mu la law T U V A ->
    true_contact pb bt id g fi fo QuasistaticVelocity th ze mu la law T U' V' A' ->
    veq (2 * N) (U 0) (U' 0) -> forall t, 0 < t <= T -> veq (2 * N) (U t) (U' t) /\ veq (2 * N) (V t) (V' t).
  Proof.
    intros CP TM TM' QU t [TP T2].
    destruct (quasistatic_close U V A DU LU LV CP TM) as (ka & K0 & HK). destruct (quasistatic_close U' V' A' DU' LU' LV' CP TM') as (ka' & K0' & HK').
    assert (W : forall n, (0 < n)%nat -> exists u v : nat -> vec, forall i, (i < 2 * N)%nat ->
      (Rabs (u n i - U (INR n * (t / INR n)) i) <= ka * (t / INR n) /\ Rabs (v n i - V (INR n * (t / INR n)) i) <= ka * (t / INR n)) /\
      (Rabs (u n i - U' (INR n * (t / INR n)) i) <= ka' * (t / INR n) /\ Rabs (v n i - V' (INR n * (t / INR n)) i) <= ka' * (t / INR n))).
    { intros n NP. assert (IP : 0 < INR n) by (apply lt_0_INR; exact NP). assert (HP : 0 < t / INR n) by (apply Rdiv_lt_0_compat; assumption).
      assert (ET : INR n * (t / INR n) = t) by (field; lra).
      destruct (motion_exists (with_step pb (t / INR n)) ic id g fi fo QuasistaticVelocity th ze mu la law (CP _ HP) bt None (every_prepared _) Logic.I Logic.I (U 0) (V 0) n) as (u & v & MO).
      exists u, v. intros i I. split.
      - destruct (HK _ _ _ _ u v HP MO (fun _ _ => eq_refl) n i (le_n n) ltac:(lra) I). auto.
      - destruct (HK' _ _ _ _ u v HP MO QU n i (le_n n) ltac:(lra) I). auto. }
    split.
    - apply (approached (2 * N) U U' ka ka' t K0 K0' TP). intros n NP. destruct (W n NP) as (u & v & H). exists u. intros i I. destruct (H i I) as ((X & _) & (Y & _)). auto.
    - apply (approached (2 * N) V V' ka ka' t K0 K0' TP). intros n NP. destruct (W n NP) as (u & v & H). exists v. intros i I. destruct (H i I) as ((_ & X) & (_ & Y)). auto.
  Qed.
  End Two.
End Final.
