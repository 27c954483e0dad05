(* Proofs of C106: a body has one motion in continuous time. *)
From Coq Require Import Reals List Arith ZArith Bool String Lia Lra.
From Verif Require Import Common PyModel RVec LinAlg MeshModel MeshBuildModel MeshSpec NormalsModel
  FemModel FemSpec ForcesModel DirichletSpec StatementModel StatementSpec StateModel RegistryModel
  TimeModel TimeSpec TimeProofs TimeTheorems MethodModel RunSpec
  ProblemModel ProblemSpec ProblemReady ProblemTheorems ProblemUnique ProblemTotal ProblemFinal ProblemWitness
  ConvergenceSpec ConvergenceProofs ConvergenceFinal.
Import ListNotations.
Local Open Scope R_scope.

Lemma squeeze (c t x : R) : 0 <= c -> 0 <= t -> (forall n, (0 < n)%nat -> Rabs x <= c * (t / INR n)) -> x = 0.
Proof.
  intros C T H. destruct (Req_dec x 0) as [E|NE]; [exact E|exfalso]. assert (AP := Rabs_pos_lt x NE).
  assert (CT : 0 <= c * t) by (apply Rmult_le_pos; assumption).
  destruct (archimed (c * t / Rabs x)) as (AR & _). set (z := up (c * t / Rabs x)) in *.
  assert (QP : 0 <= c * t / Rabs x) by (apply Rmult_le_pos; [exact CT|left; apply Rinv_0_lt_compat; exact AP]).
  assert (ZP : (0 < z)%Z) by (apply lt_IZR; lra).
  assert (E : IZR z = INR (Z.to_nat z)) by (rewrite INR_IZR_INZ, Z2Nat.id by lia; reflexivity).
  specialize (H (Z.to_nat z) ltac:(lia)). rewrite <- E in H. assert (0 < IZR z) by lra.
  apply (Rmult_le_compat_r (IZR z)) in H; [|lra]. replace (c * (t / IZR z) * IZR z) with (c * t) in H by (field; lra).
  apply (Rmult_lt_compat_r (Rabs x)) in AR; [|exact AP]. replace (c * t / Rabs x * Rabs x) with (c * t) in AR by (field; lra). lra.
Qed.

(* two functions that one approximates alike coincide *)
Lemma approached size (U U' : R -> vec) k k' t :
  0 <= k -> 0 <= k' -> 0 < t ->
  (forall n, (0 < n)%nat -> exists u : nat -> vec, forall i, (i < size)%nat ->
     Rabs (u n i - U (INR n * (t / INR n)) i) <= k * (t / INR n) /\ Rabs (u n i - U' (INR n * (t / INR n)) i) <= k' * (t / INR n)) ->
  veq size (U t) (U' t).
Proof.
  intros K K' T H i I. assert (D : U t i - U' t i = 0); [|lra]. apply (squeeze (k + k') t); [lra|lra|]. intros n NP.
  destruct (H n NP) as (u & HU). destruct (HU i I) as (A & B).
  assert (0 < INR n) by (apply lt_0_INR; exact NP). replace (INR n * (t / INR n)) with t in A, B by (field; lra).
  unfold Rabs in *. repeat destruct Rcase_abs; lra.
Qed.

Lemma all_steps n : non_decreasing 0 (requested n []) /\ last_step n [] = n.
Proof. split; [cbn; lia|unfold last_step; cbn; apply Nat2Z.id]. Qed.

Section Unique.
  Variables (pb : problem) (ic id : P2 -> bool) (g : P2 -> R).
  Hypothesis PO : posed pb ic id g.
  Variable bt : built.
  Hypothesis PR : construct pb = Ok bt.
  Notation N := (List.length (m_nodes (bt_mesh bt))).
  Notation m := (bt_mesh bt).
  Notation rho := (mass_density (pr_material pb)).
  Variables (fi fo : P2 -> R -> vec) (T B L : R) (U V A U' V' A' : R -> vec).

  Lemma motion_one th ze mu la :
    loaded pb 2 fi fo -> elastic (pr_material pb) = Some (mu, la) -> viscous (pr_material pb) = Some (th, ze) ->
    0 < rho -> 0 <= mu -> 0 <= la -> 0 <= th -> 0 <= ze -> 0 <= T -> 0 <= B -> 0 <= L -> paced_load T L fi -> paced_load T L fo ->
    derives (2 * N) T U V -> derives (2 * N) T V A -> paced (2 * N) T B V -> paced (2 * N) T B A -> true_motion m id g fi fo T rho th ze mu la U V A ->
    derives (2 * N) T U' V' -> derives (2 * N) T V' A' -> paced (2 * N) T B V' -> paced (2 * N) T B A' -> true_motion m id g fi fo T rho th ze mu la U' V' A' ->
    veq (2 * N) (U 0) (U' 0) -> veq (2 * N) (V 0) (V' 0) -> forall t, 0 <= t <= T -> veq (2 * N) (U t) (U' t) /\ veq (2 * N) (V t) (V' t).
  Proof.
    intros LD EL VI RM MU LA TH ZE T0 B0 L0 PI PF DU DV LV LAC TM DU' DV' LV' LAC' TM' QU QV t [T1 T2].
    destruct (Req_dec t 0) as [->|NT]; [auto|]. assert (TP : 0 < t) by lra.
    destruct (built_ready pb ic id g PO bt PR) as (ops & RD & _).
    destruct (motion_rate pb ic id g PO bt ops RD fi fo T th ze mu la EL VI MU LA TH ZE T0 B L B0 L0 PI PF U V A RM DU DV LV LAC TM) as (ka & K0 & HK).
    destruct (motion_rate pb ic id g PO bt ops RD fi fo T th ze mu la EL VI MU LA TH ZE T0 B L B0 L0 PI PF U' V' A' RM DU' DV' LV' LAC' TM') as (ka' & K0' & HK').
    assert (W : forall n, (0 < n)%nat -> exists u v : nat -> vec, forall i, (i < 2 * N)%nat ->
      (Rabs (u n i - U (INR n * (t / INR n)) i) <= ka * (t / INR n) /\ Rabs (v n i - V (INR n * (t / INR n)) i) <= ka * (t / INR n)) /\
      (Rabs (u n i - U' (INR n * (t / INR n)) i) <= ka' * (t / INR n) /\ Rabs (v n i - V' (INR n * (t / INR n)) i) <= ka' * (t / INR n))).
    { intros n NP. assert (IP : 0 < INR n) by (apply lt_0_INR; exact NP). assert (HP : 0 < t / INR n) by (apply Rdiv_lt_0_compat; assumption).
      assert (ET : INR n * (t / INR n) = t) by (field; lra). destruct (all_steps n) as (ND & LS).
      destruct (dynamic_total (V:=R) (W:=unit) (with_step pb (t / INR n)) ic id g (posed_step pb ic id g _ PO) bt PR (exact_answer (2 * N)) fi fo DynamicGlobal th ze mu la no_memory n []
        LD EL VI RM MU LA TH ZE HP (exact_exactly _ _) (exact_definite _ _) (or_introl eq_refl) ND ltac:(lia)) as (d & _ & H).
      destruct (H (U 0) (V 0)) as (d' & l & _ & u & v & MO & _). rewrite LS in MO. exists u, v. intros i I. split.
      - exact (HK _ _ _ _ u v HP MO (fun _ _ => eq_refl) (fun _ _ => eq_refl) n i (le_n n) ltac:(lra) I).
      - exact (HK' _ _ _ _ u v HP MO QU QV n i (le_n n) ltac:(lra) I). }
    split.
    - apply (approached (2 * N) U U' ka ka' t K0 K0' TP). intros n NP. destruct (W n NP) as (u & v & H). exists u. intros i I. destruct (H i I) as ((X & _) & (Y & _)). auto.
    - apply (approached (2 * N) V V' ka ka' t K0 K0' TP). intros n NP. destruct (W n NP) as (u & v & H). exists v. intros i I. destruct (H i I) as ((_ & X) & (_ & Y)). auto.
  Qed.

  Lemma flow_one th ze mu la :
    loaded pb 2 fi fo -> elastic (pr_material pb) = Some (mu, la) -> viscous (pr_material pb) = Some (th, ze) -> clamped_mesh pb id ->
    0 <= mu -> 0 <= la -> 0 < th -> 0 <= ze -> 0 <= T -> 0 <= B -> 0 <= L -> paced_load T L fi -> paced_load T L fo ->
    derives (2 * N) T U V -> paced (2 * N) T B V -> true_flow m id g fi fo T th ze mu la U V ->
    derives (2 * N) T U' V' -> paced (2 * N) T B V' -> true_flow m id g fi fo T th ze mu la U' V' ->
    veq (2 * N) (U 0) (U' 0) -> forall t, 0 < t <= T -> veq (2 * N) (U t) (U' t) /\ veq (2 * N) (V t) (V' t).
  Proof.
    intros LD EL VI HU MU LA TH ZE T0 B0 L0 PI PF DU LV TM DU' LV' TM' QU t [TP T2].
    destruct (built_ready pb ic id g PO bt PR) as (ops & RD & _).
    destruct (flow_rate pb ic id g PO bt ops RD fi fo T th ze mu la EL VI MU LA (Rlt_le _ _ TH) ZE T0 B L B0 L0 PI PF U V HU TH DU LV TM) as (ka & K0 & HK).
    destruct (flow_rate pb ic id g PO bt ops RD fi fo T th ze mu la EL VI MU LA (Rlt_le _ _ TH) ZE T0 B L B0 L0 PI PF U' V' HU TH DU' LV' TM') as (ka' & K0' & HK').
    assert (W : forall n, (0 < n)%nat -> exists u v : nat -> vec, forall i, (i < 2 * N)%nat ->
      (Rabs (u n i - U (INR n * (t / INR n)) i) <= ka * (t / INR n) /\ Rabs (v n i - V (INR n * (t / INR n)) i) <= ka * (t / INR n)) /\
      (Rabs (u n i - U' (INR n * (t / INR n)) i) <= ka' * (t / INR n) /\ Rabs (v n i - V' (INR n * (t / INR n)) i) <= ka' * (t / INR n))).
    { intros n NP. assert (IP : 0 < INR n) by (apply lt_0_INR; exact NP). assert (HP : 0 < t / INR n) by (apply Rdiv_lt_0_compat; assumption).
      assert (ET : INR n * (t / INR n) = t) by (field; lra). destruct (all_steps n) as (ND & LS).
      destruct (quasistatic_total (V:=R) (W:=unit) (with_step pb (t / INR n)) ic id g (posed_step pb ic id g _ PO) bt PR (exact_answer (2 * N)) fi fo QuasistaticGlobal th ze mu la no_memory n []
        LD EL VI HU MU LA TH ZE HP (exact_exactly _ _) (exact_definite _ _) (or_introl eq_refl) ND ltac:(lia)) as (d & _ & H).
      destruct (H (U 0) (V 0)) as (d' & l & _ & u & v & MO & _). rewrite LS in MO. exists u, v. intros i I. split.
      - destruct (HK _ _ _ _ u v HP MO (fun _ _ => eq_refl) n i (le_n n) ltac:(lra) I) as (X & Y). auto.
      - destruct (HK' _ _ _ _ u v HP MO QU n i (le_n n) ltac:(lra) I) as (X & Y). auto. }
    split.
    - apply (approached (2 * N) U U' ka ka' t K0 K0' TP). intros n NP. destruct (W n NP) as (u & v & H). exists u. intros i I. destruct (H i I) as ((X & _) & (Y & _)). auto.
    - apply (approached (2 * N) V V' ka ka' t K0 K0' TP). intros n NP. destruct (W n NP) as (u & v & H). exists v. intros i I. destruct (H i I) as ((_ & X) & (_ & Y)). auto.
  Qed.

  Lemma swing_one c :
    loaded pb 1 fi fo -> membrane (pr_material pb) = Some c -> 0 < rho -> 0 <= T -> 0 <= B -> 0 <= L -> paced_load T L fi -> paced_load T L fo ->
    derives N T U V -> derives N T V A -> paced N T B V -> paced N T B A -> true_swing m id g fi fo T rho c U V A ->
    derives N T U' V' -> derives N T V' A' -> paced N T B V' -> paced N T B A' -> true_swing m id g fi fo T rho c U' V' A' ->
    veq N (U 0) (U' 0) -> veq N (V 0) (V' 0) -> forall t, 0 <= t <= T -> veq N (U t) (U' t) /\ veq N (V t) (V' t).
  Proof.
    intros LD ME RM T0 B0 L0 PI PF DU DV LV LAC TM DU' DV' LV' LAC' TM' QU QV t [T1 T2].
    destruct (Req_dec t 0) as [->|NT]; [auto|]. assert (TP : 0 < t) by lra.
    destruct (built_ready pb ic id g PO bt PR) as (ops & RD & _).
    destruct (swing_rate pb ic id g PO bt ops RD fi fo T c B L U V A ME T0 B0 L0 PI PF RM DU DV LV LAC TM) as (ka & K0 & HK).
    destruct (swing_rate pb ic id g PO bt ops RD fi fo T c B L U' V' A' ME T0 B0 L0 PI PF RM DU' DV' LV' LAC' TM') as (ka' & K0' & HK').
    assert (W : forall n, (0 < n)%nat -> exists u v : nat -> vec, forall i, (i < N)%nat ->
      (Rabs (u n i - U (INR n * (t / INR n)) i) <= ka * (t / INR n) /\ Rabs (v n i - V (INR n * (t / INR n)) i) <= ka * (t / INR n)) /\
      (Rabs (u n i - U' (INR n * (t / INR n)) i) <= ka' * (t / INR n) /\ Rabs (v n i - V' (INR n * (t / INR n)) i) <= ka' * (t / INR n))).
    { intros n NP. assert (IP : 0 < INR n) by (apply lt_0_INR; exact NP). assert (HP : 0 < t / INR n) by (apply Rdiv_lt_0_compat; assumption).
      assert (ET : INR n * (t / INR n) = t) by (field; lra). destruct (all_steps n) as (ND & LS).
      destruct (wave_total (V:=R) (W:=unit) (with_step pb (t / INR n)) ic id g (posed_step pb ic id g _ PO) bt PR (exact_answer (2 * N)) fi fo DynamicGlobal c no_memory n []
        LD ME RM HP (exact_exactly _ _) (exact_definite _ _) (or_introl eq_refl) ND ltac:(lia)) as (d & _ & H).
      destruct (H (U 0) (V 0)) as (d' & s0 & l & _ & u & v & MO & _). rewrite LS in MO. exists u, v. intros i I. split.
      - exact (HK _ _ _ _ u v HP MO (fun _ _ => eq_refl) (fun _ _ => eq_refl) n i (le_n n) ltac:(lra) I).
      - exact (HK' _ _ _ _ u v HP MO QU QV n i (le_n n) ltac:(lra) I). }
    split.
    - apply (approached N U U' ka ka' t K0 K0' TP). intros n NP. destruct (W n NP) as (u & v & H). exists u. intros i I. destruct (H i I) as ((X & _) & (Y & _)). auto.
    - apply (approached N V V' ka ka' t K0 K0' TP). intros n NP. destruct (W n NP) as (u & v & H). exists v. intros i I. destruct (H i I) as ((_ & X) & (_ & Y)). auto.
  Qed.
End Unique.
