(* Energy along runs of the dynamic, wave and thermo-mechanical steps: C32, C59. *)
From Coq Require Import Reals List Arith Bool String Lia Lra.
From Verif Require Import Common PyModel RVec LinAlg DofModel DofSpec DirichletModel DirichletSpec DirichletProofs
  StatementModel StatementSpec StatementProofs StatementValueProofs StatementLawProofs.
Import ListNotations.
Local Open Scope list_scope.
Local Open Scope R_scope.

(* p with another previous displacement, velocity and load / temperature *)
Definition with_motion (p : physics) (u v f : vec) : physics :=
  mkPhysics (ph_N p) (ph_n p) (mass p) (stiffness p) (damping p) (memory p) (laplace p) (conduction p)
    (dielectric p) (expansion p) (coupling p) f (heat p) (ph_b p) u v (ph_th p) (ph_phi p) (ph_dt p).
Definition with_temperature (p : physics) (th : vec) : physics :=
  mkPhysics (ph_N p) (ph_n p) (mass p) (stiffness p) (damping p) (memory p) (laplace p) (conduction p)
    (dielectric p) (expansion p) (coupling p) (load p) (heat p) (ph_b p) (ph_u p) (ph_v p) th (ph_phi p) (ph_dt p).

Definition homogeneous (conds : list condition) : Prop := forall d v, prescribed conds d v -> v = 0.

Lemma homogeneous_consistent conds : homogeneous conds -> consistent (prescribed conds).
Proof. intros H d v w H1 H2. apply H in H1, H2. congruence. Qed.

(* with homogeneous conditions the residual does no work on the solution *)
Lemma obeys_work n conds (law : vec -> nat -> Prop) (res f x : vec) : well_shaped n conds -> homogeneous conds ->
  (forall i, law x i -> res i = f i) -> obeys n (prescribed conds) law x ->
  dot n x res = dot n x f.
Proof.
  intros HW HH HL [H1 H2]. apply sum_ext. intros i Hi.
  destruct (pinned (sequence conds) i) eqn:E.
  - apply (pinned_prescribed n) in E; auto. destruct E as [v Hv].
    rewrite (H1 i v Hv), (HH i v Hv). ring.
  - f_equal. apply HL. apply H2; auto. intros v Hv.
    assert (pinned (sequence conds) i = true) by (apply (pinned_prescribed n); eauto). congruence.
Qed.

Section Runs.
  Context {F : Type}.
  Variable integrate : F -> R -> F * result (nat * vec).
  Variable b : body.
  Variable conds : list condition.
  Notation world := (world F).

  (* the vector x solves the system assembled by the update of class k for data p *)
  Definition step_solved (k : kind) (p : physics) (x : vec) : Prop :=
    exists (var : variables) (w w' : world) lr,
      reads integrate b var p k w /\ update integrate b k var w = (w', Ok lr) /\ solved b k w' lr x.

  Lemma step_obeys k p x : conditions b k = Ok conds -> well_shaped (unknowns b k) conds ->
    consistent (prescribed conds) -> step_solved k p x ->
    sized b p /\ obeys (unknowns b k) (prescribed conds) (law_of p k) x.
  Proof.
    intros HC HW HK (var & w & w' & lr & HR & HU & HS). split; [apply HR|].
    destruct (update_balance integrate b var p k w conds HR HC HW HK) as (w1 & lr1 & E & H).
    rewrite HU in E. inversion E; subst. apply H. exact HS.
  Qed.

  (* -------------------------------------------------- C32, dynamic *)
  Section Dynamic.
    Variable p : physics.
    Let n := ph_n p.
    Hypothesis HC : conditions b DynamicVelocity = Ok conds.
    Hypothesis HW : well_shaped (unknowns b DynamicVelocity) conds.
    Hypothesis HH : homogeneous conds.
    Hypothesis HM : symmetric n (mass p).
    Hypothesis HE : symmetric n (stiffness p).
    Hypothesis Hdt : 0 < ph_dt p.

    Lemma dynamic_balance u v v' f : step_solved DynamicVelocity (with_motion p u v f) v' ->
      energy n (mass p) (stiffness p) (fun j => u j + ph_dt p * v' j) v'
      + ph_dt p * qform n (damping p) v' + qform n (mass p) (fun j => v' j - v j) / 2
      + ph_dt p ^ 2 * qform n (stiffness p) v' / 2
      = energy n (mass p) (stiffness p) u v + ph_dt p * dot n v' f.
    Proof.
      intros H. apply step_obeys in H; auto using homogeneous_consistent.
      destruct H as [[SN Sn] H]. cbn [with_motion ph_N ph_n] in SN, Sn.
      assert (EU : unknowns b DynamicVelocity = n) by (unfold n; rewrite Sn; reflexivity).
      rewrite EU in H. pose proof HW as HW'. rewrite EU in HW'.
      apply energy_balance; auto; [lra|].
      apply (obeys_work n conds (law_of (with_motion p u v f) DynamicVelocity) _ _ _ HW' HH); auto.
      intros i Hi. cbn [law_of] in Hi. unfold dynamic_law in Hi. cbn [with_motion ph_n mass damping stiffness load ph_v ph_u] in Hi.
      rewrite Rplus_0_r in Hi. exact Hi.
    Qed.

    Hypothesis PM : pos_semidef n (mass p).
    Hypothesis PE : pos_semidef n (stiffness p).
    Hypothesis PC : pos_semidef n (damping p).

    (* a run without loads *)
    Variables (u v : nat -> vec).
    Hypothesis run_v : forall k, step_solved DynamicVelocity (with_motion p (u k) (v k) (fun _ => 0)) (v (S k)).
    Hypothesis run_u : forall k i, (i < n)%nat -> u (S k) i = u k i + ph_dt p * v (S k) i.

    Lemma energy_u k : energy n (mass p) (stiffness p) (u (S k)) (v (S k))
      = energy n (mass p) (stiffness p) (fun j => u k j + ph_dt p * v (S k) j) (v (S k)).
    Proof.
      unfold energy. do 2 f_equal. apply qform_ext. intros i Hi. apply run_u; auto.
    Qed.

    Lemma dot_zero x : dot n x (fun _ => 0) = 0.
    Proof. apply sum_0. intros; ring. Qed.

    Lemma dynamic_energy_step k :
      energy n (mass p) (stiffness p) (u (S k)) (v (S k)) + ph_dt p * qform n (damping p) (v (S k))
      <= energy n (mass p) (stiffness p) (u k) (v k).
    Proof.
      rewrite energy_u. pose proof (dynamic_balance _ _ _ _ (run_v k)) as H. rewrite dot_zero in H.
      pose proof (PM (fun j => v (S k) j - v k j)). pose proof (PE (v (S k))).
      assert (0 <= ph_dt p ^ 2 * qform n (stiffness p) (v (S k))).
      { apply Rmult_le_pos; auto. apply pow2_ge_0. }
      lra.
    Qed.

    Lemma dynamic_energy_run j k : (j <= k)%nat ->
      energy n (mass p) (stiffness p) (u k) (v k) + ph_dt p * sum (k - j) (fun i => qform n (damping p) (v (S (j + i))))
      <= energy n (mass p) (stiffness p) (u j) (v j).
    Proof.
      intros H. replace k with (j + (k - j))%nat at 1 2 by lia. generalize (k - j)%nat as m. clear k H.
      induction m as [|m IH].
      - cbn [sum]. rewrite Nat.add_0_r. lra.
      - cbn [sum]. rewrite Nat.add_succ_r. pose proof (dynamic_energy_step (j + m)). lra.
    Qed.

    Lemma dynamic_energy_decay j k : (j <= k)%nat ->
      energy n (mass p) (stiffness p) (u k) (v k) <= energy n (mass p) (stiffness p) (u j) (v j).
    Proof.
      intros H. pose proof (dynamic_energy_run j k H).
      assert (0 <= ph_dt p * sum (k - j) (fun i => qform n (damping p) (v (S (j + i))))).
      { apply Rmult_le_pos; [lra|]. apply sum_nonneg. intros; apply PC. }
      lra.
    Qed.
  End Dynamic.

  (* ----------------------------------------------------- C32, wave *)
  Section WaveRun.
    Variable p : physics.
    Let n := ph_N p.
    Hypothesis HC : conditions b Wave = Ok conds.
    Hypothesis HW : well_shaped (unknowns b Wave) conds.
    Hypothesis HH : homogeneous conds.
    Hypothesis HM : symmetric n (mass p).
    Hypothesis HE : symmetric n (laplace p).
    Hypothesis Hdt : 0 < ph_dt p.

    Lemma wave_balance u v v' f : step_solved Wave (with_motion p u v f) v' ->
      energy n (mass p) (laplace p) (fun j => u j + ph_dt p * v' j) v'
      + qform n (mass p) (fun j => v' j - v j) / 2 + ph_dt p ^ 2 * qform n (laplace p) v' / 2
      = energy n (mass p) (laplace p) u v + ph_dt p * dot n v' f.
    Proof.
      intros H. apply step_obeys in H; auto using homogeneous_consistent.
      destruct H as [[SN Sn] H]. cbn [with_motion ph_N ph_n] in SN, Sn.
      assert (EU : unknowns b Wave = n) by (unfold n; rewrite SN; reflexivity).
      rewrite EU in H. pose proof HW as HW'. rewrite EU in HW'.
      pose proof (energy_balance n (mass p) (fun _ _ => 0) (laplace p) (ph_dt p) u v v' f HM HE) as B.
      assert (Z : qform n (fun _ _ => 0) v' = 0).
      { unfold qform, dot, mv. apply sum_0. intros i _. rewrite sum_0; [ring|]. intros; ring. }
      rewrite Z in B. rewrite <- B; [lra|lra|].
      apply (obeys_work n conds (law_of (with_motion p u v f) Wave) _ _ _ HW' HH); auto.
      intros i Hi. cbn [law_of] in Hi. unfold wave_law in Hi. cbn [with_motion ph_N mass laplace load ph_v ph_u] in Hi.
      fold n in Hi. rewrite <- Hi.
      replace (mv n (fun _ _ : nat => 0) v' i) with 0; [rewrite Rplus_0_r; reflexivity|].
      unfold mv. rewrite sum_0; [ring|]. intros; ring.
    Qed.

    Hypothesis PM : pos_semidef n (mass p).
    Hypothesis PE : pos_semidef n (laplace p).
    Variables (u v : nat -> vec).
    Hypothesis run_v : forall k, step_solved Wave (with_motion p (u k) (v k) (fun _ => 0)) (v (S k)).
    Hypothesis run_u : forall k i, (i < n)%nat -> u (S k) i = u k i + ph_dt p * v (S k) i.

    Lemma wave_energy_decay j k : (j <= k)%nat ->
      energy n (mass p) (laplace p) (u k) (v k) <= energy n (mass p) (laplace p) (u j) (v j).
    Proof.
      intros H. induction H as [|k H IH]; [lra|].
      apply Rle_trans with (2 := IH).
      pose proof (wave_balance _ _ _ _ (run_v k)) as B.
      assert (Z : dot n (v (S k)) (fun _ => 0) = 0) by (apply sum_0; intros; ring). rewrite Z in B.
      assert (EU : energy n (mass p) (laplace p) (u (S k)) (v (S k))
        = energy n (mass p) (laplace p) (fun j => u k j + ph_dt p * v (S k) j) (v (S k))).
      { unfold energy. do 2 f_equal. apply qform_ext. intros i Hi. apply run_u; auto. }
      rewrite EU. pose proof (PM (fun j => v (S k) j - v k j)). pose proof (PE (v (S k))).
      assert (0 <= ph_dt p ^ 2 * qform n (laplace p) (v (S k))).
      { apply Rmult_le_pos; auto. apply pow2_ge_0. }
      lra.
    Qed.
  End WaveRun.

  (* -------------------------------------------- C59, thermo-mechanics *)
  Section Thermal.
    Variable p : physics.
    Let n := ph_n p.
    Let N := ph_N p.
    Variable tconds : list condition.
    Hypothesis HC : conditions b DynamicVelocityWithTemperature = Ok conds.
    Hypothesis HW : well_shaped (unknowns b DynamicVelocityWithTemperature) conds.
    Hypothesis HH : homogeneous conds.
    Hypothesis TC : conditions b Temperature = Ok tconds.
    Hypothesis TW : well_shaped (unknowns b Temperature) tconds.
    Hypothesis TH : homogeneous tconds.
    Hypothesis HM : symmetric n (mass p).
    Hypothesis HE : symmetric n (stiffness p).
    Hypothesis HMN : symmetric N (mass p).
    Hypothesis Hdt : 0 < ph_dt p.

    Lemma thermal_power v th : dot n v (mv N (mT (expansion p)) th) = dot N th (mv n (expansion p) v).
    Proof.
      unfold dot, mv, mT.
      rewrite (sum_ext n _ (fun i => sum N (fun j => v i * (expansion p j i * th j)))) by (intros; rewrite sum_scal; reflexivity).
      rewrite sum_swap. apply sum_ext. intros j _. rewrite <- sum_scal. apply sum_ext. intros; ring.
    Qed.

    Lemma thermal_balance u v v' th th' :
      step_solved DynamicVelocityWithTemperature (with_temperature (with_motion p u v (fun _ => 0)) th') v' ->
      step_solved Temperature (with_temperature (with_motion p u v' (fun _ => 0)) th) th' ->
      energy n (mass p) (stiffness p) (fun j => u j + ph_dt p * v' j) v' + qform N (mass p) th' / 2
      + ph_dt p * qform n (damping p) v' + ph_dt p * qform N (conduction p) th'
      + qform n (mass p) (fun j => v' j - v j) / 2 + ph_dt p ^ 2 * qform n (stiffness p) v' / 2
      + qform N (mass p) (fun j => th' j - th j) / 2
      = energy n (mass p) (stiffness p) u v + qform N (mass p) th / 2.
    Proof.
      intros H (var & w & w' & lr & R2 & U2 & S2).
      apply step_obeys in H; auto using homogeneous_consistent.
      destruct H as [[SN Sn] H]. cbn [with_motion with_temperature ph_N ph_n] in SN, Sn.
      assert (EU : unknowns b DynamicVelocityWithTemperature = n) by (unfold n; rewrite Sn; reflexivity).
      assert (ET : unknowns b Temperature = N) by (unfold N; rewrite SN; reflexivity).
      rewrite EU in H. pose proof HW as HW'. rewrite EU in HW'.
      set (p2 := with_temperature (with_motion p u v' (fun _ => 0)) th) in *.
      destruct (update_balance integrate b var p2 Temperature w tconds R2 TC TW (homogeneous_consistent _ TH))
        as (w1 & lr1 & E1 & B1).
      rewrite U2 in E1. inversion E1; subst w1 lr1. apply B1 in S2. clear B1 E1.
      rewrite ET in S2. pose proof TW as TW'. rewrite ET in TW'.
      assert (A1 := energy_balance n (mass p) (damping p) (stiffness p) (ph_dt p) u v v'
        (mv N (mT (expansion p)) th') HM HE).
      rewrite <- Rplus_0_r with (r := energy n (mass p) (stiffness p) u v + qform N (mass p) th / 2).
      assert (Z2 : forall x, qform N (fun _ _ => 0) x = 0).
      { intros x. unfold qform, dot, mv. apply sum_0. intros i _. rewrite sum_0; [ring|]. intros; ring. }
      assert (A2 := energy_balance N (mass p) (conduction p) (fun _ _ => 0) (ph_dt p) (fun _ => 0) th th'
        (fun i => - mv n (expansion p) v' i) HMN ltac:(intros i j _ _; reflexivity)).
      unfold energy in A2. rewrite !Z2 in A2.
      assert (W : dot n v' (mv N (mT (expansion p)) th') + dot N th' (fun i => - mv n (expansion p) v' i) = 0).
      { rewrite thermal_power. unfold dot. rewrite <- sum_plus. apply sum_0. intros; ring. }
      assert (A1' : ph_dt p <> 0) by lra. specialize (A1 A1').
      specialize (A2 A1').
      assert (A1'' := A1 ltac:(
        apply (obeys_work n conds (law_of (with_temperature (with_motion p u v (fun _ => 0)) th') DynamicVelocityWithTemperature) _ _ _ HW' HH); auto;
        intros i Hi; cbn [law_of] in Hi; unfold dynamic_law, thermal_load in Hi;
        cbn [with_temperature with_motion ph_N ph_n mass damping stiffness load ph_v ph_u ph_th expansion] in Hi;
        rewrite Rplus_0_l in Hi; exact Hi)).
      assert (A2'' := A2 ltac:(
        apply (obeys_work N tconds (law_of p2 Temperature) _ _ _ TW' TH); auto;
        intros i Hi; cbn [law_of] in Hi; unfold heat_law in Hi;
        cbn [p2 with_temperature with_motion ph_N ph_n mass conduction ph_v ph_th expansion] in Hi;
        fold N in Hi; fold n in Hi; rewrite <- Hi;
        replace (mv N (fun _ _ : nat => 0) (fun j : nat => 0 + ph_dt p * th' j) i) with 0;
        [rewrite Rplus_0_r; reflexivity|unfold mv; rewrite sum_0; [ring|intros; ring]])).
      unfold energy in *. apply Rmult_eq_compat_l with (r := ph_dt p) in W. lra.
    Qed.

    Hypothesis PM : pos_semidef n (mass p).
    Hypothesis PMN : pos_semidef N (mass p).
    Hypothesis PE : pos_semidef n (stiffness p).
    Hypothesis PC : pos_semidef n (damping p).
    Hypothesis PK : pos_semidef N (conduction p).

    Lemma thermal_energy u v v' th th' :
      step_solved DynamicVelocityWithTemperature (with_temperature (with_motion p u v (fun _ => 0)) th') v' ->
      step_solved Temperature (with_temperature (with_motion p u v' (fun _ => 0)) th) th' ->
      energy n (mass p) (stiffness p) (fun j => u j + ph_dt p * v' j) v' + qform N (mass p) th' / 2
      <= energy n (mass p) (stiffness p) u v + qform N (mass p) th / 2.
    Proof.
      intros H1 H2. pose proof (thermal_balance u v v' th th' H1 H2) as B.
      pose proof (PM (fun j => v' j - v j)). pose proof (PMN (fun j => th' j - th j)).
      assert (0 <= ph_dt p ^ 2 * qform n (stiffness p) v').
      { apply Rmult_le_pos; auto. apply pow2_ge_0. }
      assert (0 <= ph_dt p * qform n (damping p) v') by (apply Rmult_le_pos; auto; lra).
      assert (0 <= ph_dt p * qform N (conduction p) th') by (apply Rmult_le_pos; auto; lra).
      lra.
    Qed.
  End Thermal.
End Runs.
