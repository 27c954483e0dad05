(* Whole runs: the laws of all steps, the energy, and runs with the class Direct. *)
From Coq Require Import Reals List Arith ZArith Bool String Lia Lra FunctionalExtensionality.
From Verif Require Import Common PyModel RVec LinAlg DofModel DofSpec DirichletModel DirichletSpec DirichletProofs
  StatementModel StatementSpec StatementProofs StatementValueProofs StatementLawProofs StatementEnergyProofs
  RegistryModel RegistrySpec RegistryProofs DispatchProofs StateModel TimeModel TimeSpec StateLemmas CopyProofs TimeProofs
  RunProofs HistoryProofs SolveProofs MarchProofs TimeTheorems TimeCorollaries MethodModel MethodProofs RunSpec WholeRunProofs
  FemModel FemSpec StatementMeshProofs.
Import ListNotations.
Local Open Scope list_scope.
Local Open Scope R_scope.

(* ------------------------------------------------------------ energy *)

Section Dissipation.
  Variable n : nat.
  Variable conds : list condition.
  Hypothesis HW : well_shaped n conds.
  Hypothesis HH : homogeneous conds.
  Variables M C E : mat.
  Hypothesis HM : symmetric n M.
  Hypothesis HE : symmetric n E.
  Hypothesis PM : pos_semidef n M.
  Hypothesis PE : pos_semidef n E.
  Variable dt : R.
  Hypothesis Hdt : 0 < dt.
  Variable loads : R -> vec.
  Variable law : vec -> vec -> R -> vec -> nat -> Prop.
  Hypothesis HL : forall u v t x i, law u v t x i ->
    mv n M (fun j => (x j - v j) / dt) i + mv n C x i + mv n E (fun j => u j + dt * x j) i = loads t i.

  Lemma governed_work u0 v0 m u v : governed n (prescribed conds) law dt u0 v0 m u v ->
    forall j q, (j <= q <= m)%nat ->
    energy n M E (u q) (v q) + dt * sum (q - j) (fun i => qform n C (v (S (j + i))))
    <= energy n M E (u j) (v j) + dt * sum (q - j) (fun i => dot n (v (S (j + i))) (loads (INR (j + i) * dt))).
  Proof.
    intros (_ & _ & G) j q Hq. replace q with (j + (q - j))%nat at 1 2 by lia.
    assert (B : (j + (q - j) <= m)%nat) by lia. revert B. generalize (q - j)%nat as r.
    induction r as [|r IH]; intros B.
    - cbn [sum]. rewrite Nat.add_0_r. lra.
    - cbn [sum]. rewrite Nat.add_succ_r. specialize (IH ltac:(lia)).
      destruct (G (j + r)%nat ltac:(lia)) as [GU GV].
      set (a := (j + r)%nat) in *.
      assert (EU : energy n M E (u (S a)) (v (S a)) = energy n M E (fun i => u a i + dt * v (S a) i) (v (S a))).
      { unfold energy. do 2 f_equal. apply qform_ext. intros i _. apply GU. }
      assert (BAL := energy_balance n M C E dt (u a) (v a) (v (S a)) (loads (INR a * dt)) HM HE ltac:(lra)
        (obeys_work n conds _ _ _ _ HW HH (HL (u a) (v a) (INR a * dt) (v (S a))) GV)).
      pose proof (PM (fun i => v (S a) i - v a i)). pose proof (PE (v (S a))).
      assert (0 <= dt ^ 2 * qform n E (v (S a))) by (apply Rmult_le_pos; auto; apply pow2_ge_0).
      rewrite EU. lra.
  Qed.

  Hypothesis PC : pos_semidef n C.
  Lemma governed_decay u0 v0 m u v : governed n (prescribed conds) law dt u0 v0 m u v ->
    (forall t i, (i < n)%nat -> loads t i = 0) ->
    forall j q, (j <= q <= m)%nat -> energy n M E (u q) (v q) <= energy n M E (u j) (v j).
  Proof.
    intros G HF j q Hq. pose proof (governed_work _ _ _ _ _ G j q Hq) as W.
    rewrite (sum_ext (q - j) (fun i => dot n (v (S (j + i))) (loads (INR (j + i) * dt))) (fun _ => 0)) in W.
    2:{ intros i _. apply sum_0. intros a Ha. rewrite HF by exact Ha. ring. }
    rewrite (sum_0 (q - j) (fun _ => 0)) in W by (intros; reflexivity).
    assert (0 <= dt * sum (q - j) (fun i => qform n C (v (S (j + i))))).
    { apply Rmult_le_pos; [lra|]. apply sum_nonneg. intros; apply PC. }
    lra.
  Qed.
End Dissipation.

Section Whole.
  Context {V W F : Type}.
  Variable integrate : F -> R -> F * result (nat * vec).
  Variable b : body.
  Variable k : kind.
  Variable p : physics.
  Variable loads : R -> vec.
  Variable relaxations : R -> mat.
  Variables forceful heated : F -> Prop.
  Variable conds : list condition.
  Variable c : solver_class.
  Variable answer : method F -> vec -> vec -> vec -> R -> result (nat * vec).
  Variable nodes : vec.
  Notation dimension := (b_dimension b).
  Notation nodes_count := (b_count b).
  Notation iterate := (iterate integrate b k c).
  Notation equipped := (equipped b k p relaxations forceful heated).
  Notation moment := (moment k p loads relaxations).
  Notation updated := (updated integrate b k p loads relaxations forceful heated conds).
  Notation holds_solution := (holds_solution b k).
  Notation dynamic_solve := (@dynamic_solve V W (method F) dimension nodes_count nodes iterate answer).
  Notation wave_solve := (@wave_solve V W (method F) dimension nodes_count nodes iterate answer).
  Notation relaxation_solve := (@relaxation_solve V W (method F) dimension nodes_count nodes iterate answer).
  Notation static_solve := (@static_solve V W (method F) dimension nodes_count nodes iterate answer).
  Notation driver := (driver V (method F)).
  Implicit Type d : driver.
  Notation look := (@look V W).

  (* answers that solve the system held, once it is one of the library *)
  Definition solves_held : Prop := forall x dt t i g v u len y, updated x dt t i ->
    answer i g v u dt = Ok (len, y) -> holds_solution i y.

  (* the law of a step of a run: arrays that do not change, and the loads of the time *)
  Definition run_law (vb vt vp : vec) (dt : R) (u v : vec) (t : R) : vec -> nat -> Prop :=
    law_of (moment (mkVectors vb u v vt vp) dt t) k.
  Definition creep_law (vv vt vp : vec) (dt : R) (ab u : vec) (t : R) : vec -> nat -> Prop :=
    law_of (moment (mkVectors ab u vv vt vp) dt t) k.

  Hypothesis KF : keeps_force integrate b k loads forceful.
  Hypothesis KH : keeps_heat integrate b p heated.
  Hypothesis HC : conditions b k = Ok conds.
  Hypothesis HW : well_shaped (unknowns b k) conds.
  Hypothesis HK : consistent (prescribed conds).
  Hypothesis HA : solves_held.

  Lemma accepted_obeys x dt t i y : updated x dt t i -> holds_solution i y ->
    obeys (unknowns b k) (prescribed conds) (law_of (moment x dt t) k) y.
  Proof.
    intros U A. destruct U as (_ & _ & _ & _ & U). apply U in A.
    apply (step_obeys _ _ conds) in A; auto. apply A.
  Qed.

  Section Renewing.
    Hypothesis RN : renews integrate b k c.

    Theorem dynamic_governed n u0 v0 out given d d' l : fit d -> in_stock (d_mem d) given ->
      non_decreasing 0 (requested n out) -> current_time (d_sv d) = 0 ->
      equipped (m_world (inner (d_sv d))) -> can_step k (dt_of d) ->
      dynamic_solve n u0 v0 out given d = (d', Ok l) ->
      exists u v, governed (unknowns b k) (prescribed conds)
          (run_law (held_vec d b_vector) (held_vec d t_vector) (held_vec d p_vector) (dt_of d))
          (dt_of d) u0 v0 (last_step n out) u v /\
        List.length l = List.length (requested n out) /\
        forall j q (s : state W), nth_error (requested n out) j = Some q -> nth_error l j = Some s ->
          shows (dt_of d) u v (Z.to_nat q) (look (d_mem d') s).
    Proof.
      intros Ft G ND C E S H.
      destruct (dynamic_marches integrate b k p loads relaxations forceful heated conds c answer nodes KF KH HC HW
        (fun i v u dt y => holds_solution i y) HA RN n u0 v0 out given d d' l Ft G ND C E S H) as (u & v & M & LL & SH).
      exists u, v. split; [|split; [exact LL|exact SH]].
      destruct M as (M1 & M2 & M3). split; [exact M1|]. split; [exact M2|]. intros j L. destruct (M3 j L) as (M4 & i & M5 & M6).
      split; [exact M4|]. eapply accepted_obeys; eauto.
    Qed.

    Theorem wave_governed n u0 v0 out given d d' s0 l : fit d -> in_stock (d_mem d) given ->
      non_decreasing 0 (requested n out) ->
      equipped (m_world (inner (d_sv d))) -> can_step k (dt_of d) ->
      wave_solve n u0 v0 None out given d = (d', s0, Ok l) ->
      exists u v, governed (unknowns b k) (prescribed conds)
          (run_law (held_vec d b_vector) (held_vec d t_vector) (held_vec d p_vector) (dt_of d))
          (dt_of d) u0 v0 (last_step n out) u v /\
        List.length l = List.length (requested n out) /\
        forall j q (s : state W), nth_error (requested n out) j = Some q -> nth_error l j = Some s ->
          shows (dt_of d) u v (Z.to_nat q) (look (d_mem d') s).
    Proof.
      intros Ft G ND E S H.
      destruct (wave_marches integrate b k p loads relaxations forceful heated conds c answer nodes KF KH HC HW
        (fun i v u dt y => holds_solution i y) HA RN n u0 v0 out given d d' s0 l Ft G ND E S H) as (u & v & M & LL & SH).
      exists u, v. split; [|split; [exact LL|exact SH]].
      destruct M as (M1 & M2 & M3). split; [exact M1|]. split; [exact M2|]. intros j L. destruct (M3 j L) as (M4 & i & M5 & M6).
      split; [exact M4|]. eapply accepted_obeys; eauto.
    Qed.

    Theorem relaxation_governed n b0 u0 out given d d' l : fit d -> in_stock (d_mem d) given ->
      non_decreasing 0 (requested n out) -> current_time (d_sv d) = 0 ->
      equipped (m_world (inner (d_sv d))) -> can_step k (dt_of d) ->
      relaxation_solve n b0 u0 out given d = (d', Ok l) ->
      exists ab u, governed (unknowns b k) (prescribed conds)
          (creep_law (held_vec d v_vector) (held_vec d t_vector) (held_vec d p_vector) (dt_of d))
          (dt_of d) b0 u0 (last_step n out) ab u /\
        List.length l = List.length (requested n out) /\
        forall j q (s : state W), nth_error (requested n out) j = Some q -> nth_error l j = Some s ->
          shows_creep (dt_of d) ab u (Z.to_nat q) (look (d_mem d') s).
    Proof.
      intros Ft G ND C E S H.
      destruct (relaxation_creeps integrate b k p loads relaxations forceful heated conds c answer nodes KF KH HC HW
        (fun i v u dt y => holds_solution i y) HA RN n b0 u0 out given d d' l Ft G ND C E S H) as (ab & u & M & LL & SH).
      exists ab, u. split; [|split; [exact LL|exact SH]].
      destruct M as (M1 & M2 & M3). split; [exact M1|]. split; [exact M2|]. intros j L. destruct (M3 j L) as (M4 & i & M5 & M6).
      split; [exact M4|]. eapply accepted_obeys; eauto.
    Qed.
  End Renewing.

  Theorem static_obeys u0 given d d' s x0 t0 : k = StaticDisplacement -> fit d -> in_stock (d_mem d) given ->
    updated x0 (dt_of d) t0 (inner (d_sv d)) ->
    renews integrate b k c \/ (forall g, iterate_variables c g = None) ->
    static_solve u0 given d = (d', Ok s) ->
    obeys (unknowns b k) (prescribed conds)
      (fun y i => mv (ph_n p) (stiffness p) y i = loads 0 i) (view_displacement (look (d_mem d') s)).
  Proof.
    intros K Ft G U RI H.
    destruct (static_run integrate b k p loads relaxations forceful heated conds c answer nodes KF KH HC HW
        (fun i v u dt y => holds_solution i y) HA u0 given d d' s K Ft G ltac:(eauto) RI H) as (x & t & i & Ui & A).
    pose proof (accepted_obeys _ _ _ _ _ Ui A) as O. unfold law_of, moment, load_moment in O. rewrite K in O. rewrite K.
    exact O.
  Qed.

  (* -------------------------------------------------------- C79 *)

  (* runs with a class whose iterate() does nothing: every step solves the same system *)
  Theorem dynamic_never_renewed n u0 v0 out given d d' l x0 t0 : (forall g, iterate_variables c g = None) ->
    fit d -> in_stock (d_mem d) given ->
    non_decreasing 0 (requested n out) -> current_time (d_sv d) = 0 ->
    updated x0 (dt_of d) t0 (inner (d_sv d)) ->
    dynamic_solve n u0 v0 out given d = (d', Ok l) ->
    exists u v, governed (unknowns b k) (prescribed conds) (fun _ _ _ => law_of (moment x0 (dt_of d) t0) k)
        (dt_of d) u0 v0 (last_step n out) u v /\
      List.length l = List.length (requested n out) /\
      forall j q (s : state W), nth_error (requested n out) j = Some q -> nth_error l j = Some s ->
        shows (dt_of d) u v (Z.to_nat q) (look (d_mem d') s).
  Proof.
    intros ID Ft G ND C U H.
    destruct (dynamic_frozen integrate b k p loads relaxations forceful heated conds c answer nodes
        (fun i v u dt y => holds_solution i y) HA ID n u0 v0 out given d d' l x0 t0 Ft G ND C U H) as (u & v & M & LL & SH).
    exists u, v. split; [|split; [exact LL|exact SH]].
    destruct M as (M1 & M2 & M3). split; [exact M1|]. split; [exact M2|]. intros j L. destruct (M3 j L) as (M4 & i & M5 & M6).
    split; [exact M4|]. eapply accepted_obeys; eauto.
  Qed.

  Theorem wave_never_renewed n u0 v0 out given d d' s0 l x0 t0 : (forall g, iterate_variables c g = None) ->
    fit d -> in_stock (d_mem d) given ->
    non_decreasing 0 (requested n out) ->
    updated x0 (dt_of d) t0 (inner (d_sv d)) ->
    wave_solve n u0 v0 None out given d = (d', s0, Ok l) ->
    exists u v, governed (unknowns b k) (prescribed conds) (fun _ _ _ => law_of (moment x0 (dt_of d) t0) k)
        (dt_of d) u0 v0 (last_step n out) u v /\
      List.length l = List.length (requested n out) /\
      forall j q (s : state W), nth_error (requested n out) j = Some q -> nth_error l j = Some s ->
        shows (dt_of d) u v (Z.to_nat q) (look (d_mem d') s).
  Proof.
    intros ID Ft G ND U H.
    destruct (wave_frozen integrate b k p loads relaxations forceful heated conds c answer nodes
        (fun i v u dt y => holds_solution i y) HA ID n u0 v0 out given d d' s0 l x0 t0 Ft G ND U H) as (u & v & M & LL & SH).
    exists u, v. split; [|split; [exact LL|exact SH]].
    destruct M as (M1 & M2 & M3). split; [exact M1|]. split; [exact M2|]. intros j L. destruct (M3 j L) as (M4 & i & M5 & M6).
    split; [exact M4|]. eapply accepted_obeys; eauto.
  Qed.
End Whole.

(* Direct.solve answers with a solution *)
Lemma direct_solves {F} (integrate : F -> R -> F * result (nat * vec)) b k p loads relaxations forceful heated conds linsolve :
  (forall n A r x, linsolve n A r = Ok x -> solves n A r x) ->
  conditions b k = Ok conds -> well_shaped (unknowns b k) conds ->
  solves_held integrate b k p loads relaxations forceful heated conds (direct_answer b k linsolve).
Proof.
  intros LS HC HW x dt t i g v u len y U H.
  destruct U as (_ & LEN & ML & VR & _).
  unfold direct_answer, direct_solve_impl in H. rewrite LEN in H.
  destruct (linsolve _ _ _) as [z|e] eqn:E; [|discriminate]. cbn [bind] in H. apply LS in E.
  unfold conditions in HC.
  set (z' := if (unknowns b k <? b_dimension b * b_count b)%nat then fun j => if (j <? unknowns b k)%nat then z j else 0 else z).
  assert (Z : veq (unknowns b k) z' z).
  { intros j Hj. unfold z'. destruct (_ <? _)%nat; [|reflexivity]. destruct (Nat.ltb_spec j (unknowns b k)); [reflexivity|lia]. }
  assert (Y : y = overwrite_all conds z').
  { unfold z'. destruct (_ <? b_dimension b * b_count b)%nat; cbn [bind] in H; rewrite HC in H; cbn [bind] in H; injection H as _ <-; reflexivity. }
  clear H. subst y.
  assert (S : solves (unknowns b k) (lhs (final b (moment k p loads relaxations x dt t) k conds))
                (rhs (final b (moment k p loads relaxations x dt t) k conds)) z').
  { assert (S0 : solves (unknowns b k) (lhs (final b (moment k p loads relaxations x dt t) k conds))
      (rhs (final b (moment k p loads relaxations x dt t) k conds)) z) by (eapply solves_ext; [exact ML|exact VR|exact E]).
    intros j Hj. rewrite <- (S0 j Hj). apply sum_ext. intros a Ha. rewrite Z by exact Ha. reflexivity. }
  assert (O := overwrite_solution (unknowns b k) _ _ conds z' HW S).
  unfold holds_solution, solved; cbn [fst snd]. intros j Hj. rewrite <- (E j Hj). unfold mv. apply sum_ext. intros a Ha. rewrite (O a Ha), (Z a Ha). reflexivity.
Qed.

(* without renewal, Direct gives the same velocity in every step *)
Lemma direct_same {F} (integrate : F -> R -> F * result (nat * vec)) b k linsolve vb vt vp dt t0 s0 n inn u v :
  velocity_history (iterate integrate b k Direct) (direct_answer b k linsolve) (b_dimension b * b_count b) vb vt vp dt t0 s0 n inn u v ->
  forall j, (j < n)%nat -> v (S j) = v 1%nat.
Proof.
  intros H j L.
  assert (I : inn j = inn O) by (eapply idle_inner; [|exact H|lia]; intros; reflexivity).
  destruct (H j L) as (A & _ & _). destruct (H O ltac:(lia)) as (A0 & _ & _).
  unfold direct_answer in *. rewrite I in A. rewrite A in A0. injection A0 as A0. exact A0.
Qed.

(* ------------------------------------------------------------- C82 *)

Lemma non_decreasing_le : forall l from i j x y, non_decreasing from l -> (i <= j)%nat ->
  nth_error l i = Some x -> nth_error l j = Some y -> (from <= x <= y)%Z.
Proof.
  induction l as [|a l IH]; intros from i j x y N L Hi Hj; [destruct i; discriminate|].
  cbn [non_decreasing] in N. destruct N as [La N]. destruct i as [|i].
  - injection Hi as <-. destruct j as [|j]; [injection Hj as <-; lia|]. cbn [nth_error] in Hj.
    pose proof (IH a j j y y N ltac:(lia) Hj Hj). lia.
  - destruct j as [|j]; [lia|]. cbn [nth_error] in Hi, Hj. pose proof (IH a i j x y N ltac:(lia) Hi Hj). lia.
Qed.

Section Energies.
  Context {V W F : Type}.
  Variable integrate : F -> R -> F * result (nat * vec).
  Variable b : body.
  Variable p : physics.
  Variable relaxations : R -> mat.
  Variable loads : R -> vec.
  Variables forceful heated : F -> Prop.
  Variable conds : list condition.
  Variable c : solver_class.
  Variable answer : method F -> vec -> vec -> vec -> R -> result (nat * vec).
  Variable nodes : vec.
  Notation dimension := (b_dimension b).
  Notation nodes_count := (b_count b).
  Notation look := (@look V W).

  Definition kinetic_and_elastic (n : nat) (M E : mat) (w : view) : R :=
    energy n M E (view_displacement w) (view_velocity w).

  (* energies of the returned states against those of earlier ones and of the initial values *)
  Lemma returned_decay n M E dt u0 v0 m out l (mem : store V) (u v : nat -> vec) :
    (forall j q, (j <= q <= last_step m out)%nat -> energy n M E (u q) (v q) <= energy n M E (u j) (v j)) ->
    u O = u0 -> v O = v0 -> non_decreasing 0 (requested m out) ->
    List.length l = List.length (requested m out) ->
    (forall j q (s : state W), nth_error (requested m out) j = Some q -> nth_error l j = Some s ->
       shows dt u v (Z.to_nat q) (look mem s)) ->
    (forall j (s : state W), nth_error l j = Some s ->
       kinetic_and_elastic n M E (look mem s) <= energy n M E u0 v0) /\
    (forall i j (s s' : state W), (i <= j)%nat -> nth_error l i = Some s -> nth_error l j = Some s' ->
       kinetic_and_elastic n M E (look mem s') <= kinetic_and_elastic n M E (look mem s)).
  Proof.
    intros D U0 V0 ND LL SH.
    assert (Q : forall j (s : state W), nth_error l j = Some s -> exists q, nth_error (requested m out) j = Some q).
    { intros j s Hs. destruct (nth_error (requested m out) j) eqn:E0; [eauto|].
      apply nth_error_None in E0. assert (nth_error l j <> None) by congruence. apply nth_error_Some in H. lia. }
    assert (B : forall j q, nth_error (requested m out) j = Some q -> (Z.to_nat q <= last_step m out)%nat).
    { intros j q Hq. unfold last_step. pose proof (non_decreasing_last _ _ _ ND (nth_error_In _ _ Hq)). lia. }
    assert (EN : forall j q (s : state W), nth_error (requested m out) j = Some q -> nth_error l j = Some s ->
      kinetic_and_elastic n M E (look mem s) = energy n M E (u (Z.to_nat q)) (v (Z.to_nat q))).
    { intros j q s Hq Hs. destruct (SH j q s Hq Hs) as (_ & S1 & S2). unfold kinetic_and_elastic. rewrite S1, S2. reflexivity. }
    split.
    - intros j s Hs. destruct (Q j s Hs) as [q Hq]. rewrite (EN j q s Hq Hs), <- U0, <- V0.
      apply D. split; [lia|]. exact (B j q Hq).
    - intros i j s s' L Hs Hs'. destruct (Q i s Hs) as [q Hq]. destruct (Q j s' Hs') as [q' Hq'].
      rewrite (EN i q s Hq Hs), (EN j q' s' Hq' Hs'). apply D. split; [|exact (B j q' Hq')].
      pose proof (non_decreasing_le _ _ _ _ _ _ ND L Hq Hq'). lia.
  Qed.

  Hypothesis HH : homogeneous conds.
  Hypothesis F0 : forall t i, loads t i = 0.

  Theorem dynamic_run_decay n u0 v0 out given d d' l : let k := DynamicVelocity in
    keeps_force integrate b k loads forceful -> keeps_heat integrate b p heated ->
    conditions b k = Ok conds -> well_shaped (unknowns b k) conds -> renews integrate b k c ->
    solves_held integrate b k p loads relaxations forceful heated conds answer ->
    symmetric (ph_n p) (mass p) -> pos_semidef (ph_n p) (mass p) ->
    symmetric (ph_n p) (stiffness p) -> pos_semidef (ph_n p) (stiffness p) -> pos_semidef (ph_n p) (damping p) ->
    fit d -> in_stock (d_mem d) given -> non_decreasing 0 (requested n out) -> current_time (d_sv d) = 0 ->
    equipped b k p relaxations forceful heated (m_world (inner (d_sv d))) -> 0 < dt_of d ->
    @dynamic_solve V W (method F) dimension nodes_count nodes (iterate integrate b k c) answer n u0 v0 out given d = (d', Ok l) ->
    let total w := kinetic_and_elastic (ph_n p) (mass p) (stiffness p) w in
    (forall j (s : state W), nth_error l j = Some s ->
       total (look (d_mem d') s) <= energy (ph_n p) (mass p) (stiffness p) u0 v0) /\
    (forall i j (s s' : state W), (i <= j)%nat -> nth_error l i = Some s -> nth_error l j = Some s' ->
       total (look (d_mem d') s') <= total (look (d_mem d') s)).
  Proof.
    intros k KF KH HC HW RN HA SM PM SE PE PC Ft G ND C E Hdt H total.
    assert (N : unknowns b k = ph_n p) by (destruct E as (_ & E & _); rewrite E; reflexivity).
    destruct (dynamic_governed integrate b k p loads relaxations forceful heated conds c answer nodes KF KH HC HW
      (homogeneous_consistent _ HH) HA RN n u0 v0 out given d d' l Ft G ND C E) as (u & v & GV & LL & SH); [cbn; lra|exact H|].
    rewrite N in GV, HW. unfold total.
    destruct GV as (U0 & V0 & GS). assert (GV : governed (ph_n p) (prescribed conds) (run_law k p loads relaxations (held_vec d b_vector) (held_vec d t_vector) (held_vec d p_vector) (dt_of d)) (dt_of d) u0 v0 (last_step n out) u v) by (split; auto).
    eapply (returned_decay (ph_n p) (mass p) (stiffness p) (dt_of d) u0 v0 n out l (d_mem d') u v); auto.
    eapply (governed_decay (ph_n p) conds HW HH (mass p) (damping p) (stiffness p) SM SE PM PE (dt_of d) Hdt loads); try exact GV; auto.
    intros u1 v1 t x i L. unfold run_law, k in L. cbn [law_of] in L. unfold dynamic_law in L.
    rewrite Rplus_0_r in L. exact L.
  Qed.

  Theorem wave_run_decay n u0 v0 out given d d' s0 l : let k := Wave in
    keeps_force integrate b k loads forceful -> keeps_heat integrate b p heated ->
    conditions b k = Ok conds -> well_shaped (unknowns b k) conds -> renews integrate b k c ->
    solves_held integrate b k p loads relaxations forceful heated conds answer ->
    symmetric (ph_N p) (mass p) -> pos_semidef (ph_N p) (mass p) ->
    symmetric (ph_N p) (laplace p) -> pos_semidef (ph_N p) (laplace p) ->
    fit d -> in_stock (d_mem d) given -> non_decreasing 0 (requested n out) ->
    equipped b k p relaxations forceful heated (m_world (inner (d_sv d))) -> 0 < dt_of d ->
    @wave_solve V W (method F) dimension nodes_count nodes (iterate integrate b k c) answer n u0 v0 None out given d = (d', s0, Ok l) ->
    let total w := kinetic_and_elastic (ph_N p) (mass p) (laplace p) w in
    (forall j (s : state W), nth_error l j = Some s ->
       total (look (d_mem d') s) <= energy (ph_N p) (mass p) (laplace p) u0 v0) /\
    (forall i j (s s' : state W), (i <= j)%nat -> nth_error l i = Some s -> nth_error l j = Some s' ->
       total (look (d_mem d') s') <= total (look (d_mem d') s)).
  Proof.
    intros k KF KH HC HW RN HA SM PM SE PE Ft G ND E Hdt H total.
    assert (N : unknowns b k = ph_N p) by (destruct E as (E & _); rewrite E; reflexivity).
    destruct (wave_governed integrate b k p loads relaxations forceful heated conds c answer nodes KF KH HC HW
      (homogeneous_consistent _ HH) HA RN n u0 v0 out given d d' s0 l Ft G ND E) as (u & v & GV & LL & SH); [cbn; lra|exact H|].
    rewrite N in GV, HW. unfold total.
    destruct GV as (U0 & V0 & GS). assert (GV : governed (ph_N p) (prescribed conds) (run_law k p loads relaxations (held_vec d b_vector) (held_vec d t_vector) (held_vec d p_vector) (dt_of d)) (dt_of d) u0 v0 (last_step n out) u v) by (split; auto).
    eapply (returned_decay (ph_N p) (mass p) (laplace p) (dt_of d) u0 v0 n out l (d_mem d') u v); auto.
    assert (Z : forall x i, mv (ph_N p) (fun _ _ => 0) x i = 0).
    { intros x i. unfold mv. apply sum_0. intros; ring. }
    eapply (governed_decay (ph_N p) conds HW HH (mass p) (fun _ _ => 0) (laplace p) SM SE PM PE (dt_of d) Hdt loads); try exact GV; auto.
    - intros u1 v1 t x i L. unfold run_law, k in L. cbn [law_of] in L. unfold wave_law in L.
      rewrite Z, Rplus_0_r. exact L.
    - intros x. unfold qform, dot. right. symmetry. apply sum_0. intros i _. rewrite Z. ring.
  Qed.
End Energies.
