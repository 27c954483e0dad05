(* Whole runs of the drivers with a step solver that has its statement: each step obeys the balance
   law of its time, and what follows for the energy; and the solver that never updates. *)
From Coq Require Import Reals List Arith ZArith Bool String Lia Lra FunctionalExtensionality.
From Verif Require Import Common PyModel RVec LinAlg DofModel DofSpec DirichletModel DirichletSpec DirichletProofs
  StatementModel StatementSpec StatementProofs StatementValueProofs StatementLawProofs StatementEnergyProofs
  RegistryModel RegistrySpec RegistryProofs DispatchProofs StateModel TimeModel TimeSpec StateLemmas CopyProofs TimeProofs
  RunProofs HistoryProofs SolveProofs MarchProofs TimeTheorems TimeCorollaries MethodModel MethodProofs RunSpec.
Import ListNotations.
Local Open Scope list_scope.
Local Open Scope R_scope.

Section Whole.
  Context {V W F : Type}.
  Variable integrate : F -> R -> F * result (nat * vec).
  Variable b : body.
  Variable k : kind.
  Variable p : physics.
  Variable loads : R -> vec.
  Variable relaxations : R -> mat.
  Variables forceful heated : F -> Prop.
  Variable conds : list condition.
  Variable c : solver_class.
  Variable answer : method F -> vec -> vec -> vec -> R -> result (nat * vec).
  Variable nodes : vec.
  Notation dimension := (b_dimension b).
  Notation nodes_count := (b_count b).
  Notation size := (dimension * nodes_count)%nat.
  Notation iterate := (iterate integrate b k c).
  Notation equipped := (equipped b k p relaxations forceful heated).
  Notation moment := (moment k p loads relaxations).
  Notation updated := (updated integrate b k p loads relaxations forceful heated conds).
  Notation holds_solution := (holds_solution b k).
  Notation dynamic_solve := (@dynamic_solve V W (method F) dimension nodes_count nodes iterate answer).
  Notation wave_solve := (@wave_solve V W (method F) dimension nodes_count nodes iterate answer).
  Notation relaxation_solve := (@relaxation_solve V W (method F) dimension nodes_count nodes iterate answer).
  Notation static_solve := (@static_solve V W (method F) dimension nodes_count nodes iterate answer).
  Notation driver := (driver V (method F)).
  Implicit Type d : driver.
  Notation look := (@look V W).
  Notation velocity_answer := (@velocity_answer V W (method F)).

  Hypothesis KF : keeps_force integrate b k loads forceful.
  Hypothesis KH : keeps_heat integrate b p heated.
  Hypothesis HC : conditions b k = Ok conds.
  Hypothesis HW : well_shaped (unknowns b k) conds.
  (* what is known of an answer: i the solver, v and u its arrays, dt its time step *)
  Variable accepts : method F -> vec -> vec -> R -> vec -> Prop.
  Hypothesis HA : forall x dt t i g v u len y, updated x dt t i ->
    answer i g v u dt = Ok (len, y) -> accepts i v u dt y.

  (* y is an answer to the system of the arrays x at time t *)
  Definition step_by (x : vectors) (dt t : R) (y : vec) : Prop :=
    exists i, updated x dt t i /\ accepts i (vec_v x) (vec_u x) dt y.

  Section Renewing.
    Hypothesis RN : renews integrate b k c.

    Lemma iterate_ok_updated i x dt t i' : equipped (m_world i) -> can_step k dt -> iterate i x dt t = Ok i' -> updated x dt t i'.
    Proof.
      intros E Hdt H. destruct (iterate_updated integrate b k p loads relaxations forceful heated KF KH conds HC HW c i x dt t RN E Hdt)
        as (j & J1 & J2). rewrite J1 in H. injection H as <-. exact J2.
    Qed.

    (* a history: each answer solves the system of the arrays before the step, at the time before it *)
    Lemma velocity_laws vb vt vp dt t0 s0 n inner u v i0 :
      velocity_history iterate answer size vb vt vp dt t0 s0 n inner u v -> can_step k dt ->
      equipped (m_world i0) -> iterate i0 (mkVectors vb (u O) (v O) vt vp) dt t0 = Ok (inner O) ->
      forall j, (j < n)%nat ->
        step_by (mkVectors vb (u j) (v j) vt vp) dt (instant t0 dt j) (v (S j)).
    Proof.
      intros H Hdt E0 I0.
      assert (U : forall j, (j <= n)%nat -> updated (mkVectors vb (u j) (v j) vt vp) dt (instant t0 dt j) (inner j)).
      { induction j as [|j IH]; intros L.
        - unfold instant. cbn [INR]. rewrite Rmult_0_l, Rplus_0_r. eapply iterate_ok_updated; eauto.
        - destruct (H j ltac:(lia)) as (_ & _ & HI). destruct (IH ltac:(lia)) as (E & _).
          eapply iterate_ok_updated; eauto. }
      intros j L. destruct (H j L) as (A & _ & _). exists (inner j). split; [exact (U j ltac:(lia))|].
      exact (HA _ _ _ _ _ _ _ _ _ (U j ltac:(lia)) A).
    Qed.

    Lemma displacement_laws vv vt vp dt t0 s0 n inner ab u i0 :
      displacement_history iterate answer size vv vt vp dt t0 s0 n inner ab u -> can_step k dt ->
      equipped (m_world i0) -> iterate i0 (mkVectors (ab O) (u O) vv vt vp) dt t0 = Ok (inner O) ->
      forall j, (j < n)%nat ->
        step_by (mkVectors (ab j) (u j) vv vt vp) dt (instant t0 dt j) (u (S j)).
    Proof.
      intros H Hdt E0 I0.
      assert (U : forall j, (j <= n)%nat -> updated (mkVectors (ab j) (u j) vv vt vp) dt (instant t0 dt j) (inner j)).
      { induction j as [|j IH]; intros L.
        - unfold instant. cbn [INR]. rewrite Rmult_0_l, Rplus_0_r. eapply iterate_ok_updated; eauto.
        - destruct (H j ltac:(lia)) as (_ & _ & HI). destruct (IH ltac:(lia)) as (E & _).
          eapply iterate_ok_updated; eauto. }
      intros j L. destruct (H j L) as (A & _ & _). exists (inner j). split; [exact (U j ltac:(lia))|].
      exact (HA _ _ _ _ _ _ _ _ _ (U j ltac:(lia)) A).
    Qed.

    (* what a velocity driven run is: fields u, v from the initial ones, one time step after the other *)
    Definition marches (dt : R) (u0 v0 vb vt vp : vec) (n : nat) (u v : nat -> vec) : Prop :=
      u O = u0 /\ v O = v0 /\
      forall j, (j < n)%nat ->
        (forall i, u (S j) i = u j i + dt * v (S j) i) /\
        step_by (mkVectors vb (u j) (v j) vt vp) dt (INR j * dt) (v (S j)).

    Lemma answer_marches d d' i u0 v0 n out l : equipped (m_world (inner (d_sv d))) -> can_step k (dt_of d) ->
      first_iterate iterate d 0 u0 v0 = Ok i ->
      velocity_answer dimension nodes_count nodes iterate answer d d' i 0 u0 v0 n out l ->
      exists u v, marches (dt_of d) u0 v0 (held_vec d b_vector) (held_vec d t_vector) (held_vec d p_vector) (last_step n out) u v /\
        List.length l = List.length (requested n out) /\
        forall j q (s : state W), nth_error (requested n out) j = Some q -> nth_error l j = Some s ->
          shows (dt_of d) u v (Z.to_nat q) (look (d_mem d') s).
    Proof.
      intros E Hdt I0 (inn & u & v & N0 & U0 & V0 & H & LL & S & _).
      exists u, v. split; [|split; [exact LL|]].
      - split; [exact U0|]. split; [exact V0|]. intros j L. split.
        + intros a. destruct (H j L) as (_ & HU & _). rewrite HU. unfold behind. destruct j; ring.
        + replace (INR j * dt_of d) with (instant 0 (dt_of d) j) by (unfold instant; ring).
          refine (velocity_laws _ _ _ _ _ _ _ _ _ _ _ H Hdt E _ j L). rewrite U0, V0, N0. exact I0.
      - intros j q s Hq Hs. rewrite (S _ _ _ Hq Hs). unfold shows, velocity_view. destruct (Z.to_nat q) as [|m];
          cbn [view_time view_displacement view_velocity]; unfold instant; (split; [rewrite ?Rplus_0_l; try reflexivity; cbn [INR]; ring|split; reflexivity]).
    Qed.

    Lemma dynamic_marches n u0 v0 out given d d' l : fit d -> in_stock (d_mem d) given ->
      non_decreasing 0 (requested n out) -> current_time (d_sv d) = 0 ->
      equipped (m_world (inner (d_sv d))) -> can_step k (dt_of d) ->
      dynamic_solve n u0 v0 out given d = (d', Ok l) ->
      exists u v, marches (dt_of d) u0 v0 (held_vec d b_vector) (held_vec d t_vector) (held_vec d p_vector) (last_step n out) u v /\
        List.length l = List.length (requested n out) /\
        forall j q (s : state W), nth_error (requested n out) j = Some q -> nth_error l j = Some s ->
          shows (dt_of d) u v (Z.to_nat q) (look (d_mem d') s).
    Proof.
      intros Ft G ND C E Hdt H. destruct (dynamic_answers _ _ _ _ _ _ _ _ _ _ _ _ _ Ft G ND H) as (i & I0 & A).
      rewrite C in A, I0. eapply answer_marches; eauto.
    Qed.

    Lemma wave_marches n u0 v0 out given d d' s0 l : fit d -> in_stock (d_mem d) given ->
      non_decreasing 0 (requested n out) ->
      equipped (m_world (inner (d_sv d))) -> can_step k (dt_of d) ->
      wave_solve n u0 v0 None out given d = (d', s0, Ok l) ->
      exists u v, marches (dt_of d) u0 v0 (held_vec d b_vector) (held_vec d t_vector) (held_vec d p_vector) (last_step n out) u v /\
        List.length l = List.length (requested n out) /\
        forall j q (s : state W), nth_error (requested n out) j = Some q -> nth_error l j = Some s ->
          shows (dt_of d) u v (Z.to_nat q) (look (d_mem d') s).
    Proof.
      intros Ft G ND E Hdt H. destruct (wave_answers _ _ _ _ _ _ _ _ _ _ _ _ _ _ Ft G ND H) as (i & I0 & A).
      eapply answer_marches; eauto.
    Qed.

    (* displacement driven *)
    Definition creeps (dt : R) (b0 u0 vv vt vp : vec) (n : nat) (ab u : nat -> vec) : Prop :=
      ab O = b0 /\ u O = u0 /\
      forall j, (j < n)%nat ->
        (forall i, ab (S j) i = ab j i + dt * u (S j) i) /\
        step_by (mkVectors (ab j) (u j) vv vt vp) dt (INR j * dt) (u (S j)).

    Lemma relaxation_creeps n b0 u0 out given d d' l : fit d -> in_stock (d_mem d) given ->
      non_decreasing 0 (requested n out) -> current_time (d_sv d) = 0 ->
      equipped (m_world (inner (d_sv d))) -> can_step k (dt_of d) ->
      relaxation_solve n b0 u0 out given d = (d', Ok l) ->
      exists ab u, creeps (dt_of d) b0 u0 (held_vec d v_vector) (held_vec d t_vector) (held_vec d p_vector) (last_step n out) ab u /\
        List.length l = List.length (requested n out) /\
        forall j q (s : state W), nth_error (requested n out) j = Some q -> nth_error l j = Some s ->
          shows_creep (dt_of d) ab u (Z.to_nat q) (look (d_mem d') s).
    Proof.
      intros Ft G ND C E Hdt H.
      destruct (relaxation_answers _ _ _ _ _ _ _ _ _ _ _ _ _ Ft G ND H) as (i & I0 & (inn & ab & u & N0 & B0 & U0 & HH & LL & S & _)).
      rewrite C in *. exists ab, u. split; [|split; [exact LL|]].
      - split; [exact B0|]. split; [exact U0|]. intros j L. split.
        + intros a. destruct (HH j L) as (_ & HU & _). rewrite HU. unfold behind. destruct j; ring.
        + replace (INR j * dt_of d) with (instant 0 (dt_of d) j) by (unfold instant; ring).
          refine (displacement_laws _ _ _ _ _ _ _ _ _ _ _ HH Hdt E _ j L). rewrite U0, B0, N0. exact I0.
      - intros j q s Hq Hs. rewrite (S _ _ _ Hq Hs). unfold shows_creep, displacement_view. destruct (Z.to_nat q) as [|m];
          cbn [view_time view_displacement view_absement]; unfold instant; (split; [rewrite ?Rplus_0_l; try reflexivity; cbn [INR]; ring|split; reflexivity]).
    Qed.

  End Renewing.

  Section Idle.
    (* iterate() does nothing *)
    Hypothesis ID : forall g, iterate_variables c g = None.

    Lemma idle_inner vb vt vp dt t0 s0 n inn u v : velocity_history iterate answer size vb vt vp dt t0 s0 n inn u v ->
      forall j, (j <= n)%nat -> inn j = inn O.
    Proof.
      intros H. induction j as [|j IH]; intros L; [reflexivity|].
      destruct (H j ltac:(lia)) as (_ & _ & HI). rewrite iterate_idle in HI by exact ID.
      injection HI as HI. rewrite <- HI. apply IH. lia.
    Qed.

    (* what was there at the start stays: each answer solves the same system *)
    Definition frozen (x0 : vectors) (t0 dt : R) (u0 v0 : vec) (n : nat) (u v : nat -> vec) : Prop :=
      u O = u0 /\ v O = v0 /\
      forall j, (j < n)%nat ->
        (forall i, u (S j) i = u j i + dt * v (S j) i) /\
        exists i, updated x0 dt t0 i /\ accepts i (v j) (u j) dt (v (S j)).

    Lemma answer_frozen d d' i x0 t0 u0 v0 n out l : updated x0 (dt_of d) t0 (inner (d_sv d)) ->
      first_iterate iterate d 0 u0 v0 = Ok i ->
      velocity_answer dimension nodes_count nodes iterate answer d d' i 0 u0 v0 n out l ->
      exists u v, frozen x0 t0 (dt_of d) u0 v0 (last_step n out) u v /\
        List.length l = List.length (requested n out) /\
        forall j q (s : state W), nth_error (requested n out) j = Some q -> nth_error l j = Some s ->
          shows (dt_of d) u v (Z.to_nat q) (look (d_mem d') s).
    Proof.
      intros U I0 (inn & u & v & N0 & U0 & V0 & H & LL & S & _).
      unfold first_iterate in I0. rewrite iterate_idle in I0 by exact ID. injection I0 as I0.
      exists u, v. split; [|split; [exact LL|]].
      - split; [exact U0|]. split; [exact V0|]. intros j L. split.
        + intros a. destruct (H j L) as (_ & HU & _). rewrite HU. unfold behind. destruct j; ring.
        + destruct (H j L) as (A & _ & _). rewrite (idle_inner _ _ _ _ _ _ _ _ _ _ H j ltac:(lia)), N0, <- I0 in A.
          exists (inner (d_sv d)). split; [exact U|]. exact (HA _ _ _ _ _ _ _ _ _ U A).
      - intros j q s Hq Hs. rewrite (S _ _ _ Hq Hs). unfold shows, velocity_view. destruct (Z.to_nat q) as [|m];
          cbn [view_time view_displacement view_velocity]; unfold instant; (split; [rewrite ?Rplus_0_l; try reflexivity; cbn [INR]; ring|split; reflexivity]).
    Qed.

    Lemma dynamic_frozen n u0 v0 out given d d' l x0 t0 : fit d -> in_stock (d_mem d) given ->
      non_decreasing 0 (requested n out) -> current_time (d_sv d) = 0 ->
      updated x0 (dt_of d) t0 (inner (d_sv d)) ->
      dynamic_solve n u0 v0 out given d = (d', Ok l) ->
      exists u v, frozen x0 t0 (dt_of d) u0 v0 (last_step n out) u v /\
        List.length l = List.length (requested n out) /\
        forall j q (s : state W), nth_error (requested n out) j = Some q -> nth_error l j = Some s ->
          shows (dt_of d) u v (Z.to_nat q) (look (d_mem d') s).
    Proof.
      intros Ft G ND C U H. destruct (dynamic_answers _ _ _ _ _ _ _ _ _ _ _ _ _ Ft G ND H) as (i & I0 & A).
      rewrite C in A, I0. eapply answer_frozen; eauto.
    Qed.
    Lemma wave_frozen n u0 v0 out given d d' s0 l x0 t0 : fit d -> in_stock (d_mem d) given ->
      non_decreasing 0 (requested n out) ->
      updated x0 (dt_of d) t0 (inner (d_sv d)) ->
      wave_solve n u0 v0 None out given d = (d', s0, Ok l) ->
      exists u v, frozen x0 t0 (dt_of d) u0 v0 (last_step n out) u v /\
        List.length l = List.length (requested n out) /\
        forall j q (s : state W), nth_error (requested n out) j = Some q -> nth_error l j = Some s ->
          shows (dt_of d) u v (Z.to_nat q) (look (d_mem d') s).
    Proof.
      intros Ft G ND U H. destruct (wave_answers _ _ _ _ _ _ _ _ _ _ _ _ _ _ Ft G ND H) as (i & I0 & A).
      eapply answer_frozen; eauto.
    Qed.
  End Idle.

  (* static problems: one answer *)
  Lemma static_run u0 given d d' s : k = StaticDisplacement -> fit d -> in_stock (d_mem d) given ->
    (exists x0 t0, updated x0 (dt_of d) t0 (inner (d_sv d))) ->
    renews integrate b k c \/ (forall g, iterate_variables c g = None) ->
    static_solve u0 given d = (d', Ok s) ->
    exists x t i, updated x (dt_of d) t i /\
      accepts i (held_vec d v_vector) u0 (dt_of d) (view_displacement (look (d_mem d') s)).
  Proof.
    intros K Ft G (x0 & t0 & U) RI H.
    destruct (static_course _ _ _ _ _ _ _ _ _ _ Ft G H) as (_ & _ & C & _).
    destruct (iterate _ _ _ _) as [i|e] eqn:I0; [|discriminate].
    assert (UI : exists x t, updated x (dt_of d) t i).
    { destruct RI as [RN|ID].
      - assert (CS : can_step k (dt_of d)) by (rewrite K; exact Logic.I).
        destruct U as (E & _). eexists _, _. eapply iterate_ok_updated; eauto.
      - rewrite iterate_idle in I0 by exact ID. injection I0 as <-. eauto. }
    destruct C as (h & Hn & Hl & _). destruct UI as (x & t & UI). exists x, t, i. split; [exact UI|].
    rewrite Hl. clear Hl. cbn [nexts] in Hn.
    destruct (next _ _ _ _ _ _ _) as [g|e] eqn:N0; [|discriminate]. injection Hn as <-.
    unfold next, displacement_start in N0. cbn [f_inner f_u g_v g_u] in N0.
    destruct (answer _ _ _ _ _) as [[len y]|e] eqn:A; [|discriminate].
    destruct (len =? _)%nat; [|discriminate]. clear I0. destruct (iterate _ _ _ _) in N0; [|discriminate].
    injection N0 as <-. cbn. exact (HA _ _ _ _ _ _ _ _ _ UI A).
  Qed.
End Whole.
