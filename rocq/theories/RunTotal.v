(* Runs with solvers that do not raise along the run. *)
From Coq Require Import Reals List Arith ZArith Bool String Lia Lra.
From Verif Require Import Common PyModel RVec StateModel TimeModel TimeSpec StateLemmas CopyProofs TimeProofs
  RunProofs HistoryProofs SolveProofs MarchProofs TimeTheorems TimeCorollaries
  StatementModel StatementSpec StatementProofs StatementValueProofs DirichletModel DirichletSpec RegistryModel MethodModel MethodProofs.
Import ListNotations.
Local Open Scope list_scope.
Local Open Scope R_scope.

Section Mostly.
  Context {V W I : Type}.
  Variables (dimension nodes_count : nat) (nodes : vec).
  Variable iterate : I -> vectors -> R -> R -> result I.
  Variable answer : I -> vec -> vec -> vec -> R -> result (nat * vec).
  Notation size := (dimension * nodes_count)%nat.
  Variable P : I -> Prop.
  Variable dt : R.
  Hypothesis PI : forall i x t, P i -> exists i', iterate i x dt t = Ok i' /\ P i'.
  Hypothesis PA : forall i g v u, P i -> exists y, answer i g v u dt = Ok (size, y).

  Definition some_iterate (i : I) (x : vectors) (t : R) : I :=
    match iterate i x dt t with Ok i' => i' | Err _ => i end.
  Definition some_answer (i : I) (g v u : vec) : vec :=
    match answer i g v u dt with Ok (_, y) => y | Err _ => g end.

  Fixpoint going (b t p : vec) (t0 s0 : R) (i : I) (u0 v0 : vec) (k : nat) : I * vec * vec :=
    match k with
    | O => (i, u0, v0)
    | S k => let '(i, u, v) := going b t p t0 s0 i u0 v0 k in
             let v' := some_answer i v v u in
             let u' := fun c => u c + (dt + behind t0 s0 k) * v' c in
             (some_iterate i (mkVectors b u' v' t p) (instant t0 dt (S k)), u', v')
    end.

  Lemma going_kept b t p t0 s0 i u0 v0 k : P i -> P (fst (fst (going b t p t0 s0 i u0 v0 k))).
  Proof.
    intros H. induction k as [|k IH]; [exact H|]. cbn [going].
    destruct (going b t p t0 s0 i u0 v0 k) as [[j u] v]. cbn [fst snd] in *.
    unfold some_iterate. edestruct (PI j) as (j' & E & Q); [exact IH|]. rewrite E. exact Q.
  Qed.

  Lemma history_going b t p t0 s0 i u0 v0 n : P i ->
    velocity_history iterate answer size b t p dt t0 s0 n
      (fun k => fst (fst (going b t p t0 s0 i u0 v0 k))) (fun k => snd (fst (going b t p t0 s0 i u0 v0 k)))
      (fun k => snd (going b t p t0 s0 i u0 v0 k)).
  Proof.
    intros H k _. pose proof (going_kept b t p t0 s0 i u0 v0 k H) as Q. cbn [going].
    destruct (going b t p t0 s0 i u0 v0 k) as [[j u] v]. cbn [fst snd] in *.
    destruct (PA j v v u Q) as (y & A). unfold some_answer. rewrite A.
    split; [reflexivity|]. split; [reflexivity|].
    unfold some_iterate. edestruct (PI j) as (j' & E & _); [exact Q|]. rewrite E. reflexivity.
  Qed.

  Theorem dynamic_runs n u0 v0 out (d : driver V I) : fit d -> non_decreasing 0 (requested n out) -> n <> 0%nat ->
    P (inner (d_sv d)) -> dt_of d = dt ->
    exists d' l, @dynamic_solve V W I dimension nodes_count nodes iterate answer n u0 v0 out [] d = (d', Ok l).
  Proof.
    intros Ft ND NZ Pi Dt.
    destruct (PI (inner (d_sv d)) (mkVectors (held_vec d b_vector) u0 v0 (held_vec d t_vector) (held_vec d p_vector))
      (current_time (d_sv d)) Pi) as (i & E & Q).
    assert (H := history_going (held_vec d b_vector) (held_vec d t_vector) (held_vec d p_vector) (current_time (d_sv d)) 0 i u0 v0
      (last_step n out) Q).
    eapply (dynamic_total dimension nodes_count nodes iterate answer n u0 v0 out d i); [exact Ft|exact ND|exact NZ| | | | |].
    - unfold first_iterate. rewrite Dt. exact E.
    - instantiate (1 := fun k => fst (fst (going (held_vec d b_vector) (held_vec d t_vector) (held_vec d p_vector) (current_time (d_sv d)) 0 i u0 v0 k))). reflexivity.
    - instantiate (1 := fun k => snd (fst (going (held_vec d b_vector) (held_vec d t_vector) (held_vec d p_vector) (current_time (d_sv d)) 0 i u0 v0 k))). reflexivity.
    - instantiate (1 := fun k => snd (going (held_vec d b_vector) (held_vec d t_vector) (held_vec d p_vector) (current_time (d_sv d)) 0 i u0 v0 k)). reflexivity.
    - rewrite Dt. exact H.
  Qed.

  Theorem wave_runs n u0 v0 out (d : driver V I) : fit d -> non_decreasing 0 (requested n out) -> n <> 0%nat ->
    P (inner (d_sv d)) -> dt_of d = dt ->
    exists d' s l, @wave_solve V W I dimension nodes_count nodes iterate answer n u0 v0 None out [] d = (d', s, Ok l).
  Proof.
    intros Ft ND NZ Pi Dt.
    destruct (PI (inner (d_sv d)) (mkVectors (held_vec d b_vector) u0 v0 (held_vec d t_vector) (held_vec d p_vector))
      0 Pi) as (i & E & Q).
    destruct (@wave_solve V W I dimension nodes_count nodes iterate answer n u0 v0 None out [] d) as [[d' s] r] eqn:H.
    assert (G : in_stock (d_mem d) []) by constructor.
    destruct (wave_course _ _ _ _ _ _ _ _ _ _ _ _ _ _ Ft G H) as (_ & _ & C).
    rewrite Dt, E in C.
    assert (K := history_going (held_vec d b_vector) (held_vec d t_vector) (held_vec d p_vector) 0 0 i u0 v0 (last_step n out) Q).
    edestruct (velocity_course_total dimension nodes_count nodes iterate answer d d' i 0 u0 v0 n out r
      (fun k => fst (fst (going (held_vec d b_vector) (held_vec d t_vector) (held_vec d p_vector) 0 0 i u0 v0 k)))
      (fun k => snd (fst (going (held_vec d b_vector) (held_vec d t_vector) (held_vec d p_vector) 0 0 i u0 v0 k)))
      (fun k => snd (going (held_vec d b_vector) (held_vec d t_vector) (held_vec d p_vector) 0 0 i u0 v0 k))) as [l L];
      [exact ND|exact NZ|reflexivity|reflexivity|reflexivity|rewrite Dt; exact K|exact C|].
    rewrite L. eauto.
  Qed.
  (* the same for runs that solve for the displacement *)
  Fixpoint creeping (vv t p : vec) (t0 s0 : R) (i : I) (b0 u0 : vec) (k : nat) : I * vec * vec :=
    match k with
    | O => (i, b0, u0)
    | S k => let '(i, b, u) := creeping vv t p t0 s0 i b0 u0 k in
             let u' := some_answer i u vv u in
             let b' := fun c => b c + (dt + behind t0 s0 k) * u' c in
             (some_iterate i (mkVectors b' u' vv t p) (instant t0 dt (S k)), b', u')
    end.

  Lemma creeping_kept vv t p t0 s0 i b0 u0 k : P i -> P (fst (fst (creeping vv t p t0 s0 i b0 u0 k))).
  Proof.
    intros H. induction k as [|k IH]; [exact H|]. cbn [creeping].
    destruct (creeping vv t p t0 s0 i b0 u0 k) as [[j b] u]. cbn [fst snd] in *.
    unfold some_iterate. edestruct (PI j) as (j' & E & Q); [exact IH|]. rewrite E. exact Q.
  Qed.

  Lemma history_creeping vv t p t0 s0 i b0 u0 n : P i ->
    displacement_history iterate answer size vv t p dt t0 s0 n
      (fun k => fst (fst (creeping vv t p t0 s0 i b0 u0 k))) (fun k => snd (fst (creeping vv t p t0 s0 i b0 u0 k)))
      (fun k => snd (creeping vv t p t0 s0 i b0 u0 k)).
  Proof.
    intros H k _. pose proof (creeping_kept vv t p t0 s0 i b0 u0 k H) as Q. cbn [creeping].
    destruct (creeping vv t p t0 s0 i b0 u0 k) as [[j b] u]. cbn [fst snd] in *.
    destruct (PA j u vv u Q) as (y & A). unfold some_answer. rewrite A.
    split; [reflexivity|]. split; [reflexivity|].
    unfold some_iterate. edestruct (PI j) as (j' & E & _); [exact Q|]. rewrite E. reflexivity.
  Qed.

  Theorem relaxation_runs n b0 u0 out (d : driver V I) : fit d -> non_decreasing 0 (requested n out) -> n <> 0%nat ->
    P (inner (d_sv d)) -> dt_of d = dt ->
    exists d' l, @relaxation_solve V W I dimension nodes_count nodes iterate answer n b0 u0 out [] d = (d', Ok l).
  Proof.
    intros Ft ND NZ Pi Dt.
    destruct (PI (inner (d_sv d)) (mkVectors b0 u0 (held_vec d v_vector) (held_vec d t_vector) (held_vec d p_vector))
      (current_time (d_sv d)) Pi) as (i & E & Q).
    destruct (@relaxation_solve V W I dimension nodes_count nodes iterate answer n b0 u0 out [] d) as [d' r] eqn:H.
    assert (G : in_stock (d_mem d) []) by constructor.
    destruct (relaxation_course _ _ _ _ _ _ _ _ _ _ _ _ _ Ft G H) as (_ & _ & C).
    rewrite Dt, E in C.
    assert (K := history_creeping (held_vec d v_vector) (held_vec d t_vector) (held_vec d p_vector) (current_time (d_sv d)) 0 i b0 u0
      (last_step n out) Q).
    destruct r as [l|e]; [eauto|]. exfalso. specialize (C eq_refl NZ). rewrite ?Dt in C.
    assert (MR : displacement_mirror (displacement_start nodes d i b0 b0 u0)) by (split; reflexivity).
    assert (FN := fun I0 B0 U0 => displacement_flow_nexts dimension nodes_count nodes iterate answer
      (displacement_start nodes d i b0 b0 u0) dt (last_step n out) _ _ _ MR I0 B0 U0 K (last_step n out) (le_n _)).
    specialize (FN eq_refl eq_refl eq_refl).
    rewrite <- total_schedule in FN by exact ND.
    destruct (nexts_outs _ _ _ _ _ _ _ _ _ _ FN) as [fl O]. rewrite O in C. discriminate.
  Qed.

  Theorem static_runs u0 (d : driver V I) : fit d -> d_to_do d <> 0%nat -> P (inner (d_sv d)) -> dt_of d = dt ->
    exists d' s, @static_solve V W I dimension nodes_count nodes iterate answer u0 [] d = (d', Ok s).
  Proof.
    intros Ft NZ Pi Dt.
    destruct (PI (inner (d_sv d)) (mkVectors (held_vec d b_vector) u0 (held_vec d v_vector) (held_vec d t_vector) (held_vec d p_vector))
      (current_time (d_sv d)) Pi) as (i & E & Q).
    destruct (@static_solve V W I dimension nodes_count nodes iterate answer u0 [] d) as [d' r] eqn:H.
    assert (G : in_stock (d_mem d) []) by constructor.
    destruct (static_course _ _ _ _ _ _ _ _ _ _ Ft G H) as (_ & _ & C & _).
    rewrite Dt, E in C. cbv zeta in C.
    assert (HN : forall f, f_inner f = i -> exists h, nexts dimension nodes_count nodes iterate answer Displacement dt 1 f = Ok h).
    { intros f Hf. unfold RunProofs.nexts, TimeProofs.next. rewrite Hf. cbn [bind].
      destruct (PA i (f_u f) (TimeProofs.g_v f) (TimeProofs.g_u f) Q) as (y & A). rewrite A, Nat.eqb_refl.
      edestruct (PI i) as (i' & B & _); [exact Q|]. rewrite B. eauto. }
    destruct r as [s|e]; [eauto|]. exfalso. specialize (C eq_refl NZ). rewrite ?Dt in C.
    edestruct HN as (h & Hh); [|rewrite Hh in C; discriminate]. reflexivity.
  Qed.
End Mostly.
