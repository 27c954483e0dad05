(* Coupled drivers: they end well with solvers that never raise; their clock. *)
From Coq Require Import Reals List Arith ZArith Bool String Lia Lra FunctionalExtensionality.
From Verif Require Import PyModel RVec StateModel TimeModel TimeSpec StateLemmas CopyProofs TimeProofs RunProofs
  HistoryProofs SolveProofs UzawaProofs MarchProofs TimeTheorems CoupledTheorems.
Import ListNotations.
Local Open Scope R_scope.

Section Coupled.
  Context {V W I J : Type}.
  Variables (dimension nodes_count : nat) (nodes : vec).
  Variable thermal : bool.
  Variable iterate : I -> vectors -> R -> R -> result I.
  Variable second_iterate : J -> vectors -> R -> R -> result J.
  Variable update : I -> vec -> vec -> vec -> R -> R -> result I.
  Variable second_update : J -> vec -> vec -> vec -> vec -> R -> result J.
  Variable answer : I -> vec -> vec -> vec -> R -> result (nat * vec).
  Variable second_answer : J -> vec -> vec -> vec -> R -> result (nat * vec).
  Notation size := (dimension * nodes_count)%nat.
  Notation pair := (@pair V W I J).
  Notation pass := (pass dimension nodes_count update second_update answer second_answer).
  Notation passes := (passes dimension nodes_count update second_update answer second_answer).
  Notation uzawa := (@uzawa V W I J dimension nodes_count update second_update answer second_answer).
  Notation coupled_step := (@coupled_step V W I J dimension nodes_count nodes update second_update answer second_answer).
  Notation coupled_steps := (@coupled_steps V W I J dimension nodes_count nodes update second_update answer second_answer).
  Notation coupled_outputs := (@coupled_outputs V W I J dimension nodes_count nodes update second_update answer second_answer).
  Notation coupled_solve := (@coupled_solve V W I J dimension nodes_count nodes thermal iterate second_iterate update
    second_update answer second_answer).

  (* solvers that never raise *)
  Definition never_raises : Prop :=
    (forall i u v y dt t, exists i', update i u v y dt t = Ok i') /\
    (forall j u v t p dt, exists j', second_update j u v t p dt = Ok j') /\
    (forall i g v u dt, exists x, answer i g v u dt = Ok (size, x)) /\
    (forall j g v u dt, exists x, second_answer j g v u dt = Ok (nodes_count, x)).

  Lemma pass_ok : never_raises -> forall u v t p (s1 : stepper I) (s2 : stepper J) v1 u1 v2 u2 l,
    exists l', pass u v t p s1 s2 v1 u1 v2 u2 l = Ok l'.
  Proof.
    intros (U & U2 & A & A2) u v t p s1 s2 v1 u1 v2 u2 l. unfold TimeModel.pass.
    destruct (U (l_one l) u v (l_y l) (time_step s1) (current_time s1)) as (i & ->). cbn [bind].
    destruct (A i (l_x l) v1 u1 (time_step s1)) as (x & ->). cbn [bind]. unfold TimeModel.size. rewrite Nat.eqb_refl.
    destruct (U2 (l_two l) (fun k => u k + time_step s1 * x k) x t p (time_step s2)) as (j & ->). cbn [bind].
    destruct (A2 j (l_y l) v2 u2 (time_step s2)) as (y & ->). cbn [bind]. rewrite Nat.eqb_refl. eauto.
  Qed.

  Lemma passes_ok : never_raises -> forall fuel u v t p (s1 : stepper I) (s2 : stepper J) v1 u1 v2 u2 l e,
    passes fuel u v t p s1 s2 v1 u1 v2 u2 l <> Some (Err e).
  Proof.
    intros T. induction fuel as [|fuel IH]; intros u v t p s1 s2 v1 u1 v2 u2 l e; cbn [TimeModel.passes];
      (destruct (again l); [|discriminate]); [discriminate|].
    destruct (pass_ok T u v t p s1 s2 v1 u1 v2 u2 l) as (l' & ->). apply IH.
  Qed.

  Lemma uzawa_ok : never_raises -> forall x y w, exists w' c, uzawa x y w = Some (w', Ok c) /\ p_st w' = p_st w /\
    current_time (p_one w') = current_time (p_one w) /\ time_step (p_one w') = time_step (p_one w).
  Proof.
    intros T x y w. pose proof (uzawa_some dimension nodes_count update second_update answer second_answer x y w) as N.
    unfold TimeModel.uzawa in *.
    match type of N with context [TimeModel.passes _ _ _ _ _ _ 10 ?u ?v ?t ?p ?s1 ?s2 ?v1 ?u1 ?v2 ?u2 ?l] =>
      pose proof (passes_ok T 10 u v t p s1 s2 v1 u1 v2 u2 l) as OK;
      destruct (passes 10 u v t p s1 s2 v1 u1 v2 u2 l) as [[l'|e]|] end; [|exfalso; exact (OK e eq_refl)|contradiction].
    unfold alloc. do 2 eexists. split; [reflexivity|]. cbn [p_st p_one current_time time_step]. auto.
  Qed.

  Lemma coupled_step_ok : never_raises -> forall n x y w, n <> 0%nat -> products (p_st w) = [] ->
    exists w' c, coupled_step n x y w = Some (w', Ok c) /\ products (p_st w') = [].
  Proof.
    intros T n x y w N P. unfold TimeModel.coupled_step. destruct (Nat.eqb_spec n 0) as [C|_]; [contradiction|].
    match goal with |- context [TimeModel.uzawa _ _ _ _ _ _ ?a ?b ?c] =>
      destruct (uzawa_ok T a b c) as (w1 & [cx cy] & -> & S & _) end.
    cbn [p_st] in S. unfold TimeModel.size, set_velocity. rewrite Nat.eqb_refl. cbn [products].
    rewrite S, P. cbn [update_products]. do 2 eexists. split; [reflexivity|]. cbn [p_st]. unfold set_extra. cbn [extra].
    destruct (extra (p_st w)); reflexivity.
  Qed.

  Lemma coupled_steps_ok : never_raises -> forall n n_steps x y w, n_steps <> 0%nat -> products (p_st w) = [] ->
    exists w' c, coupled_steps n_steps n x y w = Some (w', Ok c) /\ products (p_st w') = [].
  Proof.
    intros T. induction n as [|n IH]; intros n_steps x y w N P; cbn [TimeModel.coupled_steps].
    - eauto.
    - destruct (coupled_step_ok T n_steps x y w N P) as (w1 & [x1 y1] & -> & P1). apply IH; assumption.
  Qed.

  Lemma coupled_outputs_ok : never_raises -> forall ns n_steps x y w, n_steps <> 0%nat -> products (p_st w) = [] ->
    exists w' l, coupled_outputs n_steps ns x y w = Some (w', Ok l).
  Proof.
    intros T. induction ns as [|n ns IH]; intros n_steps x y w N P; cbn [TimeModel.coupled_outputs].
    - eauto.
    - destruct (coupled_steps_ok T n n_steps x y w N P) as (w1 & [x1 y1] & -> & P1).
      destruct (copy nodes (p_mem w1) (p_st w1)) as [m s].
      destruct (IH n_steps x1 y1 (mkPair m (p_st w1) (p_one w1) (p_two w1)) N P1) as (w2 & l & ->). eauto.
  Qed.

  Theorem coupled_total : never_raises ->
    (forall i x dt t, exists i', iterate i x dt t = Ok i') -> (forall j x dt t, exists j', second_iterate j x dt t = Ok j') ->
    Nat.modulo size 2 = 0%nat ->
    forall n u0 v0 e0 out m s1 s2, n <> 0%nat ->
    exists w' l, coupled_solve n u0 v0 e0 out m s1 s2 = Some (w', Ok l).
  Proof.
    intros T I1 I2 EV n u0 v0 e0 out m s1 s2 N. unfold TimeModel.coupled_solve. rewrite new_state_eq. cbn [extra].
    unfold TimeModel.size. rewrite EV, Nat.eqb_refl.
    destruct thermal; cbn [new_extra]; unfold alloc; cbv beta iota zeta.
    all: match goal with |- context [iterate ?a ?b ?c ?d] => destruct (I1 a b c d) as (i & ->) end.
    all: match goal with |- context [second_iterate ?a ?b ?c ?d] => destruct (I2 a b c d) as (j & ->) end.
    all: apply coupled_outputs_ok; [exact T|exact N|reflexivity].
  Qed.

  (* the clock, whatever the stores look like *)
  Lemma uzawa_clock : forall x y w w' c, uzawa x y w = Some (w', Ok c) -> p_st w' = p_st w /\
    current_time (p_one w') = current_time (p_one w) /\ time_step (p_one w') = time_step (p_one w).
  Proof.
    intros x y w w' c H. unfold TimeModel.uzawa in H.
    destruct (TimeModel.passes _ _ _ _ _ _ 10 _ _ _ _ _ _ _ _ _ _ _) as [[l'|e]|]; [|discriminate|discriminate].
    unfold alloc in H. injection H as <- _. cbn [p_st p_one current_time time_step]. auto.
  Qed.

  Lemma coupled_step_clock : forall n x y w w' c, coupled_step n x y w = Some (w', Ok c) ->
    current_time (p_one w') = current_time (p_one w) + time_step (p_one w) /\ time_step (p_one w') = time_step (p_one w) /\
    time (p_st w') = current_time (p_one w').
  Proof.
    intros n x y w w' c H. unfold TimeModel.coupled_step in H. destruct (n =? 0)%nat; [discriminate|].
    destruct (uzawa _ _ _) as [[w1 [[cx cy]|e]]|] eqn:U; [|discriminate|discriminate].
    apply uzawa_clock in U. cbn [p_st p_one with_clock current_time time_step] in U. destruct U as (S & C & D).
    unfold TimeModel.size, set_velocity in H. rewrite Nat.eqb_refl in H.
    destruct (update_products _ _ _) as [m3 [u|e]]; [|discriminate]. injection H as <- _. cbn [p_st p_one].
    split; [exact C|split; [exact D|]]. unfold set_extra. cbn [extra]. destruct (extra (p_st w1)); reflexivity.
  Qed.

  Lemma coupled_steps_clock : forall n n_steps x y w w' c, coupled_steps n_steps n x y w = Some (w', Ok c) ->
    current_time (p_one w') = instant (current_time (p_one w)) (time_step (p_one w)) n /\
    time_step (p_one w') = time_step (p_one w) /\
    time (p_st w') = match n with O => time (p_st w) | _ => current_time (p_one w') end.
  Proof.
    induction n as [|n IH]; intros n_steps x y w w' c H; cbn [TimeModel.coupled_steps] in H.
    - injection H as <- _. unfold instant; cbn [INR]. split; [lra|split; reflexivity].
    - destruct (coupled_step n_steps x y w) as [[w1 [[x1 y1]|e]]|] eqn:E; [|discriminate|discriminate].
      apply coupled_step_clock in E. destruct E as (C & D & T). apply IH in H. destruct H as (C' & D' & T').
      unfold instant in *. rewrite S_INR. rewrite C', D, C. split; [lra|split; [congruence|]].
      rewrite T'. destruct n; [|rewrite C', D, C; lra]. cbn [INR] in *. rewrite T, C. lra.
  Qed.

  Lemma copy_time : forall (m : store V) (s : state W), time (snd (copy nodes m s)) = time s.
  Proof.
    intros m s. unfold copy. rewrite new_state_eq. cbn [extra].
    destruct (extra s); cbn [new_extra]; [destruct (copy_products _ _) as [m5 ps]|..]; reflexivity.
  Qed.

  Lemma coupled_outputs_clock : forall ns n_steps x y w w' l, coupled_outputs n_steps ns x y w = Some (w', Ok l) ->
    current_time (p_one w') = instant (current_time (p_one w)) (time_step (p_one w)) (HistoryProofs.total ns) /\
    time_step (p_one w') = time_step (p_one w) /\
    forall k s, nth_error l k = Some s ->
      time s = match HistoryProofs.total (firstn (Datatypes.S k) ns) with
               | O => time (p_st w)
               | q => instant (current_time (p_one w)) (time_step (p_one w)) q
               end.
  Proof.
    induction ns as [|n ns IH]; intros n_steps x y w w' l H; cbn [TimeModel.coupled_outputs] in H.
    - injection H as <- <-. split; [unfold instant; cbn; lra|]. split; [reflexivity|]. intros [|k] s Hs; discriminate.
    - destruct (coupled_steps n_steps n x y w) as [[w1 [[x1 y1]|e]]|] eqn:E; [|discriminate|discriminate].
      apply coupled_steps_clock in E. destruct E as (C & D & T).
      pose proof (copy_time (p_mem w1) (p_st w1)) as CT.
      destruct (copy nodes (p_mem w1) (p_st w1)) as [m s1] eqn:EC. cbn [snd] in CT.
      destruct (coupled_outputs n_steps ns x1 y1 _) as [[w2 [l2|e]]|] eqn:EO; [|discriminate|discriminate].
      injection H as <- <-. apply IH in EO. cbn [p_one p_st] in EO. destruct EO as (C2 & D2 & O2).
      assert (AD : forall q, instant (instant (current_time (p_one w)) (time_step (p_one w)) n) (time_step (p_one w)) q
                 = instant (current_time (p_one w)) (time_step (p_one w)) (n + q)).
      { intro q. unfold instant. rewrite plus_INR. lra. }
      rewrite C, D, AD in C2.
      split; [exact C2|]. split; [congruence|]. intros [|k] s Hs; cbn [nth_error] in Hs.
      + injection Hs as <-. rewrite CT, T. cbn [firstn].
        assert (TN : HistoryProofs.total [n] = n) by (cbn; lia). rewrite TN. destruct n; [reflexivity|exact C].
      + rewrite (O2 _ _ Hs). change (firstn (Datatypes.S (Datatypes.S k)) (n :: ns)) with (n :: firstn (Datatypes.S k) ns).
        change (HistoryProofs.total (n :: firstn (Datatypes.S k) ns)) with (n + HistoryProofs.total (firstn (Datatypes.S k) ns))%nat.
        destruct (HistoryProofs.total (firstn (Datatypes.S k) ns)) as [|q].
        * rewrite T, Nat.add_0_r. destruct n; [reflexivity|exact C].
        * rewrite C, D, AD. rewrite Nat.add_succ_r. reflexivity.
  Qed.

  Theorem coupled_times : forall n u0 v0 e0 out m s1 s2 w' l,
    non_decreasing 0 (requested n out) -> coupled_solve n u0 v0 e0 out m s1 s2 = Some (w', Ok l) ->
    current_time (p_one w') = instant (current_time s1) (time_step s1) (last_step n out) /\
    time_step (p_one w') = time_step s1 /\
    forall k q s, nth_error (requested n out) k = Some q -> nth_error l k = Some s ->
      time s = match Z.to_nat q with O => 0 | q => instant (current_time s1) (time_step s1) q end.
  Proof.
    intros n u0 v0 e0 out m s1 s2 w' l ND H. unfold TimeModel.coupled_solve in H. rewrite new_state_eq in H. cbn [extra] in H.
    unfold TimeModel.size in H.
    assert (G : exists x y w, coupled_outputs n (schedule n out) x y w = Some (w', Ok l) /\
              current_time (p_one w) = current_time s1 /\ time_step (p_one w) = time_step s1 /\ time (p_st w) = 0).
    { destruct thermal; cbn [new_extra] in H; cbv beta iota zeta in H; (destruct (_ =? 0)%nat; [|discriminate]);
        unfold alloc in H; (destruct (iterate _ _ _ _); [|discriminate]); (destruct (second_iterate _ _ _ _); [|discriminate]);
        do 3 eexists; (split; [exact H|]); repeat split. }
    destruct G as (x & y & w & E & C & D & T). apply coupled_outputs_clock in E. rewrite C, D in E. destruct E as (E & E' & O).
    rewrite total_schedule in E by exact ND. split; [exact E|]. split; [exact E'|].
    intros k q s Hq Hs. rewrite (O _ _ Hs), T, schedule_requested. destruct (steps_between_total _ _ _ _ ND Hq) as [Q0 TT]. rewrite TT.
    rewrite Z.sub_0_r. reflexivity.
  Qed.
End Coupled.
