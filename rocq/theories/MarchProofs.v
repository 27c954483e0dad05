(* solve() as a whole: what is returned, repeated and resumed. *)
From Coq Require Import Reals List Arith ZArith Bool String Lia Lra FunctionalExtensionality.
From Verif Require Import PyModel RVec StateModel TimeModel TimeSpec StateLemmas CopyProofs TimeProofs RunProofs
  HistoryProofs SolveProofs.
Import ListNotations.
Local Open Scope R_scope.

Section March.
  Context {V W I : Type}.
  Variables (dimension nodes_count : nat) (nodes : vec).
  Variable iterate : I -> vectors -> R -> R -> result I.
  Variable answer : I -> vec -> vec -> vec -> R -> result (nat * vec).
  Notation size := (dimension * nodes_count)%nat.
  Notation world := (world V W I).
  Notation driver := (driver V I).
  Notation outputs := (@outputs V W I dimension nodes_count nodes iterate answer).
  Notation run := (@run V W I dimension nodes_count nodes iterate answer).
  Notation nexts := (nexts dimension nodes_count nodes iterate answer).
  Notation outs := (outs dimension nodes_count nodes iterate answer).
  Notation dynamic_solve := (@dynamic_solve V W I dimension nodes_count nodes iterate answer).
  Notation relaxation_solve := (@relaxation_solve V W I dimension nodes_count nodes iterate answer).
  Notation wave_solve := (@wave_solve V W I dimension nodes_count nodes iterate answer).
  Notation static_solve := (@static_solve V W I dimension nodes_count nodes iterate answer).
  Notation velocity_store := (@velocity_store V W I nodes).
  Notation relaxation_store := (@relaxation_store V W I nodes).
  Notation static_store := (@static_store V W I nodes).

  Definition held_vec (d : driver) (r : stepper I -> nat) : vec := load (d_mem d) (r (d_sv d)).
  Definition dt_of (d : driver) : R := time_step (d_sv d).

  (* what is known of the states returned *)
  Definition released (given : list nat) (d d' : driver) (s : state W) : Prop :=
    outside given d' s /\ Forall (fun k => (room (d_mem d) <= k)%nat) (refs s) /\
    Forall (fun k => (stock (d_mem d) <= k)%nat) (product_refs s) /\
    NoDup (refs s) /\ extra s = Plain /\ (given = [] -> products s = []).

  (* the driver after a course ending in h *)
  Definition ends (d : driver) (h : @flow I) : Prop :=
    inner (d_sv d) = f_inner h /\ current_time (d_sv d) = f_clock h /\
    held_vec d b_vector = g_b h /\ held_vec d u_vector = g_u h /\ held_vec d v_vector = g_v h /\
    held_vec d t_vector = g_t h /\ held_vec d p_vector = g_p h.

  Lemma ends_abs : forall w : world, ends (drv w) (abs w).
  Proof. intros w. unfold ends, held_vec, drv, abs; cbn. auto 10. Qed.

  Lemma later_prepared : forall given d (w : world), fit d -> in_stock (d_mem d) given -> prepared d w ->
    later given d (drv w) /\ fit (drv w).
  Proof.
    intros given d w F G P. eapply prepared_later; try eassumption.
    - apply frame_wide, frame_refl.
    - apply (prepared_ready _ _ given F G P).
  Qed.

  (* a course of outputs from the flow [f] *)
  Definition course (c : coordinates) (given : list nat) (ns : list nat) (f : @flow I) (td : nat) (d d' : driver)
    (r : result (list (state W))) : Prop :=
    match r with
    | Ok l => exists fl h, outs c (dt_of d) ns f = Ok (fl, h) /\ map (look (d_mem d')) l = map flow_view fl /\
                ends d' h /\ Forall (released given d d') l
    | Err e => given = [] -> td <> 0%nat -> outs c (dt_of d) ns f = Err e
    end.

  Lemma outputs_course : forall c given ns d (w w' : world) r, fit d -> in_stock (d_mem d) given -> prepared d w ->
    outputs c given ns w = (w', r) ->
    later given d (drv w') /\ fit (drv w') /\ course c given ns (abs w) (to_do w) d (drv w') r.
  Proof.
    intros c given ns d w w' r F G P H.
    destruct (outputs_prepared _ _ _ _ _ _ _ _ _ _ _ _ F G P H) as (L & F' & O).
    split; [exact L|split; [exact F'|]].
    destruct r as [l|e]; [|exact O].
    destruct O as ((fl & O & M) & R). exists fl, (abs w').
    split; [exact O|split; [exact M|split; [apply ends_abs|]]].
    eapply Forall_impl; [|exact R]. cbn. unfold released. tauto.
  Qed.

  Lemma dynamic_course : forall n u0 v0 out given d d' r, fit d -> in_stock (d_mem d) given ->
    dynamic_solve n u0 v0 out given d = (d', r) ->
    later given d d' /\ fit d' /\
    match iterate (inner (d_sv d)) (mkVectors (held_vec d b_vector) u0 v0 (held_vec d t_vector) (held_vec d p_vector))
            (dt_of d) (current_time (d_sv d)) with
    | Err e => r = Err e
    | Ok i => course Velocity given (schedule n out)
                (velocity_start nodes d (current_time (d_sv d)) 0 i u0 v0) n d d' r
    end.
  Proof.
    intros n u0 v0 out given d d' r F G H.
    pose proof (velocity_prepare (W := W) nodes d u0 v0 (current_time (d_sv d)) (inner (d_sv d)) (d_done d) (d_to_do d) F) as P0.
    pose proof (fun i => velocity_prepare (W := W) nodes d u0 v0 (current_time (d_sv d)) i 0 n F) as P.
    unfold TimeModel.dynamic_solve in H. unfold velocity_store in *.
    destruct (new_state nodes PlainState (d_mem d)) as [m0 s].
    cbv zeta in H, P0. cbv beta iota in H, P0.
    match type of H with context [call_iterate iterate (mkWorld ?m _ _ _ _)] => set (m4 := m) in * end.
    destruct P0 as (P0 & _ & _ & AR).
    unfold call_iterate in H; cbn [mem sv] in H. rewrite AR in H.
    change (held_vec d b_vector) with (load (d_mem d) (b_vector (d_sv d))).
    change (held_vec d t_vector) with (load (d_mem d) (t_vector (d_sv d))).
    change (held_vec d p_vector) with (load (d_mem d) (p_vector (d_sv d))).
    unfold dt_of at 1.
    destruct (iterate _ _ _ _) as [i|e].
    - cbn [mem st sv done to_do] in H.
      destruct (P i) as (Pi & AB & _ & _).
      assert (ET : with_inner (with_clock (d_sv d) (current_time (d_sv d))) i = with_inner (d_sv d) i) by reflexivity.
      rewrite ET in Pi, AB.
      destruct (outputs Velocity given (schedule n out) _) as [w' r'] eqn:E.
      destruct (outputs_course _ _ _ _ _ _ _ F G Pi E) as (L & F' & C).
      injection H as <- <-.
      split; [exact L|split; [exact F'|]]. rewrite AB in C. exact C.
    - injection H as <- <-.
      assert (PW : prepared d (mkWorld m4 s (d_sv d) (d_done d) (d_to_do d))).
      { exact P0. }
      destruct (later_prepared given _ _ F G PW) as [L F'].
      split; [exact L|split; [exact F'|reflexivity]].
  Qed.

  Lemma relaxation_course : forall n b0 u0 out given d d' r, fit d -> in_stock (d_mem d) given ->
    relaxation_solve n b0 u0 out given d = (d', r) ->
    later given d d' /\ fit d' /\
    match iterate (inner (d_sv d)) (mkVectors b0 u0 (held_vec d v_vector) (held_vec d t_vector) (held_vec d p_vector))
            (dt_of d) (current_time (d_sv d)) with
    | Err e => r = Err e
    | Ok i => course Displacement given (schedule n out) (displacement_start nodes d i b0 b0 u0) n d d' r
    end.
  Proof.
    intros n b0 u0 out given d d' r F G H.
    pose proof (relaxation_prepare (W := W) nodes d b0 u0 (inner (d_sv d)) (d_done d) (d_to_do d) F) as P0.
    pose proof (fun i => relaxation_prepare (W := W) nodes d b0 u0 i 0 n F) as P.
    unfold TimeModel.relaxation_solve in H. unfold relaxation_store in *.
    destruct (new_state nodes PlainState (d_mem d)) as [m0 s].
    cbv zeta in H, P0. cbv beta iota in H, P0.
    match type of H with context [call_iterate iterate (mkWorld ?m _ _ _ _)] => set (m4 := m) in * end.
    destruct P0 as (P0 & _ & AR).
    unfold call_iterate in H; cbn [mem sv] in H. rewrite AR in H.
    change (held_vec d v_vector) with (load (d_mem d) (v_vector (d_sv d))).
    change (held_vec d t_vector) with (load (d_mem d) (t_vector (d_sv d))).
    change (held_vec d p_vector) with (load (d_mem d) (p_vector (d_sv d))).
    unfold dt_of at 1.
    destruct (iterate _ _ _ _) as [i|e].
    - cbn [mem st sv done to_do] in H.
      destruct (P i) as (Pi & AB & _).
      destruct (outputs Displacement given (schedule n out) _) as [w' r'] eqn:E.
      destruct (outputs_course _ _ _ _ _ _ _ F G Pi E) as (L & F' & C).
      injection H as <- <-.
      split; [exact L|split; [exact F'|]]. rewrite AB in C. exact C.
    - injection H as <- <-.
      assert (PW : prepared d (mkWorld m4 s (d_sv d) (d_done d) (d_to_do d))).
      { exact P0. }
      destruct (later_prepared given _ _ F G PW) as [L F'].
      split; [exact L|split; [exact F'|reflexivity]].
  Qed.

  Lemma wave_course : forall n u0 v0 out given d d' s' r, fit d -> in_stock (d_mem d) given ->
    wave_solve n u0 v0 None out given d = (d', s', r) ->
    later given d d' /\ fit d' /\
    match iterate (inner (d_sv d)) (mkVectors (held_vec d b_vector) u0 v0 (held_vec d t_vector) (held_vec d p_vector))
            (dt_of d) 0 with
    | Err e => r = Err e
    | Ok i => course Velocity given (schedule n out) (velocity_start nodes d 0 0 i u0 v0) n d d' r
    end.
  Proof.
    intros n u0 v0 out given d d' s' r F G H.
    pose proof (velocity_prepare (W := W) nodes d u0 v0 0 (inner (d_sv d)) (d_done d) (d_to_do d) F) as P0.
    pose proof (fun i => velocity_prepare (W := W) nodes d u0 v0 0 i 0 n F) as P.
    unfold TimeModel.wave_solve in H. unfold velocity_store in *.
    destruct (new_state nodes PlainState (d_mem d)) as [m0 s].
    cbv zeta in H, P0. cbv beta iota in H, P0.
    cbn [with_clock u_vector v_vector] in H.
    destruct P0 as (P0 & _ & T0 & AR). rewrite T0 in H.
    match type of H with context [call_iterate iterate (mkWorld ?m _ _ _ _)] => set (m4 := m) in * end.
    unfold call_iterate in H; cbn [mem sv inner time_step current_time] in H.
    assert (AR' : arrays m4 (with_clock (d_sv d) 0) = arrays m4 (d_sv d)) by reflexivity.
    unfold with_clock in AR'. cbn [inner with_clock] in H. unfold with_clock in H. rewrite AR' in H.
    rewrite AR in H. cbn [time_step current_time inner] in H.
    change (held_vec d b_vector) with (load (d_mem d) (b_vector (d_sv d))).
    change (held_vec d t_vector) with (load (d_mem d) (t_vector (d_sv d))).
    change (held_vec d p_vector) with (load (d_mem d) (p_vector (d_sv d))).
    unfold dt_of at 1.
    destruct (iterate _ _ _ _) as [i|e].
    - cbn [mem st sv done to_do] in H.
      destruct (P i) as (Pi & AB & _ & _).
      match type of H with context [outputs Velocity given (schedule n out) ?w] =>
        destruct (outputs Velocity given (schedule n out) w) as [w' r'] eqn:E end.
      destruct (outputs_course _ _ _ _ _ _ _ F G Pi E) as (L & F' & C).
      injection H as <- <- <-.
      split; [exact L|split; [exact F'|]]. rewrite AB in C. exact C.
    - injection H as <- <- <-.
      assert (PW : prepared d (mkWorld m4 s (with_clock (d_sv d) 0) (d_done d) (d_to_do d))).
      { exact P0. }
      destruct (later_prepared given _ _ F G PW) as [L F'].
      split; [exact L|split; [exact F'|reflexivity]].
  Qed.

  Lemma static_course : forall u0 given d d' r, fit d -> in_stock (d_mem d) given ->
    static_solve u0 given d = (d', r) ->
    later given d d' /\ fit d' /\
    match iterate (inner (d_sv d)) (mkVectors (held_vec d b_vector) u0 (held_vec d v_vector) (held_vec d t_vector) (held_vec d p_vector))
            (dt_of d) (current_time (d_sv d)) with
    | Err e => r = Err e
    | Ok i =>
        let f := displacement_start nodes d i (fun _ => 0) (held_vec d b_vector) u0 in
        match r with
        | Ok s => exists h, nexts Displacement (dt_of d) 1 f = Ok h /\ look (d_mem d') s = flow_view h /\ ends d' h /\
                    Forall (fun k => (k < room (d_mem d'))%nat /\ ~ In k (solver_refs (d_sv d'))) (refs s)
        | Err e => given = [] -> d_to_do d <> 0%nat -> nexts Displacement (dt_of d) 1 f = Err e
        end
    end /\ d_to_do d' = d_to_do d.
  Proof.
    intros u0 given d d' r F G H.
    pose proof (static_prepare (W := W) nodes d u0 (inner (d_sv d)) (d_done d) (d_to_do d) F) as P0.
    pose proof (fun i => static_prepare (W := W) nodes d u0 i (d_done d) (d_to_do d) F) as P.
    unfold TimeModel.static_solve in H. unfold static_store in *.
    destruct (new_state nodes PlainState (d_mem d)) as [m0 s].
    cbv zeta in H, P0. cbv beta iota in H, P0.
    match type of H with context [call_iterate iterate (mkWorld ?m _ _ _ _)] => set (m4 := m) in * end.
    destruct P0 as (P0 & _ & AR).
    unfold call_iterate in H; cbn [mem sv] in H. rewrite AR in H.
    change (held_vec d b_vector) with (load (d_mem d) (b_vector (d_sv d))).
    change (held_vec d v_vector) with (load (d_mem d) (v_vector (d_sv d))).
    change (held_vec d t_vector) with (load (d_mem d) (t_vector (d_sv d))).
    change (held_vec d p_vector) with (load (d_mem d) (p_vector (d_sv d))).
    unfold dt_of at 1.
    destruct (iterate _ _ _ _) as [i|e].
    - cbn [mem st sv done to_do] in H.
      destruct (P i) as (Pi & AB & _).
      match type of H with context [run Displacement given 1 ?w] =>
        destruct (run Displacement given 1 w) as [w' r'] eqn:E; set (w0 := w) in * end.
      pose proof (prepared_ready _ _ _ F G Pi) as R.
      destruct (run_spec _ _ _ _ _ _ _ _ _ _ _ (proj1 R) E) as (Wd & S' & N & _ & _).
      destruct (prepared_later _ _ _ _ F G Pi Wd S') as [L F'].
      pose proof Wd as (_ & _ & _ & _ & _ & _ & TD & _ & EX).
      rewrite AB in N.
      destruct r' as [x|e]; injection H as <- <-.
      + split; [exact L|split; [exact F'|split; [|exact TD]]].
        exists (abs w'). split; [exact N|]. split; [reflexivity|split; [apply ends_abs|]].
        destruct S' as [SN SF]. unfold drv, refs; cbn [d_mem d_sv]. destruct Pi as (_ & _ & _ & _ & _ & _ & _ & PE & _).
        rewrite EX, PE. cbn [extra_refs app].
        unfold live in SN, SF. fold (solver_refs (sv w')) in SN, SF.
        apply Forall_forall. intros k Hk. split.
        * rewrite Forall_forall in SF. apply SF. cbn [In] in Hk |- *. tauto.
        * intro C. change (absement (st w') :: displacement (st w') :: displaced_nodes (st w') :: velocity (st w') :: solver_refs (sv w'))
            with ([absement (st w'); displacement (st w'); displaced_nodes (st w'); velocity (st w')] ++ solver_refs (sv w')) in SN.
          clear - SN Hk C. revert SN Hk. generalize [absement (st w'); displacement (st w'); displaced_nodes (st w'); velocity (st w')].
          intros l SN Hk. induction l as [|a l IH]; [destruct Hk|].
          cbn [app] in SN. apply NoDup_cons_iff in SN. destruct SN as [A SN]. destruct Hk as [->|Hk].
          { apply A, in_or_app; auto. } { apply IH; assumption. }
      + split; [exact L|split; [exact F'|split; [|exact TD]]].
        intros Gn T. apply N; [exact Gn| |exact T]. destruct Pi as (_ & _ & _ & _ & _ & _ & _ & _ & PE & _). exact PE.
    - injection H as <- <-.
      assert (PW : prepared d (mkWorld m4 s (d_sv d) (d_done d) (d_to_do d))).
      { exact P0. }
      destruct (later_prepared given _ _ F G PW) as [L F'].
      split; [exact L|split; [exact F'|split; reflexivity]].
  Qed.
End March.
