(* The properties of the drivers. *)
From Coq Require Import Reals List Arith ZArith Bool String Lia Lra FunctionalExtensionality.
From Verif Require Import PyModel RVec StateModel TimeModel TimeSpec StateLemmas CopyProofs TimeProofs RunProofs
  HistoryProofs SolveProofs MarchProofs.
Import ListNotations.
Local Open Scope R_scope.

Section Theorems.
  Context {V W I : Type}.
  Variables (dimension nodes_count : nat) (nodes : vec).
  Variable iterate : I -> vectors -> R -> R -> result I.
  Variable answer : I -> vec -> vec -> vec -> R -> result (nat * vec).
  Notation size := (dimension * nodes_count)%nat.
  Notation world := (world V W I).
  Notation driver := (driver V I).
  Notation outputs := (@outputs V W I dimension nodes_count nodes iterate answer).
  Notation next := (next dimension nodes_count nodes iterate answer).
  Notation nexts := (nexts dimension nodes_count nodes iterate answer).
  Notation outs := (outs dimension nodes_count nodes iterate answer).
  Notation dynamic_solve := (@dynamic_solve V W I dimension nodes_count nodes iterate answer).
  Notation relaxation_solve := (@relaxation_solve V W I dimension nodes_count nodes iterate answer).
  Notation wave_solve := (@wave_solve V W I dimension nodes_count nodes iterate answer).
  Notation static_solve := (@static_solve V W I dimension nodes_count nodes iterate answer).
  Notation course := (course (W := W) (V := V) dimension nodes_count nodes iterate answer).

  Definition last_step (n : nat) (out : list Z) : nat := Z.to_nat (last (requested n out) 0%Z).

  Lemma nth_error_map_eq : forall A B C (f : A -> C) (g : B -> C) l l' j a, map f l = map g l' ->
    nth_error l j = Some a -> exists b, nth_error l' j = Some b /\ f a = g b.
  Proof.
    intros A B C f g l l' j a H N. pose proof (map_nth_error f j l N) as M. rewrite H in M.
    revert M. clear. revert l'. induction j as [|j IH]; intros [|b l'] M; cbn in *; try discriminate.
    - injection M as M. eauto.
    - apply IH; exact M.
  Qed.

  Lemma non_decreasing_last : forall l from x, non_decreasing from l -> In x l -> (from <= x <= last l 0)%Z.
  Proof.
    induction l as [|a l IH]; intros from x N H; [destruct H|].
    cbn [non_decreasing] in N. destruct N as [L N].
    destruct l as [|b l].
    - destruct H as [<-|[]]. cbn [last]. lia.
    - change (last (a :: b :: l) 0%Z) with (last (b :: l) 0%Z).
      destruct H as [<-|H].
      + pose proof (IH a b N (or_introl eq_refl)). lia.
      + specialize (IH _ _ N H). lia.
  Qed.

  Lemma total_schedule : forall n out, non_decreasing 0 (requested n out) ->
    total (schedule n out) = last_step n out.
  Proof.
    intros n out N. rewrite schedule_requested. unfold last_step.
    set (l := requested n out) in *. assert (NE : l <> []) by (unfold l; destruct out; discriminate).
    assert (E : nth_error l (List.length l - 1) = Some (last l 0%Z)).
    { clear N. clearbody l. induction l as [|a l IH]; [contradiction|]. destruct l as [|b l]; [reflexivity|].
      cbn [List.length]. replace (S (S (List.length l)) - 1)%nat with (S (List.length (b :: l) - 1)) by (cbn [List.length]; lia).
      cbn [nth_error]. rewrite IH by discriminate. reflexivity. }
    destruct (steps_between_total _ _ _ _ N E) as [_ T].
    rewrite firstn_all2 in T.
    - rewrite T. f_equal. lia.
    - rewrite steps_between_length. destruct l; [contradiction|cbn [List.length]; lia].
  Qed.

  Lemma velocity_view_flow : forall (f : @flow I) dt inner u v k, f_x f = nodes ->
    flow_view (velocity_flow nodes f dt inner u v k)
    = velocity_view nodes (f_b f) dt (f_clock f) (f_time f) u v k.
  Proof. intros f dt inner u v [|k] E; unfold velocity_flow, flow_view, velocity_view; cbn; rewrite ?E; reflexivity. Qed.

  Lemma displacement_view_flow : forall (f : @flow I) dt inner b u k, f_x f = nodes ->
    flow_view (displacement_flow nodes f dt inner b u k)
    = displacement_view nodes (f_v f) dt (f_clock f) (f_time f) b u k.
  Proof. intros f dt inner b u [|k] E; unfold displacement_flow, flow_view, displacement_view; cbn; rewrite ?E; reflexivity. Qed.

  (* returned states and the arrays of the solver along a history *)
  Definition velocity_answer (d d' : driver) (i : I) (t : R) (u0 v0 : vec) (n : nat) (out : list Z)
    (l : list (state W)) : Prop :=
    exists inner u v, inner O = i /\ u O = u0 /\ v O = v0 /\
      velocity_history iterate answer size (held_vec d b_vector) (held_vec d t_vector) (held_vec d p_vector)
        (dt_of d) t 0 (last_step n out) inner u v /\
      List.length l = List.length (requested n out) /\
      (forall j q s, nth_error (requested n out) j = Some q -> nth_error l j = Some s ->
         look (d_mem d') s = velocity_view nodes (fun _ => 0) (dt_of d) t 0 u v (Z.to_nat q)) /\
      held_vec d' u_vector = u (last_step n out) /\ held_vec d' v_vector = v (last_step n out) /\
      held_vec d' b_vector = held_vec d b_vector /\
      current_time (d_sv d') = instant t (dt_of d) (last_step n out).

  Lemma velocity_course_answer : forall d d' i t u0 v0 n out given l,
    non_decreasing 0 (requested n out) ->
    course Velocity given (schedule n out) (velocity_start nodes d t 0 i u0 v0) n d d' (Ok l) ->
    velocity_answer d d' i t u0 v0 n out l.
  Proof.
    intros d d' i t u0 v0 n out given l ND (fl & h & O & M & E & _).
    set (f := velocity_start nodes d t 0 i u0 v0) in *.
    destruct (outs_nexts _ _ _ _ _ _ _ _ _ _ _ O) as (LN & HN & HJ).
    rewrite total_schedule in HN by exact ND.
    assert (MR : velocity_mirror f) by (split; reflexivity).
    destruct (velocity_flow_exists _ _ _ _ _ _ _ _ _ MR HN) as (inner & u & v & I0 & U0 & V0 & H).
    pose proof (velocity_flow_nexts _ _ nodes _ _ _ _ _ _ _ _ MR I0 U0 V0 H) as K.
    exists inner, u, v. split; [exact I0|split; [exact U0|split; [exact V0|split; [exact H|]]]].
    assert (LL : List.length l = List.length (requested n out)).
    { rewrite <- (map_length (look (d_mem d'))), M, map_length, LN, schedule_requested. apply steps_between_length. }
    split; [exact LL|split].
    - intros j q s Hq Hs.
      destruct (nth_error_map_eq _ _ _ _ _ _ _ _ _ M Hs) as (g & Hg & Eg).
      specialize (HJ _ _ Hg). rewrite schedule_requested in HJ.
      destruct (steps_between_total _ _ _ _ ND Hq) as [Q0 T]. rewrite T in HJ.
      replace (q - 0)%Z with q in HJ by lia.
      rewrite K in HJ.
      + injection HJ as HJ. rewrite Eg, <- HJ. rewrite velocity_view_flow; reflexivity.
      + unfold last_step. pose proof (non_decreasing_last _ _ _ ND (nth_error_In _ _ Hq)). lia.
    - rewrite K in HN by lia. injection HN as HN.
      destruct E as (E1 & E2 & E3 & E4 & E5 & E6 & E7). rewrite <- HN in *.
      rewrite E2, E3, E4, E5. auto.
  Qed.

  Definition displacement_answer (d d' : driver) (i : I) (b0 u0 : vec) (n : nat) (out : list Z)
    (l : list (state W)) : Prop :=
    exists inner b u, inner O = i /\ b O = b0 /\ u O = u0 /\
      displacement_history iterate answer size (held_vec d v_vector) (held_vec d t_vector) (held_vec d p_vector)
        (dt_of d) (current_time (d_sv d)) 0 (last_step n out) inner b u /\
      List.length l = List.length (requested n out) /\
      (forall j q s, nth_error (requested n out) j = Some q -> nth_error l j = Some s ->
         look (d_mem d') s
         = displacement_view nodes (fun _ => 0) (dt_of d) (current_time (d_sv d)) 0 b u (Z.to_nat q)) /\
      held_vec d' b_vector = b (last_step n out) /\ held_vec d' u_vector = u (last_step n out) /\
      held_vec d' v_vector = held_vec d v_vector /\
      current_time (d_sv d') = instant (current_time (d_sv d)) (dt_of d) (last_step n out).

  Lemma displacement_course_answer : forall d d' i b0 u0 n out given l,
    non_decreasing 0 (requested n out) ->
    course Displacement given (schedule n out) (displacement_start nodes d i b0 b0 u0) n d d' (Ok l) ->
    displacement_answer d d' i b0 u0 n out l.
  Proof.
    intros d d' i b0 u0 n out given l ND (fl & h & O & M & E & _).
    set (f := displacement_start nodes d i b0 b0 u0) in *.
    destruct (outs_nexts _ _ _ _ _ _ _ _ _ _ _ O) as (LN & HN & HJ).
    rewrite total_schedule in HN by exact ND.
    assert (MR : displacement_mirror f) by (split; reflexivity).
    destruct (displacement_flow_exists _ _ _ _ _ _ _ _ _ MR HN) as (inner & b & u & I0 & B0 & U0 & H).
    pose proof (displacement_flow_nexts _ _ nodes _ _ _ _ _ _ _ _ MR I0 B0 U0 H) as K.
    exists inner, b, u. split; [exact I0|split; [exact B0|split; [exact U0|split; [exact H|]]]].
    assert (LL : List.length l = List.length (requested n out)).
    { rewrite <- (map_length (look (d_mem d'))), M, map_length, LN, schedule_requested. apply steps_between_length. }
    split; [exact LL|split].
    - intros j q s Hq Hs.
      destruct (nth_error_map_eq _ _ _ _ _ _ _ _ _ M Hs) as (g & Hg & Eg).
      specialize (HJ _ _ Hg). rewrite schedule_requested in HJ.
      destruct (steps_between_total _ _ _ _ ND Hq) as [Q0 T]. rewrite T in HJ.
      replace (q - 0)%Z with q in HJ by lia.
      rewrite K in HJ.
      + injection HJ as HJ. rewrite Eg, <- HJ. rewrite displacement_view_flow; reflexivity.
      + unfold last_step. pose proof (non_decreasing_last _ _ _ ND (nth_error_In _ _ Hq)). lia.
    - rewrite K in HN by lia. injection HN as HN.
      destruct E as (E1 & E2 & E3 & E4 & E5 & E6 & E7). rewrite <- HN in *.
      rewrite E2, E3, E4, E5. auto.
  Qed.

  (* the three time dependent drivers *)
  Definition first_iterate (d : driver) (t : R) (u0 v0 : vec) : result I :=
    iterate (inner (d_sv d)) (mkVectors (held_vec d b_vector) u0 v0 (held_vec d t_vector) (held_vec d p_vector)) (dt_of d) t.

  Theorem dynamic_answers : forall n u0 v0 out given d d' l, fit d -> in_stock (d_mem d) given ->
    non_decreasing 0 (requested n out) -> dynamic_solve n u0 v0 out given d = (d', Ok l) ->
    exists i, first_iterate d (current_time (d_sv d)) u0 v0 = Ok i /\
              velocity_answer d d' i (current_time (d_sv d)) u0 v0 n out l.
  Proof.
    intros n u0 v0 out given d d' l F G ND H.
    destruct (dynamic_course _ _ _ _ _ _ _ _ _ _ _ _ _ F G H) as (_ & _ & C).
    unfold first_iterate. destruct (iterate _ _ _ _) as [i|e]; [|discriminate].
    exists i. split; [reflexivity|]. eapply velocity_course_answer; eassumption.
  Qed.

  Theorem wave_answers : forall n u0 v0 out given d d' s l, fit d -> in_stock (d_mem d) given ->
    non_decreasing 0 (requested n out) -> wave_solve n u0 v0 None out given d = (d', s, Ok l) ->
    exists i, first_iterate d 0 u0 v0 = Ok i /\ velocity_answer d d' i 0 u0 v0 n out l.
  Proof.
    intros n u0 v0 out given d d' s l F G ND H.
    destruct (wave_course _ _ _ _ _ _ _ _ _ _ _ _ _ _ F G H) as (_ & _ & C).
    unfold first_iterate. destruct (iterate _ _ _ _) as [i|e]; [|discriminate].
    exists i. split; [reflexivity|]. eapply velocity_course_answer; eassumption.
  Qed.

  Theorem relaxation_answers : forall n b0 u0 out given d d' l, fit d -> in_stock (d_mem d) given ->
    non_decreasing 0 (requested n out) -> relaxation_solve n b0 u0 out given d = (d', Ok l) ->
    exists i,
      iterate (inner (d_sv d)) (mkVectors b0 u0 (held_vec d v_vector) (held_vec d t_vector) (held_vec d p_vector))
        (dt_of d) (current_time (d_sv d)) = Ok i /\
      displacement_answer d d' i b0 u0 n out l.
  Proof.
    intros n b0 u0 out given d d' l F G ND H.
    destruct (relaxation_course _ _ _ _ _ _ _ _ _ _ _ _ _ F G H) as (_ & _ & C).
    destruct (iterate _ _ _ _) as [i|e]; [|discriminate].
    exists i. split; [reflexivity|]. eapply displacement_course_answer; eassumption.
  Qed.

  (* nothing but the solver makes a run fail *)
  Lemma velocity_course_total : forall d d' i t u0 v0 n out r inner u v,
    non_decreasing 0 (requested n out) -> n <> 0%nat ->
    inner O = i -> u O = u0 -> v O = v0 ->
    velocity_history iterate answer size (held_vec d b_vector) (held_vec d t_vector) (held_vec d p_vector)
      (dt_of d) t 0 (last_step n out) inner u v ->
    course Velocity [] (schedule n out) (velocity_start nodes d t 0 i u0 v0) n d d' r ->
    exists l, r = Ok l.
  Proof.
    intros d d' i t u0 v0 n out r inner u v ND NZ I0 U0 V0 H C.
    destruct r as [l|e]; [eauto|]. exfalso.
    specialize (C eq_refl NZ).
    assert (MR : velocity_mirror (velocity_start nodes d t 0 i u0 v0)) by (split; reflexivity).
    pose proof (velocity_flow_nexts _ _ nodes _ _ _ _ _ _ _ _ MR I0 U0 V0 H (last_step n out) (le_n _)) as K.
    rewrite <- total_schedule in K by exact ND.
    destruct (nexts_outs _ _ _ _ _ _ _ _ _ _ K) as [fl O]. rewrite O in C. discriminate.
  Qed.

  Theorem dynamic_total : forall n u0 v0 out d i inner u v, fit d ->
    non_decreasing 0 (requested n out) -> n <> 0%nat ->
    first_iterate d (current_time (d_sv d)) u0 v0 = Ok i ->
    inner O = i -> u O = u0 -> v O = v0 ->
    velocity_history iterate answer size (held_vec d b_vector) (held_vec d t_vector) (held_vec d p_vector)
      (dt_of d) (current_time (d_sv d)) 0 (last_step n out) inner u v ->
    exists d' l, dynamic_solve n u0 v0 out [] d = (d', Ok l).
  Proof.
    intros n u0 v0 out d i inner u v F ND NZ FI I0 U0 V0 H.
    destruct (dynamic_solve n u0 v0 out [] d) as [d' r] eqn:E.
    assert (G : in_stock (d_mem d) []) by constructor.
    destruct (dynamic_course _ _ _ _ _ _ _ _ _ _ _ _ _ F G E) as (_ & _ & C).
    unfold first_iterate in FI. rewrite FI in C.
    destruct (velocity_course_total _ _ _ _ _ _ _ _ _ _ _ _ ND NZ I0 U0 V0 H C) as [l ->]. eauto.
  Qed.

  (* the displacement is the sum of the velocities *)
  Theorem displacement_sum : forall b t p dt t0 n inner u v,
    velocity_history iterate answer size b t p dt t0 t0 n inner u v ->
    forall i, u n i = u O i + dt * sum n (fun k => v (S k) i).
  Proof.
    intros b t p dt t0 n inner u v H i.
    assert (K : forall k, (k <= n)%nat -> u k i = u O i + dt * sum k (fun k => v (S k) i)).
    { induction k as [|k IH]; intros L; [cbn [sum]; lra|].
      destruct (H k) as (_ & U & _); [lia|]. rewrite U, IH by lia. cbn [sum].
      replace (behind t0 t0 k) with 0 by (destruct k; cbn; lra). lra. }
    apply K; lia.
  Qed.

  Theorem absement_sum : forall v t p dt t0 n inner b u,
    displacement_history iterate answer size v t p dt t0 t0 n inner b u ->
    forall i, b n i = b O i + dt * sum n (fun k => u (S k) i).
  Proof.
    intros v t p dt t0 n inner b u H i.
    assert (K : forall k, (k <= n)%nat -> b k i = b O i + dt * sum k (fun k => u (S k) i)).
    { induction k as [|k IH]; intros L; [cbn [sum]; lra|].
      destruct (H k) as (_ & U & _); [lia|]. rewrite U, IH by lia. cbn [sum].
      replace (behind t0 t0 k) with 0 by (destruct k; cbn; lra). lra. }
    apply K; lia.
  Qed.

  (* which time the loads of a step belong to *)
  Theorem load_time : forall (stamp : I -> R) b t p dt t0 s0 n inner u v,
    (forall i x dt t i', iterate i x dt t = Ok i' -> stamp i' = t) -> stamp (inner O) = t0 ->
    velocity_history iterate answer size b t p dt t0 s0 n inner u v ->
    forall k, (k < n)%nat -> stamp (inner k) = instant t0 dt k /\
      answer (inner k) (v k) (v k) (u k) dt = Ok (size, v (S k)).
  Proof.
    intros stamp b t p dt t0 s0 n inner u v S S0 H k L. split; [|apply H; exact L].
    destruct k as [|k]; [rewrite instant_0; exact S0|].
    destruct (H k) as (_ & _ & J); [lia|]. apply S in J. exact J.
  Qed.

  (* calls of solve() on one driver; products given to them avoid those of the list *)
  Inductive calls (avoid : list nat) : driver -> driver -> Prop :=
  | no_call : forall d, calls avoid d d
  | static_call : forall d d' d'' u0 given r, in_stock (d_mem d) given -> (forall k, In k given -> ~ In k avoid) ->
      static_solve u0 given d = (d', r) -> calls avoid d' d'' -> calls avoid d d''
  | relaxation_call : forall d d' d'' n b0 u0 out given r, in_stock (d_mem d) given -> (forall k, In k given -> ~ In k avoid) ->
      relaxation_solve n b0 u0 out given d = (d', r) -> calls avoid d' d'' -> calls avoid d d''
  | dynamic_call : forall d d' d'' n u0 v0 out given r, in_stock (d_mem d) given -> (forall k, In k given -> ~ In k avoid) ->
      dynamic_solve n u0 v0 out given d = (d', r) -> calls avoid d' d'' -> calls avoid d d''
  | wave_call : forall d d' d'' n u0 v0 out given s r, in_stock (d_mem d) given -> (forall k, In k given -> ~ In k avoid) ->
      wave_solve n u0 v0 None out given d = (d', s, r) -> calls avoid d' d'' -> calls avoid d d''.

  Definition apart (d : driver) (s : state W) : Prop :=
    Forall (fun k => (k < room (d_mem d))%nat /\ ~ In k (solver_refs (d_sv d))) (refs s) /\
    Forall (fun k => (k < stock (d_mem d))%nat) (product_refs s).

  Lemma apart_later : forall given d d' (s : state W), apart d s -> (forall k, In k given -> ~ In k (product_refs s)) ->
    later given d d' -> shown (d_mem d') s = shown (d_mem d) s /\ apart d' s.
  Proof.
    intros given d d' s [A B] G L. split.
    - apply (later_shown given); [|exact L]. split; [exact A|].
      apply Forall_forall. intros k Hk. rewrite Forall_forall in B. split; [apply B; exact Hk|].
      intro C. apply (G _ C Hk).
    - destruct L as (L1 & L2 & L3 & L4 & L5 & L6). split.
      + eapply Forall_impl; [|exact A]. cbn. intros k [K1 K2]. split; [lia|].
        intro C. destruct (L5 _ C); [contradiction|lia].
      + eapply Forall_impl; [|exact B]. cbn; intros; lia.
  Qed.

  Theorem snapshots : forall (s : state W) d d', calls (product_refs s) d d' -> fit d -> apart d s ->
    shown (d_mem d') s = shown (d_mem d) s.
  Proof.
    intros s d d' C. induction C as [d|d d' d'' u0 given r G A H C IH|d d' d'' n b0 u0 out given r G A H C IH
      |d d' d'' n u0 v0 out given r G A H C IH|d d' d'' n u0 v0 out given s' r G A H C IH]; intros F P.
    - reflexivity.
    - destruct (static_course _ _ _ _ _ _ _ _ _ _ F G H) as (L & F' & _).
      destruct (apart_later _ _ _ _ P A L) as [E P']. rewrite IH by assumption. exact E.
    - destruct (relaxation_course _ _ _ _ _ _ _ _ _ _ _ _ _ F G H) as (L & F' & _).
      destruct (apart_later _ _ _ _ P A L) as [E P']. rewrite IH by assumption. exact E.
    - destruct (dynamic_course _ _ _ _ _ _ _ _ _ _ _ _ _ F G H) as (L & F' & _).
      destruct (apart_later _ _ _ _ P A L) as [E P']. rewrite IH by assumption. exact E.
    - destruct (wave_course _ _ _ _ _ _ _ _ _ _ _ _ _ _ F G H) as (L & F' & _).
      destruct (apart_later _ _ _ _ P A L) as [E P']. rewrite IH by assumption. exact E.
  Qed.

  Lemma released_apart : forall given d d' (s : state W), released given d d' s -> apart d' s.
  Proof.
    intros given d d' s [[A B] _]. split; [exact A|].
    eapply Forall_impl; [|exact B]. cbn; tauto.
  Qed.

  Theorem dynamic_apart : forall n u0 v0 out given d d' l, fit d -> in_stock (d_mem d) given ->
    dynamic_solve n u0 v0 out given d = (d', Ok l) -> fit d' /\ Forall (apart d') l.
  Proof.
    intros n u0 v0 out given d d' l F G H.
    destruct (dynamic_course _ _ _ _ _ _ _ _ _ _ _ _ _ F G H) as (_ & F' & C).
    split; [exact F'|]. destruct (iterate _ _ _ _); [|discriminate].
    destruct C as (fl & h & _ & _ & _ & R). eapply Forall_impl; [|exact R]. cbn. intros s Hs.
    eapply released_apart; exact Hs.
  Qed.

  Theorem relaxation_apart : forall n b0 u0 out given d d' l, fit d -> in_stock (d_mem d) given ->
    relaxation_solve n b0 u0 out given d = (d', Ok l) -> fit d' /\ Forall (apart d') l.
  Proof.
    intros n u0 v0 out given d d' l F G H.
    destruct (relaxation_course _ _ _ _ _ _ _ _ _ _ _ _ _ F G H) as (_ & F' & C).
    split; [exact F'|]. destruct (iterate _ _ _ _); [|discriminate].
    destruct C as (fl & h & _ & _ & _ & R). eapply Forall_impl; [|exact R]. cbn. intros s Hs.
    eapply released_apart; exact Hs.
  Qed.

  Theorem wave_apart : forall n u0 v0 out given d d' s0 l, fit d -> in_stock (d_mem d) given ->
    wave_solve n u0 v0 None out given d = (d', s0, Ok l) -> fit d' /\ Forall (apart d') l.
  Proof.
    intros n u0 v0 out given d d' s0 l F G H.
    destruct (wave_course _ _ _ _ _ _ _ _ _ _ _ _ _ _ F G H) as (_ & F' & C).
    split; [exact F'|]. destruct (iterate _ _ _ _); [|discriminate].
    destruct C as (fl & h & _ & _ & _ & R). eapply Forall_impl; [|exact R]. cbn. intros s Hs.
    eapply released_apart; exact Hs.
  Qed.

  (* outputs taken in one solve() *)
  Lemma outputs_app : forall c given ns1 ns2 (w : world),
    outputs c given (ns1 ++ ns2) w =
    match outputs c given ns1 w with
    | (w1, Err e) => (w1, Err e)
    | (w1, Ok l1) => match outputs c given ns2 w1 with (w2, Err e) => (w2, Err e) | (w2, Ok l2) => (w2, Ok (l1 ++ l2)) end
    end.
  Proof.
    intros c given ns1; induction ns1 as [|n ns1 IH]; intros ns2 w; cbn [app TimeModel.outputs].
    - destruct (outputs c given ns2 w) as [w2 [l|e]]; reflexivity.
    - destruct (TimeModel.run _ _ _ _ _ c given n w) as [w1 [u|e]]; [|reflexivity].
      destruct (copy nodes (mem w1) (st w1)) as [m s].
      rewrite IH. destruct (outputs c given ns1 _) as [w2 [l|e]]; [|reflexivity].
      destruct (outputs c given ns2 w2) as [w3 [l'|e]]; reflexivity.
  Qed.

  Theorem outputs_snapshots : forall c given ns1 ns2 (w w1 w2 : world) l r, ready given w ->
    outputs c given ns1 w = (w1, Ok l) -> outputs c given ns2 w1 = (w2, r) ->
    Forall (fun s => shown (mem w2) s = shown (mem w1) s) l.
  Proof.
    intros c given ns1 ns2 w w1 w2 l r R H1 H2.
    destruct (outputs_spec _ _ _ _ _ _ _ _ _ _ _ R H1) as (_ & R1 & (_ & D & _) & _).
    destruct (outputs_spec _ _ _ _ _ _ _ _ _ _ _ R1 H2) as (W2 & _).
    eapply Forall_impl; [|exact D]. cbn. intros s Hs. eapply detached_shown; eassumption.
  Qed.
End Theorems.
