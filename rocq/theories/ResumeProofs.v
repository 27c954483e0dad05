(* Resuming from a returned state, and calling solve() again. *)
From Coq Require Import Reals List Arith ZArith Bool String Lia Lra FunctionalExtensionality.
From Verif Require Import PyModel RVec StateModel TimeModel TimeSpec StateLemmas CopyProofs TimeProofs RunProofs
  HistoryProofs SolveProofs MarchProofs TimeTheorems.
Import ListNotations.
Local Open Scope R_scope.

Section Resume.
  Context {V W I : Type}.
  Variables (dimension nodes_count : nat) (nodes : vec).
  Variable iterate : I -> vectors -> R -> R -> result I.
  Variable answer : I -> vec -> vec -> vec -> R -> result (nat * vec).
  Notation size := (dimension * nodes_count)%nat.
  Notation world := (world V W I).
  Notation driver := (driver V I).
  Notation outputs := (@outputs V W I dimension nodes_count nodes iterate answer).
  Notation next := (next dimension nodes_count nodes iterate answer).
  Notation nexts := (nexts dimension nodes_count nodes iterate answer).
  Notation outs := (outs dimension nodes_count nodes iterate answer).
  Notation dynamic_solve := (@dynamic_solve V W I dimension nodes_count nodes iterate answer).
  Notation wave_solve := (@wave_solve V W I dimension nodes_count nodes iterate answer).
  Notation static_solve := (@static_solve V W I dimension nodes_count nodes iterate answer).
  Notation course := (course (W := W) (V := V) dimension nodes_count nodes iterate answer).

  (* a step keeps the other arrays and what iterate() depends on *)
  Definition same_iterate (i j : I) : Prop := forall y dt t, iterate i y dt t = iterate j y dt t.

  Lemma nexts_inner : forall c dt n f g, forgets iterate -> nexts c dt n f = Ok g ->
    same_iterate (f_inner g) (f_inner f).
  Proof.
    intros c dt n; induction n as [|n IH]; intros f g F H; cbn [RunProofs.nexts] in H.
    - injection H as <-. intros y ? ?; reflexivity.
    - destruct (next c dt f) as [h|] eqn:E; [|discriminate].
      specialize (IH _ _ F H).
      intros y a b. rewrite IH. clear IH H.
      unfold TimeProofs.next in E. destruct c; [| |discriminate].
      + destruct (answer _ _ _ _ _) as [[len x]|]; [|discriminate]. destruct (len =? size)%nat; [|discriminate].
        destruct (iterate (f_inner f) _ _ _) as [i|] eqn:J; [|discriminate]. injection E as <-. cbn [f_inner].
        apply (F _ _ _ _ _ J).
      + destruct (answer _ _ _ _ _) as [[len x]|]; [|discriminate]. destruct (len =? size)%nat; [|discriminate].
        destruct (iterate (f_inner f) _ _ _) as [i|] eqn:J; [|discriminate]. injection E as <-. cbn [f_inner].
        apply (F _ _ _ _ _ J).
  Qed.

  Lemma nexts_other : forall dt n f g, nexts Velocity dt n f = Ok g ->
    g_b g = g_b f /\ g_t g = g_t f /\ g_p g = g_p f /\ f_b g = f_b f.
  Proof.
    intros dt n; induction n as [|n IH]; intros f g H; cbn [RunProofs.nexts] in H.
    - injection H as <-. auto.
    - destruct (next Velocity dt f) as [h|] eqn:E; [|discriminate].
      destruct (IH _ _ H) as (A & B & C & D). rewrite A, B, C, D.
      unfold TimeProofs.next in E.
      destruct (answer _ _ _ _ _) as [[len x]|]; [|discriminate]. destruct (len =? size)%nat; [|discriminate].
      destruct (iterate (f_inner f) _ _ _) as [i|] eqn:J; [|discriminate]. injection E as <-. cbn. auto.
  Qed.

  (* the flow after at least one step is settled: its last iterate() call can be repeated *)
  Definition settled (dt : R) (f : @flow I) : Prop :=
    g_u f = f_u f /\ g_v f = f_v f /\ f_time f = f_clock f /\
    iterate (f_inner f) (mkVectors (g_b f) (f_u f) (f_v f) (g_t f) (g_p f)) dt (f_clock f) = Ok (f_inner f).

  Lemma settled_next : forall dt f g, forgets iterate -> next Velocity dt f = Ok g -> settled dt g.
  Proof.
    intros dt f g F E. unfold TimeProofs.next in E.
    destruct (answer _ _ _ _ _) as [[len x]|]; [|discriminate]. destruct (len =? size)%nat; [|discriminate].
    destruct (iterate (f_inner f) _ _ _) as [i|] eqn:J; [|discriminate]. injection E as <-.
    unfold settled; cbn. repeat split. rewrite (F _ _ _ _ _ J). exact J.
  Qed.

  Lemma settled_nexts : forall dt n f g, forgets iterate -> settled dt f -> nexts Velocity dt n f = Ok g -> settled dt g.
  Proof.
    intros dt n f g F S H. destruct n as [|n].
    - cbn in H. injection H as <-. exact S.
    - rewrite nexts_snoc in H. destruct (nexts Velocity dt n f); [|discriminate]. eapply settled_next; eassumption.
  Qed.

  (* solve(state = s), ps:711-738 *)
  Definition resume_start (d : driver) (s : state W) (i : I) : @flow I :=
    mkFlow i (time s) (time s) (load (d_mem d) (absement s)) (load (d_mem d) (displacement s))
      (load (d_mem d) (displaced_nodes s)) (load (d_mem d) (velocity s)) (held_vec d b_vector)
      (load (d_mem d) (displacement s)) (load (d_mem d) (velocity s)) (held_vec d t_vector) (held_vec d p_vector).

  Lemma resume_course : forall n u0 v0 s out d d' s' r, fit d -> apart d s -> NoDup (refs s) -> extra s = Plain ->
    products s = [] -> n <> 0%nat -> wave_solve n u0 v0 (Some s) out [] d = (d', s', r) ->
    match iterate (inner (d_sv d)) (mkVectors (held_vec d b_vector) (load (d_mem d) (displacement s))
            (load (d_mem d) (velocity s)) (held_vec d t_vector) (held_vec d p_vector)) (dt_of d) (time s) with
    | Err e => r = Err e
    | Ok i =>
        match r with
        | Ok l => exists fl h, outs Velocity (dt_of d) (schedule n out) (resume_start d s i) = Ok (fl, h) /\
                    map (look (d_mem d')) l = map flow_view fl /\ ends d' h
        | Err e => outs Velocity (dt_of d) (schedule n out) (resume_start d s i) = Err e
        end
    end.
  Proof.
    intros n u0 v0 s out d d' s' r F A ND EX PR NZ H.
    unfold TimeModel.wave_solve in H. cbv beta iota zeta in H.
    cbn [with_clock u_vector v_vector] in H.
    set (m3 := write (d_mem d) (u_vector (d_sv d)) (load (d_mem d) (displacement s))) in *.
    set (m4 := write m3 (v_vector (d_sv d)) (load m3 (velocity s))) in *.
    assert (RD : forall i, ready [] (mkWorld m4 s (with_inner (with_clock (d_sv d) (time s)) i) 0 n : world)
              /\ abs (mkWorld m4 s (with_inner (with_clock (d_sv d) (time s)) i) 0 n : world) = resume_start d s i
              /\ arrays m4 (with_clock (d_sv d) (time s)) = mkVectors (held_vec d b_vector) (load (d_mem d) (displacement s))
                   (load (d_mem d) (velocity s)) (held_vec d t_vector) (held_vec d p_vector)).
    { intros i. clear H iterate answer dimension nodes_count.
      destruct A as [A _]. destruct F as [FN FF]. unfold refs in A, ND. rewrite EX in A, ND. cbn [extra_refs app] in A, ND.
      rewrite ?app_nil_r in A, ND.
      assert (FU : (u_vector (d_sv d) < room (d_mem d))%nat).
      { rewrite Forall_forall in FF. apply FF. right; left; reflexivity. }
      assert (FV : (v_vector (d_sv d) < room (d_mem d))%nat).
      { rewrite Forall_forall in FF. apply FF. right; right; left; reflexivity. }
      assert (RM : room m4 = room (d_mem d)) by (unfold m4, m3; rewrite !room_write; reflexivity).
      split; [|].
      - split; [split|split].
        + unfold live; cbn [st sv with_inner with_clock b_vector u_vector v_vector t_vector p_vector].
          change (NoDup ([absement s; displacement s; displaced_nodes s; velocity s] ++ solver_refs (d_sv d))).
          revert A ND. generalize [absement s; displacement s; displaced_nodes s; velocity s]. intros l A ND.
          induction l as [|a l IH]; [exact FN|]. apply Forall_cons_iff in A. apply NoDup_cons_iff in ND.
          cbn [app]. apply NoDup_cons; [|apply IH; tauto]. rewrite in_app_iff. tauto.
        + unfold live; cbn [mem st sv with_inner with_clock b_vector u_vector v_vector t_vector p_vector].
          rewrite RM.
          change (Forall (fun r => (r < room (d_mem d))%nat) ([absement s; displacement s; displaced_nodes s; velocity s] ++ solver_refs (d_sv d))).
          apply Forall_app; split; [|exact FF]. eapply Forall_impl; [|exact A]. cbn; tauto.
        + cbn [st]. rewrite EX. constructor.
        + unfold product_refs; cbn [st mem]. rewrite PR. constructor.
      - repeat match goal with
        | Q : Forall _ (_ :: _) |- _ => apply Forall_cons_iff in Q; let B := fresh "B" in destruct Q as [B Q]
        | Q : NoDup (_ :: _) |- _ => apply NoDup_cons_iff in Q; let B := fresh "N" in destruct Q as [B Q]
        end.
        unfold solver_refs in *.
        repeat match goal with
        | Q : Forall _ (_ :: _) |- _ => apply Forall_cons_iff in Q; let B := fresh "B" in destruct Q as [B Q]
        | Q : NoDup (_ :: _) |- _ => apply NoDup_cons_iff in Q; let B := fresh "N" in destruct Q as [B Q]
        end.
        cbn [In] in *.
        assert (R3 : room m3 = room (d_mem d)) by (unfold m3; apply room_write).
        assert (LD : forall k, k <> u_vector (d_sv d) -> k <> v_vector (d_sv d) -> load m4 k = load (d_mem d) k).
        { intros k K1 K2. unfold m4, m3. rewrite !load_write_other by congruence. reflexivity. }
        assert (LU : load m4 (u_vector (d_sv d)) = load (d_mem d) (displacement s)).
        { unfold m4. rewrite load_write_other by (intro Q; apply N4; rewrite Q; tauto). unfold m3.
          apply load_write_same. exact FU. }
        assert (LV : load m4 (v_vector (d_sv d)) = load (d_mem d) (velocity s)).
        { unfold m4. rewrite load_write_same by (rewrite R3; exact FV). unfold m3. apply load_write_other.
          intro Q. destruct B2 as [_ B2]. apply B2. rewrite <- Q. tauto. }
        assert (LS : forall k, ~ (b_vector (d_sv d) = k \/ u_vector (d_sv d) = k \/ v_vector (d_sv d) = k \/
                      t_vector (d_sv d) = k \/ p_vector (d_sv d) = k \/ False) -> load m4 k = load (d_mem d) k).
        { intros k K. apply LD; intro Q; apply K; rewrite Q; tauto. }
        assert (LB : load m4 (b_vector (d_sv d)) = load (d_mem d) (b_vector (d_sv d))).
        { apply LD; intro Q; apply N3; rewrite Q; tauto. }
        assert (LT : load m4 (t_vector (d_sv d)) = load (d_mem d) (t_vector (d_sv d))).
        { apply LD; intro Q; [apply N4|apply N5]; rewrite <- Q; tauto. }
        assert (LP : load m4 (p_vector (d_sv d)) = load (d_mem d) (p_vector (d_sv d))).
        { apply LD; intro Q; [apply N4|apply N5]; rewrite <- Q; tauto. }
        split.
        + unfold abs, resume_start, held_vec; cbn [mem st sv with_inner with_clock b_vector u_vector v_vector t_vector p_vector
            inner current_time].
          rewrite LU, LV, LB, LT, LP, !LS by tauto. reflexivity.
        + unfold arrays, held_vec; cbn [with_clock b_vector u_vector v_vector t_vector p_vector].
          rewrite LU, LV, LB, LT, LP. reflexivity. }
    unfold call_iterate in H; cbn [mem sv inner time_step current_time st done to_do] in H.
    rewrite (proj2 (proj2 (RD (inner (d_sv d))))) in H.
    change (time_step (with_clock (d_sv d) (time s))) with (dt_of d) in H.
    change (current_time (with_clock (d_sv d) (time s))) with (time s) in H.
    change (inner (with_clock (d_sv d) (time s))) with (inner (d_sv d)) in H.
    destruct (iterate _ _ _ _) as [i|e].
    - destruct (RD i) as (RDi & AB & _).
      cbn [mem st sv] in H.
      match type of H with context [outputs Velocity [] (schedule n out) ?w] =>
        destruct (outputs Velocity [] (schedule n out) w) as [w' r'] eqn:E end.
      destruct (outputs_spec _ _ _ _ _ _ _ _ _ _ _ RDi E) as (_ & _ & O & _).
      injection H as <- <- <-. rewrite AB in O.
      change (time_step _) with (dt_of d) in O.
      destruct r' as [l|e].
      + destruct O as ((fl & O & M) & _). exists fl, (abs w').
        split; [exact O|split; [exact M|]]. apply (ends_abs w').
      + apply O; [reflexivity|exact PR|exact NZ].
    - injection H as <- <- <-. reflexivity.
  Qed.

  (* what returned states with no products are like *)
  Lemma wave_released : forall n u0 v0 out d d' s' l, fit d -> wave_solve n u0 v0 None out [] d = (d', s', Ok l) ->
    fit d' /\ Forall (fun s => apart d' s /\ NoDup (refs s) /\ extra s = Plain /\ products s = []) l /\
    dt_of d' = dt_of d.
  Proof.
    intros n u0 v0 out d d' s' l F H.
    assert (G : in_stock (d_mem d) []) by constructor.
    destruct (wave_course _ _ _ _ _ _ _ _ _ _ _ _ _ _ F G H) as (L & F' & C).
    split; [exact F'|]. split.
    - destruct (iterate _ _ _ _); [|discriminate].
      destruct C as (fl & h & _ & _ & _ & R). eapply Forall_impl; [|exact R]. cbn. intros s Hs.
      split; [eapply released_apart; exact Hs|]. unfold released in Hs. tauto.
    - apply L.
  Qed.

  Definition shifted (q : Z) (l : list Z) : list Z := map (fun x => (q + x)%Z) l.

  Lemma steps_between_shift : forall l q from, steps_between (q + from) (shifted q l) = steps_between from l.
  Proof.
    induction l as [|a l IH]; intros q from; cbn [shifted map steps_between]; [reflexivity|].
    f_equal; [f_equal; lia|]. apply IH.
  Qed.

  Lemma outs_shift : forall c dt q n out f g, (0 <= q)%Z -> non_decreasing 0 (requested n out) ->
    nexts c dt (Z.to_nat q) f = Ok g -> forall n',
    match outs c dt (schedule n' (shifted q (requested n out))) f, outs c dt (schedule n out) g with
    | Ok (fl, h), Ok (fl', h') => fl = fl' /\ h = h'
    | Err e, Err e' => e = e'
    | _, _ => False
    end.
  Proof.
    intros c dt q n out f g Q ND N n'. rewrite !schedule_requested.
    set (l := requested n out) in *. assert (NE : exists a l', l = a :: l').
    { unfold l. destruct out; [exists (Z.of_nat n), []|eexists; eexists]; reflexivity. }
    destruct NE as (a & l' & E). clearbody l. subst l.
    assert (R : requested n' (shifted q (a :: l')) = shifted q (a :: l')) by reflexivity.
    rewrite R. cbn [shifted map steps_between].
    change (map (fun x : Z => (q + x)%Z) l') with (shifted q l'). rewrite steps_between_shift.
    cbn [non_decreasing] in ND.
    replace (Z.to_nat (q + a - 0)) with (Z.to_nat q + Z.to_nat (a - 0))%nat by lia.
    cbn [RunProofs.outs]. rewrite nexts_add, N.
    destruct (nexts c dt (Z.to_nat (a - 0)) g) as [h|]; [|reflexivity].
    destruct (outs c dt (steps_between a l') h) as [[fl' h']|]; auto.
  Qed.

  Theorem wave_resumes : forall n u0 v0 out d d1 s1 l j q s n2 x y out2 d2 s2 r2 n3 d3 s3 r3,
    forgets iterate -> fit d ->
    non_decreasing 0 (requested n out) -> non_decreasing 0 (requested n2 out2) -> n2 <> 0%nat -> n3 <> 0%nat ->
    wave_solve n u0 v0 None out [] d = (d1, s1, Ok l) ->
    nth_error (requested n out) j = Some q -> nth_error l j = Some s ->
    wave_solve n2 x y (Some s) out2 [] d1 = (d2, s2, r2) ->
    wave_solve n3 u0 v0 None (shifted q (requested n2 out2)) [] d = (d3, s3, r3) ->
    match r2, r3 with
    | Ok l2, Ok l3 => map (look (d_mem d2)) l2 = map (look (d_mem d3)) l3 /\
        held_vec d2 u_vector = held_vec d3 u_vector /\ held_vec d2 v_vector = held_vec d3 v_vector /\
        current_time (d_sv d2) = current_time (d_sv d3) /\ inner (d_sv d2) = inner (d_sv d3)
    | Err e2, Err e3 => e2 = e3
    | _, _ => False
    end.
  Proof.
    intros n u0 v0 out d d1 s1 l j q s n2 x y out2 d2 s2 r2 n3 d3 s3 r3 FG F ND ND2 NZ2 NZ3 H1 HQ HS H2 H3.
    assert (G : in_stock (d_mem d) []) by constructor.
    destruct (wave_released _ _ _ _ _ _ _ _ F H1) as (F1 & RL & DT).
    rewrite Forall_forall in RL. destruct (RL _ (nth_error_In _ _ HS)) as (AP & NDs & EX & PR).
    destruct (wave_course _ _ _ _ _ _ _ _ _ _ _ _ _ _ F G H1) as (_ & _ & C1).
    destruct (wave_course _ _ _ _ _ _ _ _ _ _ _ _ _ _ F G H3) as (_ & _ & C3).
    pose proof (resume_course _ _ _ _ _ _ _ _ _ F1 AP NDs EX PR NZ2 H2) as C2.
    set (start := mkVectors (held_vec d b_vector) u0 v0 (held_vec d t_vector) (held_vec d p_vector)) in *.
    destruct (iterate (inner (d_sv d)) start (dt_of d) 0) as [i|e] eqn:I0; [|discriminate].
    destruct C1 as (fl & h & O1 & M1 & E1 & _).
    set (f := velocity_start nodes d 0 0 i u0 v0) in *.
    assert (S0 : settled (dt_of d) f).
    { unfold settled, f, velocity_start; cbn [g_u f_u g_v f_v f_time f_clock f_inner g_b g_t g_p]. repeat split.
      rewrite (FG _ _ _ _ _ I0). exact I0. }
    destruct (outs_nexts _ _ _ _ _ _ _ _ _ _ _ O1) as (LN & HN & HJ).
    destruct (nth_error_map_eq _ _ _ _ _ _ _ _ _ M1 HS) as (g & Hg & Eg).
    specialize (HJ _ _ Hg). rewrite schedule_requested in HJ.
    destruct (steps_between_total _ _ _ _ ND HQ) as [Q0 T]. rewrite T in HJ.
    replace (q - 0)%Z with q in HJ by lia.
    pose proof (settled_nexts _ _ _ _ FG S0 HJ) as (SU & SV & ST & SI).
    destruct E1 as (EI & EC & EB & EU & EV & ET & EP).
    assert (IN : same_iterate (inner (d_sv d1)) (f_inner g)).
    { rewrite EI. intros z a b. rewrite (nexts_inner _ _ _ _ _ FG HN). rewrite (nexts_inner _ _ _ _ _ FG HJ). reflexivity. }
    destruct (nexts_other _ _ _ _ HN) as (XB & XT & XP & _).
    destruct (nexts_other _ _ _ _ HJ) as (YB & YT & YP & _).
    unfold look, flow_view in Eg. injection Eg as L1 L2 L3 L4 L5.
    rewrite EB, ET, EP, L2, L4, L5 in C2. rewrite IN, DT in C2.
    rewrite XB, XT, XP, <- YB, <- YT, <- YP, ST, SI in C2.
    assert (RS : resume_start d1 s (f_inner g) = g).
    { unfold resume_start. rewrite L1, L2, L3, L4, L5, EB, ET, EP, XB, XT, XP, <- YB, <- YT, <- YP.
      destruct g; cbn in *; subst; reflexivity. }
    rewrite RS in C2.
    pose proof (outs_shift Velocity (dt_of d) q n2 out2 f g Q0 ND2 HJ n3) as SH.
    destruct r2 as [l2|e2]; destruct r3 as [l3|e3].
    - destruct C2 as (fl2 & h2 & O2 & M2 & E2). destruct C3 as (fl3 & h3 & O3 & M3 & E3 & _).
      rewrite O2, O3 in SH. destruct SH as [-> ->]. split; [congruence|].
      destruct E2 as (A1 & A2 & A3 & A4 & A5 & A6 & A7). destruct E3 as (B1 & B2 & B3 & B4 & B5 & B6 & B7).
      repeat split; congruence.
    - destruct C2 as (fl2 & h2 & O2 & M2 & E2). specialize (C3 eq_refl NZ3). rewrite O2, C3 in SH. exact SH.
    - destruct C3 as (fl3 & h3 & O3 & M3 & E3 & _). rewrite C2, O3 in SH. exact SH.
    - specialize (C3 eq_refl NZ3). rewrite C2, C3 in SH. auto.
  Qed.

  (* two drivers whose solve() cannot be told apart *)
  Definition alike (d e : driver) : Prop :=
    same_iterate (inner (d_sv d)) (inner (d_sv e)) /\ dt_of d = dt_of e /\
    held_vec d b_vector = held_vec e b_vector /\ held_vec d t_vector = held_vec e t_vector /\
    held_vec d p_vector = held_vec e p_vector.

  Lemma wave_alike : forall n u0 v0 out d e d' e' sd se rd re, n <> 0%nat -> fit d -> fit e -> alike d e ->
    wave_solve n u0 v0 None out [] d = (d', sd, rd) -> wave_solve n u0 v0 None out [] e = (e', se, re) ->
    match rd, re with
    | Ok ld, Ok le => map (look (d_mem d')) ld = map (look (d_mem e')) le
    | Err x, Err y => x = y
    | _, _ => False
    end.
  Proof.
    intros n u0 v0 out d e d' e' sd se rd re NZ Fd Fe (A1 & A2 & A3 & A4 & A5) Hd He.
    assert (Gd : in_stock (d_mem d) []) by constructor. assert (Ge : in_stock (d_mem e) []) by constructor.
    destruct (wave_course _ _ _ _ _ _ _ _ _ _ _ _ _ _ Fd Gd Hd) as (_ & _ & Cd).
    destruct (wave_course _ _ _ _ _ _ _ _ _ _ _ _ _ _ Fe Ge He) as (_ & _ & Ce).
    rewrite A1, A2, A3, A4, A5 in Cd.
    destruct (iterate _ _ _ _) as [i|x]; [|subst; reflexivity].
    assert (S : velocity_start nodes d 0 0 i u0 v0 = velocity_start nodes e 0 0 i u0 v0).
    { unfold velocity_start. unfold held_vec in A3, A4, A5. rewrite A3, A4, A5. reflexivity. }
    unfold MarchProofs.course in Cd, Ce. rewrite S, A2 in Cd.
    destruct rd as [ld|x]; destruct re as [le|y].
    - destruct Cd as (fl & h & O & M & _). destruct Ce as (fl' & h' & O' & M' & _). rewrite O in O'.
      injection O' as <- <-. congruence.
    - destruct Cd as (fl & h & O & M & _). rewrite (Ce eq_refl NZ) in O. discriminate.
    - destruct Ce as (fl & h & O & M & _). rewrite (Cd eq_refl NZ) in O. discriminate.
    - rewrite (Cd eq_refl NZ) in Ce. specialize (Ce eq_refl NZ). congruence.
  Qed.

  Theorem wave_repeats : forall n u0 v0 out d d1 s1 l n2 u2 v2 out2 d2 s2 r2 d3 s3 r3,
    forgets iterate -> fit d -> n2 <> 0%nat ->
    wave_solve n u0 v0 None out [] d = (d1, s1, Ok l) ->
    wave_solve n2 u2 v2 None out2 [] d = (d2, s2, r2) ->
    wave_solve n2 u2 v2 None out2 [] d1 = (d3, s3, r3) ->
    match r2, r3 with
    | Ok l2, Ok l3 => map (look (d_mem d2)) l2 = map (look (d_mem d3)) l3
    | Err x, Err y => x = y
    | _, _ => False
    end.
  Proof.
    intros n u0 v0 out d d1 s1 l n2 u2 v2 out2 d2 s2 r2 d3 s3 r3 FG F NZ H1 H2 H3.
    assert (G : in_stock (d_mem d) []) by constructor.
    destruct (wave_course _ _ _ _ _ _ _ _ _ _ _ _ _ _ F G H1) as (L & F1 & C).
    destruct (iterate _ _ _ _) as [i|e] eqn:I0; [|discriminate].
    destruct C as (fl & h & O & M & (EI & EC & EB & EU & EV & ET & EP) & _).
    destruct (outs_nexts _ _ _ _ _ _ _ _ _ _ _ O) as (_ & HN & _).
    destruct (nexts_other _ _ _ _ HN) as (XB & XT & XP & _).
    assert (AL : alike d d1).
    { unfold alike. rewrite EI, EB, ET, EP, XB, XT, XP. repeat split; try reflexivity.
      - intros z a b. rewrite (nexts_inner _ _ _ _ _ FG HN). unfold velocity_start; cbn [f_inner].
        rewrite (FG _ _ _ _ _ I0). reflexivity.
      - symmetry. apply L. }
    exact (wave_alike _ _ _ _ _ _ _ _ _ _ _ _ NZ F F1 AL H2 H3).
  Qed.

  (* StaticSolver has a time step of 0 *)
  Theorem static_repeats : forall u0 d d1 s1 u2 d2 r2 d3 r3, forgets iterate -> fit d ->
    dt_of d = 0 -> current_time (d_sv d) = 0 -> held_vec d b_vector = (fun _ => 0) -> d_to_do d <> 0%nat ->
    static_solve u0 [] d = (d1, Ok s1) ->
    static_solve u2 [] d = (d2, r2) -> static_solve u2 [] d1 = (d3, r3) ->
    match r2, r3 with
    | Ok a, Ok b => look (d_mem d2) a = look (d_mem d3) b
    | Err x, Err y => x = y
    | _, _ => False
    end.
  Proof.
    intros u0 d d1 s1 u2 d2 r2 d3 r3 FG F DT CT B0 TD H1 H2 H3.
    assert (G : in_stock (d_mem d) []) by constructor. assert (G1 : in_stock (d_mem d1) []) by constructor.
    destruct (static_course _ _ _ _ _ _ _ _ _ _ F G H1) as (L & F1 & C1 & TD1).
    destruct (iterate _ _ _ _) as [i|e] eqn:I0; [|discriminate].
    cbv zeta in C1. destruct C1 as (h & N & _ & (EI & EC & EB & EU & EV & ET & EP) & _).
    destruct (static_course _ _ _ _ _ _ _ _ _ _ F G H2) as (_ & _ & C2 & _).
    destruct (static_course _ _ _ _ _ _ _ _ _ _ F1 G1 H3) as (_ & _ & C3 & _).
    pose proof (nexts_inner _ _ _ _ _ FG N) as IN.
    assert (D1 : dt_of d1 = 0) by (rewrite <- DT; apply L).
    cbn [RunProofs.nexts] in N. unfold TimeProofs.next in N. unfold displacement_start in N at 1.
    cbn [f_inner f_u g_v g_u f_clock f_time] in N.
    destruct (answer _ _ _ _ _) as [[len x]|]; [|discriminate]. destruct (len =? size)%nat; [|discriminate].
    cbn [displacement_start f_inner f_u g_v g_u f_clock f_time f_b g_t g_p f_v] in N. unfold displacement_start in N.
    cbn [displacement_start f_inner f_u g_v g_u f_clock f_time f_b g_t g_p f_v] in N.
    destruct (iterate i _ _ _) as [i1|] eqn:I1; [|discriminate]. injection N as N. subst h.
    cbn [f_inner f_clock g_b g_u g_v g_t g_p] in *.
    assert (B1 : held_vec d1 b_vector = held_vec d b_vector).
    { rewrite EB, B0, DT, CT. apply functional_extensionality. intros; ring. }
    assert (V1 : held_vec d1 v_vector = held_vec d v_vector) by exact EV.
    assert (T1 : held_vec d1 t_vector = held_vec d t_vector) by exact ET.
    assert (P1 : held_vec d1 p_vector = held_vec d p_vector) by exact EP.
    assert (K1 : current_time (d_sv d1) = current_time (d_sv d)) by (rewrite EC, DT; ring).
    assert (J : same_iterate (inner (d_sv d1)) (inner (d_sv d))).
    { intros z a b. rewrite EI, IN. cbn [displacement_start f_inner]. apply (FG _ _ _ _ _ I0). }
    rewrite J, B1, V1, T1, P1, D1, K1, TD1 in C3. rewrite DT in C2. clear I0 I1.
    destruct (iterate (inner (d_sv d)) _ _ _) as [i2|e2]; [|subst; reflexivity].
    cbv zeta in C2, C3.
    assert (S : displacement_start nodes d1 i2 (fun _ => 0) (held_vec d b_vector) u2
              = displacement_start nodes d i2 (fun _ => 0) (held_vec d b_vector) u2).
    { unfold displacement_start. unfold held_vec in V1, T1, P1. rewrite V1, T1, P1, K1. reflexivity. }
    rewrite S in C3.
    destruct r2 as [a|x2]; destruct r3 as [b|y].
    - destruct C2 as (h2 & N2 & M2 & _). destruct C3 as (h3 & N3 & M3 & _). rewrite N2 in N3. injection N3 as <-.
      congruence.
    - destruct C2 as (h2 & N2 & _). rewrite (C3 eq_refl TD) in N2. discriminate.
    - destruct C3 as (h2 & N2 & _). rewrite (C2 eq_refl TD) in N2. discriminate.
    - specialize (C2 eq_refl TD). specialize (C3 eq_refl TD). congruence.
  Qed.
End Resume.
