(* Runs as histories of fields. *)
From Coq Require Import Reals List Arith ZArith Bool String Lia Lra FunctionalExtensionality.
From Verif Require Import PyModel RVec StateModel TimeModel TimeSpec StateLemmas CopyProofs TimeProofs RunProofs.
Import ListNotations.
Local Open Scope R_scope.

Section History.
  Context {I : Type}.
  Variables (dimension nodes_count : nat) (nodes : vec).
  Variable iterate : I -> vectors -> R -> R -> result I.
  Variable answer : I -> vec -> vec -> vec -> R -> result (nat * vec).
  Notation size := (dimension * nodes_count)%nat.
  Notation next := (next dimension nodes_count nodes iterate answer).
  Notation nexts := (nexts dimension nodes_count nodes iterate answer).
  Notation outs := (outs dimension nodes_count nodes iterate answer).
  Notation flow := (@flow I).

  Lemma nexts_snoc : forall c dt n f,
    nexts c dt (S n) f = match nexts c dt n f with Ok g => next c dt g | Err e => Err e end.
  Proof.
    intros. replace (S n) with (n + 1)%nat by lia. rewrite nexts_add.
    destruct (nexts c dt n f) as [g|]; [|reflexivity]. cbn [RunProofs.nexts]. destruct (next c dt g); reflexivity.
  Qed.

  Lemma nexts_prefix : forall c dt n k f g, nexts c dt n f = Ok g -> (k <= n)%nat -> exists h, nexts c dt k f = Ok h.
  Proof.
    intros c dt n k f g H L. replace n with (k + (n - k))%nat in H by lia. rewrite nexts_add in H.
    destruct (nexts c dt k f); [eauto|discriminate].
  Qed.

  Definition velocity_flow (f : flow) (dt : R) (inner : nat -> I) (u v : nat -> vec) (k : nat) : flow :=
    mkFlow (inner k) (instant (f_clock f) dt k)
      (match k with O => f_time f | _ => instant (f_clock f) dt k end)
      (f_b f) (u k) (match k with O => f_x f | _ => fun i => nodes i + u k i end) (v k)
      (g_b f) (u k) (v k) (g_t f) (g_p f).

  Definition displacement_flow (f : flow) (dt : R) (inner : nat -> I) (b u : nat -> vec) (k : nat) : flow :=
    mkFlow (inner k) (instant (f_clock f) dt k)
      (match k with O => f_time f | _ => instant (f_clock f) dt k end)
      (b k) (u k) (match k with O => f_x f | _ => fun i => nodes i + u k i end) (f_v f)
      (b k) (u k) (g_v f) (g_t f) (g_p f).

  Definition velocity_mirror (f : flow) : Prop := g_u f = f_u f /\ g_v f = f_v f.
  Definition displacement_mirror (f : flow) : Prop := g_u f = f_u f /\ g_b f = f_b f.

  Lemma instant_0 : forall t dt, instant t dt 0 = t.
  Proof. intros; unfold instant; cbn; lra. Qed.
  Lemma instant_S : forall t dt k, instant t dt (S k) = instant t dt k + dt.
  Proof. intros; unfold instant; rewrite S_INR; lra. Qed.

  Lemma gap_behind : forall (f : flow) dt k,
    instant (f_clock f) dt k + dt - match k with O => f_time f | _ => instant (f_clock f) dt k end
    = dt + behind (f_clock f) (f_time f) k.
  Proof. intros f dt [|k]; unfold behind; [rewrite instant_0|]; lra. Qed.

  Lemma velocity_flow_nexts : forall f dt n inner u v, velocity_mirror f ->
    inner O = f_inner f -> u O = f_u f -> v O = f_v f ->
    velocity_history iterate answer size (g_b f) (g_t f) (g_p f) dt (f_clock f) (f_time f) n inner u v ->
    forall k, (k <= n)%nat -> nexts Velocity dt k f = Ok (velocity_flow f dt inner u v k).
  Proof.
    intros f dt n inner u v [Mu Mv] I0 U0 V0 H k.
    induction k as [|k IH]; intros L.
    - cbn [RunProofs.nexts]. apply (f_equal Ok). unfold velocity_flow. rewrite I0, U0, V0, instant_0.
      destruct f; cbn in *. rewrite Mu, Mv. reflexivity.
    - rewrite nexts_snoc, IH by lia. destruct (H k) as (A & U & J); [lia|].
      unfold TimeProofs.next, velocity_flow.
      cbn [f_inner f_clock f_time f_b f_u f_x f_v g_b g_u g_v g_t g_p].
      rewrite A, Nat.eqb_refl, gap_behind, <- U, <- instant_S, J. rewrite U. reflexivity.
  Qed.

  Lemma velocity_flow_exists : forall f dt n g, velocity_mirror f -> nexts Velocity dt n f = Ok g ->
    exists inner u v, inner O = f_inner f /\ u O = f_u f /\ v O = f_v f /\
      velocity_history iterate answer size (g_b f) (g_t f) (g_p f) dt (f_clock f) (f_time f) n inner u v.
  Proof.
    intros f dt n g M H.
    set (fl := fun k => match nexts Velocity dt k f with Ok h => h | Err _ => f end).
    exists (fun k => f_inner (fl k)), (fun k => f_u (fl k)), (fun k => f_v (fl k)).
    split; [reflexivity|split; [reflexivity|split; [reflexivity|]]].
    assert (K : forall k, (k <= n)%nat -> nexts Velocity dt k f = Ok (fl k)).
    { intros k L. destruct (nexts_prefix _ _ _ _ _ _ H L) as [h Hh]. unfold fl. rewrite Hh. reflexivity. }
    assert (Q : forall k, (k <= n)%nat ->
      f_clock (fl k) = instant (f_clock f) dt k /\
      f_time (fl k) = (match k with O => f_time f | _ => instant (f_clock f) dt k end) /\
      g_u (fl k) = f_u (fl k) /\ g_v (fl k) = f_v (fl k) /\
      g_b (fl k) = g_b f /\ g_t (fl k) = g_t f /\ g_p (fl k) = g_p f /\
      ((k < n)%nat -> next Velocity dt (fl k) = Ok (fl (S k)))).
    { intros k. induction k as [|k IH]; intros L.
      - replace (fl 0%nat) with f by reflexivity. rewrite instant_0. destruct M. repeat split; auto.
        intros L'. pose proof (K 1%nat L') as K1. rewrite nexts_snoc in K1. exact K1.
      - destruct IH as (A1 & A2 & A3 & A4 & A5 & A6 & A7 & A8); [lia|].
        specialize (A8 ltac:(lia)).
        assert (KK : (S k < n)%nat -> next Velocity dt (fl (S k)) = Ok (fl (S (S k)))).
        { intros L'. pose proof (K (S (S k)) L') as K1. rewrite nexts_snoc, K in K1 by lia. exact K1. }
        revert KK. generalize (fl (S (S k))). intros h2 KK.
        revert A8 KK. generalize (fl (S k)). intros h A8 KK.
        unfold TimeProofs.next in A8.
        destruct (answer _ _ _ _ _) as [[len x]|]; [|discriminate].
        destruct (len =? size)%nat; [|discriminate].
        destruct (iterate _ _ _ _); [|discriminate].
        injection A8 as <-. cbn [f_inner f_clock f_time f_b f_u f_x f_v g_b g_u g_v g_t g_p] in *.
        rewrite A1 in *. rewrite instant_S in *.
        repeat apply conj; auto. }
    intros k L.
    destruct (Q k) as (A1 & A2 & A3 & A4 & A5 & A6 & A7 & A8); [lia|].
    specialize (A8 L).
    unfold TimeProofs.next in A8. rewrite A4, A3 in A8.
    destruct (answer _ _ _ _ _) as [[len x]|]; [|discriminate].
    destruct (Nat.eqb_spec len size) as [->|]; [|discriminate].
    rewrite A1, A2, A5, A6, A7, gap_behind, <- instant_S in A8.
    destruct (iterate _ _ _ _) eqn:Ei; [|discriminate].
    injection A8 as A8. rewrite <- A8. cbn [f_inner f_clock f_time f_b f_u f_x f_v g_b g_u g_v g_t g_p].
    split; [reflexivity|split; [reflexivity|exact Ei]].
  Qed.

  Lemma displacement_flow_nexts : forall f dt n inner b u, displacement_mirror f ->
    inner O = f_inner f -> b O = f_b f -> u O = f_u f ->
    displacement_history iterate answer size (g_v f) (g_t f) (g_p f) dt (f_clock f) (f_time f) n inner b u ->
    forall k, (k <= n)%nat -> nexts Displacement dt k f = Ok (displacement_flow f dt inner b u k).
  Proof.
    intros f dt n inner b u [Mu Mb] I0 B0 U0 H k.
    induction k as [|k IH]; intros L.
    - cbn [RunProofs.nexts]. apply (f_equal Ok). unfold displacement_flow. rewrite I0, U0, B0, instant_0.
      destruct f; cbn in *. rewrite Mu, Mb. reflexivity.
    - rewrite nexts_snoc, IH by lia. destruct (H k) as (A & U & J); [lia|].
      unfold TimeProofs.next, displacement_flow.
      cbn [f_inner f_clock f_time f_b f_u f_x f_v g_b g_u g_v g_t g_p].
      rewrite A, Nat.eqb_refl, gap_behind, <- U, <- instant_S, J. reflexivity.
  Qed.

  Lemma displacement_flow_exists : forall f dt n g, displacement_mirror f -> nexts Displacement dt n f = Ok g ->
    exists inner b u, inner O = f_inner f /\ b O = f_b f /\ u O = f_u f /\
      displacement_history iterate answer size (g_v f) (g_t f) (g_p f) dt (f_clock f) (f_time f) n inner b u.
  Proof.
    intros f dt n g M H.
    set (fl := fun k => match nexts Displacement dt k f with Ok h => h | Err _ => f end).
    exists (fun k => f_inner (fl k)), (fun k => f_b (fl k)), (fun k => f_u (fl k)).
    split; [reflexivity|split; [reflexivity|split; [reflexivity|]]].
    assert (K : forall k, (k <= n)%nat -> nexts Displacement dt k f = Ok (fl k)).
    { intros k L. destruct (nexts_prefix _ _ _ _ _ _ H L) as [h Hh]. unfold fl. rewrite Hh. reflexivity. }
    assert (Q : forall k, (k <= n)%nat ->
      f_clock (fl k) = instant (f_clock f) dt k /\
      f_time (fl k) = (match k with O => f_time f | _ => instant (f_clock f) dt k end) /\
      g_u (fl k) = f_u (fl k) /\ g_b (fl k) = f_b (fl k) /\
      g_v (fl k) = g_v f /\ g_t (fl k) = g_t f /\ g_p (fl k) = g_p f /\
      ((k < n)%nat -> next Displacement dt (fl k) = Ok (fl (S k)))).
    { intros k. induction k as [|k IH]; intros L.
      - replace (fl 0%nat) with f by reflexivity. rewrite instant_0. destruct M. repeat split; auto.
        intros L'. pose proof (K 1%nat L') as K1. rewrite nexts_snoc in K1. exact K1.
      - destruct IH as (A1 & A2 & A3 & A4 & A5 & A6 & A7 & A8); [lia|].
        specialize (A8 ltac:(lia)).
        assert (KK : (S k < n)%nat -> next Displacement dt (fl (S k)) = Ok (fl (S (S k)))).
        { intros L'. pose proof (K (S (S k)) L') as K1. rewrite nexts_snoc, K in K1 by lia. exact K1. }
        revert KK. generalize (fl (S (S k))). intros h2 KK.
        revert A8 KK. generalize (fl (S k)). intros h A8 KK.
        unfold TimeProofs.next in A8.
        destruct (answer _ _ _ _ _) as [[len x]|]; [|discriminate].
        destruct (len =? size)%nat; [|discriminate].
        destruct (iterate _ _ _ _); [|discriminate].
        injection A8 as <-. cbn [f_inner f_clock f_time f_b f_u f_x f_v g_b g_u g_v g_t g_p] in *.
        rewrite A1 in *. rewrite instant_S in *.
        repeat apply conj; auto. }
    intros k L.
    destruct (Q k) as (A1 & A2 & A3 & A4 & A5 & A6 & A7 & A8); [lia|].
    specialize (A8 L).
    unfold TimeProofs.next in A8. rewrite A3, A5 in A8.
    destruct (answer _ _ _ _ _) as [[len x]|]; [|discriminate].
    destruct (Nat.eqb_spec len size) as [->|]; [|discriminate].
    rewrite A1, A2, A6, A7, gap_behind, <- instant_S in A8.
    destruct (iterate _ _ _ _) eqn:Ei; [|discriminate].
    injection A8 as A8. rewrite <- A8. cbn [f_inner f_clock f_time f_b f_u f_x f_v g_b g_u g_v g_t g_p].
    split; [reflexivity|split; [reflexivity|exact Ei]].
  Qed.

  (* outputs *)
  Definition total (ns : list nat) : nat := fold_right plus O ns.

  Lemma outs_nexts : forall c dt ns f fl h, outs c dt ns f = Ok (fl, h) ->
    List.length fl = List.length ns /\ nexts c dt (total ns) f = Ok h /\
    forall j g, nth_error fl j = Some g -> nexts c dt (total (firstn (S j) ns)) f = Ok g.
  Proof.
    intros c dt ns; induction ns as [|n ns IH]; intros f fl h H; cbn [RunProofs.outs] in H.
    - injection H as <- <-. split; [reflexivity|split; [reflexivity|]]. intros [|j] g E; discriminate.
    - destruct (nexts c dt n f) as [g|] eqn:E; [|discriminate].
      destruct (outs c dt ns g) as [[l h']|] eqn:O; [|discriminate].
      injection H as <- <-. destruct (IH _ _ _ O) as (A & B & C).
      cbn [List.length total fold_right]. split; [lia|].
      split; [rewrite nexts_add, E; exact B|].
      intros [|j] g' Hj; cbn [nth_error firstn total fold_right] in *.
      + injection Hj as <-. rewrite Nat.add_0_r. exact E.
      + change (fold_right Nat.add 0%nat (firstn j ns)) with (total (firstn j ns)).
        rewrite nexts_add, E. apply C. exact Hj.
  Qed.

  Lemma nexts_outs : forall c dt ns f h, nexts c dt (total ns) f = Ok h -> exists fl, outs c dt ns f = Ok (fl, h).
  Proof.
    intros c dt ns; induction ns as [|n ns IH]; intros f h H; cbn [RunProofs.outs total fold_right] in *.
    - cbn in H. injection H as <-. eauto.
    - change (fold_right Nat.add 0%nat ns) with (total ns) in H. rewrite nexts_add in H.
      destruct (nexts c dt n f) as [g|]; [|discriminate].
      destruct (IH _ _ H) as [fl E]. rewrite E. eauto.
  Qed.

  Lemma steps_between_length : forall l from, List.length (steps_between from l) = List.length l.
  Proof. induction l; intros; cbn [steps_between List.length]; [reflexivity|rewrite IHl; reflexivity]. Qed.

  Lemma steps_between_total : forall l from j x, non_decreasing from l -> nth_error l j = Some x ->
    (from <= x)%Z /\ total (firstn (S j) (steps_between from l)) = Z.to_nat (x - from).
  Proof.
    induction l as [|a l IH]; intros from j x N H; [destruct j; discriminate|].
    cbn [non_decreasing] in N. destruct N as [L N].
    destruct j as [|j]; cbn [nth_error] in H.
    - injection H as <-. cbn [steps_between firstn total fold_right]. split; lia.
    - destruct (IH _ _ _ N H) as [L2 T].
      cbn [steps_between]. change (firstn (S (S j)) (Z.to_nat (a - from) :: steps_between a l))
        with (Z.to_nat (a - from) :: firstn (S j) (steps_between a l)).
      cbn [total fold_right]. change (fold_right Nat.add 0%nat (firstn (S j) (steps_between a l))) with (total (firstn (S j) (steps_between a l))).
      rewrite T. split; lia.
  Qed.

  Lemma schedule_requested : forall n out, schedule n out = steps_between 0 (requested n out).
  Proof. intros n [|x l]; reflexivity. Qed.

  Lemma total_firstn_le : forall ns j, (total (firstn j ns) <= total ns)%nat.
  Proof.
    induction ns as [|n ns IH]; intros [|j]; cbn [firstn total fold_right]; try lia.
    specialize (IH j). unfold total in IH. lia.
  Qed.
End History.
