(* The solve() of the Poisson driver for any step solver. *)
From Coq Require Import Reals List Arith ZArith Bool String Lia Lra FunctionalExtensionality.
From Verif Require Import PyModel RVec StateModel TimeModel TimeSpec StateLemmas CopyProofs TimeProofs RunProofs HistoryProofs SolveProofs MarchProofs TimeTheorems.
Import ListNotations.
Local Open Scope R_scope.

Section Poisson.
  Context {V W I : Type}.
  Variable nodes : vec.
  Variable iterate : I -> vectors -> R -> R -> result I.
  Variable answer : I -> vec -> vec -> vec -> R -> result (nat * vec).
  Notation driver := (driver V I).
  Notation poisson_solve := (@poisson_solve V W I nodes iterate answer).

  Definition poisson_store (d : driver) : store V :=
    write (mkStore (cells (d_mem d) ++ [zeros; zeros; nodes; zeros; zeros]) (prods (d_mem d))) (t_vector (d_sv d)) zeros.
  Definition poisson_arrays (d : driver) : vectors :=
    mkVectors (held_vec d b_vector) (held_vec d u_vector) (held_vec d v_vector) zeros (held_vec d p_vector).

  Ltac bound := solve [repeat match goal with H : _ <> _ |- _ => clear H end; lia].
  Ltac spread F :=
    let N := fresh "N" in let Q := fresh "Q" in
    pose proof F as [N Q]; unfold solver_refs in N, Q;
    repeat match goal with
    | Q : NoDup (_ :: _) |- _ =>
        apply NoDup_cons_iff in Q; let A := fresh "A" in destruct Q as [A Q]; cbn [In] in A
    | Q : Forall _ (_ :: _) |- _ =>
        apply Forall_cons_iff in Q; let A := fresh "L" in destruct Q as [A Q]
    | Q : NoDup [] |- _ => clear Q
    | Q : Forall _ [] |- _ => clear Q
    end;
    repeat match goal with
    | Q : ~ (_ \/ _) |- _ => apply Decidable.not_or in Q; destruct Q
    | Q : ~ False |- _ => clear Q
    end.

  Lemma poisson_room d : room (poisson_store d) = (room (d_mem d) + 5)%nat.
  Proof. unfold poisson_store. rewrite room_write, room_more. reflexivity. Qed.
  Lemma poisson_held d : fit d -> arrays (poisson_store d) (d_sv d) = poisson_arrays d.
  Proof.
    intros F. unfold arrays, poisson_arrays, poisson_store, held_vec. spread F.
    rewrite load_write_same by (rewrite room_more; cbn [List.length]; bound).
    rewrite !load_write_other by (solve [congruence|bound]). rewrite !load_more_old by bound. reflexivity.
  Qed.
  Lemma poisson_new d k : (k < 5)%nat -> fit d -> load (poisson_store d) (room (d_mem d) + k) = nth k [zeros; zeros; nodes; zeros; zeros] zeros.
  Proof.
    intros K F. unfold poisson_store. spread F. rewrite load_write_other by bound. apply load_more_new.
  Qed.

  Lemma poisson_eq d : fit d -> poisson_solve d =
    match iterate (inner (d_sv d)) (poisson_arrays d) (dt_of d) (current_time (d_sv d)) with
    | Err e => (mkDriver (poisson_store d) (d_sv d) (d_done d) (d_to_do d), Err e)
    | Ok i =>
        match answer i zeros (held_vec d v_vector) (held_vec d u_vector) (dt_of d) with
        | Err e => (mkDriver (poisson_store d) (with_inner (d_sv d) i) (d_done d) (d_to_do d), Err e)
        | Ok (_, x) =>
            (mkDriver (mkStore (cells (poisson_store d) ++ [x]) (prods (poisson_store d))) (with_inner (d_sv d) i) (d_done d) (d_to_do d),
             Ok (mkState (room (d_mem d)) (room (d_mem d) + 1) (room (d_mem d) + 2) (room (d_mem d) + 3) (Thermal (room (d_mem d) + 5)) 0 [] None None))
        end
    end.
  Proof.
    intros F. unfold TimeModel.poisson_solve. rewrite new_state_eq. cbn [extra new_extra new_cells].
    rewrite load_more_new. cbn [nth]. change (fun _ : nat => 0) with zeros.
    fold (poisson_store d). unfold call_iterate. cbn [sv mem]. rewrite (poisson_held d F). unfold dt_of.
    destruct (iterate _ _ _ _) as [i|e]; [|reflexivity]. cbn [mem sv inner with_inner st done to_do u_vector v_vector time_step].
    rewrite (poisson_new d 4 ltac:(lia) F). cbn [nth].
    assert (E := poisson_held d F). unfold arrays, poisson_arrays in E. injection E as _ E1 E2 _ _. rewrite E1, E2.
    destruct (answer _ _ _ _ _) as [[len x]|e]; [|reflexivity]. unfold alloc, leave, set_extra. cbn [extra fst snd mem sv done to_do absement displacement displaced_nodes velocity time products constitutive_law stress_cache].
    assert (R5 := poisson_room d). unfold room in R5 |- *. rewrite R5. reflexivity.
  Qed.

  Theorem poisson_course d d' r : fit d -> poisson_solve d = (d', r) ->
    later [] d d' /\ fit d' /\
    match iterate (inner (d_sv d)) (poisson_arrays d) (dt_of d) (current_time (d_sv d)) with
    | Err e => r = Err e
    | Ok i =>
        inner (d_sv d') = i /\
        match answer i zeros (held_vec d v_vector) (held_vec d u_vector) (dt_of d) with
        | Err e => r = Err e
        | Ok (_, x) => exists s cell, r = Ok s /\ extra s = Thermal cell /\ load (d_mem d') cell = x /\
            look (d_mem d') s = mkView zeros zeros nodes zeros 0 /\ apart d' s
        end
    end /\
    held_vec d' u_vector = held_vec d u_vector /\ held_vec d' v_vector = held_vec d v_vector /\
    held_vec d' b_vector = held_vec d b_vector /\ held_vec d' p_vector = held_vec d p_vector /\ current_time (d_sv d') = current_time (d_sv d).
  Proof.
    intros F H. rewrite (poisson_eq d F) in H.
    assert (R5 := poisson_room d).
    assert (L0 : forall k, (k < room (d_mem d))%nat -> ~ In k (solver_refs (d_sv d)) -> load (poisson_store d) k = load (d_mem d) k).
    { intros k Lk Nk. unfold poisson_store. rewrite load_write_other; [apply load_more_old; exact Lk|]. intros Q. apply Nk. subst k. unfold solver_refs. cbn [In]. tauto. }
    assert (AR := poisson_held d F). unfold arrays, poisson_arrays in AR. injection AR as A1 A2 A3 _ A5.
    assert (FR : Forall (fun r => (r < room (d_mem d))%nat) (solver_refs (d_sv d))) by apply F.
    assert (ST : stock (poisson_store d) = stock (d_mem d)) by reflexivity.
    destruct (iterate _ _ _ _) as [i|e] eqn:E0.
    2:{ injection H as <- <-. split; [|split; [|split; [reflexivity|]]].
        - unfold later. cbn [d_mem d_sv]. split; [lia|]. split; [rewrite ST; lia|]. split; [exact L0|]. split; [reflexivity|]. split; [left; assumption|reflexivity].
        - split; cbn [d_mem d_sv]; [apply F|]. eapply Forall_impl; [|exact FR]. cbn beta. intros a B. rewrite R5. lia.
        - repeat split; assumption. }
    destruct (answer _ _ _ _ _) as [[len x]|e] eqn:E1.
    2:{ injection H as <- <-. split; [|split; [|split; [split; reflexivity|]]].
        - unfold later. cbn [d_mem d_sv]. split; [lia|]. split; [rewrite ST; lia|]. split; [exact L0|]. split; [reflexivity|]. split; [left; assumption|reflexivity].
        - split; cbn [d_mem d_sv]; [apply F|]. eapply Forall_impl; [|exact FR]. cbn beta. intros a B. rewrite R5. lia.
        - repeat split; assumption. }
    remember (poisson_store d) as m eqn:EM. injection H as <- <-.
    assert (RM : forall p, room (mkStore (cells m ++ [x]) p : store V) = (room (d_mem d) + 6)%nat) by (intros p; rewrite room_more, R5; cbn; lia).
    assert (OLD : forall p k, (k < room m)%nat -> load (mkStore (cells m ++ [x]) p : store V) k = load m k) by (intros p k K; apply load_more_old; exact K).
    assert (RR : forall k, In k (solver_refs (d_sv d)) -> (k < room (d_mem d))%nat) by (apply Forall_forall; exact FR).
    split; [|split; [|split; [split; [reflexivity|]|]]].
    - unfold later. cbn [d_mem d_sv]. split; [rewrite RM; lia|]. split; [exact (Nat.eq_le_incl _ _ (eq_sym ST))|]. split; [intros k Lk Nk; rewrite OLD by lia; auto|].
      split; [intros; rewrite EM; reflexivity|]. split; [left; assumption|reflexivity].
    - split; cbn [d_mem d_sv]; [apply F|]. eapply Forall_impl; [|exact FR]. cbn beta. intros a B. rewrite RM. lia.
    - eexists _, _. split; [reflexivity|]. cbn [extra d_mem]. split; [reflexivity|]. split.
      { rewrite <- R5. rewrite load_more_head. reflexivity. }
      split.
      { unfold look. cbn [absement displacement displaced_nodes velocity time]. rewrite !OLD by lia. rewrite EM.
        rewrite <- (Nat.add_0_r (room (d_mem d))) at 1. rewrite !poisson_new by (lia || exact F). reflexivity. }
      unfold apart. cbn [d_mem d_sv]. split; [|constructor]. unfold refs. cbn [absement displacement displaced_nodes velocity extra extra_refs].
      assert (NI : forall k, (room (d_mem d) <= k)%nat -> ~ In k (solver_refs (with_inner (d_sv d) i))) by (intros k K Q; apply RR in Q; lia).
      cbn [app]. repeat (apply Forall_cons; [split; [rewrite RM; lia|apply NI; lia]|]). apply Forall_nil.
    - unfold held_vec. cbn [d_mem d_sv with_inner u_vector v_vector b_vector p_vector current_time].
      rewrite !OLD by (assert (X := RR); rewrite R5; unfold solver_refs in X; cbn [In] in X; match goal with |- (?k < _)%nat => specialize (X k ltac:(tauto)); lia end).
      repeat split; assumption.
  Qed.

  Theorem poisson_repeats d d1 s1 d2 r2 : forgets iterate -> fit d ->
    poisson_solve d = (d1, Ok s1) -> poisson_solve d1 = (d2, r2) ->
    exists s2 c1 c2, r2 = Ok s2 /\ extra s1 = Thermal c1 /\ extra s2 = Thermal c2 /\ load (d_mem d2) c2 = load (d_mem d1) c1 /\
      look (d_mem d2) s2 = look (d_mem d1) s1 /\ load (d_mem d2) c1 = load (d_mem d1) c1.
  Proof.
    intros FG F H1 H2. destruct (poisson_course d d1 _ F H1) as (L & F1 & C1 & U1 & V1 & B1 & P1 & T1).
    destruct (iterate _ _ _ _) as [i|e] eqn:E0; [|discriminate]. destruct C1 as (I1 & C1). destruct (answer _ _ _ _ _) as [[len x]|e] eqn:E1; [|discriminate].
    destruct C1 as (s & c & EQ & X1 & Y1 & Z1 & A1). injection EQ as ->.
    destruct (poisson_course d1 d2 r2 F1 H2) as (L2 & F2 & C2 & _).
    assert (DT : dt_of d1 = dt_of d) by apply L. unfold poisson_arrays in C2. rewrite U1, V1, B1, P1, T1, DT, I1 in C2. fold (poisson_arrays d) in C2.
    rewrite (FG _ _ _ _ _ E0), E0 in C2. destruct C2 as (I2 & C2). rewrite E1 in C2. destruct C2 as (s2 & c2 & EQ2 & X2 & Y2 & Z2 & A2).
    exists s2, c, c2. split; [exact EQ2|]. split; [exact X1|]. split; [exact X2|]. split; [congruence|]. split; [congruence|].
    destruct (apart_later [] d1 d2 s A1 (fun _ Q => match Q with end) L2) as (SH & _). apply (f_equal (fun q => snd (fst q))) in SH. cbn [shown fst snd] in SH. rewrite X1 in SH. cbn [extra_refs map] in SH. injection SH as SH. exact SH.
  Qed.
  Theorem poisson_apart d d' (s : state W) : fit d -> poisson_solve d = (d', Ok s) -> fit d' /\ apart d' s.
  Proof.
    intros F H. destruct (poisson_course d d' _ F H) as (_ & F' & C & _). split; [exact F'|].
    destruct (iterate _ _ _ _) as [i|e]; [|discriminate]. destruct C as (_ & C). destruct (answer _ _ _ _ _) as [[len x]|e]; [|discriminate].
    destruct C as (s' & c & EQ & _ & _ & _ & A). injection EQ as <-. exact A.
  Qed.
  Theorem poisson_snapshot d d' r (s : state W) : fit d -> poisson_solve d = (d', r) -> apart d s -> shown (d_mem d') s = shown (d_mem d) s /\ apart d' s.
  Proof.
    intros F H A. destruct (poisson_course d d' _ F H) as (L & _). exact (apart_later [] d d' s A (fun _ Q => match Q with end) L).
  Qed.
End Poisson.
