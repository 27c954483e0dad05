(* solve() of the coupled problems. *)
From Coq Require Import Reals List Arith ZArith Bool String Lia Lra FunctionalExtensionality.
From Verif Require Import PyModel RVec StateModel TimeModel TimeSpec StateLemmas CopyProofs TimeProofs RunProofs
  HistoryProofs SolveProofs UzawaProofs MarchProofs TimeTheorems.
Import ListNotations.
Local Open Scope R_scope.

Section Coupled.
  Context {V W I J : Type}.
  Variables (dimension nodes_count : nat) (nodes : vec).
  Variable thermal : bool.
  Variable iterate : I -> vectors -> R -> R -> result I.
  Variable second_iterate : J -> vectors -> R -> R -> result J.
  Variable update : I -> vec -> vec -> vec -> R -> R -> result I.
  Variable second_update : J -> vec -> vec -> vec -> vec -> R -> result J.
  Variable answer : I -> vec -> vec -> vec -> R -> result (nat * vec).
  Variable second_answer : J -> vec -> vec -> vec -> R -> result (nat * vec).
  Notation size := (dimension * nodes_count)%nat.
  Notation pair := (@pair V W I J).
  Notation pass := (pass dimension nodes_count update second_update answer second_answer).
  Notation passes := (passes dimension nodes_count update second_update answer second_answer).
  Notation uzawa := (@uzawa V W I J dimension nodes_count update second_update answer second_answer).
  Notation coupled_step := (@coupled_step V W I J dimension nodes_count nodes update second_update answer second_answer).
  Notation coupled_steps := (@coupled_steps V W I J dimension nodes_count nodes update second_update answer second_answer).
  Notation coupled_outputs := (@coupled_outputs V W I J dimension nodes_count nodes update second_update answer second_answer).
  Notation coupled_solve := (@coupled_solve V W I J dimension nodes_count nodes thermal iterate second_iterate update
    second_update answer second_answer).
  Notation coupled_history := (coupled_history size nodes_count update second_update answer second_answer).

  (* the loop ends *)
  Lemma passes_some : forall u v t p (s1 : stepper I) (s2 : stepper J) v1 u1 v2 u2 x y i j,
    passes 10 u v t p s1 s2 v1 u1 v2 u2 (mkLoop i j x y None 10 5 0) <> None.
  Proof.
    intros. exact (proj1 (passes_spec _ _ _ _ _ _ u v t p s1 s2 v1 u1 v2 u2 10 (mkLoop i j x y None 10 5 0) _
      (le_n _) eq_refl eq_refl eq_refl)).
  Qed.

  Lemma uzawa_some : forall x y w, uzawa x y w <> None.
  Proof.
    intros x y w. unfold TimeModel.uzawa.
    match goal with |- context [TimeModel.passes _ _ _ _ _ _ 10 ?u ?v ?t ?p ?s1 ?s2 ?v1 ?u1 ?v2 ?u2 ?l] =>
      pose proof (passes_some u v t p s1 s2 v1 u1 v2 u2 x y (inner (p_one w)) (inner (p_two w))) as N;
      destruct (passes 10 u v t p s1 s2 v1 u1 v2 u2 l) as [[l'|e]|] end; [discriminate|discriminate|contradiction].
  Qed.

  Lemma coupled_step_some : forall n x y w, coupled_step n x y w <> None.
  Proof.
    intros n x y w. unfold TimeModel.coupled_step. destruct (n =? 0)%nat; [discriminate|].
    match goal with |- context [TimeModel.uzawa _ _ _ _ _ _ ?a ?b ?c] =>
      pose proof (uzawa_some a b c) as N; destruct (uzawa a b c) as [[w1 [[cx cy]|e]]|] end;
      [|discriminate|contradiction].
    destruct (set_velocity _ _ _ _ _ _ _ _ _) as [[m s] [u|e]]; discriminate.
  Qed.

  Lemma coupled_steps_some : forall n n_steps x y w, coupled_steps n_steps n x y w <> None.
  Proof.
    induction n as [|n IH]; intros n_steps x y w; cbn [TimeModel.coupled_steps]; [discriminate|].
    pose proof (coupled_step_some n_steps x y w). destruct (coupled_step n_steps x y w) as [[w1 [[x1 y1]|e]]|];
      [apply IH|discriminate|contradiction].
  Qed.

  Lemma coupled_outputs_some : forall ns n_steps x y w, coupled_outputs n_steps ns x y w <> None.
  Proof.
    induction ns as [|n ns IH]; intros n_steps x y w; cbn [TimeModel.coupled_outputs]; [discriminate|].
    pose proof (coupled_steps_some n n_steps x y w) as N. destruct (coupled_steps n_steps n x y w) as [[w1 [[x1 y1]|e]]|];
      [|discriminate|contradiction].
    destruct (copy nodes (p_mem w1) (p_st w1)) as [m s].
    pose proof (IH n_steps x1 y1 (mkPair m (p_st w1) (p_one w1) (p_two w1))) as M.
    destruct (coupled_outputs n_steps ns x1 y1 _) as [[w3 [l3|e]]|]; [discriminate|discriminate|contradiction].
  Qed.

  Theorem coupled_ends : forall n u0 v0 e0 out m s1 s2, coupled_solve n u0 v0 e0 out m s1 s2 <> None.
  Proof.
    intros. unfold TimeModel.coupled_solve. destruct (new_state nodes _ m) as [m0 s].
    destruct (extra s); [discriminate| |]; (destruct (_ =? 0)%nat; [|discriminate]);
      destruct (alloc _ _) as [m4 x]; (destruct (iterate _ _ _ _); [|discriminate]);
      (destruct (second_iterate _ _ _ _); [|discriminate]); apply coupled_outputs_some.
  Qed.

  (* the two step solvers are well formed and share nothing *)
  Definition apart_solvers (m : store V) (s1 : stepper I) (s2 : stepper J) : Prop :=
    NoDup (solver_refs s1 ++ solver_refs s2) /\ Forall (fun r => (r < room m)%nat) (solver_refs s1 ++ solver_refs s2).

  Definition first_vectors (m : store V) {K} (s : stepper K) (u0 v0 e0 : vec) : vectors :=
    mkVectors (load m (b_vector s)) u0 v0 (if thermal then e0 else load m (t_vector s))
      (if thermal then load m (p_vector s) else e0).

  Definition first_fields (m : store V) (s1 : stepper I) (i : I) (j : J) (u0 v0 e0 : vec) : fields :=
    mkFields i j (reshaped dimension nodes_count v0) e0 u0 v0
      (if thermal then e0 else load m (t_vector s1)) (if thermal then load m (p_vector s1) else e0) u0 v0 u0.

  Ltac bound := solve [repeat match goal with H : _ <> _ |- _ => clear H end; lia].
  Ltac spread F :=
    let N := fresh "N" in let Q := fresh "Q" in
    pose proof F as [N Q]; unfold solver_refs in N, Q; cbn [app] in N, Q;
    repeat match goal with
    | Q : NoDup (_ :: _) |- _ =>
        apply NoDup_cons_iff in Q; let A := fresh "A" in destruct Q as [A Q]; cbn [In] in A
    | Q : Forall _ (_ :: _) |- _ =>
        apply Forall_cons_iff in Q; let A := fresh "L" in destruct Q as [A Q]
    | Q : NoDup [] |- _ => clear Q
    | Q : Forall _ [] |- _ => clear Q
    end;
    repeat match goal with
    | Q : ~ (_ \/ _) |- _ => apply Decidable.not_or in Q; destruct Q
    | Q : ~ False |- _ => clear Q
    end.
  Ltac rooms := repeat rewrite room_write; try rewrite room_grow; repeat rewrite room_write;
     rewrite room_more; cbn [List.length new_cells]; bound.
  Ltac other := match goal with H : ?a <> ?b |- ?a <> ?b => exact H | H : ?b <> ?a |- ?a <> ?b => exact (not_eq_sym H)
     | |- _ <> _ => bound end.
  Ltac loads :=
    repeat first
      [ rewrite load_write_same by rooms
      | rewrite load_write_other by other
      | rewrite load_more_new
      | rewrite load_more_head
      | rewrite load_more_old by bound ]; cbn [nth new_cells].

  (* the store before the first iterate(): ps:524-548, 617-641 *)
  Definition filled (m : store V) (s1 : stepper I) (s2 : stepper J) (u0 v0 e0 : vec) (m' : store V) : Prop :=
    let n := room m in
    room m' = (n + 6)%nat /\
    load m' n = (fun _ => 0) /\ load m' (n + 1) = u0 /\ load m' (n + 2) = nodes /\ load m' (n + 3) = v0 /\
    load m' (n + 4) = e0 /\ load m' (n + 5) = reshaped dimension nodes_count v0 /\
    arrays m' s1 = first_vectors m s1 u0 v0 e0 /\ arrays m' s2 = first_vectors m s2 u0 v0 e0 /\
    (forall k, (k < n)%nat -> ~ In k (solver_refs s1 ++ solver_refs s2) -> load m' k = load m k).

  Lemma filled_store : forall m s1 s2 u0 v0 e0 m3, apart_solvers m s1 s2 ->
    room m3 = (room m + 5)%nat -> (forall k, (k < room m)%nat -> load m3 k = load m k) ->
    load m3 (room m) = (fun _ => 0) -> load m3 (room m + 1) = u0 -> load m3 (room m + 2) = nodes ->
    load m3 (room m + 3) = v0 -> load m3 (room m + 4) = e0 ->
    let m4 := mkStore (cells m3 ++ [reshaped dimension nodes_count v0]) (prods m3) : store V in
    let m5 := write m4 (u_vector s1) u0 in
    let m6 := write m5 (v_vector s1) v0 in
    let m7 := write m6 (if thermal then t_vector s1 else p_vector s1) e0 in
    let m8 := write m7 (u_vector s2) u0 in
    let m9 := write m8 (v_vector s2) v0 in
    let m10 := write m9 (if thermal then t_vector s2 else p_vector s2) e0 in
    filled m s1 s2 u0 v0 e0 m10.
  Proof.
    intros m s1 s2 u0 v0 e0 m3 F R3 O3 A3 U3 X3 V3 E3 m4 m5 m6 m7 m8 m9 m10.
    assert (R4 : room m4 = (room m + 6)%nat) by (unfold m4; rewrite room_grow; lia).
    assert (O4 : forall k, (k < room m3)%nat -> load m4 k = load m3 k) by (intros; apply load_grow_old; assumption).
    assert (Y4 : load m4 (room m + 5) = reshaped dimension nodes_count v0).
    { unfold m4. rewrite <- R3. rewrite <- (Nat.add_0_r (room m3)). apply load_more_new. }
    clearbody m4.
    assert (RR : room m10 = (room m + 6)%nat) by (unfold m10, m9, m8, m7, m6, m5; rewrite !room_write; exact R4).
    pose proof F as [_ FF]. rewrite Forall_forall in FF.
    assert (HI : forall k, (room m <= k < room m3)%nat -> load m10 k = load m3 k).
    { intros k K. unfold m10, m9, m8, m7, m6, m5.
      assert (G : forall r, In r (solver_refs s1 ++ solver_refs s2) -> k <> r).
      { intros r Hr E. specialize (FF _ Hr). cbn in FF. lia. }
      rewrite !load_write_other; [apply O4; lia|..]; try (apply G; unfold solver_refs; cbn [app In]; destruct thermal; tauto). }
    assert (HT : load m10 (room m + 5) = reshaped dimension nodes_count v0).
    { unfold m10, m9, m8, m7, m6, m5.
      assert (G : forall r, In r (solver_refs s1 ++ solver_refs s2) -> (room m + 5)%nat <> r).
      { intros r Hr E. specialize (FF _ Hr). cbn in FF. lia. }
      rewrite !load_write_other; [exact Y4|..]; try (apply G; unfold solver_refs; cbn [app In]; destruct thermal; tauto). }
    unfold filled. rewrite RR.
    split; [reflexivity|].
    split; [rewrite HI by lia; exact A3|]. split; [rewrite HI by lia; exact U3|].
    split; [rewrite HI by lia; exact X3|]. split; [rewrite HI by lia; exact V3|].
    split; [rewrite HI by lia; exact E3|]. split; [exact HT|].
    clear HI HT A3 U3 X3 V3 E3 Y4.
    spread F.
    assert (RS : forall k, (k < room m)%nat -> load m4 k = load m k).
    { intros k K. rewrite O4, O3 by bound. reflexivity. }
    assert (R5 : room m5 = room m4) by apply room_write.
    assert (R6 : room m6 = room m4) by (unfold m6; rewrite room_write; exact R5).
    assert (R7 : room m7 = room m4) by (unfold m7; rewrite room_write; exact R6).
    assert (R8 : room m8 = room m4) by (unfold m8; rewrite room_write; exact R7).
    assert (R9 : room m9 = room m4) by (unfold m9; rewrite room_write; exact R8).
    unfold arrays, first_vectors.
    split; [|split].
    - unfold m10, m9, m8, m7, m6, m5 in *. destruct thermal.
      + repeat first [rewrite load_write_same by bound | rewrite load_write_other by other]. rewrite !RS by assumption. reflexivity.
      + repeat first [rewrite load_write_same by bound | rewrite load_write_other by other]. rewrite !RS by assumption. reflexivity.
    - unfold m10, m9, m8, m7, m6, m5 in *. destruct thermal.
      + repeat first [rewrite load_write_same by bound | rewrite load_write_other by other]. rewrite !RS by assumption. reflexivity.
      + repeat first [rewrite load_write_same by bound | rewrite load_write_other by other]. rewrite !RS by assumption. reflexivity.
    - intros k K NI. unfold m10, m9, m8, m7, m6, m5.
      assert (G : forall r, In r (solver_refs s1 ++ solver_refs s2) -> k <> r) by (intros r Hr E; subst; contradiction).
      rewrite !load_write_other; [apply RS; exact K|..]; try (apply G; unfold solver_refs; cbn [app In]; destruct thermal; tauto).
  Qed.

  Lemma coupled_solve_eq : forall n u0 v0 e0 out m s1 s2, apart_solvers m s1 s2 -> Nat.modulo size 2 = 0%nat ->
    exists m', filled m s1 s2 u0 v0 e0 m' /\
    let s := mkState (room m) (room m + 1) (room m + 2) (room m + 3)
               (if thermal then Thermal (room m + 4) else Electric (room m + 4)) 0 [] None None in
    coupled_solve n u0 v0 e0 out m s1 s2
    = match iterate (inner s1) (first_vectors m s1 u0 v0 e0) (time_step s1) (current_time s1) with
      | Err e => Some (mkPair m' s s1 s2, Err e)
      | Ok i =>
          match second_iterate (inner s2) (first_vectors m s2 u0 v0 e0) (time_step s2) (current_time s2) with
          | Err e => Some (mkPair m' s (with_inner s1 i) s2, Err e)
          | Ok j => coupled_outputs n (schedule n out) (room m + 5) (room m + 4)
                      (mkPair m' s (with_inner s1 i) (with_inner s2 j))
          end
      end.
  Proof.
    intros n u0 v0 e0 out m s1 s2 F EV.
    unfold TimeModel.coupled_solve. rewrite new_state_eq.
    set (c := if thermal then TemperatureState else PiezoelectricState).
    assert (NC : new_cells nodes c = [zeros; zeros; nodes; zeros; zeros]) by (unfold c; destruct thermal; reflexivity).
    assert (NX : new_extra c (room m) = if thermal then Thermal (room m + 4) else Electric (room m + 4))
      by (unfold c; destruct thermal; reflexivity).
    cbn [extra displacement velocity]. rewrite NC, NX.
    set (m0 := mkStore (cells m ++ [zeros; zeros; nodes; zeros; zeros]) (prods m) : store V).
    assert (R0 : room m0 = (room m + 5)%nat) by (unfold m0; rewrite room_more; reflexivity).
    assert (O0 : forall k, (k < room m)%nat -> load m0 k = load m k) by (intros; apply load_more_old; assumption).
    assert (N0 : forall k, load m0 (room m + k) = nth k [zeros; zeros; nodes; zeros; zeros] (fun _ => 0)) by (intros; apply load_more_new).
    clearbody m0.
    assert (Q : exists m3, m3 = write (write (write m0 (room m + 1) u0) (room m + 3) v0) (room m + 4) e0 /\
      room m3 = (room m + 5)%nat /\ (forall k, (k < room m)%nat -> load m3 k = load m k) /\
      load m3 (room m) = (fun _ => 0) /\ load m3 (room m + 1) = u0 /\ load m3 (room m + 2) = nodes /\
      load m3 (room m + 3) = v0 /\ load m3 (room m + 4) = e0).
    { eexists; split; [reflexivity|].
      assert (R1 : room (write m0 (room m + 1) u0) = (room m + 5)%nat) by (rewrite room_write; exact R0).
      assert (R2 : room (write (write m0 (room m + 1) u0) (room m + 3) v0) = (room m + 5)%nat) by (rewrite room_write; exact R1).
      split; [rewrite room_write; exact R2|]. split.
      { intros k K. rewrite !load_write_other by lia. apply O0; exact K. }
      split. { rewrite !load_write_other by lia. rewrite <- (Nat.add_0_r (room m)), N0. reflexivity. }
      split. { rewrite !load_write_other by lia. apply load_write_same. lia. }
      split. { rewrite !load_write_other by lia. rewrite N0. reflexivity. }
      split. { rewrite load_write_other by lia. apply load_write_same. lia. }
      apply load_write_same. lia. }
    destruct Q as (m3 & M3 & R3 & O3 & A3 & U3 & X3 & V3 & E3).
    pose proof (filled_store m s1 s2 u0 v0 e0 m3 F R3 O3 A3 U3 X3 V3 E3) as FL. cbv zeta in FL.
    set (m4 := mkStore (cells m3 ++ [reshaped dimension nodes_count v0]) (prods m3) : store V) in *.
    assert (L4 : forall k, (k < room m + 5)%nat -> load m4 k = load m3 k) by (intros; apply load_grow_old; lia).
    pose proof F as [_ FF]. rewrite Forall_forall in FF.
    assert (G : forall r, In r (solver_refs s1 ++ solver_refs s2) -> (r < room m)%nat) by (intros r Hr; apply (FF _ Hr)).
    assert (G1 : (u_vector s1 < room m)%nat) by (apply G; unfold solver_refs; cbn [app In]; tauto).
    assert (G2 : (v_vector s1 < room m)%nat) by (apply G; unfold solver_refs; cbn [app In]; tauto).
    assert (G3 : (t_vector s1 < room m)%nat) by (apply G; unfold solver_refs; cbn [app In]; tauto).
    assert (G4 : (p_vector s1 < room m)%nat) by (apply G; unfold solver_refs; cbn [app In]; tauto).
    assert (G5 : (u_vector s2 < room m)%nat) by (apply G; unfold solver_refs; cbn [app In]; tauto).
    assert (G6 : (v_vector s2 < room m)%nat) by (apply G; unfold solver_refs; cbn [app In]; tauto).
    clear G FF.
    match type of FL with filled _ _ _ _ _ _ ?x => exists x; set (m10 := x) in * end.
    split; [exact FL|]. cbv zeta.
    destruct FL as (_ & _ & _ & _ & _ & _ & _ & AR1 & AR2 & _).
    unfold TimeModel.size. rewrite EV, Nat.eqb_refl.
    assert (RM : List.length (cells m3) = (room m + 5)%nat) by exact R3.
    destruct thermal eqn:T; cbv beta iota zeta; rewrite <- M3; unfold alloc; rewrite V3; fold m4; cbv beta iota;
      rewrite RM; unfold m10 in *; clear m10;
      repeat first [rewrite load_write_other by lia | rewrite L4 by lia]; rewrite U3, V3, E3;
      rewrite AR1, AR2; reflexivity.
  Qed.

  Theorem coupled_answers : forall n u0 v0 e0 out m s1 s2 w' l, apart_solvers m s1 s2 ->
    non_decreasing 0 (requested n out) -> coupled_solve n u0 v0 e0 out m s1 s2 = Some (w', Ok l) ->
    exists i j h,
      iterate (inner s1) (first_vectors m s1 u0 v0 e0) (time_step s1) (current_time s1) = Ok i /\
      second_iterate (inner s2) (first_vectors m s2 u0 v0 e0) (time_step s2) (current_time s2) = Ok j /\
      h O = first_fields m s1 i j u0 v0 e0 /\
      coupled_history (time_step s1) (time_step s2) (current_time s1) 0 (last_step n out) h /\
      List.length l = List.length (requested n out) /\
      forall k q s, nth_error (requested n out) k = Some q -> nth_error l k = Some s ->
        (look (p_mem w') s, map (load (p_mem w')) (extra_refs (extra s)))
        = coupled_view nodes (time_step s1) (current_time s1) 0 h (Z.to_nat q) /\ products s = [].
  Proof.
    intros n u0 v0 e0 out m s1 s2 w' l F ND H.
    assert (EV : Nat.modulo size 2 = 0%nat).
    { unfold TimeModel.coupled_solve in H. rewrite new_state_eq in H. cbn [extra] in H. unfold TimeModel.size in H.
      destruct (Nat.eqb_spec (Nat.modulo size 2) 0) as [E|E]; [exact E|].
      destruct thermal; cbn [new_extra] in H; discriminate. }
    destruct (coupled_solve_eq n u0 v0 e0 out m s1 s2 F EV) as (m' & FL & E). cbv zeta in E. rewrite H in E. clear H.
    destruct (iterate _ _ _ _) as [i|x]; [|discriminate].
    destruct (second_iterate _ _ _ _) as [j|x]; [|discriminate].
    set (w := mkPair m' _ _ _) in E.
    pose proof F as [FN FF]. rewrite Forall_forall in FF.
    assert (G : forall r, In r (solver_refs s1 ++ solver_refs s2) -> (r < room m)%nat) by (intros r Hr; apply (FF _ Hr)).
    destruct FL as (R & A & U & X & Vv & Ee & Xx & AR1 & AR2 & O).
    assert (ST : stands nodes (time_step s1) (time_step s2) (current_time s1) 0
              (fun _ => first_fields m s1 i j u0 v0 e0) 0 w (room m + 5) (room m + 4)).
    { unfold stands. split; [|split; [|split; [|split; [reflexivity|split; [reflexivity|]]]]].
      - unfold coupled_sound, w; cbn [p_mem p_st displacement displaced_nodes products extra].
        rewrite R. split; [lia|split; [lia|split; [lia|split; [|split; [reflexivity|destruct thermal; discriminate]]]]].
        unfold readable; cbn [p_mem p_st p_one p_two absement velocity extra with_inner u_vector v_vector t_vector p_vector].
        assert (B : forall r, In r (solver_refs s1 ++ solver_refs s2) -> (r < room m + 6)%nat /\ r <> (room m + 1)%nat /\ r <> (room m + 2)%nat).
        { intros r Hr. specialize (G _ Hr). lia. }
        apply Forall_app. split.
        + repeat (apply Forall_cons; [first [lia|apply B; unfold solver_refs; cbn [app In]; tauto]|]); apply Forall_nil.
        + destruct thermal; cbn [extra_refs]; repeat (apply Forall_cons; [lia|]); apply Forall_nil.
      - unfold read, w, first_fields; cbn [p_mem p_st p_one p_two with_inner inner u_vector v_vector t_vector p_vector displacement].
        unfold arrays, first_vectors in AR1, AR2. injection AR1 as B1 B2 B3 B4 B5. injection AR2 as C1 C2 C3 C4 C5.
        rewrite Xx, Ee, B2, B3, B4, B5, C2, C3, U. reflexivity.
      - unfold w, instant; cbn [p_one with_inner current_time INR]. lra.
      - unfold seen, coupled_view, look, w, first_fields; cbn [p_mem p_st absement displacement displaced_nodes velocity time extra shift one_v guess_y].
        rewrite A, U, X, Vv. f_equal. destruct thermal; cbn [extra_refs map]; rewrite Ee; reflexivity. }
    assert (H0 : coupled_history (time_step s1) (time_step s2) (current_time s1) 0 0 (fun _ => first_fields m s1 i j u0 v0 e0)).
    { intros k L. lia. }
    destruct (stands_outputs _ _ _ _ _ _ _ _ _ _ _ _ _ _ _ _ _ _ _ _ ST H0 (eq_sym E)) as (h & Lh & Hh & _ & _ & Len & Out).
    exists i, j, h. split; [reflexivity|split; [reflexivity|split; [apply Lh; lia|]]].
    change (UzawaProofs.total (schedule n out)) with (HistoryProofs.total (schedule n out)) in Hh.
    rewrite total_schedule in Hh by exact ND.
    split; [exact Hh|]. split.
    - rewrite Len, schedule_requested. apply steps_between_length.
    - intros k q s Hq Hs. destruct (Out _ _ Hs) as [[_ P] S]. split; [|exact P].
      change (seen_state w' s) with (look (p_mem w') s, map (load (p_mem w')) (extra_refs (extra s))) in S. rewrite S.
      change (UzawaProofs.total (firstn (Datatypes.S k) (schedule n out))) with (HistoryProofs.total (firstn (Datatypes.S k) (schedule n out))).
      rewrite schedule_requested. destruct (steps_between_total _ _ _ _ ND Hq) as [Q0 T]. rewrite T.
      f_equal. lia.
  Qed.
End Coupled.
