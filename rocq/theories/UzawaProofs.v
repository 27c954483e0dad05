(* The drivers of coupled problems. *)
From Coq Require Import Reals List Arith ZArith Bool String Lia Lra FunctionalExtensionality.
From Verif Require Import PyModel RVec StateModel TimeModel TimeSpec StateLemmas CopyProofs.
Import ListNotations.
Local Open Scope R_scope.

Section Uzawa.
  Context {V W I J : Type}.
  Variables (dimension nodes_count : nat) (nodes : vec).
  Variable thermal : bool.
  Variable iterate : I -> vectors -> R -> R -> result I.
  Variable second_iterate : J -> vectors -> R -> R -> result J.
  Variable update : I -> vec -> vec -> vec -> R -> R -> result I.
  Variable second_update : J -> vec -> vec -> vec -> vec -> R -> result J.
  Variable answer : I -> vec -> vec -> vec -> R -> result (nat * vec).
  Variable second_answer : J -> vec -> vec -> vec -> R -> result (nat * vec).
  Notation size := (dimension * nodes_count)%nat.
  Notation pair := (@pair V W I J).
  Notation pass := (pass dimension nodes_count update second_update answer second_answer).
  Notation passes := (passes dimension nodes_count update second_update answer second_answer).
  Notation uzawa := (@uzawa V W I J dimension nodes_count update second_update answer second_answer).
  Notation coupled_step := (@coupled_step V W I J dimension nodes_count nodes update second_update answer second_answer).
  Notation coupled_steps := (@coupled_steps V W I J dimension nodes_count nodes update second_update answer second_answer).
  Notation coupled_outputs := (@coupled_outputs V W I J dimension nodes_count nodes update second_update answer second_answer).
  Notation alternation := (alternation size nodes_count update second_update answer second_answer).
  Notation stops := (stops size nodes_count).
  Notation change := (change size nodes_count).
  Notation advances := (advances size nodes_count update second_update answer second_answer).
  Notation coupled_history := (coupled_history size nodes_count update second_update answer second_answer).

  Lemma pass_inv : forall u v t p (s1 : stepper I) (s2 : stepper J) v1 u1 v2 u2 l l',
    pass u v t p s1 s2 v1 u1 v2 u2 l = Ok l' ->
    update (l_one l) u v (l_y l) (time_step s1) (current_time s1) = Ok (l_one l') /\
    answer (l_one l') (l_x l) v1 u1 (time_step s1) = Ok (size, l_x l') /\
    second_update (l_two l) (fun k => u k + time_step s1 * l_x l' k) (l_x l') t p (time_step s2) = Ok (l_two l') /\
    second_answer (l_two l') (l_y l) v2 u2 (time_step s2) = Ok (nodes_count, l_y l') /\
    l_norm l' = Some (distance dimension nodes_count (l_x l') (l_x l) (l_y l) (l_y l')) /\
    l_fuse l' = (l_fuse l - 1)%Z /\ l_minimum l' = (l_minimum l - 1)%Z /\ l_passes l' = S (l_passes l).
  Proof.
    intros u v t p s1 s2 v1 u1 v2 u2 l l' H. unfold TimeModel.pass, bind in H.
    destruct (update _ _ _ _ _ _) as [i|] eqn:E1; [|discriminate].
    destruct (answer _ _ _ _ _) as [[len x]|] eqn:E2; [|discriminate].
    unfold TimeModel.size in H. destruct (Nat.eqb_spec len size) as [Q|]; [subst len|discriminate].
    destruct (second_update _ _ _ _ _ _) as [j|] eqn:E3; [|discriminate].
    destruct (second_answer _ _ _ _ _) as [[len y]|] eqn:E4; [|discriminate].
    destruct (Nat.eqb_spec len nodes_count) as [Q|]; [subst len|discriminate].
    injection H as <-. cbn. auto 10.
  Qed.

  (* the loop from a point where [fuel] passes are left *)
  Lemma passes_spec : forall u v t p (s1 : stepper I) (s2 : stepper J) v1 u1 v2 u2 fuel l r,
    (fuel <= 10)%nat -> l_fuse l = Z.of_nat fuel -> l_minimum l = (Z.of_nat fuel - 5)%Z ->
    passes fuel u v t p s1 s2 v1 u1 v2 u2 l = r ->
    r <> None /\
    forall l', r = Some (Ok l') ->
    exists n i j x y, (n <= fuel)%nat /\
      i O = l_one l /\ j O = l_two l /\ x O = l_x l /\ y O = l_y l /\
      i n = l_one l' /\ j n = l_two l' /\ x n = l_x l' /\ y n = l_y l' /\
      (forall k, (k < n)%nat ->
        update (i k) u v (y k) (time_step s1) (current_time s1) = Ok (i (S k)) /\
        answer (i (S k)) (x k) v1 u1 (time_step s1) = Ok (size, x (S k)) /\
        second_update (j k) (fun c => u c + time_step s1 * x (S k) c) (x (S k)) t p (time_step s2) = Ok (j (S k)) /\
        second_answer (j (S k)) (y k) v2 u2 (time_step s2) = Ok (nodes_count, y (S k))) /\
      (fuel - 5 <= n)%nat /\
      (forall k, (k < n)%nat -> (fuel - k <= 5)%nat ->
         match k with
         | O => match l_norm l with None => True | Some d => 1 / 1000 < d end
         | S k => 1 / 1000 < change x y k
         end) /\
      (n = fuel \/ match n with
         | O => match l_norm l with None => False | Some d => d <= 1 / 1000 end
         | S k => change x y k <= 1 / 1000
         end).
  Proof.
    intros u v t p s1 s2 v1 u1 v2 u2 fuel.
    induction fuel as [|fuel IH]; intros l r B F M H.
    - cbn [TimeModel.passes] in H. unfold again in H. rewrite F, M in H.
      replace (0 <? Z.of_nat 0 - 5)%Z with false in H by reflexivity.
      replace (Z.of_nat 0 =? 0)%Z with true in H by reflexivity.
      rewrite andb_false_r in H. cbn [orb] in H. subst r. split; [discriminate|].
      intros l' E. injection E as <-.
      exists O, (fun _ => l_one l), (fun _ => l_two l), (fun _ => l_x l), (fun _ => l_y l).
      repeat split; try lia; auto.
    - cbn [TimeModel.passes] in H. unfold again in H. rewrite F, M in H.
      replace (Z.of_nat (S fuel) =? 0)%Z with false in H by (symmetry; apply Z.eqb_neq; lia).
      cbn [negb] in H. rewrite andb_true_r in H.
      destruct (0 <? Z.of_nat (S fuel) - 5)%Z eqn:Q; cbn [orb] in H.
      + apply Z.ltb_lt in Q.
        destruct (pass u v t p s1 s2 v1 u1 v2 u2 l) as [l1|e] eqn:P; [|subst r; split; [discriminate|intros l' E; discriminate]].
        destruct (pass_inv _ _ _ _ _ _ _ _ _ _ _ _ P) as (A1 & A2 & A3 & A4 & A5 & A6 & A7 & A8).
        destruct (IH l1 r) as [NN S']; [lia|rewrite A6, F; lia|rewrite A7, M; lia|exact H|].
        split; [exact NN|]. intros l' E.
        destruct (S' l' E) as (n & i & j & x & y & L & I0 & J0 & X0 & Y0 & In & Jn & Xn & Yn & K & L5 & C & St).
        exists (S n), (fun k => match k with O => l_one l | S k => i k end),
          (fun k => match k with O => l_two l | S k => j k end),
          (fun k => match k with O => l_x l | S k => x k end), (fun k => match k with O => l_y l | S k => y k end).
        repeat split; try assumption; try lia.
        * destruct k as [|k]; [rewrite I0; exact A1|apply K; lia].
        * destruct k as [|k]; [rewrite I0, X0; exact A2|apply K; lia].
        * destruct k as [|k]; [rewrite X0, J0; exact A3|apply K; lia].
        * destruct k as [|k]; [rewrite J0, Y0; exact A4|apply K; lia].
        * intros k Lk Lf. destruct k as [|k]; [lia|].
          specialize (C k ltac:(lia) ltac:(lia)). destruct k as [|k].
          { rewrite A5 in C. unfold TimeSpec.change. rewrite X0, Y0. unfold distance, TimeModel.size in C. exact C. }
          { exact C. }
        * destruct St as [St|St]; [left; lia|right]. destruct n as [|n].
          { rewrite A5 in St. unfold TimeSpec.change. rewrite X0, Y0. exact St. }
          { exact St. }
      + apply Z.ltb_ge in Q.
        destruct (match l_norm l with None => true | Some n => if Rlt_dec (1 / 1000) n then true else false end) eqn:N.
        * destruct (pass u v t p s1 s2 v1 u1 v2 u2 l) as [l1|e] eqn:P; [|subst r; split; [discriminate|intros l' E; discriminate]].
          destruct (pass_inv _ _ _ _ _ _ _ _ _ _ _ _ P) as (A1 & A2 & A3 & A4 & A5 & A6 & A7 & A8).
          destruct (IH l1 r) as [NN S']; [lia|rewrite A6, F; lia|rewrite A7, M; lia|exact H|].
          split; [exact NN|]. intros l' E.
          destruct (S' l' E) as (n & i & j & x & y & L & I0 & J0 & X0 & Y0 & In & Jn & Xn & Yn & K & L5 & C & St).
          exists (S n), (fun k => match k with O => l_one l | S k => i k end),
            (fun k => match k with O => l_two l | S k => j k end),
            (fun k => match k with O => l_x l | S k => x k end), (fun k => match k with O => l_y l | S k => y k end).
          repeat split; try assumption; try lia.
          { destruct k as [|k]; [rewrite I0; exact A1|apply K; lia]. }
          { destruct k as [|k]; [rewrite I0, X0; exact A2|apply K; lia]. }
          { destruct k as [|k]; [rewrite X0, J0; exact A3|apply K; lia]. }
          { destruct k as [|k]; [rewrite J0, Y0; exact A4|apply K; lia]. }
          { intros k Lk Lf. destruct k as [|k].
            - destruct (l_norm l) as [d|]; [|exact Logic.I]. destruct (Rlt_dec (1 / 1000) d); [assumption|discriminate].
            - specialize (C k ltac:(lia) ltac:(lia)). destruct k as [|k].
              + rewrite A5 in C. unfold TimeSpec.change. rewrite X0, Y0. exact C.
              + exact C. }
          { destruct St as [St|St]; [left; lia|right]. destruct n as [|n].
            - rewrite A5 in St. unfold TimeSpec.change. rewrite X0, Y0. exact St.
            - exact St. }
        * subst r. split; [discriminate|]. intros l' E. injection E as <-.
          exists O, (fun _ => l_one l), (fun _ => l_two l), (fun _ => l_x l), (fun _ => l_y l).
          repeat split; try lia; auto.
          right. destruct (l_norm l) as [d|]; [|discriminate].
          destruct (Rlt_dec (1 / 1000) d); [discriminate|lra].
  Qed.

  (* the fields of the spec, read from the store *)
  Definition read (w : pair) (x y : nat) : fields :=
    mkFields (inner (p_one w)) (inner (p_two w)) (load (p_mem w) x) (load (p_mem w) y)
      (load (p_mem w) (u_vector (p_one w))) (load (p_mem w) (v_vector (p_one w)))
      (load (p_mem w) (t_vector (p_one w))) (load (p_mem w) (p_vector (p_one w)))
      (load (p_mem w) (u_vector (p_two w))) (load (p_mem w) (v_vector (p_two w)))
      (load (p_mem w) (displacement (p_st w))).

  Theorem uzawa_spec : forall x y w r, (u_vector (p_one w) < room (p_mem w))%nat -> uzawa x y w = r ->
    r <> None /\
    forall w' cx cy, r = Some (w', Ok (cx, cy)) ->
    let a := mkFields (inner (p_one w)) (inner (p_two w)) x y
      (load (p_mem w) (u_vector (p_one w))) (load (p_mem w) (v_vector (p_one w)))
      (load (p_mem w) (t_vector (p_one w))) (load (p_mem w) (p_vector (p_one w)))
      (load (p_mem w) (u_vector (p_two w))) (load (p_mem w) (v_vector (p_two w)))
      (load (p_mem w) (displacement (p_st w))) in
    exists n i j xs ys,
      alternation a (time_step (p_one w)) (time_step (p_two w)) (current_time (p_one w)) n i j xs ys /\ stops n xs ys /\
      exists cu cu',
      w' = mkPair (mkStore (cells (p_mem w) ++
                     [xs n; ys n; (fun c => load (p_mem w) (u_vector (p_one w)) c + time_step (p_one w) * xs n c);
                      (fun c => load (p_mem w) (u_vector (p_one w)) c + time_step (p_two w) * xs n c)]) (prods (p_mem w)))
             (p_st w)
             (mkStepper (i n) (b_vector (p_one w)) cu cx cy cy (current_time (p_one w)) (time_step (p_one w)))
             (mkStepper (j n) (b_vector (p_two w)) cu' cx cy cy (current_time (p_two w)) (time_step (p_two w))) /\
      cx = room (p_mem w) /\ cy = (room (p_mem w) + 1)%nat /\ cu = (room (p_mem w) + 2)%nat /\
      cu' = (room (p_mem w) + 3)%nat.
  Proof.
    intros x y w r RU H. unfold TimeModel.uzawa in H.
    match type of H with context [TimeModel.passes _ _ _ _ _ _ 10 ?u ?v ?t ?p ?s1 ?s2 ?v1 ?u1 ?v2 ?u2 ?l] =>
      destruct (passes_spec u v t p s1 s2 v1 u1 v2 u2 10 l _ (le_n _) eq_refl eq_refl eq_refl) as [NN S];
      destruct (passes 10 u v t p s1 s2 v1 u1 v2 u2 l) as [[l'|e]|] end.
    - assert (LU : forall l q, load (mkStore (cells (p_mem w) ++ l) q : store V) (u_vector (p_one w))
                   = load (p_mem w) (u_vector (p_one w))) by (intros; apply load_more_old; exact RU).
      assert (LX : forall l a q, load (mkStore (cells (p_mem w) ++ a :: l) q : store V) (List.length (cells (p_mem w))) = a).
      { intros. unfold load; cbn [cells]. rewrite app_nth2, Nat.sub_diag by lia. reflexivity. }
      unfold alloc in H. cbn [cells prods] in H. rewrite <- !app_assoc in H. cbn [app] in H.
      rewrite !LU, !LX in H. subst r. split; [discriminate|].
      intros w' cx cy E. injection E as <- <- <-. cbv zeta.
      destruct (S l' eq_refl) as (n & i & j & xs & ys & L & I0 & J0 & X0 & Y0 & In & Jn & Xn & Yn & K & L5 & C & St).
      cbn [l_one l_two l_x l_y l_norm] in I0, J0, X0, Y0, C, St.
      exists n, i, j, xs, ys.
      split; [|split].
      + unfold TimeSpec.alternation; cbn. auto.
      + unfold TimeSpec.stops. repeat split; try lia.
        * intros k Lk. specialize (C k ltac:(lia) ltac:(lia)). destruct k as [|k]; [lia|].
          replace (Datatypes.S k - 1)%nat with k by lia. exact C.
        * destruct St as [St|St]; [left; exact St|right]. destruct n as [|n]; [lia|].
          replace (Datatypes.S n - 1)%nat with n by lia. exact St.
      + eexists; eexists. split; [rewrite In, Jn, Xn, Yn; reflexivity|].
        repeat split; unfold room; rewrite ?app_length; cbn [List.length]; lia.
    - subst r. split; [discriminate|]. intros w' cx cy E. discriminate.
    - exfalso. apply NN. reflexivity.
  Qed.

  (* only the displacement and the displaced nodes of the state are written to *)
  Definition readable (w : pair) (x y : nat) : list nat :=
    [absement (p_st w); velocity (p_st w); u_vector (p_one w); v_vector (p_one w); t_vector (p_one w); p_vector (p_one w);
     u_vector (p_two w); v_vector (p_two w); x; y] ++ extra_refs (extra (p_st w)).

  Definition coupled_sound (w : pair) (x y : nat) : Prop :=
    displacement (p_st w) <> displaced_nodes (p_st w) /\
    (displacement (p_st w) < room (p_mem w))%nat /\ (displaced_nodes (p_st w) < room (p_mem w))%nat /\
    Forall (fun k => (k < room (p_mem w))%nat /\ k <> displacement (p_st w) /\ k <> displaced_nodes (p_st w)) (readable w x y) /\
    products (p_st w) = [] /\ extra (p_st w) <> Plain.

  Definition coupled_frame (w w' : pair) : Prop :=
    (room (p_mem w) <= room (p_mem w'))%nat /\
    displacement (p_st w') = displacement (p_st w) /\ displaced_nodes (p_st w') = displaced_nodes (p_st w) /\
    (forall k, (k < room (p_mem w))%nat -> k <> displacement (p_st w) -> k <> displaced_nodes (p_st w) ->
       load (p_mem w') k = load (p_mem w) k) /\
    time_step (p_one w') = time_step (p_one w) /\ time_step (p_two w') = time_step (p_two w).

  Lemma frame_refl : forall w, coupled_frame w w.
  Proof. intros w. unfold coupled_frame. auto 10. Qed.

  Lemma frame_trans : forall a b c, coupled_frame a b -> coupled_frame b c -> coupled_frame a c.
  Proof.
    intros a b c (A1 & A2 & A3 & A4 & A5 & A6) (B1 & B2 & B3 & B4 & B5 & B6).
    unfold coupled_frame. repeat split; try congruence; try lia.
    intros k K1 K2 K3. rewrite B4, A4; [reflexivity|assumption..|lia|congruence|congruence].
  Qed.

  Definition seen (w : pair) : view * list vec :=
    (look (p_mem w) (p_st w), map (load (p_mem w)) (extra_refs (extra (p_st w)))).

  Lemma coupled_step_spec : forall n_steps x y w r, coupled_sound w x y -> coupled_step n_steps x y w = r ->
    r <> None /\
    forall w' x' y', r = Some (w', Ok (x', y')) ->
    coupled_sound w' x' y' /\ coupled_frame w w' /\
    current_time (p_one w') = current_time (p_one w) + time_step (p_one w) /\
    advances (time_step (p_one w)) (time_step (p_two w)) (current_time (p_one w'))
      (current_time (p_one w) - time (p_st w)) (read w x y) (read w' x' y') /\
    seen w' = (mkView (load (p_mem w) (absement (p_st w))) (shift (read w' x' y'))
                 (fun c => nodes c + shift (read w' x' y') c) (one_v (read w' x' y')) (current_time (p_one w')),
               [guess_y (read w' x' y')]).
  Proof.
    intros n_steps x y w r (S1 & S2 & S3 & S4 & S5 & S6) H. unfold TimeModel.coupled_step in H.
    destruct (n_steps =? 0)%nat; [subst r; split; [discriminate|intros; discriminate]|].
    set (w0 := mkPair (p_mem w) (p_st w) (with_clock (p_one w) (current_time (p_one w) + time_step (p_one w)))
                 (with_clock (p_two w) (current_time (p_two w) + time_step (p_two w))) : pair) in *.
    assert (RU : (u_vector (p_one w0) < room (p_mem w0))%nat).
    { rewrite Forall_forall in S4. apply S4. unfold readable. apply in_or_app. left. cbn [In]. tauto. }
    destruct (uzawa_spec (load (p_mem w) x) (load (p_mem w) y) w0 _ RU eq_refl) as [NN U].
    destruct (uzawa (load (p_mem w) x) (load (p_mem w) y) w0) as [[w1 [[cx cy]|e]]|].
    2:{ subst r. split; [discriminate|intros; discriminate]. }
    2:{ exfalso; apply NN; reflexivity. }
    destruct (U w1 cx cy eq_refl) as (n & i & j & xs & ys & A & St & cu & cu' & -> & Ecx & Ecy & Ecu & Ecu').
    clear U NN. cbn [p_mem p_st p_one p_two current_time time_step inner] in *.
    cbn [w0 p_mem p_st p_one p_two with_clock b_vector u_vector v_vector t_vector p_vector current_time time_step inner] in *.
    unfold set_velocity in H. unfold TimeModel.size in H at 1. rewrite Nat.eqb_refl in H.
    set (u1 := fun c => load (p_mem w) (u_vector (p_one w)) c + time_step (p_one w) * xs n c) in *.
    set (u2 := fun c => load (p_mem w) (u_vector (p_one w)) c + time_step (p_two w) * xs n c) in *.
    set (M := mkStore (cells (p_mem w) ++ [xs n; ys n; u1; u2]) (prods (p_mem w)) : store V) in *.
    assert (RM : room M = (room (p_mem w) + 4)%nat) by (unfold M; rewrite room_more; reflexivity).
    assert (L0 : load M cx = xs n).
    { subst cx. unfold M. rewrite <- (Nat.add_0_r (room (p_mem w))). apply load_more_new. }
    assert (L1 : load M cy = ys n) by (subst cy; apply load_more_new).
    assert (L2 : load M cu = u1) by (subst cu; apply load_more_new).
    assert (L3 : load M cu' = u2) by (subst cu'; apply load_more_new).
    assert (LO : forall k, (k < room (p_mem w))%nat -> load M k = load (p_mem w) k) by (intros; apply load_more_old; assumption).
    clearbody M.
    rewrite S5 in H. cbn [update_products] in H.
    rewrite LO, L0 in H by assumption.
    set (d := fun c => load (p_mem w) (displacement (p_st w)) c
              + (current_time (p_one w) + time_step (p_one w) - time (p_st w)) * xs n c) in *.
    rewrite load_write_same in H by lia.
    set (M2 := write (write M (displacement (p_st w)) d) (displaced_nodes (p_st w)) (fun c => nodes c + d c)) in *.
    assert (RM2 : room M2 = (room (p_mem w) + 4)%nat) by (unfold M2; rewrite !room_write; exact RM).
    assert (D : load M2 (displacement (p_st w)) = d).
    { unfold M2. rewrite load_write_other by congruence. apply load_write_same. lia. }
    assert (X : load M2 (displaced_nodes (p_st w)) = (fun c => nodes c + d c)).
    { unfold M2. apply load_write_same. rewrite room_write; lia. }
    assert (O : forall k, k <> displacement (p_st w) -> k <> displaced_nodes (p_st w) -> load M2 k = load M k).
    { intros k K1 K2. unfold M2. rewrite !load_write_other by congruence. reflexivity. }
    clearbody M2.
    subst r. split; [discriminate|]. intros w' x' y' E. injection E as <- <- <-.
    cbn [p_mem p_st p_one p_two current_time time_step].
    assert (RD : read (mkPair M2 (set_extra (mkState (absement (p_st w)) (displacement (p_st w)) (displaced_nodes (p_st w)) cx
                  (extra (p_st w)) (current_time (p_one w) + time_step (p_one w)) [] (constitutive_law (p_st w))
                  (stress_cache (p_st w))) cy)
                  (mkStepper (i n) (b_vector (p_one w)) cu cx cy cy (current_time (p_one w) + time_step (p_one w)) (time_step (p_one w)))
                  (mkStepper (j n) (b_vector (p_two w)) cu' cx cy cy (current_time (p_two w) + time_step (p_two w)) (time_step (p_two w)))) cx cy
              = mkFields (i n) (j n) (xs n) (ys n) u1 (xs n) (ys n) (ys n) u2 (xs n) d).
    { unfold read; cbn [p_mem p_st p_one p_two inner u_vector v_vector t_vector p_vector set_extra displacement].
      rewrite !O by lia. rewrite L0, L1, L2, L3, D. reflexivity. }
    rewrite RD.
    split; [|split; [|split; [reflexivity|split]]].
    - unfold coupled_sound; cbn [p_mem p_st p_one p_two set_extra displacement displaced_nodes products extra].
      rewrite RM2. repeat split; try lia; try assumption.
      + unfold readable; cbn [p_mem p_st p_one p_two set_extra absement velocity extra u_vector v_vector t_vector p_vector].
        assert (AB : (absement (p_st w) < room (p_mem w))%nat /\ absement (p_st w) <> displacement (p_st w)
                     /\ absement (p_st w) <> displaced_nodes (p_st w)).
        { rewrite Forall_forall in S4. apply S4. unfold readable. apply in_or_app. left. cbn [In]. tauto. }
        apply Forall_app. split.
        * repeat constructor; lia.
        * destruct (extra (p_st w)); cbn [extra_refs]; repeat constructor; lia.
      + destruct (extra (p_st w)); congruence.
    - unfold coupled_frame; cbn [p_mem p_st p_one p_two set_extra displacement displaced_nodes time_step].
      rewrite RM2. repeat split; try lia. intros k K1 K2 K3. rewrite O by assumption. apply LO; exact K1.
    - exists n, i, j, xs, ys. split; [exact A|split; [exact St|]].
      unfold read; cbn [one_u shift]. f_equal.
      apply functional_extensionality; intros c. unfold d. ring.
    - unfold seen, look; cbn [p_mem p_st set_extra absement displacement displaced_nodes velocity extra time shift one_v guess_y].
      assert (AB : (absement (p_st w) < room (p_mem w))%nat /\ absement (p_st w) <> displacement (p_st w)
                     /\ absement (p_st w) <> displaced_nodes (p_st w)).
      { rewrite Forall_forall in S4. apply S4. unfold readable. apply in_or_app. left. cbn [In]. tauto. }
      rewrite D, X. rewrite (O (absement (p_st w))), (O cx) by lia. rewrite LO, L0 by tauto.
      f_equal. destruct (extra (p_st w)); [congruence| |]; cbn [extra_refs map]; rewrite O, L1 by lia; reflexivity.
  Qed.

  (* where a course stands: step k of the history h *)
  Definition stands (dt dt2 t0 s0 : R) (h : nat -> fields) (k : nat) (w : pair) (x y : nat) : Prop :=
    coupled_sound w x y /\ read w x y = h k /\ current_time (p_one w) = instant t0 dt k /\
    time_step (p_one w) = dt /\ time_step (p_two w) = dt2 /\ seen w = coupled_view nodes dt t0 s0 h k.

  Lemma instant_S : forall t dt k, instant t dt (S k) = instant t dt k + dt.
  Proof. intros; unfold instant; rewrite S_INR; lra. Qed.

  Lemma view_ext : forall dt t0 s0 (h h' : nat -> @fields I J) k, (forall j, (j <= k)%nat -> h' j = h j) ->
    coupled_view nodes dt t0 s0 h' k = coupled_view nodes dt t0 s0 h k.
  Proof.
    intros dt t0 s0 h h' k E. unfold coupled_view. rewrite (E k) by lia. destruct k; [rewrite (E O) by lia|]; reflexivity.
  Qed.

  Lemma history_ext : forall dt dt2 t0 s0 n h h', (forall j, (j <= n)%nat -> h' j = h j) ->
    coupled_history dt dt2 t0 s0 n h -> coupled_history dt dt2 t0 s0 n h'.
  Proof. intros dt dt2 t0 s0 n h h' E H k L. rewrite !E by lia. apply H; exact L. Qed.

  Lemma stands_step : forall dt dt2 t0 s0 h k n_steps w x y w' x' y', stands dt dt2 t0 s0 h k w x y ->
    coupled_history dt dt2 t0 s0 k h -> coupled_step n_steps x y w = Some (w', Ok (x', y')) ->
    exists h', (forall j, (j <= k)%nat -> h' j = h j) /\ coupled_history dt dt2 t0 s0 (S k) h' /\
      stands dt dt2 t0 s0 h' (S k) w' x' y' /\ coupled_frame w w'.
  Proof.
    intros dt dt2 t0 s0 h k n_steps w x y w' x' y' (S & Rd & Cl & Dt & Dt2 & Se) H E.
    destruct (coupled_step_spec _ _ _ _ _ S E) as [_ P].
    destruct (P _ _ _ eq_refl) as (S' & F & C' & A & Se').
    set (h' := fun j => if (j <=? k)%nat then h j else read w' x' y').
    assert (Lo : forall j, (j <= k)%nat -> h' j = h j).
    { intros j L. unfold h'. rewrite (proj2 (Nat.leb_le _ _) L). reflexivity. }
    assert (Hi : h' (Datatypes.S k) = read w' x' y').
    { unfold h'. replace (Datatypes.S k <=? k)%nat with false by (symmetry; apply Nat.leb_gt; lia). reflexivity. }
    assert (C2 : current_time (p_one w') = instant t0 dt (Datatypes.S k)) by (rewrite C', Cl, Dt, instant_S; reflexivity).
    exists h'. split; [exact Lo|split; [|split]].
    - intros j L. destruct (Nat.eq_dec j k) as [->|N].
      + rewrite Hi, Lo, <- Rd by lia. rewrite Dt, Dt2, C2 in A.
        replace (behind t0 s0 k) with (current_time (p_one w) - time (p_st w)); [exact A|].
        unfold seen, coupled_view, look in Se. rewrite Cl. destruct k as [|k].
        * injection Se as _ _ _ _ T _. rewrite T. unfold behind, instant. cbn. lra.
        * injection Se as _ _ _ _ T _. rewrite T. unfold behind. lra.
      + rewrite !Lo by lia. apply H. lia.
    - unfold stands. rewrite Hi. destruct F as (F1 & F2 & F3 & F4 & F5 & F6). split; [exact S'|].
      split; [reflexivity|split; [exact C2|split; [congruence|split; [congruence|]]]].
      rewrite Se'. unfold coupled_view. rewrite Hi, C2. f_equal. f_equal.
      unfold seen, coupled_view, look in Se. destruct k; injection Se as B _; exact B.
    - exact F.
  Qed.

  Lemma stands_steps : forall n dt dt2 t0 s0 h k n_steps w x y w' x' y', stands dt dt2 t0 s0 h k w x y ->
    coupled_history dt dt2 t0 s0 k h -> coupled_steps n_steps n x y w = Some (w', Ok (x', y')) ->
    exists h', (forall j, (j <= k)%nat -> h' j = h j) /\ coupled_history dt dt2 t0 s0 (k + n) h' /\
      stands dt dt2 t0 s0 h' (k + n) w' x' y' /\ coupled_frame w w'.
  Proof.
    induction n as [|n IH]; intros dt dt2 t0 s0 h k n_steps w x y w' x' y' S H E; cbn [TimeModel.coupled_steps] in E.
    - injection E as <- <- <-. exists h. rewrite Nat.add_0_r. split; [reflexivity|split; [exact H|split; [exact S|apply frame_refl]]].
    - destruct (coupled_step n_steps x y w) as [[w1 [[x1 y1]|e]]|] eqn:E1; try discriminate.
      destruct (stands_step _ _ _ _ _ _ _ _ _ _ _ _ _ S H E1) as (h1 & L1 & H1 & S1 & F1).
      destruct (IH _ _ _ _ _ _ _ _ _ _ _ _ _ S1 H1 E) as (h2 & L2 & H2 & S2 & F2).
      exists h2. replace (k + Datatypes.S n)%nat with (Datatypes.S k + n)%nat by lia.
      split; [|split; [exact H2|split; [exact S2|eapply frame_trans; eassumption]]].
      intros j L. rewrite L2, L1 by lia. reflexivity.
  Qed.

  (* a returned state is not written to any more *)
  Definition done_with (w : pair) (s : state W) : Prop :=
    Forall (fun k => (k < room (p_mem w))%nat /\ k <> displacement (p_st w) /\ k <> displaced_nodes (p_st w)) (refs s) /\
    products s = [].

  Definition seen_state (w : pair) (s : state W) : view * list vec :=
    (look (p_mem w) s, map (load (p_mem w)) (extra_refs (extra s))).

  Lemma done_seen : forall w w' s, done_with w s -> coupled_frame w w' ->
    seen_state w' s = seen_state w s /\ done_with w' s.
  Proof.
    intros w w' s [D P] (F1 & F2 & F3 & F4 & F5 & F6). split.
    - unfold refs in D. apply Forall_app in D. destruct D as [D E].
      repeat match goal with Q : Forall _ (_ :: _) |- _ =>
          apply Forall_cons_iff in Q; let A := fresh "L" in destruct Q as [A Q] end.
      unfold seen_state, look. rewrite !F4 by tauto. f_equal.
      apply map_ext_in. intros k Hk. rewrite Forall_forall in E. apply F4; apply E; exact Hk.
    - split; [|exact P]. rewrite F2, F3. eapply Forall_impl; [|exact D]. cbn. intros k K. split; [lia|tauto].
  Qed.

  Definition total (ns : list nat) : nat := fold_right Nat.add 0%nat ns.

  Lemma stands_copy : forall dt dt2 t0 s0 h k w x y m s, stands dt dt2 t0 s0 h k w x y ->
    copy nodes (p_mem w) (p_st w) = (m, s) ->
    let w' := mkPair m (p_st w) (p_one w) (p_two w) in
    stands dt dt2 t0 s0 h k w' x y /\ coupled_frame w w' /\ done_with w' s /\
    seen_state w' s = coupled_view nodes dt t0 s0 h k.
  Proof.
    intros dt dt2 t0 s0 h k w x y m s ((S1 & S2 & S3 & S4 & S5 & S6) & Rd & Cl & Dt & Dt2 & Se) E w'.
    assert (R : forall q, In q (readable w x y) -> (q < room (p_mem w))%nat /\ q <> displacement (p_st w) /\ q <> displaced_nodes (p_st w)).
    { rewrite Forall_forall in S4. exact S4. }
    assert (HE : held (p_mem w) (p_st w)).
    { split.
      - unfold refs. apply Forall_app. split.
        + repeat constructor; try assumption; apply R; unfold readable; apply in_or_app; left; cbn [In]; tauto.
        + apply Forall_forall. intros q Hq. apply R. unfold readable. apply in_or_app. right; exact Hq.
      - unfold product_refs. rewrite S5. constructor. }
    pose proof (copy_spec nodes (p_mem w) (p_st w) HE) as C. rewrite E in C.
    destruct C as (C1 & C2 & C3 & C4 & C5 & C6 & C7 & C8 & C9 & C10 & C11 & C12 & C13 & C14).
    assert (F : coupled_frame w w').
    { unfold coupled_frame, w'; cbn [p_mem p_st p_one p_two]. repeat split; try assumption. intros; apply C3; assumption. }
    split; [|split; [exact F|split]].
    - unfold stands. split; [|split; [|split; [exact Cl|split; [exact Dt|split; [exact Dt2|]]]]].
      + unfold coupled_sound, w'; cbn [p_mem p_st]. repeat split; try assumption; try lia.
        eapply Forall_impl; [|exact S4]. cbn. intros q Q. split; [lia|tauto].
      + rewrite <- Rd. unfold read, w'; cbn [p_mem p_st p_one p_two].
        rewrite !C3 by (try assumption; apply R; unfold readable; apply in_or_app; left; cbn [In]; tauto). reflexivity.
      + rewrite <- Se. unfold seen, look, w'; cbn [p_mem p_st].
        rewrite !C3 by (try assumption; apply R; unfold readable; apply in_or_app; left; cbn [In]; tauto). f_equal.
        apply map_ext_in. intros q Hq. apply C3, R. unfold readable. apply in_or_app; right; exact Hq.
    - split.
      + unfold w'; cbn [p_mem p_st]. eapply Forall_impl; [|exact C5]. cbn. intros; lia.
      + destruct (keeps_products (p_st w)); [rewrite S5 in C10|]; destruct (products s); try discriminate; reflexivity.
    - rewrite <- Se. unfold seen_state, seen, w'; cbn [p_mem p_st]. rewrite C8, C9. reflexivity.
  Qed.

  Lemma stands_outputs : forall ns dt dt2 t0 s0 h k n_steps w x y w' l, stands dt dt2 t0 s0 h k w x y ->
    coupled_history dt dt2 t0 s0 k h -> coupled_outputs n_steps ns x y w = Some (w', Ok l) ->
    exists h', (forall j, (j <= k)%nat -> h' j = h j) /\ coupled_history dt dt2 t0 s0 (k + total ns) h' /\
      (exists x' y', stands dt dt2 t0 s0 h' (k + total ns) w' x' y') /\ coupled_frame w w' /\
      List.length l = List.length ns /\
      forall j s, nth_error l j = Some s ->
        done_with w' s /\ seen_state w' s = coupled_view nodes dt t0 s0 h' (k + total (firstn (S j) ns)).
  Proof.
    induction ns as [|n ns IH]; intros dt dt2 t0 s0 h k n_steps w x y w' l S H E; cbn [TimeModel.coupled_outputs] in E.
    - injection E as <- <-. exists h. cbn [total fold_right]. rewrite Nat.add_0_r.
      split; [reflexivity|split; [exact H|split; [eauto|split; [apply frame_refl|split; [reflexivity|]]]]].
      intros [|j] s N; discriminate.
    - destruct (coupled_steps n_steps n x y w) as [[w1 [[x1 y1]|e]]|] eqn:E1; try discriminate.
      destruct (stands_steps _ _ _ _ _ _ _ _ _ _ _ _ _ _ S H E1) as (h1 & L1 & H1 & S1 & F1).
      destruct (copy nodes (p_mem w1) (p_st w1)) as [m s] eqn:Ec.
      pose proof (stands_copy _ _ _ _ _ _ _ _ _ _ _ S1 Ec) as (S2 & F2 & D2 & V2).
      set (w2 := mkPair m (p_st w1) (p_one w1) (p_two w1)) in *.
      destruct (coupled_outputs n_steps ns x1 y1 w2) as [[w3 [l3|e]]|] eqn:E3; try discriminate.
      injection E as <- <-.
      destruct (IH _ _ _ _ _ _ _ _ _ _ _ _ S2 H1 E3) as (h3 & L3 & H3 & S3 & F3 & N3 & O3).
      exists h3. cbn [total fold_right]. change (fold_right Nat.add 0%nat ns) with (total ns). rewrite Nat.add_assoc.
      split; [intros j L; rewrite L3, L1 by lia; reflexivity|].
      split; [exact H3|split; [exact S3|split; [eapply frame_trans; [exact F1|eapply frame_trans; eassumption]|]]].
      split; [cbn [List.length]; congruence|].
      intros [|j] s' N; cbn [nth_error] in N.
      + injection N as <-. destruct (done_seen _ _ _ D2 F3) as [Es Ds]. split; [exact Ds|].
        rewrite Es, V2. cbn [firstn total fold_right]. rewrite Nat.add_0_r.
        symmetry. apply view_ext. intros j L. apply L3. lia.
      + destruct (O3 _ _ N) as [Ds Vs]. split; [exact Ds|]. rewrite Vs. cbn [firstn total fold_right].
        change (fold_right Nat.add 0%nat (firstn (Datatypes.S j) ns)) with (total (firstn (Datatypes.S j) ns)).
        rewrite Nat.add_assoc. reflexivity.
  Qed.
End Uzawa.
