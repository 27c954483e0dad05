(* The drivers on the store refine the marching of fields. *)
From Coq Require Import Reals List Arith ZArith Bool String Lia Lra FunctionalExtensionality.
From Verif Require Import PyModel RVec StateModel TimeModel TimeSpec StateLemmas.
Import ListNotations.
Local Open Scope R_scope.

Section Time.
  Context {V W I : Type}.
  Variables (dimension nodes_count : nat) (nodes : vec).
  Variable iterate : I -> vectors -> R -> R -> result I.
  Variable answer : I -> vec -> vec -> vec -> R -> result (nat * vec).
  Notation size := (dimension * nodes_count)%nat.
  Notation world := (world V W I).
  Notation step := (@step V W I dimension nodes_count nodes iterate answer).
  Notation steps := (@steps V W I dimension nodes_count nodes iterate answer).
  Notation outputs := (@outputs V W I dimension nodes_count nodes iterate answer).

  Definition live (w : world) : list nat :=
    [absement (st w); displacement (st w); displaced_nodes (st w); velocity (st w);
     b_vector (sv w); u_vector (sv w); v_vector (sv w); t_vector (sv w); p_vector (sv w)].

  (* no two arrays share a cell *)
  Definition sound (w : world) : Prop :=
    NoDup (live w) /\ Forall (fun r => (r < room (mem w))%nat) (live w).

  Record flow := mkFlow {
    f_inner : I; f_clock : R; f_time : R;
    f_b : vec; f_u : vec; f_x : vec; f_v : vec;
    g_b : vec; g_u : vec; g_v : vec; g_t : vec; g_p : vec }.

  Definition abs (w : world) : flow :=
    mkFlow (inner (sv w)) (current_time (sv w)) (time (st w))
      (load (mem w) (absement (st w))) (load (mem w) (displacement (st w)))
      (load (mem w) (displaced_nodes (st w))) (load (mem w) (velocity (st w)))
      (load (mem w) (b_vector (sv w))) (load (mem w) (u_vector (sv w))) (load (mem w) (v_vector (sv w)))
      (load (mem w) (t_vector (sv w))) (load (mem w) (p_vector (sv w))).

  Definition next (c : coordinates) (dt : R) (f : flow) : result flow :=
    let now := f_clock f + dt in
    match c with
    | OtherCoordinates => Err ValueError
    | Velocity =>
        match answer (f_inner f) (f_v f) (g_v f) (g_u f) dt with
        | Err e => Err e
        | Ok (len, x) =>
            if (len =? size)%nat then
              let u := fun i => f_u f i + (now - f_time f) * x i in
              match iterate (f_inner f) (mkVectors (g_b f) u x (g_t f) (g_p f)) dt now with
              | Err e => Err e
              | Ok i => Ok (mkFlow i now now (f_b f) u (fun i => nodes i + u i) x (g_b f) u x (g_t f) (g_p f))
              end
            else Err ValueError
        end
    | Displacement =>
        match answer (f_inner f) (f_u f) (g_v f) (g_u f) dt with
        | Err e => Err e
        | Ok (len, x) =>
            if (len =? size)%nat then
              let b := fun i => f_b f i + (now - f_time f) * x i in
              match iterate (f_inner f) (mkVectors b x (g_v f) (g_t f) (g_p f)) dt now with
              | Err e => Err e
              | Ok i => Ok (mkFlow i now now b x (fun i => nodes i + x i) (f_v f) b x (g_v f) (g_t f) (g_p f))
              end
            else Err ValueError
        end
    end.

  Ltac bound := solve [repeat match goal with H : _ <> _ |- _ => clear H end; lia].
  Ltac quick := repeat match goal with |- _ /\ _ => split | H : _ \/ _ |- _ => destruct H end;
    try solve [congruence | tauto | bound].

  Ltac spread H :=
    let N := fresh "N" in let F := fresh "F" in
    destruct H as [N F]; unfold live in N, F;
    repeat match goal with
    | Q : NoDup (_ :: _) |- _ =>
        apply NoDup_cons_iff in Q; let A := fresh "A" in destruct Q as [A Q]; cbn [In] in A
    | Q : Forall _ (_ :: _) |- _ =>
        apply Forall_cons_iff in Q; let A := fresh "L" in destruct Q as [A Q]
    | Q : NoDup [] |- _ => clear Q
    | Q : Forall _ [] |- _ => clear Q
    end;
    repeat match goal with
    | Q : ~ (_ \/ _) |- _ => apply Decidable.not_or in Q; destruct Q
    | Q : ~ False |- _ => clear Q
    end.

  Ltac rooms := repeat first [rewrite room_write | rewrite room_alloc | rewrite room_grow]; bound.

  (* loads of cells after writes *)
  Ltac loads :=
    repeat first
      [ rewrite load_write_same by rooms
      | rewrite load_write_other by (solve [congruence | bound])
      | rewrite load_alloc_new
      | rewrite load_alloc_old by rooms ].

  Lemma finish_step_inv : forall (w w' : world) r, finish_step iterate w = (w', r) ->
    (exists e, iterate (inner (sv w)) (arrays (mem w) (sv w)) (time_step (sv w)) (current_time (sv w)) = Err e
               /\ w' = w /\ r = Err e) \/
    (exists i, iterate (inner (sv w)) (arrays (mem w) (sv w)) (time_step (sv w)) (current_time (sv w)) = Ok i
               /\ w' = mkWorld (mem w) (st w) (with_inner (sv w) i) (S (done w)) (to_do w)
               /\ r = if (to_do w =? 0)%nat then Err ZeroDivision else Ok tt).
  Proof.
    intros w w' r H. unfold finish_step, call_iterate in H.
    destruct (iterate _ _ _ _) as [i|e].
    - right; exists i. cbn [mem st sv done to_do] in H.
      destruct (to_do w =? 0)%nat; injection H as <- <-; auto.
    - left; exists e. injection H as <- <-; auto.
  Qed.

  (* everything about one step at once *)
  Definition frame (w w' : world) : Prop :=
    (room (mem w) <= room (mem w'))%nat /\
    (forall k, (k < room (mem w))%nat -> ~ In k (live w) -> load (mem w') k = load (mem w) k) /\
    (forall k, In k (live w') -> In k (live w) \/ (room (mem w) <= k)%nat) /\
    (stock (mem w') = stock (mem w)) /\
    (forall k, ~ In k (map snd (products (st w))) -> get_product (mem w') k = get_product (mem w) k) /\
    products (st w') = products (st w) /\ to_do w' = to_do w /\ time_step (sv w') = time_step (sv w) /\
    extra (st w') = extra (st w) /\ constitutive_law (st w') = constitutive_law (st w) /\
    stress_cache (st w') = stress_cache (st w).

  Lemma sound_fresh : forall (l l' : list nat) n,
    NoDup l -> Forall (fun r => (r < n)%nat) l -> ~ In n l.
  Proof. intros l l' n _ H C. rewrite Forall_forall in H. specialize (H _ C). lia. Qed.

  Lemma step_velocity : forall w w' r, sound w -> step Velocity w = (w', r) ->
    frame w w' /\ sound w' /\
    match r with
    | Ok _ => next Velocity (time_step (sv w)) (abs w) = Ok (abs w')
    | Err e => products (st w) = [] -> to_do w <> 0%nat -> next Velocity (time_step (sv w)) (abs w) = Err e
    end.
  Proof.
    intros w w' r S H.
    pose proof S as S0. spread S.
    unfold step, TimeModel.step, find_solution in H.
    cbn [mem st sv done to_do with_clock inner v_vector u_vector time_step current_time b_vector t_vector p_vector] in H.
    unfold next, abs; cbn [f_inner f_clock f_time f_b f_u f_x f_v g_b g_u g_v g_t g_p].
    destruct (answer _ _ _ _ _) as [[len x]|e].
    2:{ injection H as <- <-.
        split; [|split; [exact S0|reflexivity]].
        unfold frame, live; cbn [mem st sv with_clock b_vector u_vector v_vector t_vector p_vector to_do time_step].
        repeat split; auto. }
    rewrite alloc_eq in H.
    change (mkStore (cells (mem w) ++ [x]) (prods (mem w))) with (fst (alloc (mem w) x)) in H.
    cbn [mem st sv done to_do with_clock inner v_vector u_vector time_step current_time b_vector t_vector p_vector] in H.
    unfold set_velocity in H.
    destruct (len =? size)%nat.
    2:{ injection H as <- <-.
        split; [|split].
        - unfold frame, live; cbn [mem st sv with_clock b_vector u_vector v_vector t_vector p_vector to_do time_step].
          repeat split; auto.
          + rewrite room_grow; bound.
          + intros k Lk _. apply load_grow_old; exact Lk.
        - split; [exact (proj1 S0)|].
          unfold live; cbn [mem st sv with_clock b_vector u_vector v_vector t_vector p_vector].
          repeat constructor; rooms.
        - reflexivity. }
    cbn [displacement displaced_nodes absement velocity time products extra constitutive_law stress_cache] in H.
    set (u := fun i => load (mem w) (displacement (st w)) i + (current_time (sv w) + time_step (sv w) - time (st w)) * x i) in *.
    match type of H with context [update_products ?ps ?m ?f] =>
      set (m2 := m) in H; set (look2 := f) in H;
      pose proof (update_products_cells ps m2 look2) as HC;
      pose proof (update_products_stock ps m2 look2) as HS;
      pose proof (fun k => update_products_frame ps m2 look2 k) as HF;
      assert (HP : ps = [] -> snd (update_products ps m2 look2) = Ok tt) by (intros ->; reflexivity);
      destruct (update_products ps m2 look2) as [m3 r3]; cbn [fst snd] in HC, HS, HF, HP
    end.
    assert (E : forall k, (k < room (mem w))%nat -> k <> displacement (st w) -> k <> displaced_nodes (st w) ->
                load m3 k = load (mem w) k).
    { intros k Hk Hd Hx. rewrite (load_cells _ _ _ HC). unfold m2. loads. reflexivity. }
    assert (Eu : load m3 (displacement (st w)) = u).
    { rewrite (load_cells _ _ _ HC). unfold m2. loads. reflexivity. }
    assert (Ex : load m3 (displaced_nodes (st w)) = (fun i => nodes i + u i)).
    { rewrite (load_cells _ _ _ HC). unfold m2. loads. reflexivity. }
    assert (Ev : load m3 (room (mem w)) = x).
    { rewrite (load_cells _ _ _ HC). unfold m2. loads. reflexivity. }
    assert (Rm : room m3 = Datatypes.S (room (mem w))).
    { rewrite (room_cells _ _ HC). unfold m2. rewrite !room_write, room_alloc. reflexivity. }
    assert (Sm : stock m3 = stock (mem w)) by (rewrite HS; reflexivity).
    assert (Gm : forall k, ~ In k (map snd (products (st w))) -> get_product m3 k = get_product (mem w) k).
    { intros k Hk. rewrite HF by exact Hk. reflexivity. }
    clearbody m2. clear HC HS HF.
    assert (S3 : forall w3 : world,
      mem w3 = m3 \/ mem w3 = write (write m3 (u_vector (sv w)) u) (v_vector (sv w)) x ->
      st w3 = mkState (absement (st w)) (displacement (st w)) (displaced_nodes (st w)) (room (mem w)) (extra (st w))
                (current_time (sv w) + time_step (sv w)) (products (st w)) (constitutive_law (st w)) (stress_cache (st w)) ->
      b_vector (sv w3) = b_vector (sv w) -> u_vector (sv w3) = u_vector (sv w) -> v_vector (sv w3) = v_vector (sv w) ->
      t_vector (sv w3) = t_vector (sv w) -> p_vector (sv w3) = p_vector (sv w) ->
      time_step (sv w3) = time_step (sv w) -> to_do w3 = to_do w ->
      frame w w3 /\ sound w3).
    { intros w3 Hm Hs Hb Hu Hv Ht Hp Hdt Htd.
      assert (Rw : room (mem w3) = Datatypes.S (room (mem w))).
      { destruct Hm as [-> | ->]; rewrite ?room_write; exact Rm. }
      split.
      - unfold frame. rewrite Rw, Hs; cbn [products extra constitutive_law stress_cache].
        repeat apply conj; auto.
        + intros k Lk Nk. unfold live in Nk; cbn [In] in Nk.
          destruct Hm as [-> | ->].
          * apply E; [exact Lk| |]; intro; subst; tauto.
          * rewrite !load_write_other by (intro; subst; tauto).
            apply E; [exact Lk| |]; intro; subst; tauto.
        + intros k Hk. unfold live in Hk; rewrite Hs, Hb, Hu, Hv, Ht, Hp in Hk.
          cbn [absement displacement displaced_nodes velocity In] in Hk. unfold live; cbn [In].
          repeat (destruct Hk as [<- | Hk]; [solve [right; constructor | left; tauto]|]). destruct Hk.
        + destruct Hm as [-> | ->]; rewrite ?stock_write; exact Sm.
        + intros k Hk. unfold get_product. destruct Hm as [-> | ->]; rewrite ?prods_write; apply Gm; exact Hk.
      - split.
        + unfold live; rewrite Hs, Hb, Hu, Hv, Ht, Hp; cbn [absement displacement displaced_nodes velocity].
          repeat (apply NoDup_cons; [cbn [In]; intros Q; repeat (destruct Q as [Q|Q]; [solve [congruence | bound]|]); destruct Q|]). apply NoDup_nil.
        + unfold live; rewrite Hs, Hb, Hu, Hv, Ht, Hp, Rw; cbn [absement displacement displaced_nodes velocity].
          repeat constructor; bound. }
    destruct r3 as [[]|e].
    2:{ injection H as <- <-.
        match goal with |- frame w ?w3 /\ _ =>
          destruct (S3 w3 (or_introl eq_refl) eq_refl eq_refl eq_refl eq_refl eq_refl eq_refl eq_refl eq_refl) as [A B] end.
        split; [exact A|split; [exact B|]].
        intros Hp _. exfalso. specialize (HP Hp). discriminate HP. }
    cbv zeta in H. cbn [displacement velocity] in H. rewrite Eu in H.
    rewrite load_write_other in H by bound. rewrite Ev in H.
    apply finish_step_inv in H.
    cbn [mem st sv done to_do] in H.
    assert (AR : arrays (write (write m3 (u_vector (sv w)) u) (v_vector (sv w)) x)
              (with_clock (sv w) (current_time (sv w) + time_step (sv w)))
            = mkVectors (load (mem w) (b_vector (sv w))) u x (load (mem w) (t_vector (sv w))) (load (mem w) (p_vector (sv w)))).
    { unfold arrays, with_clock; cbn [b_vector u_vector v_vector t_vector p_vector].
      rewrite (load_write_same (write m3 (u_vector (sv w)) u)) by (rewrite room_write; bound).
      rewrite !(load_write_other (write m3 (u_vector (sv w)) u)) by congruence.
      rewrite load_write_same by bound.
      rewrite !load_write_other by congruence.
      rewrite !E by congruence. reflexivity. }
    rewrite AR in H. cbn [inner time_step current_time with_clock] in H.
    destruct H as [(e & Hi & -> & ->) | (i & Hi & -> & ->)].
    - match goal with |- frame w ?w3 /\ _ =>
        destruct (S3 w3 (or_intror eq_refl) eq_refl eq_refl eq_refl eq_refl eq_refl eq_refl eq_refl eq_refl) as [A B] end.
      split; [exact A|split; [exact B|]].
      intros _ _. rewrite Hi. reflexivity.
    - match goal with |- frame w ?w3 /\ _ =>
        destruct (S3 w3 (or_intror eq_refl) eq_refl eq_refl eq_refl eq_refl eq_refl eq_refl eq_refl eq_refl) as [A B] end.
      split; [exact A|split; [exact B|]].
      destruct (Nat.eqb_spec (to_do w) 0) as [Z|Z].
      + intros _ C. contradiction.
      + fold u. rewrite Hi. apply (f_equal Ok).
        cbn [mem st sv with_inner with_clock inner current_time time absement displacement displaced_nodes velocity
             b_vector u_vector v_vector t_vector p_vector].
        assert (RR : (v_vector (sv w) < room (write m3 (u_vector (sv w)) u))%nat) by (rewrite room_write; bound).
        rewrite (load_write_same (write m3 (u_vector (sv w)) u)) by exact RR.
        rewrite !(load_write_other (write m3 (u_vector (sv w)) u)) by (congruence || bound).
        rewrite load_write_same by bound.
        rewrite !load_write_other by (congruence || bound).
        rewrite Eu, Ex, Ev, !E by congruence. reflexivity.
  Qed.
  Lemma step_displacement : forall w w' r, sound w -> step Displacement w = (w', r) ->
    frame w w' /\ sound w' /\
    match r with
    | Ok _ => next Displacement (time_step (sv w)) (abs w) = Ok (abs w')
    | Err e => products (st w) = [] -> to_do w <> 0%nat -> next Displacement (time_step (sv w)) (abs w) = Err e
    end.
  Proof.
    intros w w' r S H.
    pose proof S as S0. spread S.
    unfold step, TimeModel.step, find_solution in H.
    cbn [mem st sv done to_do with_clock inner v_vector u_vector time_step current_time b_vector t_vector p_vector] in H.
    unfold next, abs; cbn [f_inner f_clock f_time f_b f_u f_x f_v g_b g_u g_v g_t g_p].
    destruct (answer _ _ _ _ _) as [[len x]|e].
    2:{ injection H as <- <-.
        split; [|split; [exact S0|reflexivity]].
        unfold frame, live; cbn [mem st sv with_clock b_vector u_vector v_vector t_vector p_vector to_do time_step].
        repeat split; auto. }
    rewrite alloc_eq in H.
    change (mkStore (cells (mem w) ++ [x]) (prods (mem w))) with (fst (alloc (mem w) x)) in H.
    cbn [mem st sv done to_do with_clock inner v_vector u_vector time_step current_time b_vector t_vector p_vector] in H.
    unfold set_displacement in H.
    destruct (len =? size)%nat.
    2:{ injection H as <- <-.
        split; [|split].
        - unfold frame, live; cbn [mem st sv with_clock b_vector u_vector v_vector t_vector p_vector to_do time_step].
          repeat split; auto.
          + rewrite room_grow; bound.
          + intros k Lk _. apply load_grow_old; exact Lk.
        - split; [exact (proj1 S0)|].
          unfold live; cbn [mem st sv with_clock b_vector u_vector v_vector t_vector p_vector].
          repeat constructor; rooms.
        - reflexivity. }
    cbn [displacement displaced_nodes absement velocity time products extra constitutive_law stress_cache] in H.
    set (b := fun i => load (mem w) (absement (st w)) i + (current_time (sv w) + time_step (sv w) - time (st w)) * x i) in *.
    match type of H with context [update_products ?ps ?m ?f] =>
      set (m2 := m) in H; set (look2 := f) in H;
      pose proof (update_products_cells ps m2 look2) as HC;
      pose proof (update_products_stock ps m2 look2) as HS;
      pose proof (fun k => update_products_frame ps m2 look2 k) as HF;
      assert (HP : ps = [] -> snd (update_products ps m2 look2) = Ok tt) by (intros ->; reflexivity);
      destruct (update_products ps m2 look2) as [m3 r3]; cbn [fst snd] in HC, HS, HF, HP
    end.
    assert (E : forall k, (k < room (mem w))%nat -> k <> absement (st w) -> k <> displaced_nodes (st w) ->
                load m3 k = load (mem w) k).
    { intros k Hk Hd Hx. rewrite (load_cells _ _ _ HC). unfold m2. loads. reflexivity. }
    assert (Eb : load m3 (absement (st w)) = b).
    { rewrite (load_cells _ _ _ HC). unfold m2. loads. reflexivity. }
    assert (Ex : load m3 (displaced_nodes (st w)) = (fun i => nodes i + x i)).
    { rewrite (load_cells _ _ _ HC). unfold m2. loads. reflexivity. }
    assert (Ev : load m3 (room (mem w)) = x).
    { rewrite (load_cells _ _ _ HC). unfold m2. loads. reflexivity. }
    assert (Rm : room m3 = Datatypes.S (room (mem w))).
    { rewrite (room_cells _ _ HC). unfold m2. rewrite !room_write, room_alloc. reflexivity. }
    assert (Sm : stock m3 = stock (mem w)) by (rewrite HS; reflexivity).
    assert (Gm : forall k, ~ In k (map snd (products (st w))) -> get_product m3 k = get_product (mem w) k).
    { intros k Hk. rewrite HF by exact Hk. reflexivity. }
    clearbody m2. clear HC HS HF.
    assert (S3 : forall w3 : world,
      mem w3 = m3 \/ mem w3 = write (write m3 (b_vector (sv w)) b) (u_vector (sv w)) x ->
      st w3 = mkState (absement (st w)) (room (mem w)) (displaced_nodes (st w)) (velocity (st w)) (extra (st w))
                (current_time (sv w) + time_step (sv w)) (products (st w)) (constitutive_law (st w)) (stress_cache (st w)) ->
      b_vector (sv w3) = b_vector (sv w) -> u_vector (sv w3) = u_vector (sv w) -> v_vector (sv w3) = v_vector (sv w) ->
      t_vector (sv w3) = t_vector (sv w) -> p_vector (sv w3) = p_vector (sv w) ->
      time_step (sv w3) = time_step (sv w) -> to_do w3 = to_do w ->
      frame w w3 /\ sound w3).
    { intros w3 Hm Hs Hb Hu Hv Ht Hp Hdt Htd.
      assert (Rw : room (mem w3) = Datatypes.S (room (mem w))).
      { destruct Hm as [-> | ->]; rewrite ?room_write; exact Rm. }
      split.
      - unfold frame. rewrite Rw, Hs; cbn [products extra constitutive_law stress_cache].
        repeat apply conj; auto.
        + intros k Lk Nk. unfold live in Nk; cbn [In] in Nk.
          destruct Hm as [-> | ->].
          * apply E; [exact Lk| |]; intro; subst; tauto.
          * rewrite !load_write_other by (intro; subst; tauto).
            apply E; [exact Lk| |]; intro; subst; tauto.
        + intros k Hk. unfold live in Hk; rewrite Hs, Hb, Hu, Hv, Ht, Hp in Hk.
          cbn [absement displacement displaced_nodes velocity In] in Hk. unfold live; cbn [In].
          repeat (destruct Hk as [<- | Hk]; [solve [right; constructor | left; tauto]|]). destruct Hk.
        + destruct Hm as [-> | ->]; rewrite ?stock_write; exact Sm.
        + intros k Hk. unfold get_product. destruct Hm as [-> | ->]; rewrite ?prods_write; apply Gm; exact Hk.
      - split.
        + unfold live; rewrite Hs, Hb, Hu, Hv, Ht, Hp; cbn [absement displacement displaced_nodes velocity].
          repeat (apply NoDup_cons; [cbn [In]; intros Q; repeat (destruct Q as [Q|Q]; [solve [congruence | bound]|]); destruct Q|]). apply NoDup_nil.
        + unfold live; rewrite Hs, Hb, Hu, Hv, Ht, Hp, Rw; cbn [absement displacement displaced_nodes velocity].
          repeat constructor; bound. }
    destruct r3 as [[]|e].
    2:{ injection H as <- <-.
        match goal with |- frame w ?w3 /\ _ =>
          destruct (S3 w3 (or_introl eq_refl) eq_refl eq_refl eq_refl eq_refl eq_refl eq_refl eq_refl eq_refl) as [A B] end.
        split; [exact A|split; [exact B|]].
        intros Hp _. exfalso. specialize (HP Hp). discriminate HP. }
    cbv zeta in H. cbn [absement displacement] in H. rewrite Eb in H.
    rewrite load_write_other in H by bound. rewrite Ev in H.
    apply finish_step_inv in H.
    cbn [mem st sv done to_do] in H.
    assert (AR : arrays (write (write m3 (b_vector (sv w)) b) (u_vector (sv w)) x)
              (with_clock (sv w) (current_time (sv w) + time_step (sv w)))
            = mkVectors b x (load (mem w) (v_vector (sv w))) (load (mem w) (t_vector (sv w))) (load (mem w) (p_vector (sv w)))).
    { unfold arrays, with_clock; cbn [b_vector u_vector v_vector t_vector p_vector].
      rewrite (load_write_same (write m3 (b_vector (sv w)) b)) by (rewrite room_write; bound).
      rewrite !(load_write_other (write m3 (b_vector (sv w)) b)) by congruence.
      rewrite load_write_same by bound.
      rewrite !load_write_other by congruence.
      rewrite !E by congruence. reflexivity. }
    rewrite AR in H. cbn [inner time_step current_time with_clock] in H.
    destruct H as [(e & Hi & -> & ->) | (i & Hi & -> & ->)].
    - match goal with |- frame w ?w3 /\ _ =>
        destruct (S3 w3 (or_intror eq_refl) eq_refl eq_refl eq_refl eq_refl eq_refl eq_refl eq_refl eq_refl) as [A B] end.
      split; [exact A|split; [exact B|]].
      intros _ _. rewrite Hi. reflexivity.
    - match goal with |- frame w ?w3 /\ _ =>
        destruct (S3 w3 (or_intror eq_refl) eq_refl eq_refl eq_refl eq_refl eq_refl eq_refl eq_refl eq_refl) as [A B] end.
      split; [exact A|split; [exact B|]].
      destruct (Nat.eqb_spec (to_do w) 0) as [Z|Z].
      + intros _ C. contradiction.
      + fold b. rewrite Hi. apply (f_equal Ok).
        cbn [mem st sv with_inner with_clock inner current_time time absement displacement displaced_nodes velocity
             b_vector u_vector v_vector t_vector p_vector].
        assert (RR : (u_vector (sv w) < room (write m3 (b_vector (sv w)) b))%nat) by (rewrite room_write; bound).
        rewrite (load_write_same (write m3 (b_vector (sv w)) b)) by exact RR.
        rewrite !(load_write_other (write m3 (b_vector (sv w)) b)) by (congruence || bound).
        rewrite load_write_same by bound.
        rewrite !load_write_other by (congruence || bound).
        rewrite Eb, Ex, Ev, !E by congruence. reflexivity.
  Qed.
End Time.
