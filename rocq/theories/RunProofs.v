(* Runs of several steps, outputs and the solve() methods. *)
From Coq Require Import Reals List Arith ZArith Bool String Lia Lra FunctionalExtensionality.
From Verif Require Import PyModel RVec StateModel TimeModel TimeSpec StateLemmas CopyProofs TimeProofs.
Import ListNotations.
Local Open Scope R_scope.

Section Run.
  Context {V W I : Type}.
  Variables (dimension nodes_count : nat) (nodes : vec).
  Variable iterate : I -> vectors -> R -> R -> result I.
  Variable answer : I -> vec -> vec -> vec -> R -> result (nat * vec).
  Notation size := (dimension * nodes_count)%nat.
  Notation world := (world V W I).
  Notation step := (@step V W I dimension nodes_count nodes iterate answer).
  Notation steps := (@steps V W I dimension nodes_count nodes iterate answer).
  Notation run := (@run V W I dimension nodes_count nodes iterate answer).
  Notation outputs := (@outputs V W I dimension nodes_count nodes iterate answer).
  Notation next := (next dimension nodes_count nodes iterate answer).
  Notation flow := (@flow I).

  Lemma frame_refl : forall w : world, frame w w.
  Proof. intros w; unfold frame; repeat split; auto. Qed.

  Lemma frame_trans : forall w1 w2 w3 : world, frame w1 w2 -> frame w2 w3 -> frame w1 w3.
  Proof.
    intros w1 w2 w3 (A1 & A2 & A3 & A4 & A5 & A6 & A7 & A8 & A9 & A10 & A11)
                    (B1 & B2 & B3 & B4 & B5 & B6 & B7 & B8 & B9 & B10 & B11).
    unfold frame; repeat apply conj; try congruence; try lia.
    - intros k Lk Nk. rewrite B2; [apply A2; assumption|lia|].
      intro C. destruct (A3 _ C); [contradiction|lia].
    - intros k Hk. destruct (B3 _ Hk) as [C|C]; [destruct (A3 _ C); [left; assumption|right; lia]|right; lia].
    - intros k Hk. rewrite B5 by (rewrite A6; exact Hk). apply A5; exact Hk.
  Qed.

  Lemma step_any : forall c (w w' : world) r, sound w -> step c w = (w', r) ->
    frame w w' /\ sound w' /\
    match r with
    | Ok _ => next c (time_step (sv w)) (abs w) = Ok (abs w')
    | Err e => products (st w) = [] -> to_do w <> 0%nat -> next c (time_step (sv w)) (abs w) = Err e
    end.
  Proof.
    intros [| |] w w' r S H.
    - eapply step_displacement; eassumption.
    - eapply step_velocity; eassumption.
    - cbn in H. injection H as <- <-. split; [|split].
      + unfold frame, live; cbn [mem st sv with_clock b_vector u_vector v_vector t_vector p_vector to_do time_step].
        repeat split; auto.
      + exact S.
      + reflexivity.
  Qed.

  Fixpoint nexts (c : coordinates) (dt : R) (n : nat) (f : flow) : result flow :=
    match n with O => Ok f | S n => match next c dt f with Ok g => nexts c dt n g | Err e => Err e end end.

  Lemma nexts_add : forall c dt n m f,
    nexts c dt (n + m) f = match nexts c dt n f with Ok g => nexts c dt m g | Err e => Err e end.
  Proof.
    intros c dt n; induction n as [|n IH]; intros m f; cbn [nexts plus]; [reflexivity|].
    destruct (next c dt f); [apply IH|reflexivity].
  Qed.

  Lemma steps_spec : forall c n (w w' : world) r, sound w -> steps c n w = (w', r) ->
    frame w w' /\ sound w' /\
    match r with
    | Ok _ => nexts c (time_step (sv w)) n (abs w) = Ok (abs w')
    | Err e => products (st w) = [] -> to_do w <> 0%nat -> nexts c (time_step (sv w)) n (abs w) = Err e
    end.
  Proof.
    intros c n; induction n as [|n IH]; intros w w' r S H; cbn [TimeModel.steps nexts] in *.
    - injection H as <- <-. auto using frame_refl.
    - destruct (step c w) as [w1 r1] eqn:E. destruct (step_any _ _ _ _ S E) as (F1 & S1 & N1).
      destruct r1 as [u1|e1].
      + rewrite N1. destruct (IH _ _ _ S1 H) as (F2 & S2 & N2).
        pose proof F1 as (_ & _ & _ & _ & _ & P & T & D & _).
        split; [eapply frame_trans; eassumption|split; [exact S2|]].
        rewrite P, T, D in N2. exact N2.
      + injection H as <- <-. split; [exact F1|split; [exact S1|]].
        intros P T. rewrite (N1 P T). reflexivity.
  Qed.

  (* frames over several runs: products given may be injected *)
  Definition wide (given : list nat) (w w' : world) : Prop :=
    (room (mem w) <= room (mem w'))%nat /\ (stock (mem w) <= stock (mem w'))%nat /\
    (forall k, (k < room (mem w))%nat -> ~ In k (live w) -> load (mem w') k = load (mem w) k) /\
    (forall k, (k < stock (mem w))%nat -> ~ In k (product_refs (st w) ++ given) ->
       get_product (mem w') k = get_product (mem w) k) /\
    (forall k, In k (live w') -> In k (live w) \/ (room (mem w) <= k)%nat) /\
    (forall k, In k (product_refs (st w')) -> In k (product_refs (st w) ++ given)) /\
    to_do w' = to_do w /\ time_step (sv w') = time_step (sv w) /\ extra (st w') = extra (st w).

  Lemma frame_wide : forall (w w' : world) g, frame w w' -> wide g w w'.
  Proof.
    intros w w' g (A1 & A2 & A3 & A4 & A5 & A6 & A7 & A8 & A9 & A10 & A11).
    unfold wide, product_refs; rewrite A6. repeat apply conj; auto; try lia.
    - intros k _ Hk. apply A5. intro C; apply Hk; apply in_or_app; auto.
    - intros k Hk; apply in_or_app; auto.
  Qed.

  Lemma wide_trans : forall g (w1 w2 w3 : world), wide g w1 w2 -> wide g w2 w3 -> wide g w1 w3.
  Proof.
    intros g w1 w2 w3 (A1 & A2 & A3 & A4 & A5 & A6 & A7 & A8 & A9)
                    (B1 & B2 & B3 & B4 & B5 & B6 & B7 & B8 & B9).
    assert (Q : forall k, In k (product_refs (st w2) ++ g) -> In k (product_refs (st w1) ++ g)).
    { intros k C. apply in_app_or in C. destruct C as [C|C]; [apply A6; exact C|apply in_or_app; auto]. }
    unfold wide; repeat apply conj; try congruence; try lia.
    - intros k Lk Nk. rewrite B3; [apply A3; assumption|lia|].
      intro C. destruct (A5 _ C); [contradiction|lia].
    - intros k Lk Hk. rewrite B4; [apply A4; assumption|lia|]. intro C; apply Hk, Q, C.
    - intros k Hk. destruct (B5 _ Hk) as [C|C]; [destruct (A5 _ C); [left; assumption|right; lia]|right; lia].
    - intros k Hk. apply Q, B6, Hk.
  Qed.

  Lemma dict_set_refs : forall (d : list (string * nat)) k v x, In x (map snd (dict_set d k v)) -> x = v \/ In x (map snd d).
  Proof.
    induction d as [|[k' v'] d IH]; intros k v x H; cbn [dict_set map snd In] in *.
    - destruct H as [H|[]]; auto.
    - destruct (String.eqb _ _) eqn:E; cbn [map snd In] in *.
      + destruct H as [H|H]; auto.
      + destruct H as [H|H]; [auto|]. destruct (IH _ _ _ H); auto.
  Qed.

  Lemma inject_all : forall (name : nat -> string) given (s : state W),
    let s' := fold_left (fun s r => inject_product s (name r) r) given s in
    absement s' = absement s /\ displacement s' = displacement s /\ displaced_nodes s' = displaced_nodes s /\
    velocity s' = velocity s /\ extra s' = extra s /\ time s' = time s /\
    (forall k, In k (product_refs s') -> In k (product_refs s ++ given)) /\
    (given = [] -> s' = s).
  Proof.
    intros name given; induction given as [|g given IH]; intros s; cbn [fold_left].
    - repeat split; auto. intros k Hk. rewrite app_nil_r; exact Hk.
    - destruct (IH (inject_product s (name g) g)) as (A1 & A2 & A3 & A4 & A5 & A6 & A7 & A8).
      rewrite A1, A2, A3, A4, A5, A6. repeat split.
      + intros k Hk. apply A7, in_app_or in Hk. unfold product_refs in Hk; cbn [inject_product products] in Hk.
        apply in_or_app; cbn [In]. destruct Hk as [Hk|Hk]; [|auto].
        apply dict_set_refs in Hk. destruct Hk as [->|Hk]; auto.
      + discriminate.
  Qed.

  Definition in_stock (m : store V) (l : list nat) : Prop := Forall (fun r => (r < stock m)%nat) l.

  Lemma run_spec : forall c given n (w w' : world) r, sound w -> run c given n w = (w', r) ->
    wide given w w' /\ sound w' /\
    match r with
    | Ok _ => nexts c (time_step (sv w)) n (abs w) = Ok (abs w')
    | Err e => given = [] -> products (st w) = [] -> to_do w <> 0%nat -> nexts c (time_step (sv w)) n (abs w) = Err e
    end /\ (given = [] -> products (st w) = [] -> products (st w') = []) /\ stock (mem w') = stock (mem w).
  Proof.
    intros c given n w w' r S H. unfold TimeModel.run in H.
    pose proof (inject_all (fun r => p_name (get_product (mem w) r)) given (st w)) as J.
    cbv zeta in J.
    set (s' := fold_left _ given (st w)) in *.
    destruct J as (J1 & J2 & J3 & J4 & J5 & J6 & J7 & J8).
    assert (L : live (mkWorld (mem w) s' (sv w) (done w) (to_do w)) = live w).
    { unfold live; cbn [st sv]. rewrite J1, J2, J3, J4. reflexivity. }
    assert (A : abs (mkWorld (mem w) s' (sv w) (done w) (to_do w)) = abs w).
    { unfold abs; cbn [st sv mem]. rewrite J1, J2, J3, J4, J6. reflexivity. }
    assert (S' : sound (mkWorld (mem w) s' (sv w) (done w) (to_do w))).
    { unfold sound. rewrite L. exact S. }
    destruct (steps_spec _ _ _ _ _ S' H) as (F & SS & N).
    rewrite A in N. cbn [st sv to_do mem] in N.
    pose proof F as (_ & _ & _ & St & _ & Pr & _). cbn [st mem] in Pr, St.
    split; [|split; [exact SS|split; [|split; [|exact St]]]].
    - eapply (wide_trans _ _ (mkWorld (mem w) s' (sv w) (done w) (to_do w))); [|apply frame_wide; exact F].
      unfold wide. rewrite L. cbn [mem st sv to_do].
      repeat apply conj; auto.
    - destruct r; [exact N|]. intros G P. rewrite (J8 G) in N. apply N; exact P.
    - intros G P. rewrite Pr, (J8 G). exact P.
  Qed.

  (* the pure course of a solve(): the fields at the outputs and at the end *)
  Fixpoint outs (c : coordinates) (dt : R) (ns : list nat) (f : flow) : result (list flow * flow) :=
    match ns with
    | [] => Ok ([], f)
    | n :: ns =>
        match nexts c dt n f with
        | Err e => Err e
        | Ok g => match outs c dt ns g with Err e => Err e | Ok (l, h) => Ok (g :: l, h) end
        end
    end.

  Definition flow_view (f : flow) : view := mkView (f_b f) (f_u f) (f_x f) (f_v f) (f_time f).

  Lemma look_abs : forall w : world, look (mem w) (st w) = flow_view (abs w).
  Proof. reflexivity. Qed.

  (* a state the driver will not touch *)
  Definition detached (given : list nat) (w : world) (s : state W) : Prop :=
    Forall (fun k => (k < room (mem w))%nat /\ ~ In k (live w)) (refs s) /\
    Forall (fun k => (k < stock (mem w))%nat /\ ~ In k (product_refs (st w) ++ given)) (product_refs s).

  Lemma detached_shown : forall given (w w' : world) (s : state W), detached given w s -> wide given w w' ->
    shown (mem w') s = shown (mem w) s.
  Proof.
    intros given w w' s [D P] (A1 & A2 & A3 & A4 & A5 & A6 & A7 & A8 & A9).
    unfold refs in D. apply Forall_app in D. destruct D as [D E].
    repeat match goal with Q : Forall _ (_ :: _) |- _ =>
        apply Forall_cons_iff in Q; let A := fresh "L" in destruct Q as [A Q] end.
    unfold shown, look.
    rewrite !A3 by tauto.
    assert (EM : map (load (mem w')) (extra_refs (extra s)) = map (load (mem w)) (extra_refs (extra s))).
    { apply map_ext_in. intros k Hk. rewrite Forall_forall in E. apply A3; apply E; exact Hk. }
    rewrite EM. f_equal.
    apply map_ext_in. intros [n r] Hr. cbn [fst snd]. rewrite A4; [reflexivity| |];
      rewrite Forall_forall in P; apply (in_map snd) in Hr; apply P; exact Hr.
  Qed.

  Lemma detached_wide : forall given (w w' : world) (s : state W), in_stock (mem w) given ->
    detached given w s -> wide given w w' -> detached given w' s.
  Proof.
    intros given w w' s G [D P] (A1 & A2 & A3 & A4 & A5 & A6 & A7 & A8 & A9). split.
    - eapply Forall_impl; [|exact D]. cbn. intros k [L N]. split; [lia|].
      intro C. destruct (A5 _ C); [contradiction|lia].
    - eapply Forall_impl; [|exact P]. cbn. intros k [L N]. split; [lia|].
      intro C. apply N. apply in_app_or in C. destruct C as [C|C]; [apply A6; exact C|apply in_or_app; auto].
  Qed.

  Definition ready (given : list nat) (w : world) : Prop :=
    sound w /\ Forall (fun r => (r < room (mem w))%nat) (extra_refs (extra (st w))) /\
    in_stock (mem w) (product_refs (st w) ++ given).

  Lemma ready_held : forall given (w : world), ready given w -> held (mem w) (st w).
  Proof.
    intros given w [[N F] [E S]]. split.
    - unfold refs. apply Forall_app. split; [|exact E].
      unfold live in F. repeat (apply Forall_cons_iff in F; let A := fresh "L" in destruct F as [A F]).
      repeat constructor; assumption.
    - unfold in_stock in S. apply Forall_app in S. apply S.
  Qed.

  Lemma outputs_spec : forall c given ns (w w' : world) r, ready given w -> outputs c given ns w = (w', r) ->
    wide given w w' /\ ready given w' /\
    match r with
    | Ok l =>
        (exists fl, outs c (time_step (sv w)) ns (abs w) = Ok (fl, abs w')
           /\ map (look (mem w')) l = map flow_view fl) /\
        Forall (detached given w') l /\
        Forall (fun s => (forall k, In k (refs s) -> (room (mem w) <= k)%nat) /\
                         (forall k, In k (product_refs s) -> (stock (mem w) <= k)%nat)) l /\
        Forall (fun s => constitutive_law s = None /\ stress_cache s = None /\ NoDup (refs s) /\
                         (extra (st w) = Plain -> extra s = Plain) /\
                         (given = [] -> products (st w) = [] -> products s = [])) l
    | Err e => given = [] -> products (st w) = [] -> to_do w <> 0%nat -> outs c (time_step (sv w)) ns (abs w) = Err e
    end /\ (given = [] -> products (st w) = [] -> products (st w') = []).
  Proof.
    intros c given ns; induction ns as [|n ns IH]; intros w w' r R H; cbn [TimeModel.outputs outs] in *.
    - injection H as <- <-. split; [apply frame_wide, frame_refl|split; [exact R|split; [|auto]]].
      split; [exists []; auto|auto].
    - destruct (run c given n w) as [w1 r1] eqn:E.
      pose proof R as (RS & RE & RP).
      destruct (run_spec _ _ _ _ _ _ RS E) as (F1 & S1 & N1 & P1 & St1).
      assert (R1 : ready given w1).
      { destruct F1 as (A1 & A2 & A3 & A4 & A5 & A6 & A7 & A8 & A9).
        split; [exact S1|split].
        - rewrite A9. eapply Forall_impl; [|exact RE]. cbn; intros; lia.
        - unfold in_stock in *. apply Forall_app; split.
          + apply Forall_forall. intros k Hk. apply A6 in Hk.
            rewrite Forall_forall in RP. specialize (RP _ Hk). cbn in RP. lia.
          + apply Forall_app in RP. eapply Forall_impl; [|exact (proj2 RP)]. cbn; intros; lia. }
      destruct r1 as [u1|e1].
      2:{ injection H as <- <-. split; [exact F1|split; [exact R1|split; [|exact P1]]].
          intros G P T. rewrite (N1 G P T). reflexivity. }
      rewrite N1.
      pose proof (copy_spec nodes (mem w1) (st w1) (ready_held _ _ R1)) as C.
      destruct (copy nodes (mem w1) (st w1)) as [m s].
      destruct C as (C1 & C2 & C3 & C4 & C5 & C6 & C7 & C8 & C9 & C10 & C11 & C12 & C13 & C14).
      set (w2 := mkWorld m (st w1) (sv w1) (done w1) (to_do w1)) in *.
      assert (F2 : wide given w1 w2).
      { unfold wide, w2; cbn [mem st sv to_do]. repeat apply conj; auto.
        intros k Hk; apply in_or_app; auto. }
      assert (AB : abs w2 = abs w1).
      { unfold abs, w2; cbn [mem st sv]. destruct S1 as [_ L]. unfold live in L.
        repeat (apply Forall_cons_iff in L; let A := fresh "L" in destruct L as [A L]).
        rewrite !C3 by assumption. reflexivity. }
      assert (R2 : ready given w2).
      { destruct R1 as ((Q1 & Q2) & Q3 & Q4). split; [split|split]; unfold w2, live in *; cbn [mem st sv] in *.
        - exact Q1.
        - eapply Forall_impl; [|exact Q2]. cbn; intros; lia.
        - eapply Forall_impl; [|exact Q3]. cbn; intros; lia.
        - eapply Forall_impl; [|exact Q4]. cbn; intros; lia. }
      destruct (outputs c given ns w2) as [w3 r3] eqn:E3.
      destruct (IH _ _ _ R2 E3) as (F3 & R3 & N3 & P3).
      assert (G : in_stock (mem w) given) by (unfold in_stock in RP; apply Forall_app in RP; apply RP).
      assert (D2 : detached given w2 s).
      { destruct R1 as ((_ & Q2) & _ & Q4). split; unfold w2; cbn [mem st].
        - eapply Forall_impl; [|exact C5]. cbn. intros k Hk. split; [lia|].
          intro X. change (live w2) with (live w1) in X. rewrite Forall_forall in Q2. specialize (Q2 _ X). cbn in Q2. lia.
        - eapply Forall_impl; [|exact C7]. cbn. intros k Hk. split; [lia|].
          intro X. unfold in_stock in Q4. rewrite Forall_forall in Q4. specialize (Q4 _ X). cbn in Q4. lia. }
      assert (FF : wide given w w3) by (eapply wide_trans; [exact F1|eapply wide_trans; [exact F2|exact F3]]).
      assert (T12 : time_step (sv w2) = time_step (sv w)).
      { change (time_step (sv w2)) with (time_step (sv w1)). apply F1. }
      rewrite T12, AB in N3.
      destruct r3 as [l|e3].
      + injection H as <- <-. split; [exact FF|split; [exact R3|]].
        destruct N3 as ((fl & O & M) & Dl & Fl & Ll).
        split.
        * split.
          { rewrite O. eexists; split; [reflexivity|]. cbn [map]. f_equal; [|exact M].
            assert (G2 : in_stock (mem w2) given).
            { destruct R2 as (_ & _ & Q4). unfold in_stock in Q4. apply Forall_app in Q4. apply Q4. }
            pose proof (detached_shown _ _ _ _ D2 F3) as SH.
            apply (f_equal (fun x => fst (fst x))) in SH. cbn [fst shown] in SH.
            rewrite SH. unfold w2; cbn [mem]. rewrite C8. apply look_abs. }
          split; [|split].
          { constructor; [|exact Dl]. eapply detached_wide; [|exact D2|exact F3].
            destruct R2 as (_ & _ & Q4). unfold in_stock in Q4. apply Forall_app in Q4. apply Q4. }
          { constructor.
            - destruct F1 as (A1 & A2 & _). split; intros k Hk.
              + rewrite Forall_forall in C5. specialize (C5 _ Hk). cbn in C5. lia.
              + rewrite Forall_forall in C7. specialize (C7 _ Hk). cbn in C7. lia.
            - destruct F1 as (A1 & A2 & _). eapply Forall_impl; [|exact Fl]. cbn. intros x [Hx Hy]. split; intros k Hk.
              + specialize (Hx k Hk). unfold w2 in Hx; cbn [mem] in Hx. lia.
              + specialize (Hy k Hk). unfold w2 in Hy; cbn [mem] in Hy. lia. }
          { constructor.
            - repeat apply conj; try assumption.
              + intros Ep. destruct F1 as (_ & _ & _ & _ & _ & _ & _ & _ & A9). rewrite A9, Ep in C14.
                destruct (extra s); [reflexivity|destruct C14|destruct C14].
              + intros G' P'. specialize (P1 G' P'). rewrite P1 in C10.
                destruct (products s); [reflexivity|]. destruct (keeps_products (st w1)); discriminate C10.
            - eapply Forall_impl; [|exact Ll]. cbn. intros x (X1 & X2 & X3 & X4 & X5).
              repeat apply conj; try assumption.
              + intros Ep. apply X4. unfold w2; cbn [st]. destruct F1 as (_ & _ & _ & _ & _ & _ & _ & _ & A9). congruence.
              + intros G' P'. apply X5; [exact G'|]. change (products (st w2)) with (products (st w1)). apply P1; assumption. }
        * intros G' P'. apply P3; [exact G'|]. change (products (st w2)) with (products (st w1)). apply P1; assumption.
      + injection H as <- <-. split; [exact FF|split; [exact R3|split]].
        * intros G' P' T'. rewrite N3; [reflexivity|exact G'| |].
          -- change (products (st w2)) with (products (st w1)). apply P1; assumption.
          -- change (to_do w2) with (to_do w1). destruct F1 as (_ & _ & _ & _ & _ & _ & A7 & _). congruence.
        * intros G' P'. apply P3; [exact G'|]. change (products (st w2)) with (products (st w1)). apply P1; assumption.
  Qed.
End Run.
