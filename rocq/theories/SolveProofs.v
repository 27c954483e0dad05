(* The solve() methods of the drivers with one step solver. *)
From Coq Require Import Reals List Arith ZArith Bool String Lia Lra FunctionalExtensionality.
From Verif Require Import PyModel RVec StateModel TimeModel TimeSpec StateLemmas CopyProofs TimeProofs RunProofs HistoryProofs.
Import ListNotations.
Local Open Scope R_scope.

Section Solve.
  Context {V W I : Type}.
  Variables (dimension nodes_count : nat) (nodes : vec).
  Variable iterate : I -> vectors -> R -> R -> result I.
  Variable answer : I -> vec -> vec -> vec -> R -> result (nat * vec).
  Notation size := (dimension * nodes_count)%nat.
  Notation world := (world V W I).
  Notation driver := (driver V I).
  Notation outputs := (@outputs V W I dimension nodes_count nodes iterate answer).
  Notation run := (@run V W I dimension nodes_count nodes iterate answer).
  Notation nexts := (nexts dimension nodes_count nodes iterate answer).
  Notation outs := (outs dimension nodes_count nodes iterate answer).
  Notation dynamic_solve := (@dynamic_solve V W I dimension nodes_count nodes iterate answer).
  Notation relaxation_solve := (@relaxation_solve V W I dimension nodes_count nodes iterate answer).
  Notation wave_solve := (@wave_solve V W I dimension nodes_count nodes iterate answer).
  Notation static_solve := (@static_solve V W I dimension nodes_count nodes iterate answer).

  Definition solver_refs (s : stepper I) : list nat := [b_vector s; u_vector s; v_vector s; t_vector s; p_vector s].

  (* the arrays of the solver exist and are different *)
  Definition fit (d : driver) : Prop :=
    NoDup (solver_refs (d_sv d)) /\ Forall (fun r => (r < room (d_mem d))%nat) (solver_refs (d_sv d)).

  (* a state the driver holds no reference to *)
  Definition outside (given : list nat) (d : driver) (s : state W) : Prop :=
    Forall (fun k => (k < room (d_mem d))%nat /\ ~ In k (solver_refs (d_sv d))) (refs s) /\
    Forall (fun k => (k < stock (d_mem d))%nat /\ ~ In k given) (product_refs s).

  Definition drv (w : world) : driver := mkDriver (mem w) (sv w) (done w) (to_do w).

  (* d' comes after d *)
  Definition later (given : list nat) (d d' : driver) : Prop :=
    (room (d_mem d) <= room (d_mem d'))%nat /\ (stock (d_mem d) <= stock (d_mem d'))%nat /\
    (forall k, (k < room (d_mem d))%nat -> ~ In k (solver_refs (d_sv d)) -> load (d_mem d') k = load (d_mem d) k) /\
    (forall k, (k < stock (d_mem d))%nat -> ~ In k given -> get_product (d_mem d') k = get_product (d_mem d) k) /\
    (forall k, In k (solver_refs (d_sv d')) -> In k (solver_refs (d_sv d)) \/ (room (d_mem d) <= k)%nat) /\
    time_step (d_sv d') = time_step (d_sv d).

  Lemma later_shown : forall given d d' (s : state W), outside given d s -> later given d d' ->
    shown (d_mem d') s = shown (d_mem d) s.
  Proof.
    intros given d d' s [D P] (A1 & A2 & A3 & A4 & A5 & A6).
    unfold refs in D. apply Forall_app in D. destruct D as [D E].
    repeat match goal with Q : Forall _ (_ :: _) |- _ =>
        apply Forall_cons_iff in Q; let A := fresh "L" in destruct Q as [A Q] end.
    unfold shown, look.
    rewrite !A3 by tauto.
    assert (EM : map (load (d_mem d')) (extra_refs (extra s)) = map (load (d_mem d)) (extra_refs (extra s))).
    { apply map_ext_in. intros k Hk. rewrite Forall_forall in E. apply A3; apply E; exact Hk. }
    rewrite EM. f_equal.
    apply map_ext_in. intros [n r] Hr. cbn [fst snd]. rewrite A4; [reflexivity| |];
      rewrite Forall_forall in P; apply (in_map snd) in Hr; apply P; exact Hr.
  Qed.

  (* a world in which a new state has been prepared *)
  Definition prepared (d : driver) (w : world) : Prop :=
    room (mem w) = (room (d_mem d) + 4)%nat /\ prods (mem w) = prods (d_mem d) /\
    (forall k, (k < room (d_mem d))%nat -> ~ In k (solver_refs (d_sv d)) -> load (mem w) k = load (d_mem d) k) /\
    absement (st w) = room (d_mem d) /\ displacement (st w) = (room (d_mem d) + 1)%nat /\
    displaced_nodes (st w) = (room (d_mem d) + 2)%nat /\ velocity (st w) = (room (d_mem d) + 3)%nat /\
    extra (st w) = Plain /\ products (st w) = [] /\
    solver_refs (sv w) = solver_refs (d_sv d) /\ time_step (sv w) = time_step (d_sv d).

  Lemma prepared_ready : forall d w given, fit d -> in_stock (d_mem d) given -> prepared d w -> ready given w.
  Proof.
    intros d w given [N F] G (P1 & P2 & P3 & P4 & P5 & P6 & P7 & P8 & P9 & P10 & P11).
    assert (L : live w = [room (d_mem d); room (d_mem d) + 1; room (d_mem d) + 2; room (d_mem d) + 3]%nat ++ solver_refs (d_sv d)).
    { rewrite <- P10. unfold live. rewrite P4, P5, P6, P7. reflexivity. }
    split; [split|split].
    - rewrite L. clear - N F. rewrite Forall_forall in F.
      assert (Q : forall k, ~ In (room (d_mem d) + k)%nat (solver_refs (d_sv d))).
      { intros k C. specialize (F _ C). cbn in F. lia. }
      pose proof (Q 0%nat) as Q0; pose proof (Q 1%nat) as Q1; pose proof (Q 2%nat) as Q2; pose proof (Q 3%nat) as Q3.
      rewrite Nat.add_0_r in Q0. cbn [app].
      repeat (apply NoDup_cons; [cbn [In]; intros C; repeat (destruct C as [C|C]; [lia|]); contradiction|]). exact N.
    - rewrite L, P1. apply Forall_app; split; [repeat constructor; lia|].
      eapply Forall_impl; [|exact F]. cbn; intros; lia.
    - rewrite P8. constructor.
    - unfold product_refs; rewrite P9; cbn [map app]. unfold in_stock, stock in *. rewrite P2. exact G.
  Qed.

  Lemma live_solver : forall (w : world) k, In k (solver_refs (sv w)) -> In k (live w).
  Proof. intros w k H. unfold solver_refs, live in *. cbn [In] in *. tauto. Qed.

  Lemma prepared_later : forall d w w' given, fit d -> in_stock (d_mem d) given -> prepared d w -> wide given w w' ->
    sound w' -> later given d (drv w') /\ fit (drv w').
  Proof.
    intros d w w' given [N F] G (P1 & P2 & P3 & P4 & P5 & P6 & P7 & P8 & P9 & P10 & P11)
       (A1 & A2 & A3 & A4 & A5 & A6 & A7 & A8 & A9) S.
    assert (L : live w = [room (d_mem d); room (d_mem d) + 1; room (d_mem d) + 2; room (d_mem d) + 3]%nat ++ solver_refs (d_sv d)).
    { rewrite <- P10. unfold live. rewrite P4, P5, P6, P7. reflexivity. }
    assert (Q : forall k, In k (live w) -> In k (solver_refs (d_sv d)) \/ (room (d_mem d) <= k)%nat).
    { intros k Hk. rewrite L in Hk. apply in_app_or in Hk. destruct Hk as [Hk|Hk]; [|left; exact Hk].
      right. cbn [In] in Hk. repeat (destruct Hk as [Hk|Hk]; [lia|]). destruct Hk. }
    assert (SS : stock (mem w) = stock (d_mem d)) by (unfold stock; rewrite P2; reflexivity).
    split.
    - unfold later, drv; cbn [d_mem d_sv]. repeat apply conj; try lia.
      + intros k Lk Nk. rewrite A3; [apply P3; assumption|lia|]. intro C. destruct (Q _ C); [contradiction|lia].
      + intros k Lk Nk. rewrite A4; [unfold get_product; rewrite P2; reflexivity|lia|].
        unfold product_refs; rewrite P9. exact Nk.
      + intros k Hk. apply live_solver in Hk. destruct (A5 _ Hk) as [C|C]; [apply Q; exact C|right; lia].
      + congruence.
    - destruct S as [SN SF]. unfold fit, drv; cbn [d_mem d_sv]. split.
      + unfold live in SN. do 4 (apply NoDup_cons_iff in SN; destruct SN as [_ SN]). exact SN.
      + unfold live in SF. do 4 (apply Forall_cons_iff in SF; destruct SF as [_ SF]). exact SF.
  Qed.

  Lemma outputs_prepared : forall c given ns d w w' r, fit d -> in_stock (d_mem d) given -> prepared d w ->
    outputs c given ns w = (w', r) ->
    later given d (drv w') /\ fit (drv w') /\
    match r with
    | Ok l =>
        (exists fl, outs c (time_step (d_sv d)) ns (abs w) = Ok (fl, abs w') /\ map (look (mem w')) l = map flow_view fl) /\
        Forall (fun s => outside given (drv w') s /\
                         Forall (fun k => (room (d_mem d) <= k)%nat) (refs s) /\
                         Forall (fun k => (stock (d_mem d) <= k)%nat) (product_refs s) /\
                         NoDup (refs s) /\ extra s = Plain /\ (given = [] -> products s = [])) l
    | Err e => given = [] -> to_do w <> 0%nat -> outs c (time_step (d_sv d)) ns (abs w) = Err e
    end.
  Proof.
    intros c given ns d w w' r F G P H.
    pose proof (prepared_ready _ _ _ F G P) as R.
    destruct (outputs_spec _ _ _ _ _ _ _ _ _ _ _ R H) as (Wd & R' & O & _).
    destruct (prepared_later _ _ _ _ F G P Wd (proj1 R')) as [L F'].
    split; [exact L|split; [exact F'|]].
    pose proof P as (P1 & P2 & P3 & P4 & P5 & P6 & P7 & P8 & P9 & P10 & P11).
    rewrite P11 in O.
    destruct r as [l|e].
    - destruct O as (A & D & B & E). split; [exact A|].
      apply Forall_forall. intros s Hs. rewrite Forall_forall in D, B, E.
      specialize (E _ Hs). cbn in E. destruct E as (_ & _ & E1 & E2 & E3).
      specialize (D _ Hs). specialize (B _ Hs). cbn in B. destruct D as [D1 D2]. destruct B as [B1 B2].
      split; [|split; [|split]].
      + split; unfold drv; cbn [d_mem d_sv].
        * eapply Forall_impl; [|exact D1]. cbn. intros k [K1 K2]. split; [exact K1|]. intro C; apply K2, live_solver, C.
        * eapply Forall_impl; [|exact D2]. cbn. intros k [K1 K2]. split; [exact K1|]. intro C; apply K2, in_or_app; auto.
      + apply Forall_forall. intros k Hk. specialize (B1 _ Hk). lia.
      + apply Forall_forall. intros k Hk. specialize (B2 _ Hk).
        unfold stock in *. rewrite P2 in B2. exact B2.
      + auto.
    - intros Gn T. apply O; auto.
  Qed.

  Ltac bound := solve [repeat match goal with H : _ <> _ |- _ => clear H end; lia].

  Ltac spread F :=
    let N := fresh "N" in let Q := fresh "Q" in
    pose proof F as [N Q]; unfold solver_refs in N, Q;
    repeat match goal with
    | Q : NoDup (_ :: _) |- _ =>
        apply NoDup_cons_iff in Q; let A := fresh "A" in destruct Q as [A Q]; cbn [In] in A
    | Q : Forall _ (_ :: _) |- _ =>
        apply Forall_cons_iff in Q; let A := fresh "L" in destruct Q as [A Q]
    | Q : NoDup [] |- _ => clear Q
    | Q : Forall _ [] |- _ => clear Q
    end;
    repeat match goal with
    | Q : ~ (_ \/ _) |- _ => apply Decidable.not_or in Q; destruct Q
    | Q : ~ False |- _ => clear Q
    end.

  Ltac rooms := repeat rewrite room_write; rewrite room_more; cbn [List.length new_cells]; bound.

  Lemma load_more_head : forall (m : store V) l p, load (mkStore (cells m ++ l) p : store V) (room m) = nth 0 l (fun _ => 0).
  Proof. intros. rewrite <- (load_more_new m l p 0), Nat.add_0_r. reflexivity. Qed.

  Ltac loads :=
    repeat first
      [ rewrite load_write_same by rooms
      | rewrite load_write_other by (solve [congruence | bound])
      | rewrite load_more_new
      | rewrite load_more_head
      | rewrite load_more_old by bound ]; cbn [nth new_cells].

  (* the fields a dynamic solve() starts with *)
  Definition velocity_start (d : driver) (t s : R) (i : I) (u0 v0 : vec) : @flow I :=
    mkFlow i t s (fun _ => 0) u0 nodes v0 (load (d_mem d) (b_vector (d_sv d))) u0 v0
      (load (d_mem d) (t_vector (d_sv d))) (load (d_mem d) (p_vector (d_sv d))).

  Definition displacement_start (d : driver) (i : I) (b0 gb u0 : vec) : @flow I :=
    mkFlow i (current_time (d_sv d)) 0 b0 u0 nodes (fun _ => 0) gb u0 (load (d_mem d) (v_vector (d_sv d)))
      (load (d_mem d) (t_vector (d_sv d))) (load (d_mem d) (p_vector (d_sv d))).

  Definition own (d : driver) (s : stepper I) : Prop :=
    solver_refs s = solver_refs (d_sv d) /\ time_step s = time_step (d_sv d) /\ inner s = inner (d_sv d).

  (* ps:459-466, 718-727: the store before iterate() *)
  Definition velocity_store (d : driver) (u0 v0 : vec) : store V * state W :=
    let '(m0, s) := new_state nodes PlainState (d_mem d) in
    let m1 := write m0 (displacement s) u0 in
    let m2 := write m1 (velocity s) v0 in
    let m3 := write m2 (u_vector (d_sv d)) (load m2 (displacement s)) in
    let m4 := write m3 (v_vector (d_sv d)) (load m3 (velocity s)) in
    (m4, s).

  Lemma velocity_prepare : forall d u0 v0 t i dn td, fit d ->
    let '(m, s) := velocity_store d u0 v0 in
    let w := mkWorld m s (with_inner (with_clock (d_sv d) t) i) dn td in
    prepared d w /\ abs w = velocity_start d t 0 i u0 v0 /\
    time s = 0 /\
    arrays m (d_sv d) = mkVectors (load (d_mem d) (b_vector (d_sv d))) u0 v0
                  (load (d_mem d) (t_vector (d_sv d))) (load (d_mem d) (p_vector (d_sv d))).
  Proof.
    intros d u0 v0 t i dn td F.
    clear iterate answer dimension nodes_count. unfold velocity_store. rewrite new_state_eq.
    cbn [displacement velocity]. spread F.
    split; [|split; [|split]].
    - unfold prepared; cbn [mem st sv absement displacement displaced_nodes velocity extra products solver_refs
        with_inner with_clock b_vector u_vector v_vector t_vector p_vector time_step new_extra].
      repeat apply conj; try reflexivity.
      + rewrite !room_write, room_more. reflexivity.
      + intros k Lk Nk. unfold solver_refs in Nk; cbn [In] in Nk.
        rewrite 2!load_write_other by (intro; subst; tauto).
        rewrite !load_write_other by bound. apply load_more_old; exact Lk.
    - unfold abs, velocity_start; cbn [mem st sv absement displacement displaced_nodes velocity extra products
        with_inner with_clock b_vector u_vector v_vector t_vector p_vector time_step inner current_time time].
      loads. reflexivity.
    - reflexivity.
    - unfold arrays. loads. reflexivity.
  Qed.

  (* ps:392-399 *)
  Definition relaxation_store (d : driver) (b0 u0 : vec) : store V * state W :=
    let '(m0, s) := new_state nodes PlainState (d_mem d) in
    let m1 := write m0 (absement s) b0 in
    let m2 := write m1 (displacement s) u0 in
    let m3 := write m2 (b_vector (d_sv d)) (load m2 (absement s)) in
    let m4 := write m3 (u_vector (d_sv d)) (load m3 (displacement s)) in
    (m4, s).

  Lemma relaxation_prepare : forall d b0 u0 i dn td, fit d ->
    let '(m, s) := relaxation_store d b0 u0 in
    let w := mkWorld m s (with_inner (d_sv d) i) dn td in
    prepared d w /\ abs w = displacement_start d i b0 b0 u0 /\
    arrays m (d_sv d) = mkVectors b0 u0 (load (d_mem d) (v_vector (d_sv d)))
                  (load (d_mem d) (t_vector (d_sv d))) (load (d_mem d) (p_vector (d_sv d))).
  Proof.
    intros d b0 u0 i dn td F.
    clear iterate answer dimension nodes_count. unfold relaxation_store. rewrite new_state_eq.
    cbn [displacement absement]. spread F.
    split; [|split].
    - unfold prepared; cbn [mem st sv absement displacement displaced_nodes velocity extra products solver_refs
        with_inner with_clock b_vector u_vector v_vector t_vector p_vector time_step new_extra].
      repeat apply conj; try reflexivity.
      + rewrite !room_write, room_more. reflexivity.
      + intros k Lk Nk. unfold solver_refs in Nk; cbn [In] in Nk.
        rewrite 2!load_write_other by (intro; subst; tauto).
        rewrite !load_write_other by bound. apply load_more_old; exact Lk.
    - unfold abs, displacement_start; cbn [mem st sv absement displacement displaced_nodes velocity extra products
        with_inner with_clock b_vector u_vector v_vector t_vector p_vector time_step inner current_time time].
      loads. reflexivity.
    - unfold arrays. loads. reflexivity.
  Qed.

  (* ps:326-334 *)
  Definition static_store (d : driver) (u0 : vec) : store V * state W :=
    let '(m0, s) := new_state nodes PlainState (d_mem d) in
    let m1 := write m0 (displacement s) u0 in
    let m2 := write m1 (u_vector (d_sv d)) (load m1 (displacement s)) in
    (m2, s).

  Lemma static_prepare : forall d u0 i dn td, fit d ->
    let '(m, s) := static_store d u0 in
    let w := mkWorld m s (with_inner (d_sv d) i) dn td in
    prepared d w /\ abs w = displacement_start d i (fun _ => 0) (load (d_mem d) (b_vector (d_sv d))) u0 /\
    arrays m (d_sv d) = mkVectors (load (d_mem d) (b_vector (d_sv d))) u0 (load (d_mem d) (v_vector (d_sv d)))
                  (load (d_mem d) (t_vector (d_sv d))) (load (d_mem d) (p_vector (d_sv d))).
  Proof.
    intros d u0 i dn td F.
    clear iterate answer dimension nodes_count. unfold static_store. rewrite new_state_eq.
    cbn [displacement absement]. spread F.
    split; [|split].
    - unfold prepared; cbn [mem st sv absement displacement displaced_nodes velocity extra products solver_refs
        with_inner with_clock b_vector u_vector v_vector t_vector p_vector time_step new_extra].
      repeat apply conj; try reflexivity.
      + rewrite !room_write, room_more. reflexivity.
      + intros k Lk Nk. unfold solver_refs in Nk; cbn [In] in Nk.
        rewrite 1!load_write_other by (intro; subst; tauto).
        rewrite !load_write_other by bound. apply load_more_old; exact Lk.
    - unfold abs, displacement_start; cbn [mem st sv absement displacement displaced_nodes velocity extra products
        with_inner with_clock b_vector u_vector v_vector t_vector p_vector time_step inner current_time time].
      loads. reflexivity.
    - unfold arrays. loads. reflexivity.
  Qed.
End Solve.
