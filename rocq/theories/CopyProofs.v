(* Copies of a state show what the state showed, in cells of their own. *)
From Coq Require Import Reals List Arith Bool String Lia.
From Verif Require Import PyModel RVec StateModel StateLemmas.
Import ListNotations.
Local Open Scope R_scope.

Section Copy.
  Context {V W : Type}.
  Implicit Types (m : store V) (s : state W).
  Variable nodes : vec.

  Definition extra_refs (x : variant) : list nat :=
    match x with Plain => [] | Thermal t => [t] | Electric t => [t] end.
  Definition refs s : list nat :=
    [absement s; displacement s; displaced_nodes s; velocity s] ++ extra_refs (extra s).
  Definition product_refs s : list nat := map snd (products s).

  (* what can be read of a state: its view, its additional array, the records of its products *)
  Definition shown m s : view * list vec * list (string * list (R * V)) :=
    (look m s, map (load m) (extra_refs (extra s)),
     map (fun nr => (fst nr, p_data (get_product m (snd nr)))) (products s)).

  Definition zeros : vec := fun _ => 0.

  Definition new_cells (c : state_class) : list vec :=
    match c with PlainState => [zeros; zeros; nodes; zeros] | _ => [zeros; zeros; nodes; zeros; zeros] end.
  Definition new_extra (c : state_class) (n : nat) : variant :=
    match c with PlainState => Plain | TemperatureState => Thermal (n + 4) | PiezoelectricState => Electric (n + 4) end.

  Lemma new_state_eq : forall c m,
    new_state nodes c m
    = (mkStore (cells m ++ new_cells c) (prods m),
       mkState (room m) (room m + 1) (room m + 2) (room m + 3) (new_extra c (room m)) 0 [] None None : state W).
  Proof.
    intros c m. unfold new_state, alloc; cbn [cells prods].
    rewrite !app_length. cbn [List.length].
    rewrite <- !app_assoc. cbn [app].
    destruct c; unfold new_cells, new_extra, zeros, room; cbn [app].
    - rewrite <- !Nat.add_assoc; reflexivity.
    - rewrite <- !Nat.add_assoc; reflexivity.
    - rewrite <- !Nat.add_assoc; reflexivity.
  Qed.

  Lemma load_more_old : forall m l p k, (k < room m)%nat -> load (mkStore (cells m ++ l) p : store V) k = load m k.
  Proof. intros; unfold load; cbn [cells]. apply app_nth1; assumption. Qed.

  Lemma load_more_new : forall m l p k, load (mkStore (cells m ++ l) p : store V) (room m + k) = nth k l (fun _ => 0).
  Proof.
    intros; unfold load; cbn [cells]. rewrite app_nth2 by (unfold room; lia).
    f_equal. unfold room; lia.
  Qed.

  Lemma room_more : forall m l p, room (mkStore (cells m ++ l) p : store V) = (room m + List.length l)%nat.
  Proof. intros; unfold room; cbn [cells]. apply app_length. Qed.

  Lemma get_new_product_old : forall m p k, (k < stock m)%nat -> get_product (fst (new_product m p)) k = get_product m k.
  Proof. intros; unfold get_product, new_product; cbn [fst prods]. apply app_nth1; assumption. Qed.

  Lemma get_new_product_new : forall m p, get_product (fst (new_product m p)) (stock m) = p.
  Proof.
    intros; unfold get_product, new_product; cbn [fst prods]. rewrite app_nth2 by (unfold stock; lia).
    unfold stock; rewrite Nat.sub_diag; reflexivity.
  Qed.

  Lemma copy_products_spec : forall ps m, Forall (fun r => (r < stock m)%nat) (map snd ps) ->
    let '(m', ps') := copy_products ps m in
    cells m' = cells m /\ (stock m <= stock m')%nat /\
    (forall k, (k < stock m)%nat -> get_product m' k = get_product m k) /\
    map fst ps' = map fst ps /\
    Forall (fun r => (stock m <= r < stock m')%nat) (map snd ps') /\
    map (fun nr => get_product m' (snd nr)) ps' = map (fun nr => product_copy (get_product m (snd nr))) ps.
  Proof.
    induction ps as [|[n r] ps IH]; intros m F; cbn [copy_products].
    - cbn [map]; repeat split; auto.
    - cbn [map snd] in F. inversion F as [|? ? F1 F2]; subst; clear F.
      set (p := product_copy (get_product m r)).
      change (new_product m p) with (fst (new_product m p), stock m).
      assert (SS : stock (fst (new_product m p)) = S (stock m)).
      { unfold stock, new_product; cbn [fst prods]. rewrite app_length; cbn; lia. }
      cbv beta iota. specialize (IH (fst (new_product m p))). revert IH.
      destruct (copy_products ps (fst (new_product m p))) as [m' ps']. intros IH.
      destruct IH as (C & L & G & N & D & E).
      { rewrite SS. eapply Forall_impl; [|exact F2]. cbn; intros; lia. }
      rewrite SS in *.
      repeat split.
      + rewrite C; reflexivity.
      + lia.
      + intros k Hk. rewrite G by lia. apply get_new_product_old; exact Hk.
      + cbn [map fst]. rewrite N; reflexivity.
      + cbn [map snd]. constructor; [lia|]. eapply Forall_impl; [|exact D]. cbn; intros; lia.
      + cbn [map snd]. f_equal.
        * rewrite G by lia. apply get_new_product_new.
        * rewrite E. apply map_ext_in. intros [a b] Hin. cbn [snd].
          rewrite get_new_product_old; [reflexivity|].
          rewrite Forall_forall in F2. apply F2. apply (in_map snd) in Hin. exact Hin.
  Qed.

  Definition held m s : Prop :=
    Forall (fun r => (r < room m)%nat) (refs s) /\ Forall (fun r => (r < stock m)%nat) (product_refs s).

  (* classes whose copies keep the products *)
  Definition keeps_products s : bool := match extra s with Plain => true | _ => false end.

  Lemma copy_spec : forall m s, held m s ->
    let '(m', s') := copy nodes m s in
    (room m <= room m')%nat /\ (stock m <= stock m')%nat /\
    (forall k, (k < room m)%nat -> load m' k = load m k) /\
    (forall k, (k < stock m)%nat -> get_product m' k = get_product m k) /\
    Forall (fun r => (room m <= r < room m')%nat) (refs s') /\ NoDup (refs s') /\
    Forall (fun r => (stock m <= r < stock m')%nat) (product_refs s') /\
    look m' s' = look m s /\
    map (load m') (extra_refs (extra s')) = map (load m) (extra_refs (extra s)) /\
    map fst (products s') = (if keeps_products s then map fst (products s) else []) /\
    map (fun nr => get_product m' (snd nr)) (products s')
    = (if keeps_products s then map (fun nr => product_copy (get_product m (snd nr))) (products s) else []) /\
    constitutive_law s' = None /\ stress_cache s' = None /\
    match extra s, extra s' with Plain, Plain | Thermal _, Thermal _ | Electric _, Electric _ => True | _, _ => False end.
  Proof.
    intros m s [H P]. unfold copy.
    rewrite new_state_eq.
    cbn [absement displacement displaced_nodes velocity extra].
    unfold refs in H. rewrite Forall_app in H. destruct H as [H X].
    repeat match goal with Q : Forall _ (_ :: _) |- _ =>
        apply Forall_cons_iff in Q; let A := fresh "L" in destruct Q as [A Q] end.
    set (c := match extra s with Plain => PlainState | Thermal _ => TemperatureState | Electric _ => PiezoelectricState end).
    set (m0 := mkStore (cells m ++ new_cells c) (prods m)).
    assert (R0 : (room m + 4 <= room m0)%nat) by (unfold m0; rewrite room_more; destruct c; cbn [new_cells List.length]; lia).
    assert (O0 : forall k, (k < room m)%nat -> load m0 k = load m k) by (intros; apply load_more_old; assumption).
    set (m1 := write m0 (room m) (load m0 (absement s))).
    set (m2 := write m1 (room m + 1) (load m1 (displacement s))).
    set (m3 := write m2 (room m + 2) (load m2 (displaced_nodes s))).
    set (m4 := write m3 (room m + 3) (load m3 (velocity s))).
    assert (R4 : room m4 = room m0) by (unfold m4, m3, m2, m1; rewrite !room_write; reflexivity).
    assert (O4 : forall k, (k < room m)%nat -> load m4 k = load m k).
    { intros k Hk. unfold m4, m3, m2, m1. rewrite !load_write_other by lia. apply O0; exact Hk. }
    assert (A4 : load m4 (room m) = load m (absement s)).
    { unfold m4, m3, m2, m1. rewrite !load_write_other by lia. rewrite load_write_same by lia. apply O0; exact L. }
    assert (D4 : load m4 (room m + 1) = load m (displacement s)).
    { unfold m4, m3, m2. rewrite !load_write_other by lia. rewrite load_write_same by (unfold m1; rewrite room_write; lia).
      unfold m1. rewrite load_write_other by lia. apply O0; assumption. }
    assert (X4 : load m4 (room m + 2) = load m (displaced_nodes s)).
    { unfold m4, m3. rewrite !load_write_other by lia.
      rewrite load_write_same by (unfold m2, m1; rewrite !room_write; lia).
      unfold m2, m1. rewrite !load_write_other by lia. apply O0; assumption. }
    assert (V4 : load m4 (room m + 3) = load m (velocity s)).
    { unfold m4. rewrite load_write_same by (unfold m3, m2, m1; rewrite !room_write; lia).
      unfold m3, m2, m1. rewrite !load_write_other by lia. apply O0; assumption. }
    assert (P4 : prods m4 = prods m) by reflexivity.
    destruct (extra s) as [|t|t] eqn:Es.
    - pose proof (copy_products_spec (products s) m4) as CP.
      unfold keeps_products; rewrite Es.
      destruct (copy_products (products s) m4) as [m5 ps].
      destruct CP as (C & Ls & G & N & F & E).
      { unfold stock. rewrite P4. exact P. }
      unfold stock in Ls, G, F. rewrite P4 in Ls, G, F.
      cbn [refs absement displacement displaced_nodes velocity extra new_extra c extra_refs app products
           constitutive_law stress_cache product_refs map].
      assert (R5 : room m5 = room m0) by (rewrite (room_cells _ _ C); exact R4).
      split; [lia|]. split; [exact Ls|].
      split. { intros k Hk. rewrite (load_cells _ _ _ C). apply O4; exact Hk. }
      split. { intros k Hk. rewrite G by exact Hk. unfold get_product; rewrite P4; reflexivity. }
      split. { repeat constructor; lia. }
      split. { repeat (constructor; [cbn [In]; lia|]); constructor. }
      split. { exact F. }
      split.
      { unfold look; cbn [absement displacement displaced_nodes velocity time].
        rewrite !(load_cells _ _ _ C), A4, D4, X4, V4. reflexivity. }
      split; [reflexivity|]. split; [exact N|].
      split. { rewrite E. apply map_ext; intros; unfold get_product; rewrite P4; reflexivity. }
      auto.
    - assert (T4 : (room m + 4 < room m0)%nat).
      { unfold m0; rewrite room_more; unfold c; rewrite ?Es; cbn [new_cells List.length]; lia. }
      unfold keeps_products; rewrite Es.
      cbn [new_extra c extra_refs] in *.
      cbn [refs absement displacement displaced_nodes velocity extra extra_refs app products
           constitutive_law stress_cache product_refs map] in *.
      repeat match goal with Q : Forall _ (_ :: _) |- _ =>
        apply Forall_cons_iff in Q; let A := fresh "L" in destruct Q as [A Q] end.
      split; [rewrite room_write; lia|]. split; [unfold stock; rewrite prods_write, P4; lia|].
      split. { intros k Hk. rewrite load_write_other by lia. apply O4; exact Hk. }
      split. { intros k Hk. unfold get_product; rewrite prods_write, P4; reflexivity. }
      split. { rewrite room_write. repeat constructor; lia. }
      split. { repeat (constructor; [cbn [In]; lia|]); constructor. }
      split; [constructor|].
      split.
      { unfold look; cbn [absement displacement displaced_nodes velocity time].
        rewrite !load_write_other by lia. rewrite A4, D4, X4, V4. reflexivity. }
      split. { rewrite load_write_same by lia. rewrite O4 by assumption. reflexivity. }
      auto.
    - assert (T4 : (room m + 4 < room m0)%nat).
      { unfold m0; rewrite room_more; unfold c; rewrite ?Es; cbn [new_cells List.length]; lia. }
      unfold keeps_products; rewrite Es.
      cbn [new_extra c extra_refs] in *.
      cbn [refs absement displacement displaced_nodes velocity extra extra_refs app products
           constitutive_law stress_cache product_refs map] in *.
      repeat match goal with Q : Forall _ (_ :: _) |- _ =>
        apply Forall_cons_iff in Q; let A := fresh "L" in destruct Q as [A Q] end.
      split; [rewrite room_write; lia|]. split; [unfold stock; rewrite prods_write, P4; lia|].
      split. { intros k Hk. rewrite load_write_other by lia. apply O4; exact Hk. }
      split. { intros k Hk. unfold get_product; rewrite prods_write, P4; reflexivity. }
      split. { rewrite room_write. repeat constructor; lia. }
      split. { repeat (constructor; [cbn [In]; lia|]); constructor. }
      split; [constructor|].
      split.
      { unfold look; cbn [absement displacement displaced_nodes velocity time].
        rewrite !load_write_other by lia. rewrite A4, D4, X4, V4. reflexivity. }
      split. { rewrite load_write_same by lia. rewrite O4 by assumption. reflexivity. }
      auto.
  Qed.
End Copy.
