(* What the setters of a state record in its products. *)
From Coq Require Import Reals List Arith Bool String Lia.
From Verif Require Import PyModel RVec StateModel StateLemmas StateProofs.
Import ListNotations.
Local Open Scope R_scope.

Section Records.
  Context {V W : Type}.

  Lemma updated : forall ps (m m' : store V) (see : store V -> view), (forall a b, cells a = cells b -> see a = see b) ->
    NoDup (map snd ps) -> (forall n r, In (n, r) ps -> (r < stock m)%nat) -> update_products ps m see = (m', Ok tt) ->
    forall n r, In (n, r) ps -> exists f v, p_update (get_product m r) = Some f /\ f (see m) = Ok v /\
      get_product m' r = mkProduct (p_name (get_product m r)) (p_update (get_product m r)) (time_set (p_data (get_product m r)) (view_time (see m)) v).
  Proof.
    induction ps as [|(n0, r0) ps IH]; intros m m' see SE ND RG U n r I; [destruct I|]. cbn [update_products] in U. cbn [map snd] in ND. inversion ND as [|? ? N1 N2]; subst.
    destruct (p_update (get_product m r0)) as [f|] eqn:F; [|discriminate]. destruct (f (see m)) as [v|e] eqn:E; [|discriminate].
    match type of U with update_products ps ?mx _ = _ => set (m1 := mx) in * end.
    assert (R0 : (r0 < stock m)%nat) by (apply (RG n0); left; reflexivity).
    assert (SM : see m1 = see m) by (apply SE; reflexivity).
    assert (ST : stock m1 = stock m) by apply length_put.
    destruct I as [Q|I].
    - injection Q as <- <-. exists f, v. split; [exact F|]. split; [exact E|].
      assert (FR := update_products_frame ps m1 see r0 N1). rewrite U in FR. cbn [fst] in FR. rewrite FR. unfold m1. rewrite get_set_product, Nat.eqb_refl. apply Nat.ltb_lt in R0. rewrite R0. cbn [andb]. rewrite F. reflexivity.
    - assert (NE : r <> r0) by (intros ->; apply N1; apply in_map_iff; exists (n, r0); auto).
      assert (GP : get_product m1 r = get_product m r). { unfold m1. rewrite get_set_product. destruct (Nat.eqb_spec r r0); [contradiction|reflexivity]. }
      destruct (IH m1 m' see SE N2 ltac:(intros n' r' I'; rewrite ST; apply (RG n'); right; exact I') U n r I) as (f' & v' & A & B & C).
      rewrite GP in A, C. rewrite SM in B, C. exists f', v'. auto.
  Qed.

  Lemma look_cells (s : state W) (a b : store V) : cells a = cells b -> look a s = look b s.
  Proof. intros H. unfold look, load. rewrite H. reflexivity. Qed.

  Lemma displacement_recorded dim n nodes (m m' : store V) (s s' : state W) len c t b : NoDup (map snd (products s)) ->
    (forall k r, In (k, r) (products s) -> (r < stock m)%nat) -> set_displacement dim n nodes m s len c t b = (m', s', Ok tt) ->
    forall k r, In (k, r) (products s) -> exists f v, p_update (get_product m r) = Some f /\ f (look m' s') = Ok v /\ p_update (get_product m' r) = Some f /\
      forall t', time_get (p_data (get_product m' r)) t' = if Req_EM_T t' t then Some v else time_get (p_data (get_product m r)) t'.
  Proof.
    intros ND RG S k r I. unfold set_displacement in S. destruct (_ =? _)%nat; [|discriminate].
    match type of S with (let '(_, _) := update_products ?ps ?m2 ?f in _) = _ => set (mm := m2) in *; destruct (update_products ps mm f) as (m3, q) eqn:U end.
    injection S as <- <- ->. cbn [products] in U.
    assert (PR : prods mm = prods m) by (unfold mm; destruct b; reflexivity).
    assert (GP : forall x, get_product mm x = get_product m x) by (intros; unfold get_product; rewrite PR; reflexivity).
    destruct (updated (products s) mm m3 _ (fun a b H => look_cells _ a b H) ND ltac:(intros k' r' I'; unfold stock; rewrite PR; exact (RG k' r' I')) U k r I) as (f & v & A & B & C).
    rewrite GP in A, C. exists f, v. split; [exact A|]. split; [|split].
    - rewrite <- B. f_equal. apply look_cells. assert (X := update_products_cells (products s) mm (fun m0 => look m0 (mkState (absement s) c (displaced_nodes s) (velocity s) (extra s) t (products s) (constitutive_law s) (stress_cache s)))).
      rewrite U in X. exact X.
    - rewrite C. cbn [p_update]. exact A.
    - intros t'. rewrite C. cbn [p_data]. rewrite time_set_get. reflexivity.
  Qed.
  Lemma velocity_recorded dim n nodes (m m' : store V) (s s' : state W) len c t b : NoDup (map snd (products s)) ->
    (forall k r, In (k, r) (products s) -> (r < stock m)%nat) -> set_velocity dim n nodes m s len c t b = (m', s', Ok tt) ->
    forall k r, In (k, r) (products s) -> exists f v, p_update (get_product m r) = Some f /\ f (look m' s') = Ok v /\ p_update (get_product m' r) = Some f /\
      forall t', time_get (p_data (get_product m' r)) t' = if Req_EM_T t' t then Some v else time_get (p_data (get_product m r)) t'.
  Proof.
    intros ND RG S k r I. unfold set_velocity in S. destruct (_ =? _)%nat; [|discriminate].
    match type of S with (let '(_, _) := update_products ?ps ?m2 ?f in _) = _ => set (mm := m2) in *; destruct (update_products ps mm f) as (m3, q) eqn:U end.
    injection S as <- <- ->. cbn [products] in U.
    assert (PR : prods mm = prods m) by (unfold mm; destruct b; reflexivity).
    assert (GP : forall x, get_product mm x = get_product m x) by (intros; unfold get_product; rewrite PR; reflexivity).
    destruct (updated (products s) mm m3 _ (fun a b H => look_cells _ a b H) ND ltac:(intros k' r' I'; unfold stock; rewrite PR; exact (RG k' r' I')) U k r I) as (f & v & A & B & C).
    rewrite GP in A, C. exists f, v. split; [exact A|]. split; [|split].
    - rewrite <- B. f_equal. apply look_cells. assert (X := update_products_cells (products s) mm (fun m0 => look m0 (mkState (absement s) (displacement s) (displaced_nodes s) c (extra s) t (products s) (constitutive_law s) (stress_cache s)))).
      rewrite U in X. exact X.
    - rewrite C. cbn [p_update]. exact A.
    - intros t'. rewrite C. cbn [p_data]. rewrite time_set_get. reflexivity.
  Qed.
End Records.
