(* Recovered gradients and stresses. *)
From Coq Require Import Reals List Arith Bool Lra Lia.
From Verif Require Import RVec PyModel MeshSpec FemSpec StressModel StressSpec.
Import ListNotations.
Local Open Scope R_scope.

Lemma dx_dy_minus x f g : det_2d x <> 0 -> affine_gradient 2 x f g ->
  calculate_dx_dy (x 0%nat) (f 0%nat) (x 1%nat) (f 1%nat) (x 2%nat) (f 2%nat) = Ok (- g 0%nat, - g 1%nat).
Proof.
  intros Hd Hg.
  pose proof (Hg 1%nat 0%nat ltac:(lia) ltac:(lia)) as H1.
  pose proof (Hg 2%nat 0%nat ltac:(lia) ltac:(lia)) as H2.
  cbn [sum] in H1, H2. unfold det_2d in Hd.
  unfold calculate_dx_dy. cbv zeta.
  destruct (Req_EM_T _ 0) as [E | E]; [exfalso; apply Hd; lra |].
  rewrite <- H1, <- H2. f_equal. f_equal; field; exact E.
Qed.

Lemma dx_dy_zero x f : det_2d x = 0 ->
  calculate_dx_dy (x 0%nat) (f 0%nat) (x 1%nat) (f 1%nat) (x 2%nat) (f 2%nat) = Err ZeroDivision.
Proof.
  intros Hd. unfold det_2d in Hd. unfold calculate_dx_dy. cbv zeta.
  destruct (Req_EM_T _ 0) as [E | E]; [reflexivity | exfalso; apply E; lra].
Qed.

Lemma triangle_distinct nodes i j k : det_2d (corners nodes [i; j; k]) <> 0 -> i <> j /\ i <> k /\ j <> k.
Proof.
  intros H. repeat split; intros ->; apply H; unfold det_2d, corners; cbn [nth]; ring.
Qed.

Section Mesh.
  Context (N : nat) (nodes : nat -> vec).

  Lemma element_added f g s e : length e = 3%nat -> Forall (fun k => (k < N)%nat) e ->
    det_2d (corners nodes e) <> 0 ->
    affine_gradient 2 (corners nodes e) (fun k => f (nth k e 0%nat)) g ->
    exists s', add_element N nodes f s e = Ok s' /\ forall n,
      sum_x s' n = sum_x s n + (if existsb (Nat.eqb n) e then - g 0%nat else 0) /\
      sum_y s' n = sum_y s n + (if existsb (Nat.eqb n) e then - g 1%nat else 0) /\
      norm s' n = (norm s n + (if existsb (Nat.eqb n) e then 1 else 0))%nat.
  Proof.
    intros Hl Hr Hd Hg. destruct e as [| i [| j [| k [|]]]]; cbn in Hl; try discriminate. clear Hl.
    destruct (triangle_distinct nodes i j k Hd) as [D1 [D2 D3]].
    inversion Hr as [| ? ? Hi Hr1]; subst. inversion Hr1 as [| ? ? Hj Hr2]; subst.
    inversion Hr2 as [| ? ? Hk _]; subst.
    pose proof (dx_dy_minus _ _ g Hd Hg) as E. unfold corners in E. cbn [nth] in E.
    unfold add_element.
    rewrite (proj2 (Nat.ltb_lt _ _) Hi), (proj2 (Nat.ltb_lt _ _) Hj), (proj2 (Nat.ltb_lt _ _) Hk).
    cbn [andb]. rewrite E. cbn [bind]. eexists. split; [reflexivity |].
    intros n. unfold add_corner. cbn [sum_x sum_y norm existsb].
    destruct (Nat.eqb_spec n i), (Nat.eqb_spec n j), (Nat.eqb_spec n k);
      try congruence; cbn [orb]; repeat split; try lra; try lia; reflexivity.
  Qed.

  Lemma elements_added f g els : triangles N nodes els -> field_gradient 2 nodes els f g ->
    forall s, exists s', add_elements N nodes f els s = Ok s' /\ forall n,
      sum_x s' n = sum_x s n + lsum (around els n) (fun e => - g e 0%nat) /\
      sum_y s' n = sum_y s n + lsum (around els n) (fun e => - g e 1%nat) /\
      norm s' n = (norm s n + length (around els n))%nat.
  Proof.
    induction els as [| e els IH]; intros (Hr & Hl & Hd) Hg s; cbn [add_elements].
    - exists s. split; [reflexivity |]. intros n. cbn. repeat split; try lra; lia.
    - inversion Hr as [| ? ? Hr1 Hr2]; subst. inversion Hl as [| ? ? Hl1 Hl2]; subst.
      destruct (element_added f (g e) s e Hl1 Hr1 (Hd e (or_introl eq_refl)) (Hg e (or_introl eq_refl)))
        as [s1 [E1 H1]].
      destruct (IH (conj Hr2 (conj Hl2 (fun x Hx => Hd x (or_intror Hx)))) (fun x Hx => Hg x (or_intror Hx)) s1)
        as [s2 [E2 H2]].
      rewrite E1. cbn [bind]. exists s2. split; [exact E2 |]. intros n.
      destruct (H1 n) as (A & B & C), (H2 n) as (A2 & B2 & C2).
      rewrite A2, B2, C2, A, B, C. unfold around. cbn [filter].
      destruct (existsb (Nat.eqb n) e); cbn [lsum length]; fold (around els n); repeat split; try lra; lia.
  Qed.

  Lemma around_used els n : referenced els n -> around els n <> [].
  Proof.
    intros [e [He Hn]] H.
    assert (X : In e (around els n)).
    { unfold around. apply filter_In. split; [exact He |]. apply existsb_exists. exists n. split; [exact Hn |].
      apply Nat.eqb_refl. }
    rewrite H in X. exact X.
  Qed.

  Lemma around_unused els n : ~ referenced els n -> around els n = [].
  Proof.
    intros H. destruct (around els n) as [| e l] eqn:E; [reflexivity |]. exfalso. apply H.
    assert (X : In e (around els n)) by (rewrite E; left; reflexivity).
    unfold around in X. apply filter_In in X. destruct X as [He X]. apply existsb_exists in X.
    destruct X as [m [Hm X]]. apply Nat.eqb_eq in X. subst m. exists e. split; assumption.
  Qed.

  Lemma gradient_mean els f g : triangles N nodes els -> field_gradient 2 nodes els f g ->
    exists r, gradient N nodes els f = Ok r /\
      (forall n, referenced els n -> exists v, r n = Some v /\
         forall k, (k < 2)%nat -> v k = - mean_around els n (fun e => g e k)) /\
      (forall n, ~ referenced els n -> r n = None).
  Proof.
    intros HT Hg.
    destruct (elements_added f g els HT Hg (mkSums (fun _ => 0) (fun _ => 0) (fun _ => 0%nat))) as [s [E H]].
    unfold gradient. rewrite E. cbn [bind]. eexists. split; [reflexivity |]. split; intros n Hn.
    - destruct (H n) as (A & B & C). cbn [sum_x sum_y norm] in A, B, C.
      pose proof (around_used els n Hn) as Hne.
      assert (HL : (length (around els n) <> 0)%nat) by (destruct (around els n); [congruence | cbn; lia]).
      rewrite Nat.add_0_l in C. rewrite A, B, C.
      destruct (Nat.eqb_spec (length (around els n)) 0) as [Z | _]; [contradiction |].
      eexists. split; [reflexivity |]. intros k Hk. unfold mean_around.
      assert (INR (length (around els n)) <> 0) by (apply not_0_INR; exact HL).
      assert (M : forall q : list nat -> R, lsum (around els n) (fun e => - q e) = - lsum (around els n) q).
      { intros q. replace (- lsum (around els n) q) with ((-1) * lsum (around els n) q) by ring.
        rewrite <- lsum_scal. apply lsum_ext. intros; ring. }
      destruct k as [| [|]]; [| | lia].
      + rewrite (M (fun e => g e 0%nat)). field. assumption.
      + rewrite (M (fun e => g e 1%nat)). field. assumption.
    - destruct (H n) as (_ & _ & C). cbn [norm] in C. rewrite (around_unused els n Hn) in C. cbn in C.
      rewrite C. reflexivity.
  Qed.

  Lemma gradients_mean els field G : triangles N nodes els -> rows_gradient nodes els field G ->
    exists r, gradients N nodes els field = Ok r /\
      (forall n, referenced els n -> exists D, r n = Some D /\
         forall c k, (c < 2)%nat -> (k < 2)%nat -> D c k = - mean_around els n (fun e => G c e k)) /\
      (forall n, ~ referenced els n -> r n = None).
  Proof.
    intros HT HG.
    destruct (gradient_mean els _ _ HT (HG 0%nat ltac:(lia))) as [r0 [E0 [H0 N0]]].
    destruct (gradient_mean els _ _ HT (HG 1%nat ltac:(lia))) as [r1 [E1 [H1 N1]]].
    unfold gradients. rewrite E0. cbn [bind]. rewrite E1. cbn [bind]. eexists. split; [reflexivity |].
    split; intros n Hn.
    - destruct (H0 n Hn) as [v0 [F0 K0]]. destruct (H1 n Hn) as [v1 [F1 K1]].
      rewrite F0, F1. eexists. split; [reflexivity |]. intros c k Hc Hk.
      destruct c as [| [|]]; [apply K0; exact Hk | apply K1; exact Hk | lia].
    - rewrite (N0 n Hn). reflexivity.
  Qed.

  Lemma mean_plus els n p q : mean_around els n (fun e => p e + q e) = mean_around els n p + mean_around els n q.
  Proof. unfold mean_around. rewrite lsum_plus. unfold Rdiv. ring. Qed.

  Lemma mean_scal els n c q : mean_around els n (fun e => c * q e) = c * mean_around els n q.
  Proof. unfold mean_around. rewrite lsum_scal. unfold Rdiv. ring. Qed.

  Lemma mean_ext els n p q : (forall e, In e els -> p e = q e) -> mean_around els n p = mean_around els n q.
  Proof.
    intros H. unfold mean_around. f_equal. apply lsum_ext. intros e He. apply H.
    unfold around in He. apply filter_In in He. apply He.
  Qed.

  Lemma mean_const els n c : referenced els n -> mean_around els n (fun _ => c) = c.
  Proof.
    intros Hn. unfold mean_around. pose proof (around_used els n Hn) as Hne.
    assert (S : forall l : list (list nat), lsum l (fun _ => c) = INR (length l) * c).
    { induction l as [| x l IH]; [cbn; ring |]. cbn [lsum length]. rewrite IH, S_INR. ring. }
    rewrite S. field. apply not_0_INR. destruct (around els n); [congruence | cbn; lia].
  Qed.

  (* one isotropic law applied to the recovered gradient *)
  Lemma isotropic_mean els n m l D G :
    (forall c k, (c < 2)%nat -> (k < 2)%nat -> D c k = - mean_around els n (fun e => G c e k)) ->
    forall i j, (i < 2)%nat -> (j < 2)%nat ->
    isotropic_stress m l D i j = - mean_around els n (fun e => hooke 2 m l (fun c => G c e) i j).
  Proof.
    intros H i j Hi Hj.
    assert (P : forall c k, mean_around els n (fun e => c * G 0%nat e 0%nat + k * G 1%nat e 1%nat)
                = c * mean_around els n (fun e => G 0%nat e 0%nat) + k * mean_around els n (fun e => G 1%nat e 1%nat)).
    { intros. rewrite mean_plus, !mean_scal. reflexivity. }
    assert (Q : mean_around els n (fun e => m * (G 0%nat e 1%nat + G 1%nat e 0%nat))
                = m * (mean_around els n (fun e => G 0%nat e 1%nat) + mean_around els n (fun e => G 1%nat e 0%nat))).
    { rewrite mean_scal, mean_plus. reflexivity. }
    destruct i as [| [|]]; [| | lia]; (destruct j as [| [|]]; [| | lia]); cbn [isotropic_stress];
      rewrite !H by lia; unfold hooke, strain, divergence; cbn [Nat.eqb sum].
    - transitivity (- mean_around els n (fun e => (2 * m + l) * G 0%nat e 0%nat + l * G 1%nat e 1%nat)); [| f_equal; apply mean_ext; intros; field].
      rewrite P. ring.
    - transitivity (- mean_around els n (fun e => m * (G 0%nat e 1%nat + G 1%nat e 0%nat))); [| f_equal; apply mean_ext; intros; field].
      rewrite Q. ring.
    - transitivity (- mean_around els n (fun e => m * (G 0%nat e 1%nat + G 1%nat e 0%nat))); [| f_equal; apply mean_ext; intros; field].
      rewrite Q. ring.
    - transitivity (- mean_around els n (fun e => l * G 0%nat e 0%nat + (2 * m + l) * G 1%nat e 1%nat)); [| f_equal; apply mean_ext; intros; field].
      rewrite P. ring.
  Qed.

  Lemma viscoelastic_mean els mu la th ze u v G H : triangles N nodes els ->
    rows_gradient nodes els u G -> rows_gradient nodes els v H ->
    exists r, viscoelastic_constitutive_law mu la th ze N nodes els u v = Ok r /\
      (forall n, referenced els n -> exists s, r n = Some s /\ forall i j, (i < 2)%nat -> (j < 2)%nat ->
         s i j = - mean_around els n (fun e => hooke 2 mu la (fun c => G c e) i j + hooke 2 th ze (fun c => H c e) i j)) /\
      (forall n, ~ referenced els n -> r n = None).
  Proof.
    intros HT HG HH.
    destruct (gradients_mean els u G HT HG) as [ru [Eu [Hu Nu]]].
    destruct (gradients_mean els v H HT HH) as [rv [Ev [Hv Nv]]].
    unfold viscoelastic_constitutive_law. rewrite Eu. cbn [bind]. rewrite Ev. cbn [bind].
    eexists. split; [reflexivity |]. split; intros n Hn.
    - destruct (Hu n Hn) as [Du [Fu Ku]]. destruct (Hv n Hn) as [Dv [Fv Kv]].
      rewrite Fu, Fv. cbn [option_map add_rows]. eexists. split; [reflexivity |]. intros i j Hi Hj.
      rewrite mean_plus, (isotropic_mean els n mu la Du G Ku i j Hi Hj), (isotropic_mean els n th ze Dv H Kv i j Hi Hj).
      ring.
    - rewrite (Nu n Hn). reflexivity.
  Qed.

  Lemma relaxation_mean els mu la relaxation u v t G H : triangles N nodes els ->
    rows_gradient nodes els u G -> rows_gradient nodes els v H ->
    exists r, elastic_relaxation_constitutive_law mu la relaxation N nodes els u v t = Ok r /\
      (forall n, referenced els n -> exists s, r n = Some s /\ forall i j, (i < 2)%nat -> (j < 2)%nat ->
         s i j = - mean_around els n (fun e => hooke 2 mu la (fun c => G c e) i j
                                       + hooke 2 (relaxation t 1%nat 0%nat 1%nat) 0 (fun c => H c e) i j)) /\
      (forall n, ~ referenced els n -> r n = None).
  Proof.
    intros HT HG HH.
    destruct (gradients_mean els u G HT HG) as [ru [Eu [Hu Nu]]].
    destruct (gradients_mean els v H HT HH) as [rv [Ev [Hv Nv]]].
    unfold elastic_relaxation_constitutive_law. rewrite Eu. cbn [bind]. rewrite Ev. cbn [bind].
    eexists. split; [reflexivity |]. split; intros n Hn.
    - destruct (Hu n Hn) as [Du [Fu Ku]]. destruct (Hv n Hn) as [Dv [Fv Kv]].
      rewrite Fu, Fv. cbn [option_map add_rows]. eexists. split; [reflexivity |]. intros i j Hi Hj.
      rewrite mean_plus, (isotropic_mean els n mu la Du G Ku i j Hi Hj).
      set (rl := relaxation t 1%nat 0%nat 1%nat).
      transitivity (- mean_around els n (fun e => hooke 2 mu la (fun c => G c e) i j) + isotropic_stress rl 0 Dv i j).
      { f_equal. destruct i as [| [|]]; [| | lia]; (destruct j as [| [|]]; [| | lia]); cbn [isotropic_stress]; ring. }
      rewrite (isotropic_mean els n rl 0 Dv H Kv i j Hi Hj). ring.
    - rewrite (Nu n Hn). reflexivity.
  Qed.

  (* affine fields *)
  Lemma affine_rows_gradient els b A field : triangles N nodes els -> affine_rows N nodes b A field ->
    rows_gradient nodes els field (fun c _ => A c).
  Proof.
    intros (Hr & Hl & _) HA c Hc e He i j Hi Hj. cbn [sum]. unfold corners.
    assert (L : length e = 3%nat) by (rewrite Forall_forall in Hl; apply Hl; exact He).
    assert (R0 : forall k, (k <= 2)%nat -> (nth k e 0%nat < N)%nat).
    { intros k Hk. unfold in_range in Hr. rewrite Forall_forall in Hr. specialize (Hr e He).
      rewrite Forall_forall in Hr. apply Hr. apply nth_In. lia. }
    rewrite (HA _ c (R0 i Hi) Hc), (HA _ c (R0 j Hj) Hc). ring.
  Qed.

  Lemma affine_stress els mu la th ze bu A u bv B v : triangles N nodes els ->
    affine_rows N nodes bu A u -> affine_rows N nodes bv B v ->
    exists r, viscoelastic_constitutive_law mu la th ze N nodes els u v = Ok r /\
      forall n, referenced els n -> exists s, r n = Some s /\ forall i j, (i < 2)%nat -> (j < 2)%nat ->
        s i j = - (hooke 2 mu la A i j + hooke 2 th ze B i j).
  Proof.
    intros HT HA HB.
    destruct (viscoelastic_mean els mu la th ze u v _ _ HT (affine_rows_gradient els bu A u HT HA)
                (affine_rows_gradient els bv B v HT HB)) as [r [E [H _]]].
    exists r. split; [exact E |]. intros n Hn. destruct (H n Hn) as [s [F K]]. exists s. split; [exact F |].
    intros i j Hi Hj. rewrite (K i j Hi Hj). rewrite mean_const by exact Hn. reflexivity.
  Qed.

  (* a flat element in front stops the recovery *)
  Lemma elements_flat f els : in_range N els -> Forall (fun e => length e = 3%nat) els ->
    (exists e, In e els /\ det_2d (corners nodes e) = 0) ->
    forall s, add_elements N nodes f els s = Err ZeroDivision.
  Proof.
    induction els as [| e els IH]; intros Hr Hl [e0 [He Hd]] s; [destruct He |].
    inversion Hr as [| ? ? Hr1 Hr2]; subst. inversion Hl as [| ? ? Hl1 Hl2]; subst.
    assert (Z : (exists s', add_element N nodes f s e = Ok s' /\ det_2d (corners nodes e) <> 0)
                \/ add_element N nodes f s e = Err ZeroDivision).
    { destruct e as [| i [| j [| k [|]]]]; cbn in Hl1; try discriminate.
      inversion Hr1 as [| ? ? Hi Hr3]; subst. inversion Hr3 as [| ? ? Hj Hr4]; subst.
      inversion Hr4 as [| ? ? Hk _]; subst. unfold add_element.
      rewrite (proj2 (Nat.ltb_lt _ _) Hi), (proj2 (Nat.ltb_lt _ _) Hj), (proj2 (Nat.ltb_lt _ _) Hk).
      cbn [andb]. destruct (Req_EM_T (det_2d (corners nodes [i; j; k])) 0) as [Q | Q].
      - right. pose proof (dx_dy_zero _ (fun k0 => f (nth k0 [i; j; k] 0%nat)) Q) as E.
        unfold corners in E. cbn [nth] in E. rewrite E. reflexivity.
      - left. unfold calculate_dx_dy. cbv zeta. destruct (Req_EM_T _ 0) as [Q' | Q'].
        + exfalso. apply Q. unfold det_2d, corners. cbn [nth]. lra.
        + cbn [bind]. eexists. split; [reflexivity | exact Q]. }
    cbn [add_elements]. destruct Z as [[s' [E Q]] | E]; rewrite E; cbn [bind]; [| reflexivity].
    destruct He as [<- | He]; [contradiction |]. apply IH; [assumption | assumption |]. exists e0. split; assumption.
  Qed.

  Lemma gradient_flat f els : in_range N els -> Forall (fun e => length e = 3%nat) els ->
    (exists e, In e els /\ det_2d (corners nodes e) = 0) -> gradient N nodes els f = Err ZeroDivision.
  Proof. intros Hr Hl He. unfold gradient. rewrite (elements_flat f els Hr Hl He). reflexivity. Qed.
End Mesh.
