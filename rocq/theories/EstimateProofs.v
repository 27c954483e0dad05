(* The distance that error_estimates.py computes. *)
From Coq Require Import Reals List Arith Bool Lra Lia Psatz.
From Verif Require Import RVec PyModel MeshSpec FemSpec FemPipelineProofs StressModel StressSpec StressProofs EstimateModel EstimateSpec.
Import ListNotations.
Local Open Scope R_scope.

Lemma dx_dy_differ x0 x1 x2 u0 u1 u2 h0 h1 h2 a b a' b' :
  calculate_dx_dy x0 u0 x1 u1 x2 u2 = Ok (a, b) -> calculate_dx_dy x0 h0 x1 h1 x2 h2 = Ok (a', b') ->
  calculate_dx_dy x0 (u0 - h0) x1 (u1 - h1) x2 (u2 - h2) = Ok (a - a', b - b').
Proof.
  unfold calculate_dx_dy. cbv zeta. destruct (Req_EM_T _ 0) as [E|E]; [discriminate|]. intros H K. injection H as <- <-. injection K as <- <-.
  f_equal. f_equal; field; exact E.
Qed.
Lemma dx_dy_goes x0 x1 x2 u0 u1 u2 : (x1 0%nat - x0 0%nat) * (x2 1%nat - x0 1%nat) - (x1 1%nat - x0 1%nat) * (x2 0%nat - x0 0%nat) <> 0 ->
  exists a b, calculate_dx_dy x0 u0 x1 u1 x2 u2 = Ok (a, b).
Proof. intros D. unfold calculate_dx_dy. cbv zeta. destruct (Req_EM_T _ 0) as [E|E]; [contradiction|eauto]. Qed.

Section Mesh.
  Variables (N : nat) (nodes : nat -> vec) (els : list (list nat)).
  Hypothesis TR : triangles N nodes els.

  Lemma element_shape e : In e els -> exists i j k, e = [i; j; k] /\ (i < N)%nat /\ (j < N)%nat /\ (k < N)%nat /\ det_2d (corners nodes e) <> 0.
  Proof.
    intros I. destruct TR as (RA & LE & DE). rewrite Forall_forall in LE. specialize (LE e I). specialize (DE e I).
    destruct e as [|i [|j [|k [|]]]]; try discriminate LE. exists i, j, k. split; [reflexivity|].
    assert (R0 : forall n, In n [i; j; k] -> (n < N)%nat) by (intros n M; unfold in_range in RA; rewrite Forall_forall in RA; specialize (RA _ I); rewrite Forall_forall in RA; exact (RA n M)).
    repeat split; try (apply R0; cbn; tauto). exact DE.
  Qed.

  Lemma element_value u h (i1 i2 : interpolator) e G : In e els ->
    (forall n, In n e -> i1 (nodes n 0%nat) (nodes n 1%nat) = Some (h n 0%nat)) ->
    (forall n, In n e -> i2 (nodes n 0%nat) (nodes n 1%nat) = Some (h n 1%nat)) ->
    (forall c, (c < 2)%nat -> affine_gradient 2 (corners nodes e) (fun k => differ u h (nth k e 0%nat) c) (G c)) ->
    element_error N nodes u i1 i2 e = Ok (Some (size_on (differ u h) G e)).
  Proof.
    intros I S1 S2 HG. destruct (element_shape e I) as (i & j & k & E & Li & Lj & Lk & D). subst e.
    unfold element_error. apply Nat.ltb_lt in Li, Lj, Lk. rewrite Li, Lj, Lk. cbn [andb]. cbv zeta.
    assert (D' : (nodes j 0%nat - nodes i 0%nat) * (nodes k 1%nat - nodes i 1%nat) - (nodes j 1%nat - nodes i 1%nat) * (nodes k 0%nat - nodes i 0%nat) <> 0).
    { intros Q. apply D. unfold det_2d, corners. cbn [nth]. lra. }
    destruct (dx_dy_goes (nodes i) (nodes j) (nodes k) (u i 0%nat) (u j 0%nat) (u k 0%nat) D') as (p1 & q1 & E1).
    destruct (dx_dy_goes (nodes i) (nodes j) (nodes k) (u i 1%nat) (u j 1%nat) (u k 1%nat) D') as (p2 & q2 & E2).
    destruct (dx_dy_goes (nodes i) (nodes j) (nodes k) (h i 0%nat) (h j 0%nat) (h k 0%nat) D') as (p3 & q3 & E3).
    destruct (dx_dy_goes (nodes i) (nodes j) (nodes k) (h i 1%nat) (h j 1%nat) (h k 1%nat) D') as (p4 & q4 & E4).
    rewrite !S1, !S2 by (cbn; tauto). rewrite E1, E2, E3, E4. cbn [bind].
    assert (M1 := dx_dy_minus _ _ _ D (HG 0%nat ltac:(lia))). assert (M2 := dx_dy_minus _ _ _ D (HG 1%nat ltac:(lia))).
    unfold corners, differ in M1, M2. cbn [nth] in M1, M2. rewrite (dx_dy_differ _ _ _ _ _ _ _ _ _ _ _ _ _ E1 E3) in M1. rewrite (dx_dy_differ _ _ _ _ _ _ _ _ _ _ _ _ _ E2 E4) in M2.
    injection M1 as A1 A2. injection M2 as A3 A4. do 2 f_equal. unfold size_on, corner_total, differ. cbn [sum nth]. f_equal. nra.
  Qed.
  Lemma element_lost u (i1 i2 : interpolator) e : In e els -> gap_at nodes i1 e \/ gap_at nodes i2 e -> element_error N nodes u i1 i2 e = Ok None.
  Proof.
    intros I GA. destruct (element_shape e I) as (i & j & k & E & Li & Lj & Lk & D). subst e.
    unfold element_error. apply Nat.ltb_lt in Li, Lj, Lk. rewrite Li, Lj, Lk. cbn [andb]. cbv zeta.
    assert (D' : (nodes j 0%nat - nodes i 0%nat) * (nodes k 1%nat - nodes i 1%nat) - (nodes j 1%nat - nodes i 1%nat) * (nodes k 0%nat - nodes i 0%nat) <> 0).
    { intros Q. apply D. unfold det_2d, corners. cbn [nth]. lra. }
    destruct (dx_dy_goes (nodes i) (nodes j) (nodes k) (u i 0%nat) (u j 0%nat) (u k 0%nat) D') as (p1 & q1 & E1).
    destruct (dx_dy_goes (nodes i) (nodes j) (nodes k) (u i 1%nat) (u j 1%nat) (u k 1%nat) D') as (p2 & q2 & E2).
    rewrite E1, E2. cbn [bind].
    destruct GA as [(n & M & Q)|(n & M & Q)]; cbn [In] in M; destruct M as [<-|[<-|[<-|[]]]]; rewrite Q;
      repeat match goal with |- context [match ?o with Some _ => _ | None => _ end] => destruct o end; reflexivity.
  Qed.

  Lemma errors_value u h i1 i2 G : forall l t, incl l els ->
    (forall e n, In e l -> In n e -> i1 (nodes n 0%nat) (nodes n 1%nat) = Some (h n 0%nat)) ->
    (forall e n, In e l -> In n e -> i2 (nodes n 0%nat) (nodes n 1%nat) = Some (h n 1%nat)) ->
    (forall c, (c < 2)%nat -> field_gradient 2 nodes els (fun n => differ u h n c) (G c)) ->
    add_errors N nodes u i1 i2 l (Number t) = Ok (Number (t + lsum l (fun e => size_on (differ u h) (fun c => G c e) e))).
  Proof.
    induction l as [|e l IH]; intros t SU S1 S2 HG; cbn [add_errors lsum]; [rewrite Rplus_0_r; reflexivity|].
    rewrite (element_value u h i1 i2 e (fun c => G c e)); [| |intros n M; apply (S1 e n); [left; reflexivity|exact M]|intros n M; apply (S2 e n); [left; reflexivity|exact M]|].
    - cbn [bind add_error]. rewrite IH.
      + do 2 f_equal. ring.
      + intros x X. apply SU. right. exact X.
      + intros x n X. apply S1. right. exact X.
      + intros x n X. apply S2. right. exact X.
      + exact HG.
    - apply SU. left. reflexivity.
    - intros c C. apply (HG c C e). apply SU. left. reflexivity.
  Qed.
  Lemma errors_empty u i1 i2 : forall l, incl l els -> (forall e, In e l -> exists r, element_error N nodes u i1 i2 e = Ok r) -> add_errors N nodes u i1 i2 l Empty = Ok Empty.
  Proof.
    induction l as [|e l IH]; intros SU HE; cbn [add_errors]; [reflexivity|]. destruct (HE e (or_introl eq_refl)) as (r & ->). cbn [bind add_error].
    apply IH; [intros x X; apply SU; right; exact X|intros x X; apply HE; right; exact X].
  Qed.
  Lemma element_goes u i1 i2 e : In e els -> exists r, element_error N nodes u i1 i2 e = Ok r.
  Proof.
    intros I. destruct (element_shape e I) as (i & j & k & E & Li & Lj & Lk & D). subst e.
    unfold element_error. apply Nat.ltb_lt in Li, Lj, Lk. rewrite Li, Lj, Lk. cbn [andb]. cbv zeta.
    assert (D' : (nodes j 0%nat - nodes i 0%nat) * (nodes k 1%nat - nodes i 1%nat) - (nodes j 1%nat - nodes i 1%nat) * (nodes k 0%nat - nodes i 0%nat) <> 0).
    { intros Q. apply D. unfold det_2d, corners. cbn [nth]. lra. }
    assert (X : forall v0 v1 v2, exists a b, calculate_dx_dy (nodes i) v0 (nodes j) v1 (nodes k) v2 = Ok (a, b)) by (intros; apply dx_dy_goes; exact D').
    destruct (X (u i 0%nat) (u j 0%nat) (u k 0%nat)) as (p1 & q1 & ->). destruct (X (u i 1%nat) (u j 1%nat) (u k 1%nat)) as (p2 & q2 & ->). cbn [bind].
    destruct (i1 _ _) as [a0|]; [|eauto]. destruct (i1 _ _) as [a1|]; [|eauto]. destruct (i1 _ _) as [a2|]; [|eauto].
    destruct (i2 _ _) as [b0|]; [|eauto]. destruct (i2 _ _) as [b1|]; [|eauto]. destruct (i2 _ _) as [b2|]; [|eauto].
    destruct (X a0 a1 a2) as (p3 & q3 & ->). destruct (X b0 b1 b2) as (p4 & q4 & ->). cbn [bind]. eauto.
  Qed.

  (* what is computed *)
  Lemma estimate_value u h i1 i2 G : els <> [] -> samples nodes els i1 (fun n => h n 0%nat) -> samples nodes els i2 (fun n => h n 1%nat) ->
    rows_gradient nodes els (differ u h) G ->
    estimate N nodes u els i1 i2 = Ok (Number (mean_size els (differ u h) G)).
  Proof.
    intros NE S1 S2 HG. unfold estimate, compare, mean_size. destruct els as [|e l] eqn:EL; [contradiction|]. rewrite <- EL in *.
    assert (IE : In e els) by (rewrite EL; left; reflexivity). assert (SU : incl l els) by (intros x X; rewrite EL; right; exact X).
    assert (Q : add_errors N nodes u i1 i2 els Start = Ok (Number (lsum els (fun e => size_on (differ u h) (fun c => G c e) e)))).
    { rewrite EL. cbn [add_errors lsum]. rewrite (element_value u h i1 i2 e (fun c => G c e) IE); [|intros n M; exact (S1 e n IE M)|intros n M; exact (S2 e n IE M)|intros c C; exact (HG c C e IE)].
      cbn [bind add_error]. rewrite (errors_value u h i1 i2 G l); auto; [do 2 f_equal; ring| |].
      - intros x n X M. exact (S1 x n (SU x X) M).
      - intros x n X M. exact (S2 x n (SU x X) M). }
    rewrite Q. cbn [bind]. reflexivity.
  Qed.
  (* a point of the reference without a value: no number comes out *)
  Lemma estimate_lost u i1 i2 e : In e els -> gap_at nodes i1 e \/ gap_at nodes i2 e -> forall r, estimate N nodes u els i1 i2 <> Ok (Number r).
  Proof.
    intros I GA r H. unfold estimate, compare in H.
    assert (Q : forall l t, incl l els -> In e l -> forall a, add_errors N nodes u i1 i2 l t = Ok a -> a = Empty).
    { induction l as [|f l IH]; intros t SU IN a A; [destruct IN|]. cbn [add_errors] in A.
      destruct (element_goes u i1 i2 f (SU f (or_introl eq_refl))) as (x & X). rewrite X in A. cbn [bind] in A.
      assert (SL : incl l els) by (intros y Y; apply SU; right; exact Y).
      assert (EM : forall b, add_errors N nodes u i1 i2 l Empty = Ok b -> b = Empty).
      { intros b B. rewrite errors_empty in B; [injection B as <-; reflexivity|exact SL|intros y Y; apply element_goes; apply SL; exact Y]. }
      destruct IN as [<-|IN].
      - rewrite (element_lost u i1 i2 f I GA) in X. injection X as <-. destruct t as [|b|]; cbn [add_error bind] in A; [exact (EM a A)|discriminate|exact (EM a A)].
      - destruct (add_error t x) as [t'|er] eqn:T; [|discriminate]. cbn [bind] in A. exact (IH t' SL IN a A). }
    destruct (add_errors N nodes u i1 i2 els Start) as [a|er] eqn:A; [|discriminate]. rewrite (Q els Start (fun x X => X) I a A) in H. cbn in H. discriminate.
  Qed.
End Mesh.
