(* The reduced system over several steps: C19. *)
From Coq Require Import Reals List Arith ZArith Bool String Lia Lra.
From Verif Require Import Common PyModel RVec LinAlg DofModel DofSpec DirichletModel DirichletSpec DirichletProofs
  StatementModel StatementSpec StatementProofs StatementValueProofs StatementExamples
  ContactModel ContactSpec SchurModel SchurSpec SchurProofs SchurMinProofs.
Import ListNotations.
Local Open Scope R_scope.

(* the eliminated matrix does not depend on the right-hand side or the prescribed values *)
Lemma eliminated_lhs A b b' : forall conds, lhs (apply_dirichlet conds (mkSystem A b)) = lhs (apply_dirichlet conds (mkSystem A b')).
Proof.
  intros conds. unfold apply_dirichlet. change A with (lhs (mkSystem A b)) at 2.
  assert (H : forall s1 s2, lhs s1 = lhs s2 -> lhs (fold_left eliminate conds s1) = lhs (fold_left eliminate conds s2)).
  { induction conds as [|[sl c] conds IH]; intros s1 s2 E; simpl; auto. apply IH. unfold eliminate. cbn [fst snd].
    revert s1 s2 E. induction sl as [|x sl IHs]; intros s1 s2 E; simpl; auto. apply IHs. simpl. rewrite E. reflexivity. }
  apply H. reflexivity.
Qed.

Lemma solves_meq n A A' b b' x : meq n n A A' -> veq n b b' -> (solves n A b x <-> solves n A' b' x).
Proof.
  intros HA Hb. split; intros H i Hi.
  - rewrite <- (Hb i Hi), <- (H i Hi). apply sum_ext. intros j Hj. rewrite (HA i j) by auto. reflexivity.
  - rewrite (Hb i Hi), <- (H i Hi). apply sum_ext. intros j Hj. rewrite (HA i j) by auto. reflexivity.
Qed.

Lemma last_cons (A : Type) (x y : A) l : last (x :: l) y = last l x.
Proof.
  revert x y. induction l as [|z l IH]; intros x y; [reflexivity|].
  change (last (z :: l) y = last (z :: l) x). rewrite !IH. reflexivity.
Qed.

Section Sequence.
  Variable inv : nat -> mat -> result mat.
  Hypothesis Hinv : inverts inv.
  Variables (d nc nf : nat).
  Hypothesis Hd : d <> 0%nat.
  Let N := (nc + nf)%nat.
  Let n := (d * N)%nat.

  (* re-initialising with the same matrix gives the state iterate gives *)
  Theorem iterate_init A b b' s :
    init inv d nc N (mkSized n n A) (n, b) = Ok s ->
    iterate d nc N s (n, b') = init inv d nc N (mkSized n n A) (n, b').
  Proof.
    unfold init, iterate. destruct (calculate_schur_complement_matrices inv d nc N (mkSized n n A)) as [[[[r fc] cf] ffi]|e]; [|discriminate].
    cbn [bind]. destruct (calculate_schur_complement_vector d nc N (n, b) cf ffi) as [[f ff]|e]; [|discriminate].
    cbn [bind]. intros H. injection H as <-. reflexivity.
  Qed.

  (* the states reached by iterate *)
  Fixpoint iterates (s : schur) (bs : list vec) : result schur :=
    match bs with [] => Ok s | b :: bs => bind (iterate d nc N s (n, b)) (fun s' => iterates s' bs) end.

  Theorem iterates_init A : forall bs b s,
    init inv d nc N (mkSized n n A) (n, b) = Ok s ->
    iterates s bs = init inv d nc N (mkSized n n A) (n, last bs b).
  Proof.
    induction bs as [|b' bs IH]; intros b s H; [symmetry; exact H|].
    destruct (iterate_reduces d nc nf Hd A b b' s (init_reduces inv d nc nf Hinv Hd A b s H)) as (s1 & E & _).
    cbn [iterates]. unfold n, N. rewrite E. cbn [bind]. rewrite last_cons. apply IH.
    rewrite <- (iterate_init A b b' s H). exact E.
  Qed.

  Lemma iterates_reduces A : forall bs b s, reduces d nc nf A b s ->
    exists s', iterates s bs = Ok s' /\ reduces d nc nf A (last bs b) s'.
  Proof.
    induction bs as [|b' bs IH]; intros b s HR; [exists s; auto|].
    destruct (iterate_reduces d nc nf Hd A b b' s HR) as (s1 & E & HR1). cbn [iterates]. unfold n, N. rewrite E. cbn [bind].
    destruct (IH b' s1 HR1) as (s' & E' & HR'). exists s'. split; [exact E'|].
    rewrite last_cons. exact HR'.
  Qed.

  (* C19: any number of steps with (entrywise) the same matrix *)
  Theorem iterates_solve A b bs s s' A' b' x xc xf :
    init inv d nc N (mkSized n n A) (n, b) = Ok s -> iterates s bs = Ok s' ->
    meq n n A A' -> veq n (last bs b) b' -> parts d nc nf x xc xf ->
    (solves n A' b' x <->
     solves (d * nc) (data (node_relations s')) (snd (node_forces s')) xc /\
     exists r, complement_free_nodes s' ((d * nc)%nat, xc) = Ok ((d * nf)%nat, r) /\ veq (d * nf) xf r).
  Proof.
    intros HI HT HA Hb HX. apply (init_reduces inv d nc nf Hinv Hd) in HI.
    destruct (iterates_reduces A bs b s HI) as (s1 & E & HR). rewrite HT in E. injection E as <-.
    rewrite <- (solves_meq n A A' _ b' x HA Hb). exact (reduced_solution d nc nf A (last bs b) s' x xc xf HR HX).
  Qed.
End Sequence.

(* two physics with the same operators and time step *)
Definition same_operators (p q : physics) : Prop :=
  ph_N p = ph_N q /\ ph_n p = ph_n q /\ mass p = mass q /\ stiffness p = stiffness q /\ damping p = damping q /\
  conduction p = conduction q /\ dielectric p = dielectric q /\ laplace p = laplace q /\ ph_dt p = ph_dt q.

Section Statement.
  Context {Fs : Type}.
  Variable integrate : Fs -> R -> Fs * result (nat * vec).
  Variable b : body.
  Variable inv : nat -> mat -> result mat.
  Hypothesis Hinv : inverts inv.
  Variables (k : kind) (nc nf : nat).
  Let d := dimension_in k (b_dimension b).
  Let N := (nc + nf)%nat.
  Hypothesis Hk : k <> QuasistaticRelaxation.
  Hypothesis Hd : d <> 0%nat.
  Hypothesis Hn : unknowns b k = (d * N)%nat.

  Lemma lmat_same p q : same_operators p q -> lmat p k = lmat q k.
  Proof.
    intros (_ & _ & H1 & H2 & H3 & H4 & H5 & H6 & H7). unfold lmat. rewrite H1, H2, H3, H4, H5, H6, H7.
    destruct k; try reflexivity. contradiction.
  Qed.

  Theorem statement_iterate p0 p1 var0 var1 conds w0 w0' l0 r0 w1 w1' l1 r1 s0 s1 x xc xf :
    same_operators p0 p1 ->
    b_conditions b d (dirichlet_cond_name k) = Ok conds -> well_shaped (d * N) conds ->
    reads integrate b var0 p0 k w0 -> update integrate b k var0 w0 = (w0', Ok (l0, r0)) ->
    reads integrate b var1 p1 k w1 -> update integrate b k var1 w1 = (w1', Ok (l1, r1)) ->
    init inv d nc N (shown_matrix (hp w0') (sm_data l0)) (shown_vector (hp w0') r0) = Ok s0 ->
    iterate d nc N s0 (shown_vector (hp w1') r1) = Ok s1 ->
    parts d nc nf x xc xf ->
    (solves (d * N) (data (shown_matrix (hp w1') (sm_data l1))) (snd (shown_vector (hp w1') r1)) x <->
     solves (d * nc) (data (node_relations s1)) (snd (node_forces s1)) xc /\
     exists r, complement_free_nodes s1 ((d * nc)%nat, xc) = Ok ((d * nf)%nat, r) /\ veq (d * nf) xf r).
  Proof.
    intros HO HC HW R0 U0 R1 U1 HI HT HX. rewrite <- Hn in HW.
    destruct (update_value integrate b var0 p0 k w0 conds R0 HC HW) as (v0 & lr0 & E0 & P0).
    rewrite U0 in E0. injection E0 as <- <-. destruct P0 as (_ & _ & _ & _ & (_ & M1 & M2 & M3) & (_ & V1 & V2)). cbn [fst snd] in *.
    destruct (update_value integrate b var1 p1 k w1 conds R1 HC HW) as (v1 & lr1 & E1 & P1).
    rewrite U1 in E1. injection E1 as <- <-. destruct P1 as (_ & _ & _ & _ & (_ & M4 & M5 & M6) & (_ & V3 & V4)). cbn [fst snd] in *.
    unfold shown_matrix, shown_vector in *. cbn [data snd]. rewrite M1, M2, V1, Hn in HI. rewrite V3, Hn in HT.
    rewrite Hn in *. unfold final in *. rewrite (lmat_same p0 p1 HO) in M3.
    rewrite (eliminated_lhs (lmat p1 k) (rvec b p0 k) (rvec b p1 k)) in M3.
    apply (iterates_solve inv Hinv d nc nf Hd (load_m (hp w0') (sm_data l0)) (load_v (hp w0') r0) [load_v (hp w1') r1] s0 s1); auto.
    - cbn [iterates]. fold N. rewrite HT. reflexivity.
    - intros i j Hi Hj. rewrite M3, M6 by auto. reflexivity.
    - intros i Hi. reflexivity.
  Qed.
End Statement.
