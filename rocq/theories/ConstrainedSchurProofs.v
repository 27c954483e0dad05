(* The Schur solver on the eliminated system and minimisation over the admissible vectors. *)
From Coq Require Import Reals List Arith Bool Lia Lra Psatz.
From Verif Require Import Common PyModel RVec LinAlg DofModel DofSpec DirichletModel DirichletSpec DirichletProofs
  ForcesSpec ContactModel ContactSpec ContactProofs ConvexMin ContactCostProofs
  SchurModel SchurSpec SchurProofs SchurMinProofs ConstrainedSpec ConstrainedProofs.
Import ListNotations.
Local Open Scope R_scope.

Section Reduced.
  Variables (d nc nf : nat).
  Let N := (nc + nf)%nat.
  Variables (A F : mat) (b : vec) (s : schur).
  Hypothesis HR : reduces d nc nf A b s.
  Hypothesis HS : symmetric (d * N) A.
  Hypothesis HF : free_block d nc nf A F.
  Hypothesis HP : pos_def (d * nf) F.
  (* K sees the contact part only *)
  Variables (J K : vec -> R).
  Hypothesis HJ : forall y yc, contact_of d nc nf y yc -> J y = K yc.
  Let full x := quadratic (d * N) A b x + J x.
  Let small x := quadratic (d * nc) (data (node_relations s)) (snd (node_forces s)) x + K x.

  Theorem reduced_least x xc xf : parts d nc nf x xc xf ->
    ((forall y, full x <= full y) <->
     (forall yc, small xc <= small yc) /\
     exists r, complement_free_nodes s (d * nc, xc)%nat = Ok (d * nf, r)%nat /\ veq (d * nf) xf r).
  Proof.
    intros HX. destruct HR as (B & bc & bf & HB & Hb & E1 & E2 & E3 & E4 & E5 & E6).
    assert (HC : forall yc, complement_free_nodes s (d * nc, yc)%nat = Ok ((d * nf)%nat, complement d nc nf A B bf yc)).
    { intros yc. unfold complement_free_nodes. rewrite E2, E4, E6. unfold sized_mv at 1. cbn [rows cols data fst snd].
      rewrite Nat.eqb_refl. cbn [bind fst snd]. unfold broadcast. cbn [fst snd]. rewrite Nat.eqb_refl. cbn [bind].
      unfold sized_mv. cbn [rows cols data fst snd]. rewrite Nat.eqb_refl. reflexivity. }
    set (w := complement d nc nf A B bf) in *.
    set (k0 := / 2 * dot (d * nf) bf (mv (d * nf) B bf)).
    set (dev := fun yc yf => / 2 * qform (d * nf) (get_sliced N A (nc, nf) (nc, nf)) (fun i => yf i - w yc i)).
    assert (P0 : pos_def (d * nf) (get_sliced N A (nc, nf) (nc, nf))).
    { apply (pos_def_ext _ F); auto. apply free_block_ff. exact HF. }
    assert (Dpos : forall yc yf, 0 <= dev yc yf).
    { intros. unfold dev. pose proof (pos_def_semidef _ _ P0 (fun i => yf i - w yc i)). lra. }
    assert (Dzero : forall yc yf, veq (d * nf) yf (w yc) -> dev yc yf = 0).
    { intros yc yf E. unfold dev. rewrite (qform_ext _ _ _ (fun _ => 0)).
      - unfold qform, dot. rewrite sum_0; [ring|]. intros; ring.
      - intros i Hi. rewrite E by auto. ring. }
    assert (Dback : forall yc yf, dev yc yf = 0 -> veq (d * nf) yf (w yc)).
    { intros yc yf E i Hi. destruct (Req_dec (yf i) (w yc i)) as [|Hne]; auto. exfalso.
      assert (0 < qform (d * nf) (get_sliced N A (nc, nf) (nc, nf)) (fun i => yf i - w yc i)).
      { apply P0. exists i. split; auto. lra. }
      unfold dev in E. lra. }
    assert (Hfull : forall y yc yf, parts d nc nf y yc yf -> full y = small yc - k0 + dev yc yf).
    { intros y yc yf HY. unfold full, small, N. rewrite E1, E5. cbn [data snd].
      rewrite (schur_energy d nc nf A b B bc bf HB Hb HS y yc yf HY), (HJ y yc (proj1 HY)). unfold k0, dev, w, N. ring. }
    split.
    - intros M.
      assert (Z : dev xc xf = 0).
      { pose proof (M (join nc nf xc (w xc))) as L. rewrite (Hfull _ _ _ HX) in L.
        rewrite (Hfull _ xc (w xc) (join_parts d nc nf xc (w xc))) in L.
        rewrite (Dzero xc (w xc)) in L by (intros ? ?; reflexivity). pose proof (Dpos xc xf). lra. }
      split.
      + intros yc. pose proof (M (join nc nf yc (w yc))) as L. rewrite (Hfull _ _ _ HX) in L.
        rewrite (Hfull _ yc (w yc) (join_parts d nc nf yc (w yc))) in L.
        rewrite (Dzero yc (w yc)) in L by (intros ? ?; reflexivity). lra.
      + exists (w xc). split; [apply HC|]. apply Dback. exact Z.
    - intros [M (r & Hr & E)] y. rewrite HC in Hr. injection Hr as <-.
      pose proof (parts_of d nc nf y) as HY. rewrite (Hfull _ _ _ HX), (Hfull _ _ _ HY), (Dzero xc xf E).
      pose proof (M (contact_part_of nc nf y)). pose proof (Dpos (contact_part_of nc nf y) (free_part_of nc nf y)). lra.
  Qed.
End Reduced.

Lemma quadratic_meq n A A' b b' x : meq n n A A' -> veq n b b' -> quadratic n A b x = quadratic n A' b' x.
Proof.
  intros HA Hb. unfold quadratic, qform. f_equal.
  - f_equal. apply dot_ext; [intros ? ?; reflexivity|]. intros i Hi. unfold mv. apply sum_ext. intros j Hj. rewrite HA; auto.
  - apply dot_ext; [exact Hb|intros ? ?; reflexivity].
Qed.

(* the form on a vector without contact part *)
Lemma qform_free_part d nc nf A x xf : parts d nc nf x (fun _ => 0) xf ->
  qform (d * (nc + nf)) A x = qform (d * nf) (get_sliced (nc + nf) A (nc, nf) (nc, nf)) xf.
Proof.
  intros HX. unfold qform. rewrite (dot_parts d nc nf x _ _ _ _ _ HX (mv_parts d nc nf A x _ xf HX)).
  assert (Z : forall n w, dot n (fun _ => 0) w = 0) by (intros; unfold dot; apply sum_0; intros; ring).
  rewrite Z, Rplus_0_l. apply dot_ext; [intros ? ?; reflexivity|]. intros i _. cbv beta.
  unfold mv at 1. rewrite sum_0 by (intros; ring). ring.
Qed.

(* a principal block of a matrix definite on the admissible differences, after elimination *)
Lemma eliminated_free_block n d nc nf A b conds : (n = d * (nc + nf))%nat -> well_shaped n conds ->
  definite_among n (prescribed conds) A ->
  exists F, free_block d nc nf (lhs (apply_dirichlet conds (mkSystem A b))) F /\ pos_def (d * nf) F.
Proof.
  intros -> HW HD. set (A' := lhs (apply_dirichlet conds (mkSystem A b))).
  assert (PD : pos_def (d * (nc + nf)) A') by (apply elimination_pos_def; auto).
  exists (get_sliced (nc + nf) A' (nc, nf) (nc, nf)). split.
  - intros k i l j Hk Hi Hl Hj. unfold get_sliced, matrix_split. cbn [fst snd]. rewrite !div_block, !mod_block by auto.
    f_equal; lia.
  - intros xf (i & Hi & Hx).
    assert (nf <> 0)%nat by (intros ->; lia).
    set (x := join nc nf (fun _ => 0) xf).
    assert (HX : parts d nc nf x (fun _ => 0) xf) by apply join_parts.
    assert (E : qform (d * (nc + nf)) A' x = qform (d * nf) (get_sliced (nc + nf) A' (nc, nf) (nc, nf)) xf).
    { apply (qform_free_part d nc nf A' x xf HX). }
    rewrite <- E. apply PD. exists (i / nf * (nc + nf) + nc + i mod nf)%nat.
    assert (L : (i / nf < d)%nat) by (apply Nat.div_lt_upper_bound; lia).
    pose proof (Nat.mod_upper_bound i nf ltac:(assumption)) as U. split; [nia|].
    rewrite <- (proj2 HX (i / nf)%nat (i mod nf)%nat L U).
    replace (i / nf * nf + i mod nf)%nat with i; [exact Hx|]. pose proof (Nat.div_mod i nf ltac:(assumption)). lia.
Qed.

Section SchurProblem.
  Variables (law : contact_law) (nodes : nat -> vec) (normals : nat -> vec) (faces : list (list nat)) (nc nf : nat).
  Let N := (nc + nf)%nat.
  Variables (A : mat) (b : vec) (old u : vec) (dt : R) (conds : list condition).
  Hypothesis HF : faces_ok 2 N faces.
  Hypothesis HW : well_shaped (2 * N) conds.
  Hypothesis HK : consistent (prescribed conds).
  Hypothesis HS : symmetric (2 * N) A.
  Hypothesis HD : definite_among (2 * N) (prescribed conds) A.
  Let sys := apply_dirichlet conds (mkSystem A b).
  (* the arrays that the solver was given: the system up to its size *)
  Variables (A' : mat) (b' : vec) (s : schur).
  Hypothesis HA' : meq (2 * N) (2 * N) A' (lhs sys).
  Hypothesis Hb' : veq (2 * N) b' (rhs sys).
  Hypothesis HR : reduces 2 nc nf A' b' s.
  (* every dof of a contact face is a free one of a contact node, or a prescribed one of
     another node that has the prescribed value already *)
  Hypothesis HT : forall e a k, In e faces -> In a e -> (k < 2)%nat ->
    (a < nc)%nat /\ ~ fixed_dof (prescribed conds) N a k \/
    (nc <= a)%nat /\ prescribed conds (k * N + a) (old (k * N + a)%nat).
  Let cost x := loss law 2 2 nodes 2 normals (mkSized (2 * N) (2 * N) A) (2 * N, b)%nat
                  (2 * N, x)%nat (2 * N, old)%nat (2 * N, u)%nat faces dt.
  Let small x := loss law 2 2 nodes 2 normals (node_relations s) (node_forces s)
                  (2 * nc, x)%nat (2 * N, old)%nat (2 * N, u)%nat faces dt.

  Theorem schur_constrained x xc xf : parts 2 nc nf x xc xf ->
    (minimises_among (prescribed conds) cost x <->
     minimises small xc /\
     exists r, complement_free_nodes s (2 * nc, xc)%nat = Ok (2 * nf, r)%nat /\ veq (2 * nf) xf r).
  Proof.
    intros HX. destruct (pinned_values (2 * N) A b conds HW HK) as (g & HG & HP & HL & HR').
    set (J := fun x => contact_energy law nodes normals faces dt (nodal N u) (nodal N x)).
    set (K := fun xc => contact_energy law nodes normals faces dt (nodal N u) (mixed nc xc N old)).
    set (Je := fun x => J (settled conds g x)).
    assert (Hcost : forall y, cost y = Ok (quadratic (2 * N) A b y + J y)).
    { intros y. exact (loss_value law nodes normals faces N A b y N old u dt HF). }
    assert (Hsmall : forall y, small y = Ok (quadratic (2 * nc) (data (node_relations s)) (snd (node_forces s)) y + K y)).
    { intros y. destruct HR as (B & bc & bf & _ & _ & E1 & _ & _ & _ & E5 & _). unfold small, loss. rewrite E1, E5.
      rewrite cost_bind. rewrite (contact_value _ _ _ _ nodes normals N faces nc y N old u dt HF). cbn [bind data snd]. reflexivity. }
    assert (HJ : forall y yc, contact_of 2 nc nf y yc -> Je y = K yc).
    { intros y yc Hy. unfold Je, J, K. apply contact_energy_ext. intros e a k He Ha Hk.
      destruct (HT e a k He Ha Hk) as [[H1 H2]|[H1 H2]].
      - rewrite mixed_low by exact H1. unfold nodal, settled.
        destruct (pinned (sequence conds) (k * N + a)) eqn:Q.
        + exfalso. apply H2. exists (g (k * N + a)%nat). apply HP. exact Q.
        + symmetry. apply Hy; auto.
      - unfold mixed. destruct (Nat.ltb_spec a nc); [lia|]. unfold nodal, settled.
        destruct (HG _ _ H2) as [Q E]. rewrite Q. exact E. }
    destruct (eliminated_free_block (2 * N) 2 nc nf A b conds eq_refl HW HD) as (F & FB & FP).
    assert (HSe : symmetric (2 * N) A').
    { intros i j Hi Hj. rewrite !HA' by auto. apply (elimination_symmetric (2 * N) A b conds HW HS); auto. }
    assert (FB' : free_block 2 nc nf A' F).
    { intros k i l j Hk Hi Hl Hj. rewrite HA' by (unfold N; nia). apply FB; auto. }
    rewrite (minimises_among_iff _ _ _ x Hcost), (minimises_iff _ _ xc Hsmall).
    rewrite <- (eliminated_minimiser (2 * N) A b conds HW HS g HG HP HR' J Je
      (contact_energy_local _ _ _ _ _ _ _ HF) ltac:(reflexivity)).
    rewrite <- (reduced_least 2 nc nf A' F b' s HR HSe FB' FP Je K HJ x xc xf HX).
    assert (Q : forall y, quadratic (2 * N) (lhs sys) (rhs sys) y = quadratic (2 * N) A' b' y).
    { intros y. apply quadratic_meq; [intros i j Hi Hj; symmetry; apply HA'; auto|intros i Hi; symmetry; apply Hb'; auto]. }
    fold sys. split; intros M y; specialize (M y); [rewrite <- !Q|rewrite !Q]; exact M.
  Qed.

  (* the whole step: the answer is the solution of the constrained problem, and writing the
     prescribed values into it changes nothing *)
  Theorem schur_step optimise x0 :
    (forall g, contact_of 2 nc nf x0 g ->
       exists xc, optimise ((2 * nc)%nat, g) = ((2 * nc)%nat, xc) /\ minimises small xc) ->
    exists x, solve_impl 2 nc false optimise s ((2 * N)%nat, x0) = Ok ((2 * N)%nat, x) /\
      minimises_among (prescribed conds) cost x.
  Proof.
    intros HO. unfold solve_impl, N. destruct (truncate_layout 2 nc nf x0 ltac:(auto)) as (g & -> & Hg). cbn [bind].
    destruct (HO g Hg) as (xc & -> & Hmin).
    destruct (complement_ok 2 nc nf A' b' s xc HR) as (B & bc & bf & HB & Hb & HC). rewrite HC. cbn [bind].
    set (xf := complement 2 nc nf A' B bf xc) in *.
    destruct (merge_layout 2 nc nf xc xf ltac:(auto)) as (x & E & HX). exists x. split; [exact E|].
    apply (schur_constrained x xc xf HX). split; [exact Hmin|]. exists xf. split; [exact HC|]. intros ? ?; reflexivity.
  Qed.
End SchurProblem.
