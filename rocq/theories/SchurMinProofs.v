(* The Schur solver and the full problem: cost, minimisers, layouts. *)
From Coq Require Import Reals List Arith Bool Lia Lra Psatz.
From Verif Require Import RVec PyModel DirichletSpec LinAlg ForcesSpec ContactModel ContactSpec ContactProofs ContactExtraProofs
  ContactWitness SchurModel SchurSpec SchurProofs.
Import ListNotations.
Local Open Scope R_scope.

(* --------------------------------------- the cost sees contact nodes only *)

Definition aeq (a b : arr) : Prop := fst a = fst b /\ veq (fst a) (snd a) (snd b).

Lemma entries_aeq a b : aeq a b -> entries a = entries b.
Proof.
  intros [H E]. unfold entries. rewrite <- H. apply map_ext_in. intros i Hi. apply in_seq in Hi. apply E. lia.
Qed.
Lemma total_aeq a b : aeq a b -> total a = total b.
Proof. intros [H E]. unfold total. rewrite <- H. apply sum_ext. exact E. Qed.

Lemma split_aeq v v' n : aeq v v' ->
  match split v n, split v' n with
  | Ok (r, t), Ok (r', t') => r = r' /\ aeq t t'
  | Err e, Err e' => e = e'
  | _, _ => False
  end.
Proof.
  destruct v as [a v], v' as [a' v']. intros [H E]. cbn [fst snd] in H, E. subst a'.
  unfold split, broadcast, times. cbn [fst snd].
  destruct (Nat.eqb_spec a (fst n)) as [Ha|Ha]; cbn [bind fst snd].
  - assert (T : total (a, fun i => v i * snd n i) = total (a, fun i => v' i * snd n i)).
    { apply total_aeq. split; [reflexivity|]. intros i Hi. cbn [snd]. rewrite E by exact Hi. reflexivity. }
    split; [exact T|]. rewrite T. split; [reflexivity|]. intros i Hi. cbn [fst snd] in *. rewrite E by exact Hi. reflexivity.
  - destruct (Nat.eqb_spec a 1) as [H1|H1]; cbn [bind fst snd].
    + subst a. assert (E0 : v 0%nat = v' 0%nat) by (apply E; lia). rewrite !E0.
      split; [reflexivity|]. split; [reflexivity|]. intros i _. cbn [snd]. reflexivity.
    + destruct (Nat.eqb_spec (fst n) 1) as [Hn|Hn]; cbn [bind fst snd]; [|reflexivity].
      assert (T : total (a, fun i => v i * snd n 0%nat) = total (a, fun i => v' i * snd n 0%nat)).
      { apply total_aeq. split; [reflexivity|]. intros i Hi. cbn [snd]. rewrite E by exact Hi. reflexivity. }
      split; [exact T|]. rewrite T. split; [reflexivity|]. intros i Hi. cbn [fst snd] in *. rewrite E by exact Hi. reflexivity.
Qed.

Section Cost.
  Variables (jn hn : callable R) (jt : callable (list R)) (ht : callable R).
  Variables (pd vd : nat) (nodes : nat -> vec) (width : nat) (normals : nat -> vec).

  Lemma point_cost_ext e n v v' u dt : (vd <> 0)%nat -> fst v = vd -> aeq v v' ->
    point_cost jn hn jt ht pd vd nodes e n v u dt = point_cost jn hn jt ht pd vd nodes e n v' u dt.
  Proof.
    intros Hv Hl E. unfold point_cost. destruct (Nat.eqb_spec vd 1) as [H1|H1].
    - assert (E0 : snd v 0%nat = snd v' 0%nat) by (apply (proj2 E); lia). rewrite E0. reflexivity.
    - pose proof (split_aeq v v' n E) as S.
      destruct (split v n) as [[r t]|x], (split v' n) as [[r' t']|x']; try contradiction.
      + destruct S as [-> S]. cbn [bind]. rewrite (entries_aeq t t' S). reflexivity.
      + subst x'. reflexivity.
  Qed.

  Lemma accumulate_ext {A B} (f g : A -> B -> result A) l : (forall a x, In x l -> f a x = g a x) ->
    forall a, accumulate f l a = accumulate g l a.
  Proof.
    induction l as [|x l IH]; intros H a; [reflexivity|]. cbn [accumulate]. rewrite H by (simpl; auto).
    destruct (g a x); [|reflexivity]. cbn [bind]. apply IH. intros; apply H; simpl; auto.
  Qed.

  (* nodal values agree on the faces *)
  Theorem contact_cost_agrees nc nf x xc old u faces dt : (vd <> 0)%nat ->
    (forall e a, In e faces -> In a e -> (a < nc)%nat) -> contact_of vd nc nf x xc ->
    contact_cost_functional jn hn jt ht pd vd nodes width normals (vd * nc, xc)%nat old u faces dt
    = contact_cost_functional jn hn jt ht pd vd nodes width normals (vd * (nc + nf), x)%nat old u faces dt.
  Proof.
    intros Hv HF HC. unfold contact_cost_functional. apply accumulate_ext. intros a ei Hei. apply in_seq in Hei.
    cbv zeta. set (e := nth ei faces []). assert (He : In e faces) by (apply nth_In; lia).
    apply accumulate_ext. intros a' col Hcol. apply in_seq in Hcol.
    assert (R : forall i node, (i < vd)%nat -> In node e ->
      read (vd * nc, xc)%nat old vd i node = read (vd * (nc + nf), x)%nat old vd i node).
    { intros i node Hi Hn. unfold read. cbn [fst snd]. rewrite (Nat.mul_comm vd nc), Nat.div_mul by auto.
      rewrite (Nat.mul_comm vd (nc + nf)), Nat.div_mul by auto.
      pose proof (HF e node He Hn) as Hlt.
      replace (node <? nc)%nat with true by (symmetry; apply Nat.ltb_lt; auto).
      replace (node <? nc + nf)%nat with true by (symmetry; apply Nat.ltb_lt; lia). apply HC; auto. }
    unfold column. rewrite (point_cost_ext e (width, normals ei) _ (vd, fun i => get_nodes e (vd * (nc + nf), x)%nat old vd i col));
      auto. split; [reflexivity|]. cbn [fst snd]. intros i Hi. unfold get_nodes. destruct col as [|n].
    - clear -R Hi. assert (G : forall l acc, (forall node, In node l -> In node e) ->
        fold_left (fun acc node => acc + read (vd * nc, xc)%nat old vd i node / INR (List.length e)) l acc
        = fold_left (fun acc node => acc + read (vd * (nc + nf), x)%nat old vd i node / INR (List.length e)) l acc).
      { induction l as [|y l IH]; intros acc H; [reflexivity|]. cbn [fold_left]. rewrite R by (auto; apply H; simpl; auto).
        apply IH. intros; apply H; simpl; auto. }
      apply G. auto.
    - f_equal. apply R; auto. apply nth_In. lia.
  Qed.
End Cost.

(* ------------------------------------------------------- the solver *)

Lemma pos_def_inverse n A : pos_def n A -> exists B, is_inverse n A B.
Proof.
  intros HP.
  assert (C : forall m, exists B : mat, forall i j, (i < n)%nat -> (j < m)%nat -> sum n (fun l => A i l * B l j) = delta i j).
  { induction m as [|m (B & HB)]; [exists (fun _ _ => 0); intros; lia|].
    destruct (pos_def_solvable n A (fun i => delta i m) HP) as (x & Hx).
    exists (fun l j => if (j =? m)%nat then x l else B l j). intros i j Hi Hj.
    destruct (Nat.eqb_spec j m) as [->|Hne]; [apply Hx; auto|apply HB; auto; lia]. }
  destruct (C n) as (B & HB). exists B. intros i j Hi Hj. split; [apply HB; auto|].
  (* A (B A) = A, so B A = 1 *)
  assert (E : veq n (fun i => sum n (fun l => B i l * A l j)) (fun i => delta i j)).
  { apply (pos_def_at_most_one n A (fun i => A i j) _ _ HP).
    - intros k Hk.
      rewrite (sum_ext n _ (fun l => sum n (fun m => A k l * B l m * A m j))).
      2:{ intros l _. rewrite <- sum_scal. apply sum_ext. intros m _. ring. }
      rewrite sum_swap. rewrite (sum_ext n _ (fun m => delta k m * A m j)).
      + apply (sum_delta_l n k (fun m => A m j)). auto.
      + intros m Hm. rewrite sum_scal_r, HB by auto. reflexivity.
    - intros k Hk. unfold mv. apply sum_delta_r. auto. }
  apply (E i Hi).
Qed.

Section Solver.
  Variable inv : nat -> mat -> result mat.
  Variables (d nc nf : nat).
  Let N := (nc + nf)%nat.

  (* a consistent state: the matrices of A, the forces of b *)
  Definition reduces (A : mat) (b : vec) (s : schur) : Prop :=
    let c := (0, nc)%nat in let f := (nc, nf)%nat in
    exists B bc bf, is_inverse (d * nf) (get_sliced N A f f) B /\ parts d nc nf b bc bf /\
      node_relations s = mkSized (d * nc) (d * nc) (fun i j => get_sliced N A c c i j
         - product (d * nf) (get_sliced N A c f) (product (d * nf) B (get_sliced N A f c)) i j) /\
      free_x_contact s = mkSized (d * nf) (d * nc) (get_sliced N A f c) /\
      contact_x_free s = mkSized (d * nc) (d * nf) (get_sliced N A c f) /\
      free_x_free_inverted s = mkSized (d * nf) (d * nf) B /\
      node_forces s = ((d * nc)%nat, fun i => bc i - mv (d * nf) (get_sliced N A c f) (mv (d * nf) B bf) i) /\
      forces_free s = ((d * nf)%nat, bf).

  Hypothesis Hinv : inverts inv.
  Hypothesis Hd : d <> 0%nat.

  Lemma vector_value b M B :
    exists bc bf, parts d nc nf b bc bf /\
      calculate_schur_complement_vector d nc N (d * N, b)%nat (mkSized (d * nc) (d * nf) M) (mkSized (d * nf) (d * nf) B)
      = Ok (((d * nc)%nat, fun i => bc i - mv (d * nf) M (mv (d * nf) B bf) i), ((d * nf)%nat, bf)).
  Proof.
    exists (stack_column nc (fun i k => unstack N b (0 + i)%nat k)), (stack_column nf (fun i k => unstack N b (nc + i)%nat k)).
    split.
    - split; intros k i Hk Hi; unfold stack_column, unstack; rewrite div_block, mod_block by auto; f_equal; unfold N; lia.
    - unfold calculate_schur_complement_vector. cbn [fst snd]. rewrite part_ok by auto. cbn [bind].
      unfold N. rewrite contact_ids_ok, free_ids_ok. cbn [fst snd]. unfold sized_mv. cbn [rows cols data fst snd].
      rewrite Nat.eqb_refl. cbn [bind fst snd]. rewrite Nat.eqb_refl. cbn [bind fst snd].
      unfold broadcast. cbn [fst snd]. rewrite Nat.eqb_refl. cbn [bind]. reflexivity.
  Qed.

  Theorem init_reduces A b s :
    init inv d nc N (mkSized (d * N) (d * N) A) (d * N, b)%nat = Ok s -> reduces A b s.
  Proof.
    unfold init, calculate_schur_complement_matrices. cbn [rows data]. rewrite part_ok by auto. cbn [bind].
    unfold N. rewrite contact_ids_ok, free_ids_ok. cbn [snd]. fold N.
    destruct (inv (d * nf)%nat _) as [B|e] eqn:E; [|discriminate]. cbn [bind].
    destruct (vector_value b (get_sliced N A (0%nat, nc) (nc, nf)) B) as (bc & bf & Hb & ->). cbn [bind].
    intros H. injection H as <-. exists B, bc, bf. split; [apply (Hinv _ _); exact E|].
    split; [exact Hb|]. repeat split.
  Qed.

  (* the initialisation succeeds iff the free block is invertible *)
  Theorem init_ok A b F : free_block d nc nf A F -> (exists B, is_inverse (d * nf) F B) ->
    exists s, init inv d nc N (mkSized (d * N) (d * N) A) (d * N, b)%nat = Ok s.
  Proof.
    intros HF (B0 & HB0). unfold init, calculate_schur_complement_matrices. cbn [rows data]. rewrite part_ok by auto. cbn [bind].
    unfold N. rewrite contact_ids_ok, free_ids_ok. cbn [snd]. fold N.
    destruct (proj2 (Hinv (d * nf)%nat (get_sliced N A (nc, nf) (nc, nf)))) as (B & ->).
    { exists B0. pose proof (free_block_ff d nc nf A F HF) as E. intros i j Hi Hj. destruct (HB0 i j Hi Hj) as [H1 H2].
      split; [rewrite <- H1|rewrite <- H2]; apply sum_ext; intros l Hl; rewrite <- (E _ _); auto. }
    cbn [bind]. destruct (vector_value b (get_sliced N A (0%nat, nc) (nc, nf)) B) as (bc & bf & Hb & ->). cbn [bind].
    eexists. reflexivity.
  Qed.

  (* iterate keeps a consistent state consistent as long as the matrix is the same *)
  Theorem iterate_reduces A b b' s : reduces A b s ->
    exists s', iterate d nc N s (d * N, b')%nat = Ok s' /\ reduces A b' s'.
  Proof.
    intros (B & bc & bf & HB & Hb & E1 & E2 & E3 & E4 & E5 & E6). unfold iterate. rewrite E3, E4.
    destruct (vector_value b' (get_sliced N A (0%nat, nc) (nc, nf)) B) as (bc' & bf' & Hb' & ->). cbn [bind].
    eexists. split; [reflexivity|]. exists B, bc', bf'. split; [exact HB|]. split; [exact Hb'|]. cbn [node_relations free_x_contact contact_x_free free_x_free_inverted node_forces forces_free]. auto 10.
  Qed.

  Lemma complement_ok A b s xc : reduces A b s ->
    exists B bc bf, is_inverse (d * nf) (get_sliced N A (nc, nf) (nc, nf)) B /\ parts d nc nf b bc bf /\
      complement_free_nodes s (d * nc, xc)%nat = Ok ((d * nf)%nat, complement d nc nf A B bf xc).
  Proof.
    intros (B & bc & bf & HB & Hb & E1 & E2 & E3 & E4 & E5 & E6). exists B, bc, bf. split; auto. split; auto.
    unfold complement_free_nodes. rewrite E2, E4, E6. unfold sized_mv at 1. cbn [rows cols data fst snd].
    rewrite Nat.eqb_refl. cbn [bind fst snd]. unfold broadcast. cbn [fst snd]. rewrite Nat.eqb_refl. cbn [bind].
    unfold sized_mv. cbn [rows cols data fst snd]. rewrite Nat.eqb_refl. reflexivity.
  Qed.

  (* C16 *)
  Theorem reduced_solution A b s x xc xf : reduces A b s -> parts d nc nf x xc xf ->
    (solves (d * N) A b x <->
     solves (d * nc) (data (node_relations s)) (snd (node_forces s)) xc /\
     exists r, complement_free_nodes s (d * nc, xc)%nat = Ok (d * nf, r)%nat /\ veq (d * nf) xf r).
  Proof.
    intros HR HX. assert (HR' := HR). destruct HR' as (B & bc & bf & HB & Hb & E1 & E2 & E3 & E4 & E5 & E6).
    assert (HC : complement_free_nodes s (d * nc, xc)%nat = Ok ((d * nf)%nat, complement d nc nf A B bf xc)).
    { unfold complement_free_nodes. rewrite E2, E4, E6. unfold sized_mv at 1. cbn [rows cols data fst snd].
      rewrite Nat.eqb_refl. cbn [bind fst snd]. unfold broadcast. cbn [fst snd]. rewrite Nat.eqb_refl. cbn [bind].
      unfold sized_mv. cbn [rows cols data fst snd]. rewrite Nat.eqb_refl. reflexivity. }
    unfold N. rewrite (schur_solves d nc nf A b B bc bf HB Hb x xc xf HX). rewrite E1, E5, HC. cbn [data snd].
    split; intros [H1 H2]; split; auto.
    - eexists. split; [reflexivity|exact H2].
    - destruct H2 as (r & Hr & H2). injection Hr as <-. exact H2.
  Qed.

  (* ---------------------------------------------------- minimisers *)

  Lemma cost_bind jn hn jt ht din dout nodes width normals n A b x old u faces dt :
    cost_functional jn hn jt ht din dout nodes width normals (mkSized n n A) (n, b) (n, x) old u faces dt
    = bind (contact_cost_functional jn hn jt ht din dout nodes width normals (n, x) old u faces dt)
           (fun ju => Ok (quadratic n A b x + ju)).
  Proof.
    unfold cost_functional. destruct (contact_cost_functional _ _ _ _ _ _ _ _ _ _ _ _ _ _) as [j|e]; [|reflexivity].
    cbn [bind]. unfold sized_mv, arr_dot, head. cbn [rows cols data fst snd]. rewrite Nat.min_id, Nat.eqb_refl. cbn [bind fst snd].
    rewrite Nat.eqb_refl. cbn [bind]. apply (f_equal Ok). unfold quadratic, qform. rewrite (dot_comm n x). lra.
  Qed.

  Lemma quadratic_veq n A b x y : veq n x y -> quadratic n A b x = quadratic n A b y.
  Proof.
    intros H. unfold quadratic. rewrite (qform_ext n A x y H), (dot_ext n b b x y); auto. intros ? ?; reflexivity.
  Qed.

  Section Minimisers.
    Variables (jn hn : callable R) (jt : callable (list R)) (ht : callable R) (din : nat) (nodes : nat -> vec) (width : nat) (normals : nat -> vec).
    Variables (old u : arr) (faces : list (list nat)) (dt : R).
    Hypothesis Hfaces : forall e a, In e faces -> In a e -> (a < nc)%nat.
    Variables (A F : mat) (b : vec) (s : schur).
    Hypothesis HR : reduces A b s.
    Hypothesis HS : symmetric (d * N) A.
    Hypothesis HF : free_block d nc nf A F.
    Hypothesis HP : pos_def (d * nf) F.

    Let full x := cost_functional jn hn jt ht din d nodes width normals (mkSized (d * N) (d * N) A) (d * N, b)%nat (d * N, x)%nat old u faces dt.
    Let small x := cost_functional jn hn jt ht din d nodes width normals (node_relations s) (node_forces s) (d * nc, x)%nat old u faces dt.

    Theorem reduced_minimiser x xc xf : parts d nc nf x xc xf ->
      (minimises full x <->
       minimises small xc /\
       exists r, complement_free_nodes s (d * nc, xc)%nat = Ok (d * nf, r)%nat /\ veq (d * nf) xf r).
    Proof.
      intros HX. destruct HR as (B & bc & bf & HB & Hb & E1 & E2 & E3 & E4 & E5 & E6).
      assert (HC : forall yc, complement_free_nodes s (d * nc, yc)%nat = Ok ((d * nf)%nat, complement d nc nf A B bf yc)).
      { intros yc. unfold complement_free_nodes. rewrite E2, E4, E6. unfold sized_mv at 1. cbn [rows cols data fst snd].
        rewrite Nat.eqb_refl. cbn [bind fst snd]. unfold broadcast. cbn [fst snd]. rewrite Nat.eqb_refl. cbn [bind].
        unfold sized_mv. cbn [rows cols data fst snd]. rewrite Nat.eqb_refl. reflexivity. }
      set (w := complement d nc nf A B bf) in *.
      set (K := fun yc => contact_cost_functional jn hn jt ht din d nodes width normals (d * nc, yc)%nat old u faces dt).
      set (S := fun i j => get_sliced N A (0%nat, nc) (0%nat, nc) i j
         - product (d * nf) (get_sliced N A (0%nat, nc) (nc, nf)) (product (d * nf) B (get_sliced N A (nc, nf) (0%nat, nc))) i j) in *.
      set (g := fun i => bc i - mv (d * nf) (get_sliced N A (0%nat, nc) (nc, nf)) (mv (d * nf) B bf) i) in *.
      set (k0 := / 2 * dot (d * nf) bf (mv (d * nf) B bf)).
      set (dev := fun yc yf => / 2 * qform (d * nf) (get_sliced N A (nc, nf) (nc, nf)) (fun i => yf i - w yc i)).
      assert (P0 : pos_def (d * nf) (get_sliced N A (nc, nf) (nc, nf))).
      { apply (pos_def_ext _ F); auto. apply free_block_ff. exact HF. }
      assert (Dpos : forall yc yf, 0 <= dev yc yf).
      { intros. unfold dev. pose proof (pos_def_semidef _ _ P0 (fun i => yf i - w yc i)). lra. }
      assert (Dzero : forall yc yf, veq (d * nf) yf (w yc) -> dev yc yf = 0).
      { intros yc yf E. unfold dev. rewrite (qform_ext _ _ _ (fun _ => 0)).
        - unfold qform, dot. rewrite sum_0; [ring|]. intros; ring.
        - intros i Hi. rewrite E by auto. ring. }
      assert (Dback : forall yc yf, dev yc yf = 0 -> veq (d * nf) yf (w yc)).
      { intros yc yf E i Hi. destruct (Req_dec (yf i) (w yc i)) as [|Hne]; auto. exfalso.
        assert (0 < qform (d * nf) (get_sliced N A (nc, nf) (nc, nf)) (fun i => yf i - w yc i)).
        { apply P0. exists i. split; auto. lra. }
        unfold dev in E. lra. }
      assert (Hsmall : forall yc, small yc = bind (K yc) (fun j => Ok (quadratic (d * nc) S g yc + j))).
      { intros yc. unfold small. rewrite E1, E5. apply cost_bind. }
      assert (Hfull : forall y yc yf, parts d nc nf y yc yf ->
        full y = bind (K yc) (fun j => Ok (quadratic (d * nc) S g yc - k0 + dev yc yf + j))).
      { intros y yc yf HY. unfold full. rewrite cost_bind. unfold K, N.
        rewrite (contact_cost_agrees _ _ _ _ din d nodes width normals nc nf y yc old u faces dt Hd Hfaces (proj1 HY)).
        destruct (contact_cost_functional _ _ _ _ _ _ _ _ _ _ _ _ _ _) as [j|e]; [|reflexivity]. cbn [bind].
        rewrite (schur_energy d nc nf A b B bc bf HB Hb HS y yc yf HY). reflexivity. }
      split.
      - intros (c & Hc & Hmin). rewrite (Hfull x xc xf HX) in Hc.
        destruct (K xc) as [j|e] eqn:EK; [|discriminate]. cbn [bind] in Hc. injection Hc as <-.
        assert (Z : dev xc xf = 0).
        { destruct (Hmin (join nc nf xc (w xc))) as (c' & Hc' & L).
          rewrite (Hfull _ xc (w xc) (join_parts d nc nf xc (w xc))), EK in Hc'. cbn [bind] in Hc'. injection Hc' as <-.
          rewrite (Dzero xc (w xc)) in L by (intros ? ?; reflexivity). pose proof (Dpos xc xf). lra. }
        split.
        + exists (quadratic (d * nc) S g xc + j). split; [rewrite Hsmall, EK; reflexivity|].
          intros yc. destruct (Hmin (join nc nf yc (w yc))) as (c' & Hc' & L).
          rewrite (Hfull _ yc (w yc) (join_parts d nc nf yc (w yc))) in Hc'.
          rewrite Hsmall. destruct (K yc) as [j'|e]; [|discriminate]. cbn [bind] in Hc' |- *. injection Hc' as <-.
          eexists. split; [reflexivity|]. rewrite (Dzero yc (w yc)) in L by (intros ? ?; reflexivity). lra.
        + exists (w xc). split; [apply HC|]. apply Dback. exact Z.
      - intros [(c & Hc & Hmin) (r & Hr & E)]. rewrite HC in Hr. injection Hr as <-.
        rewrite Hsmall in Hc. destruct (K xc) as [j|e] eqn:EK; [|discriminate]. cbn [bind] in Hc. injection Hc as <-.
        exists (quadratic (d * nc) S g xc - k0 + dev xc xf + j). split; [rewrite (Hfull x xc xf HX), EK; reflexivity|].
        intros y. pose proof (parts_of d nc nf y) as HY.
        set (yc := contact_part_of nc nf y) in *. set (yf := free_part_of nc nf y) in *.
        destruct (Hmin yc) as (c' & Hc' & L). rewrite Hsmall in Hc'. rewrite (Hfull y yc yf HY).
        destruct (K yc) as [j'|e]; [|discriminate]. cbn [bind] in Hc' |- *. injection Hc' as <-.
        eexists. split; [reflexivity|]. rewrite (Dzero xc xf E). pose proof (Dpos yc yf). lra.
    Qed.
  End Minimisers.
End Solver.

(* --------------------------------------------------------- layouts *)

Lemma div2 n : (n * 2 / 2 = n)%nat.
Proof. apply Nat.div_mul. lia. Qed.

Lemma part_2 n : part (2 * n) 2 = Ok n.
Proof. apply part_ok. lia. Qed.

(* dimension 2, or a driving vector: two components *)
Lemma merge_two d dv nc nf xc xf : d = 2%nat \/ dv = true ->
  merge d dv (2 * nc, xc)%nat (2 * nf, xf)%nat = Ok ((2 * (nc + nf))%nat, join nc nf xc xf).
Proof.
  intros H. unfold merge. replace ((d =? 2)%nat || dv)%bool with true.
  - cbn [fst snd]. rewrite !part_2. reflexivity.
  - symmetry. apply orb_true_iff. destruct H as [-> | ->]; auto.
Qed.

Lemma merge_one nc nf xc xf : 
  exists x, merge 1 false (nc, xc)%nat (nf, xf)%nat = Ok ((nc + nf)%nat, x) /\ parts 1 nc nf x xc xf.
Proof.
  eexists. split; [reflexivity|]. cbn [fst snd]. split; intros k i Hk Hi; replace k with 0%nat by lia; cbn [Nat.mul Nat.add].
  - apply Nat.ltb_lt in Hi. rewrite Hi. reflexivity.
  - destruct (Nat.ltb_spec (nc + i) nc); [lia|]. f_equal. lia.
Qed.

(* C18 *)
Theorem merge_layout d nc nf xc xf : d = 1%nat \/ d = 2%nat ->
  exists x, merge d false ((d * nc)%nat, xc) ((d * nf)%nat, xf) = Ok ((d * (nc + nf))%nat, x) /\ parts d nc nf x xc xf.
Proof.
  intros [-> | ->].
  - rewrite !Nat.mul_1_l. apply merge_one.
  - exists (join nc nf xc xf). split; [apply merge_two; auto|apply join_parts].
Qed.

Lemma truncate_two d dv nc nf x : d = 2%nat \/ dv = true ->
  exists xc, truncate_free_nodes d nc dv ((2 * (nc + nf))%nat, x) = Ok ((2 * nc)%nat, xc) /\ contact_of 2 nc nf x xc.
Proof.
  intros H. unfold truncate_free_nodes. replace ((d =? 2)%nat || dv)%bool with true.
  2:{ symmetry. apply orb_true_iff. destruct H as [-> | ->]; auto. }
  cbn [fst snd]. rewrite part_2. cbn [bind]. rewrite contact_ids_ok. cbn [snd].
  eexists. split; [reflexivity|]. intros k i Hk Hi. cbv beta. rewrite div_block, mod_block by auto. reflexivity.
Qed.

Theorem truncate_layout d nc nf x : d = 1%nat \/ d = 2%nat ->
  exists xc, truncate_free_nodes d nc false ((d * (nc + nf))%nat, x) = Ok ((d * nc)%nat, xc) /\ contact_of d nc nf x xc.
Proof.
  intros [-> | ->]; [|apply truncate_two; auto].
  exists x. rewrite !Nat.mul_1_l. unfold truncate_free_nodes. cbn [Nat.eqb orb fst snd]. split.
  - apply (f_equal Ok). f_equal. lia.
  - intros k i Hk Hi. f_equal. lia.
Qed.

(* merging the parts of a vector gives it back *)
Theorem merge_truncate d nc nf x xc xf : d = 1%nat \/ d = 2%nat -> parts d nc nf x xc xf ->
  exists y, merge d false ((d * nc)%nat, xc) ((d * nf)%nat, xf) = Ok ((d * (nc + nf))%nat, y) /\ veq (d * (nc + nf)) y x.
Proof.
  intros Hd HX. destruct (merge_layout d nc nf xc xf Hd) as (y & E & HY). exists y. split; auto.
  apply (parts_eq d nc nf y x xc xc xf xf HY HX). split; intros ? ?; reflexivity.
Qed.

(* three and more components: only the first component of the contact nodes is kept *)
Theorem truncate_space d nc nf x : (3 <= d)%nat ->
  truncate_free_nodes d nc false ((d * (nc + nf))%nat, x) = Ok (nc, x).
Proof.
  intros H. unfold truncate_free_nodes. destruct (Nat.eqb_spec d 2) as [|_]; [lia|]. cbn [orb fst snd].
  apply (f_equal Ok). f_equal. apply Nat.min_l. nia.
Qed.

Theorem merge_space d nc nf : (3 <= d)%nat -> (0 < nc)%nat -> (0 < nf)%nat ->
  exists xc xf x, merge d false ((d * nc)%nat, xc) ((d * nf)%nat, xf) = Ok ((d * (nc + nf))%nat, x) /\
    ~ parts d nc nf x xc xf.
Proof.
  intros H Hc Hf. exists (fun _ => 0), (fun _ => 1). unfold merge. destruct (Nat.eqb_spec d 2) as [|_]; [lia|]. cbn [orb fst snd].
  eexists. split; [rewrite Nat.mul_add_distr_l; reflexivity|]. intros [_ P].
  specialize (P 0%nat 0%nat ltac:(lia) Hf). cbv beta in P.
  destruct (Nat.ltb_spec (0 * (nc + nf) + nc + 0) (d * nc)) as [|G]; [lra|]. clear P. nia.
Qed.

(* ----------------------------------------------------- the whole step *)

Theorem solve_space inv d nc nf A b s optimise guess : inverts inv -> (3 <= d)%nat -> (0 < nc)%nat ->
  init inv d nc (nc + nf) (mkSized (d * (nc + nf)) (d * (nc + nf)) A) ((d * (nc + nf))%nat, b) = Ok s ->
  (forall x, fst (optimise x) = fst x) ->
  solve_impl d nc false optimise s guess = Err ValueError.
Proof.
  intros HI Hd Hc E Ho. apply init_reduces in E; auto; [|lia].
  destruct E as (B & bc & bf & HB & Hb & E1 & E2 & E3 & E4 & E5 & E6).
  unfold solve_impl, truncate_free_nodes. destruct (Nat.eqb_spec d 2) as [|_]; [lia|]. cbn [orb bind].
  unfold complement_free_nodes. rewrite E2. unfold sized_mv. cbn [cols rows data]. rewrite Ho. cbn [fst].
  destruct (Nat.eqb_spec (d * nc) (Nat.min nc (fst guess))) as [G|_]; [pose proof (Nat.le_min_l nc (fst guess)); nia|]. reflexivity.
Qed.

Section Step.
  Variables (d nc nf : nat).
  Hypothesis Hd : d = 1%nat \/ d = 2%nat.
  Let N := (nc + nf)%nat.
  Variables (jn hn : callable R) (jt : callable (list R)) (ht : callable R) (din : nat).
  Variables (nodes : nat -> vec) (width : nat) (normals : nat -> vec).
  Variables (old u : arr) (faces : list (list nat)) (dt : R).
  Hypothesis Hfaces : forall e a, In e faces -> In a e -> (a < nc)%nat.
  Variables (A F : mat) (b : vec) (s : schur).
  Hypothesis HR : reduces d nc nf A b s.
  Hypothesis HS : symmetric (d * N) A.
  Hypothesis HF : free_block d nc nf A F.
  Hypothesis HP : pos_def (d * nf) F.
  Let full x := cost_functional jn hn jt ht din d nodes width normals (mkSized (d * N) (d * N) A) (d * N, b)%nat (d * N, x)%nat old u faces dt.
  Let small x := cost_functional jn hn jt ht din d nodes width normals (node_relations s) (node_forces s) (d * nc, x)%nat old u faces dt.

  Let Hd0 : d <> 0%nat.
  Proof. lia. Qed.

  (* an optimiser that minimises exactly makes the solver minimise exactly *)
  Theorem solve_exact optimise x0 :
    (forall g, contact_of d nc nf x0 g ->
       exists xc, optimise ((d * nc)%nat, g) = ((d * nc)%nat, xc) /\ minimises small xc) ->
    exists x, solve_impl d nc false optimise s ((d * N)%nat, x0) = Ok ((d * N)%nat, x) /\ minimises full x.
  Proof.
    intros HO. unfold solve_impl, N. destruct (truncate_layout d nc nf x0 Hd) as (g & -> & Hg). cbn [bind].
    destruct (HO g Hg) as (xc & -> & Hmin).
    destruct (complement_ok d nc nf A b s xc HR) as (B & bc & bf & HB & Hb & HC). rewrite HC. cbn [bind].
    set (xf := complement d nc nf A B bf xc) in *.
    destruct (merge_layout d nc nf xc xf Hd) as (x & E & HX). exists x. split; [exact E|].
    apply (reduced_minimiser d nc nf Hd0 jn hn jt ht din nodes width normals old u faces dt Hfaces A F b s HR HS HF HP x xc xf HX).
    split; [exact Hmin|]. exists xf. split; [exact HC|]. intros ? ?; reflexivity.
  Qed.
End Step.

(* one unknown per node and a driving vector: the second half of the result is zero *)
Theorem solve_driving nc nf A b s optimise x0 xc : reduces 1 nc nf A b s ->
  (forall g, veq nc g x0 -> optimise (nc, g) = (nc, xc)) ->
  exists x xf, solve_impl 1 nc true optimise s ((2 * (nc + nf))%nat, x0) = Ok ((2 * (nc + nf))%nat, x) /\
    complement_free_nodes s (nc, xc) = Ok (nf, xf) /\ parts 1 nc nf x xc xf /\
    forall i, (i < nc + nf)%nat -> x (nc + nf + i)%nat = 0.
Proof.
  intros HR HO. unfold solve_impl. destruct (truncate_two 1 true nc nf x0 (or_intror eq_refl)) as (g & -> & Hg). cbn [bind].
  assert (E : optimise (head (fst (2 * nc, g)%nat / 2) ((2 * nc)%nat, g)) = (nc, xc)).
  { unfold head. cbn [fst snd]. rewrite (Nat.mul_comm 2 nc), div2. rewrite Nat.min_l by lia. apply HO.
    intros i Hi. specialize (Hg 0%nat i ltac:(lia) Hi). cbn [Nat.mul Nat.add] in Hg. exact Hg. }
  rewrite E. destruct (complement_ok 1 nc nf A b s xc HR) as (B & bc & bf & HB & Hb & HC).
  rewrite !Nat.mul_1_l in HC. rewrite HC. cbn [bind].
  set (xf := complement 1 nc nf A B bf xc) in *. unfold extend. cbn [fst snd].
  rewrite (Nat.mul_comm nc 2), (Nat.mul_comm nf 2), merge_two by auto.
  eexists. exists xf. split; [reflexivity|]. split; [reflexivity|]. split.
  - destruct (join_parts 2 nc nf (fun i => if (i <? nc)%nat then xc i else 0) (fun i => if (i <? nf)%nat then xf i else 0)) as [J1 J2].
    split; intros k i Hk Hi; [rewrite <- J1 by lia|rewrite <- J2 by lia].
    + destruct (Nat.ltb_spec (k * nc + i) nc); [reflexivity|nia].
    + destruct (Nat.ltb_spec (k * nf + i) nf); [reflexivity|nia].
  - intros i Hi. unfold join. replace (nc + nf + i)%nat with (1 * (nc + nf) + i)%nat by lia.
    rewrite div_block, mod_block by auto. destruct (Nat.ltb_spec i nc).
    + destruct (Nat.ltb_spec (1 * nc + i) nc); [lia|reflexivity].
    + destruct (Nat.ltb_spec (1 * nf + (i - nc)) nf); [lia|reflexivity].
Qed.

(* the loss of an interior law does not fit the reduced system *)
Theorem interior_mismatch nc nf law A b s M x u dt : reduces 1 nc nf A b s -> (0 < nf)%nat ->
  interior_loss law (node_relations s) (node_forces s) (nc, x) u (mkSized (nc + nf) (nc + nf) M) dt = Err ValueError.
Proof.
  intros (B & bc & bf & HB & Hb & E1 & E2 & E3 & E4 & E5 & E6) Hf. unfold interior_loss, equation_energy. rewrite E1, E5.
  unfold sized_mv, arr_dot, head. cbn [rows cols data fst snd]. rewrite !Nat.mul_1_l, Nat.min_id, Nat.eqb_refl. cbn [bind fst snd].
  rewrite Nat.eqb_refl. cbn [bind fst snd]. destruct (Nat.eqb_spec (nc + nf) nc); [lia|]. reflexivity.
Qed.
