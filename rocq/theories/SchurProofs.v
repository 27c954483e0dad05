(* Block elimination: solutions, energies, minimisers. *)
From Coq Require Import Reals List Arith Bool Lia Lra Psatz.
From Verif Require Import RVec PyModel DirichletSpec LinAlg ForcesSpec ContactModel ContactSpec ContactProofs SchurModel SchurSpec.
Import ListNotations.
Local Open Scope R_scope.

(* ------------------------------------------------------- indices *)

Lemma div_block k n i : (i < n)%nat -> ((k * n + i) / n = k)%nat.
Proof. intros H. rewrite Nat.div_add_l by lia. rewrite Nat.div_small by auto. lia. Qed.
Lemma mod_block k n i : (i < n)%nat -> ((k * n + i) mod n = i)%nat.
Proof. intros H. rewrite Nat.add_comm, Nat.mod_add by lia. apply Nat.mod_small. auto. Qed.
Lemma block_lt k d n i : (k < d)%nat -> (i < n)%nat -> (k * n + i < d * n)%nat.
Proof. intros. nia. Qed.

Lemma block_index d n r : (r < d * n)%nat -> exists k i, (k < d)%nat /\ (i < n)%nat /\ r = (k * n + i)%nat.
Proof.
  intros H. assert (n <> 0)%nat by nia. exists (r / n)%nat, (r mod n)%nat.
  split; [apply Nat.div_lt_upper_bound; nia|]. split; [apply Nat.mod_upper_bound; auto|].
  rewrite (Nat.mul_comm (r / n)). apply Nat.div_mod; auto.
Qed.

Lemma full_index d nc nf r : (r < d * (nc + nf))%nat ->
  exists k i, (k < d)%nat /\ ((i < nc)%nat /\ r = (k * (nc + nf) + i)%nat
                              \/ (i < nf)%nat /\ r = (k * (nc + nf) + nc + i)%nat).
Proof.
  intros H. destruct (block_index d (nc + nf) r H) as (k & i & Hk & Hi & ->).
  destruct (le_lt_dec nc i).
  - exists k, (i - nc)%nat. split; auto. right. split; lia.
  - exists k, i. split; auto.
Qed.

Lemma sum_parts d nc nf f fc ff : parts d nc nf f fc ff ->
  sum (d * (nc + nf)) f = sum (d * nc) fc + sum (d * nf) ff.
Proof.
  intros [Hc Hf]. rewrite !sum_blocks. rewrite <- sum_plus. apply sum_ext. intros k Hk.
  rewrite sum_split. f_equal; apply sum_ext; intros i Hi.
  - rewrite Hc; auto.
  - rewrite Hf by auto. f_equal. lia.
Qed.

(* joining the parts *)
Definition join (nc nf : nat) (xc xf : vec) : vec := fun r =>
  let k := (r / (nc + nf))%nat in let i := (r mod (nc + nf))%nat in
  if (i <? nc)%nat then xc (k * nc + i)%nat else xf (k * nf + (i - nc))%nat.

Lemma join_parts d nc nf xc xf : parts d nc nf (join nc nf xc xf) xc xf.
Proof.
  split; intros k i Hk Hi; unfold join.
  - rewrite div_block, mod_block by lia. apply Nat.ltb_lt in Hi. rewrite Hi. reflexivity.
  - replace (k * (nc + nf) + nc + i)%nat with (k * (nc + nf) + (nc + i))%nat by lia.
    rewrite div_block, mod_block by lia. replace (nc + i <? nc)%nat with false.
    2:{ symmetry. apply Nat.ltb_ge. lia. }
    f_equal. lia.
Qed.

Lemma parts_join d nc nf x xc xf : parts d nc nf x xc xf -> veq (d * (nc + nf)) (join nc nf xc xf) x.
Proof.
  intros [Hc Hf] r Hr. destruct (join_parts d nc nf xc xf) as [Jc Jf].
  destruct (full_index d nc nf r Hr) as (k & i & Hk & [[Hi ->] | [Hi ->]]).
  - rewrite <- Jc, <- Hc; auto.
  - rewrite <- Jf, <- Hf; auto.
Qed.

(* the parts of a vector *)
Definition contact_part_of (nc nf : nat) (x : vec) : vec := fun r => x (r / nc * (nc + nf) + r mod nc)%nat.
Definition free_part_of (nc nf : nat) (x : vec) : vec := fun r => x (r / nf * (nc + nf) + nc + r mod nf)%nat.
Lemma parts_of d nc nf x : parts d nc nf x (contact_part_of nc nf x) (free_part_of nc nf x).
Proof.
  split; intros k i Hk Hi; unfold contact_part_of, free_part_of; rewrite div_block, mod_block by auto; reflexivity.
Qed.

Lemma contact_unique d nc nf x xc xc' : contact_of d nc nf x xc -> contact_of d nc nf x xc' -> veq (d * nc) xc xc'.
Proof.
  intros H H' r Hr. destruct (block_index d nc r Hr) as (k & i & Hk & Hi & ->). rewrite H, H'; auto.
Qed.
Lemma free_unique d nc nf x xf xf' : free_of d nc nf x xf -> free_of d nc nf x xf' -> veq (d * nf) xf xf'.
Proof.
  intros H H' r Hr. destruct (block_index d nf r Hr) as (k & i & Hk & Hi & ->). rewrite H, H'; auto.
Qed.
Lemma contact_veq d nc nf x xc xc' : contact_of d nc nf x xc -> veq (d * nc) xc xc' -> contact_of d nc nf x xc'.
Proof. intros H E k i Hk Hi. rewrite <- E; [apply H; auto|]. apply block_lt; auto. Qed.
Lemma free_veq d nc nf x xf xf' : free_of d nc nf x xf -> veq (d * nf) xf xf' -> free_of d nc nf x xf'.
Proof. intros H E k i Hk Hi. rewrite <- E; [apply H; auto|]. apply block_lt; auto. Qed.

(* ------------------------------------------------------ sizes *)

Lemma part_ok d n : d <> 0%nat -> part (d * n) d = Ok n.
Proof.
  intros H. unfold part. rewrite Nat.mul_comm, Nat.mod_mul, Nat.eqb_refl by auto.
  rewrite Nat.div_mul by auto. reflexivity.
Qed.
Lemma contact_ids_ok nc nf : contact_ids nc (nc + nf) = (0, nc)%nat.
Proof. unfold contact_ids, clip. f_equal; lia. Qed.
Lemma free_ids_ok nc nf : free_ids nc (nc + nf) (nc + nf) = (nc, nf)%nat.
Proof. unfold free_ids, clip. f_equal; lia. Qed.

(* ---------------------------------------------------- matrix algebra *)

Lemma mv_product n k A B x i : mv n (product k A B) x i = mv k A (mv n B x) i.
Proof.
  unfold mv, product.
  rewrite (sum_ext n _ (fun j => sum k (fun l => A i l * B l j * x j))).
  2:{ intros j _. rewrite <- sum_scal_r. reflexivity. }
  rewrite sum_swap. apply sum_ext. intros l _. rewrite <- sum_scal. apply sum_ext. intros; ring.
Qed.

Lemma mv_vext n A x y i : veq n x y -> mv n A x i = mv n A y i.
Proof. intros H. unfold mv. apply sum_ext. intros j Hj. rewrite H; auto. Qed.

Lemma inverse_left n A B x : is_inverse n A B -> veq n (mv n B (mv n A x)) x.
Proof.
  intros H i Hi. change (mv n B (mv n A x) i = x i). rewrite <- mv_product. unfold mv, product.
  rewrite (sum_ext n _ (fun j => delta i j * x j)).
  - apply sum_delta_l; auto.
  - intros j Hj. destruct (H i j Hi Hj) as [_ E]. rewrite E. reflexivity.
Qed.
Lemma inverse_right n A B x : is_inverse n A B -> veq n (mv n A (mv n B x)) x.
Proof.
  intros H i Hi. rewrite <- mv_product. unfold mv, product.
  rewrite (sum_ext n _ (fun j => delta i j * x j)).
  - apply sum_delta_l; auto.
  - intros j Hj. destruct (H i j Hi Hj) as [E _]. rewrite E. reflexivity.
Qed.

Section Blocks.
  Variables (d nc nf : nat) (A : mat) (b : vec).
  Let N := (nc + nf)%nat.
  Let c := (0, nc)%nat.
  Let f := (nc, nf)%nat.
  Let CC := get_sliced N A c c.
  Let CF := get_sliced N A c f.
  Let FC := get_sliced N A f c.
  Let FF := get_sliced N A f f.

  Lemma sliced_cc k i l j : (i < nc)%nat -> (j < nc)%nat -> CC (k * nc + i)%nat (l * nc + j)%nat = A (k * N + i)%nat (l * N + j)%nat.
  Proof. intros. unfold CC, get_sliced, matrix_split. cbn [fst snd c]. rewrite !div_block, !mod_block by auto. reflexivity. Qed.
  Lemma sliced_cf k i l j : (i < nc)%nat -> (j < nf)%nat -> CF (k * nc + i)%nat (l * nf + j)%nat = A (k * N + i)%nat (l * N + nc + j)%nat.
  Proof.
    intros. unfold CF, get_sliced, matrix_split. cbn [fst snd c f]. rewrite !div_block, !mod_block by auto. f_equal. lia.
  Qed.
  Lemma sliced_fc k i l j : (i < nf)%nat -> (j < nc)%nat -> FC (k * nf + i)%nat (l * nc + j)%nat = A (k * N + nc + i)%nat (l * N + j)%nat.
  Proof.
    intros. unfold FC, get_sliced, matrix_split. cbn [fst snd c f]. rewrite !div_block, !mod_block by auto. f_equal. lia.
  Qed.
  Lemma sliced_ff k i l j : (i < nf)%nat -> (j < nf)%nat -> FF (k * nf + i)%nat (l * nf + j)%nat = A (k * N + nc + i)%nat (l * N + nc + j)%nat.
  Proof.
    intros. unfold FF, get_sliced, matrix_split. cbn [fst snd c f]. rewrite !div_block, !mod_block by auto. f_equal; lia.
  Qed.

  Lemma free_block_ff F : free_block d nc nf A F -> meq (d * nf) (d * nf) F FF.
  Proof.
    intros H r s Hr Hs. destruct (block_index d nf r Hr) as (k & i & Hk & Hi & ->).
    destruct (block_index d nf s Hs) as (l & j & Hl & Hj & ->). rewrite sliced_ff by auto. apply H; auto.
  Qed.
  Lemma ff_block : free_block d nc nf A FF.
  Proof. intros k i l j Hk Hi Hl Hj. apply sliced_ff; auto. Qed.

  (* A x by parts *)
  Lemma mv_parts x xc xf : parts d nc nf x xc xf ->
    parts d nc nf (mv (d * N) A x) (fun r => mv (d * nc) CC xc r + mv (d * nf) CF xf r)
                                   (fun r => mv (d * nc) FC xc r + mv (d * nf) FF xf r).
  Proof.
    intros [Hc Hf]. split; intros k i Hk Hi; unfold mv; symmetry; apply sum_parts; split; intros l j Hl Hj; cbv beta.
    - fold N. rewrite sliced_cc, Hc by auto. reflexivity.
    - fold N. rewrite sliced_cf, Hf by auto. reflexivity.
    - fold N. rewrite sliced_fc, Hc by auto. reflexivity.
    - fold N. rewrite sliced_ff, Hf by auto. reflexivity.
  Qed.

  Lemma parts_eq x y xc yc xf yf : parts d nc nf x xc xf -> parts d nc nf y yc yf ->
    (veq (d * N) x y <-> veq (d * nc) xc yc /\ veq (d * nf) xf yf).
  Proof.
    intros [Xc Xf] [Yc Yf]. split.
    - intros H. split; intros r Hr.
      + destruct (block_index d nc r Hr) as (k & i & Hk & Hi & ->). rewrite Xc, Yc by auto. apply H. unfold N. nia.
      + destruct (block_index d nf r Hr) as (k & i & Hk & Hi & ->). rewrite Xf, Yf by auto. apply H. unfold N. nia.
    - intros [Hc Hf] r Hr. destruct (full_index d nc nf r Hr) as (k & i & Hk & [[Hi ->] | [Hi ->]]).
      + rewrite <- Xc, <- Yc by auto. apply Hc. apply block_lt; auto.
      + rewrite <- Xf, <- Yf by auto. apply Hf. apply block_lt; auto.
  Qed.

  Variables (B : mat) (bc bf : vec).
  Hypothesis HB : is_inverse (d * nf) FF B.
  Hypothesis Hb : parts d nc nf b bc bf.

  Let S : mat := fun i j => CC i j - product (d * nf) CF (product (d * nf) B FC) i j.
  Let g : vec := fun i => bc i - mv (d * nf) CF (mv (d * nf) B bf) i.

  (* the complement *)
  Definition complement (xc : vec) : vec := mv (d * nf) B (fun i => bf i - mv (d * nc) FC xc i).

  Lemma S_mv xc i : mv (d * nc) S xc i = mv (d * nc) CC xc i - mv (d * nf) CF (mv (d * nf) B (mv (d * nc) FC xc)) i.
  Proof.
    unfold S. unfold mv at 1. rewrite (sum_ext (d * nc) _ (fun j => CC i j * xc j - product (d * nf) CF (product (d * nf) B FC) i j * xc j)).
    2:{ intros; ring. }
    rewrite sum_minus. f_equal. change (mv (d * nc) (product (d * nf) CF (product (d * nf) B FC)) xc i =
      mv (d * nf) CF (mv (d * nf) B (mv (d * nc) FC xc)) i).
    rewrite mv_product. apply mv_vext. intros j _. apply mv_product.
  Qed.

  Lemma mv_minus n M x y i : mv n M (fun j => x j - y j) i = mv n M x i - mv n M y i.
  Proof. unfold mv. rewrite <- sum_minus. apply sum_ext. intros; ring. Qed.

  Lemma complement_value xc i :
    complement xc i = mv (d * nf) B bf i - mv (d * nf) B (mv (d * nc) FC xc) i.
  Proof. unfold complement. apply mv_minus. Qed.

  (* C16 *)
  Theorem schur_solves x xc xf : parts d nc nf x xc xf ->
    (solves (d * N) A b x <-> solves (d * nc) S g xc /\ veq (d * nf) xf (complement xc)).
  Proof.
    intros HX. change (veq (d * N) (mv (d * N) A x) b <-> veq (d * nc) (mv (d * nc) S xc) g /\ veq (d * nf) xf (complement xc)).
    rewrite (parts_eq _ _ _ _ _ _ (mv_parts x xc xf HX) Hb).
    assert (E : veq (d * nf) (fun r => mv (d * nc) FC xc r + mv (d * nf) FF xf r) bf <-> veq (d * nf) xf (complement xc)).
    { split; intros H i Hi.
      - rewrite <- (inverse_left _ _ _ xf HB i Hi). unfold complement. apply mv_vext. intros j Hj.
        specialize (H j Hj). cbv beta in H. lra.
      - cbv beta. rewrite (mv_vext (d * nf) FF xf (complement xc) i H). unfold complement.
        rewrite (inverse_right _ _ _ _ HB i Hi). lra. }
    rewrite E. split; intros [H1 H2]; split; auto; intros i Hi; specialize (H1 i Hi); cbv beta in H1 |- *;
      rewrite (mv_vext (d * nf) CF xf (complement xc) i H2) in H1 ||
      rewrite (mv_vext (d * nf) CF xf (complement xc) i H2).
    - rewrite S_mv. unfold g. rewrite (mv_vext (d * nf) CF (complement xc) (fun j => mv (d * nf) B bf j - mv (d * nf) B (mv (d * nc) FC xc) j) i) in H1.
      2:{ intros j _. apply complement_value. }
      rewrite mv_minus in H1. lra.
    - rewrite S_mv in H1. unfold g in H1. rewrite (mv_vext (d * nf) CF (complement xc) (fun j => mv (d * nf) B bf j - mv (d * nf) B (mv (d * nc) FC xc) j) i).
      2:{ intros j _. apply complement_value. }
      rewrite mv_minus. lra.
  Qed.

  (* ------------------------------------------------------ energy *)

  Hypothesis HS : symmetric (d * N) A.

  Lemma ff_symmetric : symmetric (d * nf) FF.
  Proof.
    intros r s Hr Hs. destruct (block_index d nf r Hr) as (k & i & Hk & Hi & ->).
    destruct (block_index d nf s Hs) as (l & j & Hl & Hj & ->). rewrite !sliced_ff by auto.
    apply HS; unfold N; nia.
  Qed.

  Lemma dot_cf x y : dot (d * nc) x (mv (d * nf) CF y) = dot (d * nf) y (mv (d * nc) FC x).
  Proof.
    rewrite dot_mv_T, dot_comm. apply dot_ext; [intros ? ?; reflexivity|]. intros r Hr. unfold mv, mT.
    apply sum_ext. intros s Hs. destruct (block_index d nf r Hr) as (k & i & Hk & Hi & ->).
    destruct (block_index d nc s Hs) as (l & j & Hl & Hj & ->).
    rewrite sliced_cf, sliced_fc by auto. f_equal. apply HS; unfold N; nia.
  Qed.

  Lemma dot_parts x y xc yc xf yf : parts d nc nf x xc xf -> parts d nc nf y yc yf ->
    dot (d * N) x y = dot (d * nc) xc yc + dot (d * nf) xf yf.
  Proof.
    intros [Xc Xf] [Yc Yf]. unfold dot. apply sum_parts. split; intros k i Hk Hi; cbv beta.
    - rewrite Xc, Yc; auto.
    - rewrite Xf, Yf; auto.
  Qed.

  (* the quadratic energy is the reduced one, a constant, and the energy of the deviation of
     the free part from the complement *)
  Theorem schur_energy x xc xf : parts d nc nf x xc xf ->
    quadratic (d * N) A b x
    = quadratic (d * nc) S g xc - / 2 * dot (d * nf) bf (mv (d * nf) B bf)
      + / 2 * qform (d * nf) FF (fun i => xf i - complement xc i).
  Proof.
    intros HX. set (h := fun i => xf i - complement xc i).
    set (w := complement xc).
    set (p := mv (d * nc) FC xc).
    assert (HW : veq (d * nf) (mv (d * nf) FF w) (fun i => bf i - p i)).
    { intros i Hi. unfold w, complement. rewrite (inverse_right _ _ _ _ HB i Hi). reflexivity. }
    assert (Hxf : forall i, xf i = w i + h i) by (intros; unfold h, w; ring).
    unfold quadratic at 1. unfold qform.
    rewrite (dot_parts _ _ _ _ _ _ HX (mv_parts x xc xf HX)), (dot_parts _ _ _ _ _ _ Hb HX).
    fold p. rewrite !dot_plus_r, dot_cf. fold p.
    (* free part *)
    rewrite (dot_ext (d * nf) xf (fun i => w i + h i) p p) by (intros ? ?; auto).
    rewrite (dot_ext (d * nf) xf (fun i => w i + h i) (mv (d * nf) FF xf) (fun i => (bf i - p i) + mv (d * nf) FF h i)).
    2:{ intros i Hi; auto. }
    2:{ intros i Hi. rewrite (mv_vext (d * nf) FF xf (fun j => w j + h j) i) by (intros ? ?; auto).
        transitivity (mv (d * nf) FF w i + mv (d * nf) FF h i).
        - unfold mv. rewrite <- sum_plus. apply sum_ext. intros; ring.
        - rewrite HW by auto. reflexivity. }
    rewrite (dot_ext (d * nf) bf bf xf (fun i => w i + h i)) by (intros ? ?; auto).
    rewrite !dot_plus_l, !dot_plus_r, !dot_minus_r.
    rewrite (dot_mv_sym (d * nf) FF w h ff_symmetric).
    rewrite (dot_ext (d * nf) h h (mv (d * nf) FF w) (fun i => bf i - p i)) by (auto; intros ? ?; auto).
    rewrite dot_minus_r.
    (* reduced energy *)
    unfold quadratic, qform.
    rewrite (dot_ext (d * nc) xc xc (mv (d * nc) S xc)
      (fun i => mv (d * nc) CC xc i - mv (d * nf) CF (mv (d * nf) B p) i)).
    2:{ intros ? ?; auto. } 2:{ intros i Hi. apply S_mv. }
    rewrite dot_minus_r, dot_cf. fold p.
    unfold g. rewrite dot_minus_l.
    rewrite (dot_comm (d * nc) (mv (d * nf) CF (mv (d * nf) B bf)) xc), dot_cf. fold p.
    (* the complement *)
    assert (Ew : forall y, dot (d * nf) w y = dot (d * nf) (mv (d * nf) B bf) y - dot (d * nf) (mv (d * nf) B p) y).
    { intros y. rewrite <- dot_minus_l. apply dot_ext; [|intros ? ?; auto]. intros i _. apply complement_value. }
    rewrite (dot_comm _ bf w), !Ew.
    rewrite !(dot_comm (d * nf) (mv (d * nf) B _) p), !(dot_comm (d * nf) (mv (d * nf) B _) bf).
    assert (Eb : dot (d * nf) bf (mv (d * nf) B p) = dot (d * nf) p (mv (d * nf) B bf)).
    { transitivity (dot (d * nf) (mv (d * nf) FF (mv (d * nf) B bf)) (mv (d * nf) B p)).
      - apply dot_ext; [|intros ? ?; auto]. intros i Hi. symmetry. apply (inverse_right _ _ _ bf HB i Hi).
      - rewrite dot_comm, (dot_mv_sym _ _ _ _ ff_symmetric), dot_comm. apply dot_ext; [|intros ? ?; auto].
        intros i Hi. apply (inverse_right _ _ _ p HB i Hi). }
    rewrite Eb. rewrite (dot_comm (d * nf) h p), (dot_comm (d * nf) h bf). lra.
  Qed.
End Blocks.
