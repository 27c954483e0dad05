(* The search for zeros. *)
From Coq Require Import Reals R_Ifp List Arith ZArith Bool Lia Lra.
From Verif Require Import PyModel RVec ZerosModel ZerosSpec.
Import ListNotations.
Local Open Scope R_scope.

Lemma equal_zero_iff v : equal_zero v = true <-> v = Some 0.
Proof.
  unfold equal_zero. destruct v as [a|]; [|split; discriminate]. destruct (Req_EM_T a 0) as [->|N]; split; auto; try discriminate.
  intros E. injection E. congruence.
Qed.
Lemma sign_above v : above (sign_of v) = above v.
Proof.
  destruct v as [a|]; auto. unfold above, sign_of.
  destruct (Rlt_dec a 0), (Rlt_dec 0 a); repeat destruct (Rlt_dec _ _); auto; lra.
Qed.
Lemma sign_below v : below (sign_of v) = below v.
Proof.
  destruct v as [a|]; auto. unfold below, sign_of.
  destruct (Rlt_dec a 0), (Rlt_dec 0 a); repeat destruct (Rlt_dec _ _); auto; lra.
Qed.
Lemma change_iff u v : (below v && above u) || (above v && below u) = true <-> change u v.
Proof.
  destruct u as [a|], v as [b|]; cbn; try (split; [discriminate|contradiction]).
  - repeat destruct (Rlt_dec _ _); cbn; split; intros; try discriminate; try tauto; lra.
  - split; [|contradiction]. rewrite !andb_false_r. discriminate.
Qed.

Section Search.
  Variable brentq : (R -> value) -> R -> R -> result R.
  Variable func : R -> value.
  Variables xmin xmax step : R.
  Notation x_ k := (sample xmin step k).
  Notation root := (brentq func).
  Notation gives := (contributes func xmin step root).

  Lemma sample_S k : x_ k + step = x_ (S k).
  Proof. unfold sample. rewrite S_INR. ring. Qed.
  Lemma sample_back k : x_ (S k) - step = x_ k.
  Proof. unfold sample. rewrite S_INR. ring. Qed.

  Lemma gives_unique k l l' : gives k l -> gives k l' -> l = l'.
  Proof.
    assert (Z : forall u, change u (Some 0) -> False) by (intros [a|] H; cbn in H; [lra|auto]).
    intros [j H|j r H E|j H N] H'; inversion H' as [i A B C|i s A B C|i A B C]; subst; auto; try congruence.
    - exfalso. rewrite H in A. apply (Z _ A).
    - exfalso. rewrite A in H. apply (Z _ H).
    - exfalso. apply (B j); auto.
    - exfalso. apply (N i); auto.
  Qed.

  (* the sign remembered at sample k *)
  Definition previous (k : nat) (sign : value) : Prop :=
    match k with 0%nat => sign = sign_of (func (x_ 0)) | S j => sign = sign_of (func (x_ j)) end.

  Lemma same_sign v : (below v && above (sign_of v)) || (above v && below (sign_of v)) = false.
  Proof.
    rewrite sign_above, sign_below. destruct v as [a|]; auto. cbn. repeat destruct (Rlt_dec _ _); auto; lra.
  Qed.

  (* one round *)
  Lemma search_round fuel k sign zs : previous k sign -> x_ k <= xmax ->
    (exists l, gives k l /\ search brentq func xmax step (S fuel) (x_ k) sign zs =
       search brentq func xmax step fuel (x_ (S k)) (sign_of (func (x_ k))) (zs ++ l)) \/
    (exists j e, k = S j /\ change (func (x_ j)) (func (x_ k)) /\ root (x_ j) (x_ k) = Err e /\
       search brentq func xmax step (S fuel) (x_ k) sign zs = Some (Err e)).
  Proof.
    intros P X. cbn [search]. destruct (Rle_dec (x_ k) xmax) as [_|N]; [|contradiction]. cbv zeta.
    rewrite <- sample_S.
    destruct (equal_zero (func (x_ k))) eqn:E0.
    { apply equal_zero_iff in E0. left. exists [x_ k]. split; [constructor; auto|reflexivity]. }
    assert (N0 : func (x_ k) <> Some 0) by (intros H; apply equal_zero_iff in H; congruence).
    destruct k as [|j]; cbn [previous] in P; subst sign.
    - rewrite same_sign. left. exists []. split; [apply at_none; auto; discriminate|]. rewrite app_nil_r. reflexivity.
    - rewrite sign_above, sign_below.
      destruct ((below (func (x_ (S j))) && above (func (x_ j))) || (above (func (x_ (S j))) && below (func (x_ j)))) eqn:C.
      + apply change_iff in C. rewrite sample_back. destruct (root (x_ j) (x_ (S j))) as [r|e] eqn:R; cbn [bind].
        * left. exists [r]. split; [constructor; auto|reflexivity].
        * right. exists j, e. auto.
      + left. exists []. split.
        * apply at_none; auto. intros i Hi. injection Hi as <-. intros H. apply change_iff in H. congruence.
        * rewrite app_nil_r. reflexivity.
  Qed.

  Variable n : nat.
  Hypothesis Hn : samples xmin xmax step n.

  Lemma gives_decide k : (exists l, gives k l) \/
    (exists j e, k = S j /\ change (func (x_ j)) (func (x_ k)) /\ root (x_ j) (x_ k) = Err e).
  Proof.
    destruct (equal_zero (func (x_ k))) eqn:E0.
    { apply equal_zero_iff in E0. left. exists [x_ k]. constructor; auto. }
    assert (N0 : func (x_ k) <> Some 0) by (intros H; apply equal_zero_iff in H; congruence).
    destruct k as [|j].
    - left. exists []. apply at_none; auto. discriminate.
    - destruct ((below (func (x_ (S j))) && above (func (x_ j))) || (above (func (x_ (S j))) && below (func (x_ j)))) eqn:C.
      + apply change_iff in C. destruct (root (x_ j) (x_ (S j))) as [r|e] eqn:R; [left|right; eauto 10]. exists [r]. constructor; auto.
      + left. exists []. apply at_none; auto. intros i Hi. injection Hi as <-. intros H. apply change_iff in H. congruence.
  Qed.

  (* from sample k on, with enough fuel *)
  Lemma search_from : forall d k, (k + d = n)%nat -> forall fuel sign zs, (d < fuel)%nat -> previous k sign ->
    (exists ls, Forall2 gives (seq k d) ls /\
       search brentq func xmax step fuel (x_ k) sign zs = Some (Ok (zs ++ concat ls))) \/
    (exists j e ls, (k <= S j < n)%nat /\ Forall2 gives (seq k (S j - k)) ls /\
       change (func (x_ j)) (func (x_ (S j))) /\ root (x_ j) (x_ (S j)) = Err e /\
       search brentq func xmax step fuel (x_ k) sign zs = Some (Err e)).
  Proof.
    induction d as [|d IH]; intros k K fuel sign zs F P.
    - left. exists []. split; [constructor|]. destruct fuel as [|fuel]; [lia|]. cbn [search].
      destruct (Rle_dec (x_ k) xmax) as [X|_]; [apply Hn in X; lia|]. rewrite app_nil_r. reflexivity.
    - destruct fuel as [|fuel]; [lia|].
      assert (X : x_ k <= xmax) by (apply Hn; lia).
      destruct (search_round fuel k sign zs P X) as [(l & G & E)|(j & e & -> & C & R & E)].
      + destruct (IH (S k) ltac:(lia) fuel (sign_of (func (x_ k))) (zs ++ l) ltac:(lia) eq_refl) as [(ls & F2 & E2)|(j & e & ls & J & F2 & C & R & E2)].
        * left. exists (l :: ls). split; [cbn; constructor; auto|]. rewrite E, E2. cbn. rewrite <- app_assoc. reflexivity.
        * right. exists j, e, (l :: ls). split; [lia|]. split.
          -- replace (S j - k)%nat with (S (S j - S k)) by lia. cbn. constructor; auto.
          -- split; auto. split; auto. rewrite E. exact E2.
      + right. exists j, e, []. split; [lia|]. rewrite Nat.sub_diag. split; [constructor|]. auto.
  Qed.

  Theorem estimate_samples fuel : (n < fuel)%nat ->
    (exists ls, Forall2 gives (seq 0 n) ls /\ estimate_zeros brentq func xmax step fuel xmin = Some (Ok (concat ls))) \/
    (exists k e ls, (S k < n)%nat /\ Forall2 gives (seq 0 (S k)) ls /\ change (func (x_ k)) (func (x_ (S k))) /\
       root (x_ k) (x_ (S k)) = Err e /\ estimate_zeros brentq func xmax step fuel xmin = Some (Err e)).
  Proof.
    intros F. assert (E0 : x_ 0 = xmin) by (unfold sample; cbn; ring).
    destruct (search_from n 0 eq_refl fuel (sign_of (func xmin)) [] F) as [(ls & H & E)|(j & e & ls & J & F2 & C & R & E)].
    - cbn. rewrite E0. reflexivity.
    - left. exists ls. split; auto. rewrite E0 in E. exact E.
    - right. exists j, e, ls. rewrite Nat.sub_0_r in F2. rewrite E0 in E. split; [lia|]. auto.
  Qed.

  (* ----------------------------------------------------------- with a working root finder *)

  Hypothesis Hs : 0 < step.
  Hypothesis Hr : finds_roots func root.

  Lemma sample_lt i j : (i < j)%nat -> x_ i < x_ j.
  Proof. intros H. apply lt_INR in H. unfold sample. nra. Qed.
  Lemma sample_le i j : (i <= j)%nat -> x_ i <= x_ j.
  Proof. intros H. apply le_INR in H. unfold sample. nra. Qed.

  (* what sample k gives lies after sample k - 1 *)
  Lemma gives_place k l z : gives k l -> In z l -> func z = Some 0 /\ z <= x_ k /\
    (z = x_ k \/ exists j, k = S j /\ x_ j < z < x_ k /\ change (func (x_ j)) (func (x_ k))).
  Proof.
    intros [j H|j r C E|j H N] I; cbn in I; [| |contradiction]; destruct I as [<-|[]].
    - split; auto. split; [lra|auto].
    - destruct (Hr (x_ j) (x_ (S j))) as (r' & E' & B & Z); auto; [apply sample_lt; lia|].
      assert (r' = r) by congruence. subst r'. split; auto. split; [lra|]. right. exists j. split; auto. split; auto.
      assert (r <> x_ j) by (intros ->; rewrite Z in C; destruct (func (x_ (S j))); cbn in C; [lra|auto]).
      assert (r <> x_ (S j)) by (intros ->; rewrite Z in C; destruct (func (x_ j)); cbn in C; [lra|auto]).
      lra.
  Qed.
  Lemma gives_after k l z i : gives k l -> In z l -> (i < k)%nat -> x_ i < z.
  Proof.
    intros G I H. destruct (gives_place k l z G I) as (_ & _ & [->|(j & -> & B & _)]); [apply sample_lt; auto|].
    pose proof (sample_le i j ltac:(lia)). lra.
  Qed.
  Lemma gives_single k l : gives k l -> l = [] \/ exists z, l = [z].
  Proof. intros [j H|j r C E|j H N]; eauto. Qed.

  Lemma concat_in : forall d k ls z, Forall2 gives (seq k d) ls -> In z (concat ls) ->
    exists i l, (k <= i < k + d)%nat /\ gives i l /\ In z l.
  Proof.
    induction d as [|d IH]; intros k ls z F I; inversion F as [|? l ? ls' G F']; subst; [contradiction|].
    cbn in I. apply in_app_or in I. destruct I as [I|I].
    - exists k, l. split; [lia|auto].
    - destruct (IH (S k) ls' z F' I) as (i & l' & B & G' & I'). exists i, l'. split; [lia|auto].
  Qed.
  Lemma in_concat_gives : forall d k ls i l z, Forall2 gives (seq k d) ls -> (k <= i < k + d)%nat -> gives i l -> In z l ->
    In z (concat ls).
  Proof.
    induction d as [|d IH]; intros k ls i l z F B G I; [lia|]. inversion F as [|? l' ? ls' G' F']; subst. cbn. apply in_or_app.
    destruct (Nat.eq_dec i k) as [->|N].
    - left. rewrite (gives_unique k l' l); auto.
    - right. apply (IH (S k) ls' i l z F'); auto. lia.
  Qed.
  Lemma concat_ordered : forall d k ls, Forall2 gives (seq k d) ls ->
    forall i j a b, (i < j)%nat -> nth_error (concat ls) i = Some a -> nth_error (concat ls) j = Some b -> a < b.
  Proof.
    induction d as [|d IH]; intros k ls F i j a b H A B; inversion F as [|? l ? ls' G F']; subst; [destruct i; discriminate|].
    cbn in A, B. destruct (gives_single k l G) as [->|[z ->]]; cbn in A, B; [eapply IH; eauto|].
    destruct j as [|j]; [lia|]. cbn in B. destruct i as [|i]; cbn in A; [|eapply (IH (S k) ls' F' i j); eauto; lia].
    injection A as ->. apply nth_error_In in B.
    destruct (concat_in d (S k) ls' b F' B) as (q & l' & Q & G' & I').
    destruct (gives_place k [a] a G) as (_ & L & _); [left; auto|].
    pose proof (gives_after q l' b k G' I' ltac:(lia)). lra.
  Qed.

  Theorem estimate_finds fuel : (n < fuel)%nat ->
    exists zs, estimate_zeros brentq func xmax step fuel xmin = Some (Ok zs) /\ zeros_found func xmin xmax step n zs.
  Proof.
    intros F. destruct (estimate_samples fuel F) as [(ls & G & E)|(k & e & ls & K & G & C & R & E)].
    2:{ exfalso. destruct (Hr (x_ k) (x_ (S k))) as (r & E' & _); auto; [apply sample_lt; lia|congruence]. }
    exists (concat ls). split; auto. constructor.
    - intros i j a b. eapply concat_ordered; eauto.
    - intros z I. destruct (concat_in n 0 ls z G I) as (i & l & B & Gi & Il). eapply gives_place; eauto.
    - intros z I. destruct (concat_in n 0 ls z G I) as (i & l & B & Gi & Il).
      destruct (gives_place i l z Gi Il) as (_ & L & O). assert (x_ i <= xmax) by (apply Hn; lia). split; [|lra].
      assert (E0 : x_ 0 = xmin) by (unfold sample; cbn; ring). rewrite <- E0.
      destruct O as [->|(j & -> & Bj & _)]; [apply sample_le; lia|]. pose proof (sample_le 0 j ltac:(lia)). lra.
    - intros z I. destruct (concat_in n 0 ls z G I) as (i & l & B & Gi & Il).
      destruct (gives_place i l z Gi Il) as (_ & L & [->|(j & -> & Bj & C)]).
      + left. exists i. split; [lia|auto].
      + right. exists j. split; [lia|auto].
    - intros k K Z. apply (in_concat_gives n 0 ls k [x_ k]); auto; [lia|constructor; auto|left; auto].
    - intros k K C. destruct (Hr (x_ k) (x_ (S k))) as (r & Er & Br & Zr); auto; [apply sample_lt; lia|].
      assert (Gr : gives (S k) [r]) by (constructor; auto).
      assert (Ir : In r (concat ls)) by (apply (in_concat_gives n 0 ls (S k) [r]); auto; [lia|left; auto]).
      destruct (gives_place (S k) [r] r Gr (or_introl eq_refl)) as (_ & _ & O).
      assert (Bz : x_ k < r < x_ (S k)).
      { destruct O as [->|(j & Ej & Bj & _)]; [|injection Ej as <-; auto].
        exfalso. rewrite Zr in C. destruct (func (x_ k)); cbn in C; [lra|auto]. }
      exists r. split; auto. split; auto. intros z Iz Bz'.
      destruct (concat_in n 0 ls z G Iz) as (i & l & Bi & Gi & Il).
      assert (i = S k).
      { destruct (Nat.lt_total i (S k)) as [H|[H|H]]; auto; exfalso.
        - destruct (gives_place i l z Gi Il) as (_ & L & _). pose proof (sample_le i k ltac:(lia)). lra.
        - pose proof (gives_after i l z (S k) Gi Il H). lra. }
      subst i. rewrite (gives_unique (S k) l [r] Gi Gr) in Il. destruct Il as [->|[]]. auto.
  Qed.
End Search.

(* the number of samples exists *)
Lemma samples_exist xmin xmax step : 0 < step -> exists n, samples xmin xmax step n.
Proof.
  intros S0. destruct (Rlt_dec xmax xmin) as [H|H].
  - exists 0%nat. intros k. split; [lia|]. unfold sample. pose proof (pos_INR k). intros. exfalso. nra.
  - set (q := (xmax - xmin) / step). assert (Q : 0 <= q).
    { apply Rmult_le_pos; [lra|]. apply Rlt_le, Rinv_0_lt_compat. auto. }
    assert (Eq : xmax = xmin + q * step) by (unfold q; field; lra).
    destruct (base_Int_part q) as [A B]. exists (S (Z.to_nat (Int_part q))). intros k.
    assert (P : (0 <= Int_part q)%Z) by (assert (-1 < Int_part q)%Z by (apply lt_IZR; lra); lia).
    unfold sample. rewrite Eq. split.
    + intros K. assert (INR k <= IZR (Int_part q)).
      { rewrite INR_IZR_INZ. apply IZR_le. lia. }
      nra.
    + intros K. assert (INR k <= q) by nra. rewrite INR_IZR_INZ in H0.
      assert (Z.of_nat k < Int_part q + 1)%Z by (apply lt_IZR; rewrite plus_IZR; lra). lia.
Qed.
Lemma samples_unique xmin xmax step n n' : samples xmin xmax step n -> samples xmin xmax step n' -> n = n'.
Proof.
  intros H H'. destruct (Nat.lt_total n n') as [L|[E|L]]; auto; exfalso.
  - assert (A : (n < n')%nat) by auto. apply H', H in A. lia.
  - assert (A : (n' < n)%nat) by auto. apply H, H' in A. lia.
Qed.

(* no step, no end *)
Lemma no_step brentq func xmin xmax : xmin <= xmax -> forall fuel, estimate_zeros brentq func xmax 0 fuel xmin = None.
Proof.
  intros H fuel. unfold estimate_zeros. generalize (@nil R). induction fuel as [|fuel IH]; intros zs; auto. cbn [search].
  destruct (Rle_dec xmin xmax) as [_|]; [|contradiction]. cbv zeta. rewrite Rplus_0_r.
  destruct (equal_zero (func xmin)); [apply IH|]. rewrite same_sign. apply IH.
Qed.
Lemma samples_one xmin xmax step : 0 < step ->
  exists n, samples xmin xmax step n /\ forall n', samples xmin xmax step n' -> n' = n.
Proof.
  intros H. destruct (samples_exist xmin xmax step H) as (n & N). exists n. split; auto.
  intros n' N'. exact (samples_unique _ _ _ _ _ N' N).
Qed.
