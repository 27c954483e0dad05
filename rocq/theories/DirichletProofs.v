(* Proofs about Dirichlet elimination (C11-C15). *)
From Coq Require Import Reals List Arith ZArith String Bool Lia Lra Decimal DecimalString DecimalNat.
From Verif Require Import Common PyModel MeshBuildModel DofModel DofSpec RVec DirichletModel
  DirichletSpec.
Import ListNotations.
Local Open Scope list_scope.
Local Open Scope R_scope.

Definition atom := (dof_slice * vec)%type.

Definition step (sys : system) (a : atom) : system := eliminate_slice (snd a) sys (fst a).

Lemma apply_sequence conds sys :
  apply_dirichlet conds sys = fold_left step (sequence conds) sys.
Proof.
  unfold apply_dirichlet, sequence. revert sys.
  induction conds as [|[sl c] conds IH]; intros sys; simpl; [reflexivity|].
  rewrite fold_left_app, IH. f_equal. unfold eliminate. simpl. clear.
  revert sys. induction sl as [|s sl IH]; intros sys; simpl; [reflexivity|]. apply IH.
Qed.

Lemma overwrite_sequence conds v :
  overwrite_all conds v = fold_left (fun v a => overwrite (fst a) (snd a) v) (sequence conds) v.
Proof.
  unfold overwrite_all, sequence. revert v.
  induction conds as [|[sl c] conds IH]; intros v; simpl; [reflexivity|].
  rewrite fold_left_app, IH. f_equal. simpl. clear.
  revert v. induction sl as [|s sl IH]; intros v; simpl; [reflexivity|]. apply IH.
Qed.

Lemma prescribed_sequence conds d v :
  prescribed conds d v <-> exists a, In a (sequence conds) /\ pins a d v.
Proof.
  unfold prescribed, sequence, pins. split.
  - intros (sl & c & s & p & H1 & H2 & H3 & H4). exists (s, c). split; [|exists p; auto].
    apply in_flat_map. exists (sl, c). split; auto. simpl. apply in_map_iff. exists s; auto.
  - intros (a & Ha & p & H1 & H2). apply in_flat_map in Ha. destruct Ha as ([sl c] & H3 & H4).
    apply in_map_iff in H4. destruct H4 as (s & E & H4). subst a. simpl in *.
    exists sl, c, s, p. auto.
Qed.

(* value given by an atom at dof d, and whether d is inside *)
Definition a_in (a : atom) (d : nat) : bool := inside (fst (fst a)) d.
Definition a_val (a : atom) (d : nat) : R :=
  snd a (fst (snd (fst a)) + (d - fst (fst (fst a))))%nat.

Definition shaped (n : nat) (a : atom) : Prop :=
  matching (fst a) /\ (fst (fst (fst a)) < snd (fst (fst a)) -> snd (fst (fst a)) <= n)%nat.

Lemma in_combine_seq a c n d p :
  In (d, p) (combine (seq a n) (seq c n)) <-> ((a <= d < a + n)%nat /\ p = (c + (d - a))%nat).
Proof.
  revert a c. induction n as [|n IH]; intros a c; simpl.
  - split; [tauto|lia].
  - rewrite IH. split.
    + intros [E|[H1 H2]]; [inversion E; subst; split; lia|split; lia].
    + intros [H1 H2]. destruct (Nat.eq_dec a d) as [->|]; [left; f_equal; lia|right; split; lia].
Qed.

Lemma pins_spec n a d v : shaped n a ->
  (pins a d v <-> a_in a d = true /\ v = a_val a d).
Proof.
  destruct a as [[[a e] [c0 c1]] c]. unfold shaped, matching, pins, a_in, a_val, inside. simpl.
  intros [(H1 & H2 & H3) H4]. rewrite <- H3. split.
  - intros (p & H & E). apply in_combine_seq in H. destruct H as [H5 H6].
    split; [|subst; reflexivity].
    apply andb_true_intro. split; [apply Nat.leb_le|apply Nat.ltb_lt]; lia.
  - intros [H E]. apply andb_prop in H. destruct H as [H5 H6].
    apply Nat.leb_le in H5. apply Nat.ltb_lt in H6.
    exists (c0 + (d - a))%nat. split; auto. apply in_combine_seq. lia.
Qed.

Lemma a_in_range n a d : shaped n a -> a_in a d = true -> (d < n)%nat.
Proof.
  destruct a as [[[a e] [c0 c1]] c]. unfold shaped, a_in, inside. simpl.
  intros [_ H] H1. apply andb_prop in H1. destruct H1 as [H0 H1]. apply Nat.leb_le in H0.
  apply Nat.ltb_lt in H1. lia.
Qed.

Lemma a_in_delta a k l : a_in a k = true -> a_in a l = true ->
  delta (k - fst (fst (fst a))) (l - fst (fst (fst a))) = delta k l.
Proof.
  destruct a as [[[a e] [c0 c1]] c]. unfold a_in, inside, delta. simpl. intros H1 H2.
  apply andb_prop in H1, H2. destruct H1 as [H1 _], H2 as [H2 _].
  apply Nat.leb_le in H1, H2.
  destruct (Nat.eqb_spec (k - a) (l - a)), (Nat.eqb_spec k l); auto; lia.
Qed.

Section Elim.
  Variables (n : nat) (A : mat) (b : vec).

  Definition pinned (l : list atom) (d : nat) : bool := existsb (fun a => a_in a d) l.

  Record closed (l : list atom) (sys : system) (g1 g2 : vec) : Prop := mkClosed {
    cl_lhs : forall k i, (k < n)%nat -> (i < n)%nat ->
      lhs sys k i = if pinned l k || pinned l i then delta k i else A k i;
    cl_rhs : forall k, (k < n)%nat ->
      rhs sys k = if pinned l k then g2 k
                  else b k - sum n (fun i => if pinned l i then A k i * g1 i else 0);
    cl_first : forall d, pinned l d = true -> earliest l d (g1 d);
    cl_last : forall d, pinned l d = true -> latest l d (g2 d) }.

  Lemma pinned_app l m d : pinned (l ++ m) d = pinned l d || pinned m d.
  Proof. apply existsb_app. Qed.

  Lemma pinned_pins l d : Forall (shaped n) l ->
    (pinned l d = true <-> exists a, In a l /\ exists v, pins a d v).
  Proof.
    intros HF. unfold pinned. rewrite existsb_exists. rewrite Forall_forall in HF. split.
    - intros (a & Ha & H). exists a. split; auto. exists (a_val a d).
      apply (pins_spec n); auto.
    - intros (a & Ha & v & H). exists a. split; auto. apply (pins_spec n) in H; auto. tauto.
  Qed.

  Lemma pinned_false_pins l d : Forall (shaped n) l -> pinned l d = false ->
    forall a v, In a l -> ~ pins a d v.
  Proof.
    intros HF E a v Ha Hp. assert (pinned l d = true) by (apply pinned_pins; eauto). congruence.
  Qed.

  Lemma closed_step l sys g1 g2 a : Forall (shaped n) l -> shaped n a -> closed l sys g1 g2 ->
    closed (l ++ [a]) (step sys a)
      (fun d => if pinned l d then g1 d else a_val a d)
      (fun d => if a_in a d then a_val a d else g2 d).
  Proof.
    intros HF Ha [HL HR H1 H2].
    assert (PA : forall d, pinned (l ++ [a]) d = pinned l d || a_in a d).
    { intros d. rewrite pinned_app. unfold pinned at 2. simpl. now rewrite orb_false_r. }
    constructor.
    - intros k i Hk Hi. rewrite !PA. unfold step, eliminate_slice. simpl.
      unfold set_identity, zero_rows, zero_columns.
      change (inside (fst (fst a)) k) with (a_in a k).
      change (inside (fst (fst a)) i) with (a_in a i).
      rewrite HL by assumption.
      destruct (a_in a k) eqn:E1, (a_in a i) eqn:E2; simpl; rewrite ?orb_true_r, ?orb_false_r; simpl.
      + apply a_in_delta; auto.
      + unfold delta. destruct (Nat.eqb_spec k i); [congruence|reflexivity].
      + unfold delta. destruct (Nat.eqb_spec k i); [congruence|reflexivity].
      + reflexivity.
    - intros k Hk. rewrite PA. unfold step, eliminate_slice. simpl.
      assert (OV : overwrite (fst a) (snd a) (subtract_columns (fst a) (snd a) (lhs sys) (rhs sys)) k
        = if a_in a k then a_val a k
          else subtract_columns (fst a) (snd a) (lhs sys) (rhs sys) k).
      { destruct a as [[[x e] [c0 c1]] c]. reflexivity. }
      rewrite OV. destruct (a_in a k) eqn:E1; [now rewrite orb_true_r|].
      rewrite orb_false_r.
      assert (SC : subtract_columns (fst a) (snd a) (lhs sys) (rhs sys) k =
        rhs sys k - sum n (fun i => if a_in a i then lhs sys k i * a_val a i else 0)).
      { destruct a as [[[x e] [c0 c1]] c]. unfold subtract_columns, a_in, inside, a_val. simpl.
        destruct Ha as [(M1 & M2 & M3) M4]. simpl in *. f_equal.
        destruct (Nat.eq_dec x e) as [<-|Hne].
        { rewrite Nat.sub_diag. simpl. symmetry. apply sum_0. intros i _.
          destruct (Nat.leb_spec x i), (Nat.ltb_spec i x); simpl; try reflexivity; lia. }
        rewrite (sum_range n x e (fun i => lhs sys k i * c (c0 + (i - x))%nat)) by lia.
        apply sum_ext. intros t _. do 2 f_equal. lia. }
      rewrite SC, HR by assumption. destruct (pinned l k) eqn:E2.
      + rewrite sum_0; [ring|]. intros i Hi. destruct (a_in a i) eqn:E3; auto.
        rewrite HL, E2 by assumption. simpl. unfold delta.
        destruct (Nat.eqb_spec k i); [congruence|ring].
      + unfold Rminus. rewrite Rplus_assoc. f_equal. rewrite <- Ropp_plus_distr. f_equal.
        rewrite <- sum_plus. apply sum_ext. intros i Hi. rewrite PA.
        rewrite HL, E2 by assumption. simpl.
        destruct (pinned l i) eqn:E3, (a_in a i) eqn:E4; simpl; try ring.
        unfold delta. destruct (Nat.eqb_spec k i); [congruence|ring].
    - intros d Hd. rewrite PA in Hd. destruct (pinned l d) eqn:E1.
      + destruct (H1 d E1) as (pre & a' & post & E & P & NP).
        exists pre, a', (post ++ [a]). subst l. rewrite <- app_assoc. auto.
      + simpl in Hd. exists l, a, []. split; auto. split.
        * apply (pins_spec n); auto.
        * apply pinned_false_pins; auto.
    - intros d Hd. rewrite PA in Hd. destruct (a_in a d) eqn:E1.
      + exists l, a, []. split; auto. split; [apply (pins_spec n); auto|intros ? ? []].
      + rewrite orb_false_r in Hd. destruct (H2 d Hd) as (pre & a' & post & E & P & NP).
        exists pre, a', (post ++ [a]). subst l. rewrite <- app_assoc. split; [reflexivity|].
        split; auto. intros a2 w Hin. apply in_app_or in Hin. destruct Hin as [Hin|[<-|[]]]; auto.
        intros Hp. apply (pins_spec n) in Hp; auto. destruct Hp; congruence.
  Qed.

  Lemma closed_all l : Forall (shaped n) l ->
    exists g1 g2, closed l (fold_left step l (mkSystem A b)) g1 g2.
  Proof.
    induction l as [|a l IH] using rev_ind; intros HF.
    - exists (fun _ => 0), (fun _ => 0). constructor; simpl; try discriminate.
      + reflexivity.
      + intros k Hk. rewrite sum_0; [ring|reflexivity].
    - apply Forall_app in HF. destruct HF as [HF1 HF2]. inversion HF2; subst.
      destruct (IH HF1) as (g1 & g2 & HC). rewrite fold_left_app. simpl.
      eexists _, _. apply closed_step; eauto.
  Qed.

  (* solving the eliminated system *)
  Lemma closed_solves l sys g1 g2 x : Forall (shaped n) l -> closed l sys g1 g2 ->
    (solves n (lhs sys) (rhs sys) x <->
     (forall d, pinned l d = true -> x d = g2 d) /\
     (forall k, (k < n)%nat -> pinned l k = false ->
        sum n (fun i => A k i * (if pinned l i then g1 i else x i)) = b k)).
  Proof.
    intros HF [HL HR _ _].
    assert (ROW : forall k, (k < n)%nat ->
      sum n (fun i => lhs sys k i * x i) =
      if pinned l k then x k else sum n (fun i => if pinned l i then 0 else A k i * x i)).
    { intros k Hk. rewrite (sum_ext n _ (fun i => (if pinned l k || pinned l i then delta k i else A k i) * x i))
        by (intros i Hi; rewrite HL; auto).
      destruct (pinned l k) eqn:E; simpl; [apply sum_delta_l; auto|].
      apply sum_ext. intros i Hi. destruct (pinned l i) eqn:E2; auto.
      unfold delta. destruct (Nat.eqb_spec k i); [congruence|ring]. }
    assert (SP : forall k, sum n (fun i => A k i * (if pinned l i then g1 i else x i)) =
      sum n (fun i => if pinned l i then 0 else A k i * x i) +
      sum n (fun i => if pinned l i then A k i * g1 i else 0)).
    { intros k. rewrite <- sum_plus. apply sum_ext. intros i Hi. destruct (pinned l i); ring. }
    assert (RNG : forall d, pinned l d = true -> (d < n)%nat).
    { intros d Hd. unfold pinned in Hd. apply existsb_exists in Hd. destruct Hd as (a & Ha & H).
      eapply a_in_range; eauto. rewrite Forall_forall in HF. auto. }
    split.
    - intros S. split.
      + intros d Hd. pose proof (S d (RNG d Hd)) as H. rewrite ROW, HR, Hd in H; auto.
      + intros k Hk E. rewrite SP. pose proof (S k Hk) as H. rewrite ROW, HR, E in H by auto. lra.
    - intros [S1 S2] k Hk. rewrite ROW, HR by auto. destruct (pinned l k) eqn:E; [auto|].
      pose proof (S2 k Hk E) as H. rewrite SP in H. lra.
  Qed.
End Elim.

Lemma well_shaped_sequence n conds : well_shaped n conds -> Forall (shaped n) (sequence conds).
Proof.
  intros H. apply Forall_forall. intros [s c] Hin. unfold sequence in Hin.
  apply in_flat_map in Hin. destruct Hin as ([sl c'] & H1 & H2).
  apply in_map_iff in H2. destruct H2 as (s' & E & H2). inversion E; subst.
  exact (H sl c s H1 H2).
Qed.

Lemma pinned_prescribed n conds d : well_shaped n conds ->
  (pinned (sequence conds) d = true <-> exists v, prescribed conds d v).
Proof.
  intros H. rewrite (pinned_pins n) by (now apply well_shaped_sequence). split.
  - intros (a & Ha & v & Hp). exists v. apply prescribed_sequence. eauto.
  - intros (v & Hp). apply prescribed_sequence in Hp. destruct Hp as (a & Ha & Hp). eauto.
Qed.

Lemma earliest_prescribed conds d v : earliest (sequence conds) d v -> prescribed conds d v.
Proof.
  intros (pre & a & post & E & P & _). apply prescribed_sequence. exists a. split; auto.
  rewrite E. apply in_or_app. right. left. reflexivity.
Qed.

Lemma latest_prescribed conds d v : latest (sequence conds) d v -> prescribed conds d v.
Proof.
  intros (pre & a & post & E & P & _). apply prescribed_sequence. exists a. split; auto.
  rewrite E. apply in_or_app. right. left. reflexivity.
Qed.

(* C14: exact meaning for arbitrary, possibly overlapping conditions *)
Lemma elimination_overlap n A b conds : well_shaped n conds ->
  exists first last : vec,
    (forall d, (exists v, prescribed conds d v) ->
       earliest (sequence conds) d (first d) /\ latest (sequence conds) d (last d)) /\
    forall x,
      let sys := apply_dirichlet conds (mkSystem A b) in
      solves n (lhs sys) (rhs sys) x <->
      (forall d, (exists v, prescribed conds d v) -> x d = last d) /\
      (forall y, (forall d, (exists v, prescribed conds d v) -> y d = first d) ->
                 (forall d, (forall v, ~ prescribed conds d v) -> y d = x d) ->
                 forall k, (k < n)%nat -> (forall v, ~ prescribed conds k v) ->
                   sum n (fun i => A k i * y i) = b k).
Proof.
  intros W. pose proof (well_shaped_sequence _ _ W) as HF.
  destruct (closed_all n A b _ HF) as (g1 & g2 & HC).
  exists g1, g2. split.
  - intros d Hd. apply (pinned_prescribed n) in Hd; auto. split.
    + eapply cl_first; eauto.
    + eapply cl_last; eauto.
  - intros x. cbv zeta. rewrite apply_sequence.
    rewrite (closed_solves n A b _ _ g1 g2 x HF HC).
    assert (NP : forall k, pinned (sequence conds) k = false <-> forall v, ~ prescribed conds k v).
    { intros k. split.
      - intros E v Hv. assert (pinned (sequence conds) k = true)
          by (apply (pinned_prescribed n); eauto). congruence.
      - intros H. destruct (pinned (sequence conds) k) eqn:E; auto.
        apply (pinned_prescribed n) in E; auto. destruct E as [v E]. exfalso. eapply H; eauto. }
    split.
    + intros [H1 H2]. split.
      * intros d Hd. apply H1. apply (pinned_prescribed n); auto.
      * intros y Y1 Y2 k Hk Hp. apply NP in Hp. rewrite <- (H2 k Hk Hp).
        apply sum_ext. intros i Hi. f_equal. destruct (pinned (sequence conds) i) eqn:E.
        -- apply Y1. apply (pinned_prescribed n); auto.
        -- apply Y2. now apply NP.
    + intros [H1 H2]. split.
      * intros d Hd. apply H1. apply (pinned_prescribed n); auto.
      * intros k Hk E. apply H2; auto; [| |now apply NP].
        -- intros d Hd. apply (pinned_prescribed n) in Hd; auto. now rewrite Hd.
        -- intros d Hd. apply NP in Hd. now rewrite Hd.
Qed.

(* C11 *)
Lemma elimination_equiv n A b conds x :
  well_shaped n conds -> consistent (prescribed conds) ->
  let sys := apply_dirichlet conds (mkSystem A b) in
  solves n (lhs sys) (rhs sys) x <-> solves_constrained n A b (prescribed conds) x.
Proof.
  intros W C. cbv zeta.
  destruct (elimination_overlap n A b conds W) as (f & g & HFG & HS).
  rewrite (HS x). clear HS.
  assert (VAL : forall d v, prescribed conds d v -> f d = v /\ g d = v).
  { intros d v Hp. destruct (HFG d (ex_intro _ v Hp)) as [H1 H2].
    apply earliest_prescribed in H1. apply latest_prescribed in H2.
    split; eapply C; eauto. }
  unfold solves_constrained. split.
  - intros [H1 H2]. split.
    + intros d v Hp. rewrite H1 by eauto. apply VAL; auto.
    + intros k Hk Hp. apply H2; auto. intros d [v Hd].
      rewrite H1 by eauto. destruct (VAL d v Hd). congruence.
  - intros [H1 H2]. split.
    + intros d [v Hd]. rewrite (H1 d v Hd). destruct (VAL d v Hd). congruence.
    + intros y Y1 Y2 k Hk Hp. rewrite <- (H2 k Hk Hp). apply sum_ext. intros i Hi. f_equal.
      destruct (pinned (sequence conds) i) eqn:E.
      * apply (pinned_prescribed n) in E; auto. destruct E as [v E].
        rewrite Y1 by eauto. rewrite (H1 i v E). apply VAL; auto.
      * apply Y2. intros v Hv. assert (pinned (sequence conds) i = true)
          by (apply (pinned_prescribed n); eauto). congruence.
Qed.

(* C12 *)
Lemma elimination_symmetric n A b conds : well_shaped n conds -> symmetric n A ->
  symmetric n (lhs (apply_dirichlet conds (mkSystem A b))).
Proof.
  intros W S i j Hi Hj. pose proof (well_shaped_sequence _ _ W) as HF.
  destruct (closed_all n A b _ HF) as (g1 & g2 & [HL _ _ _]).
  rewrite apply_sequence. rewrite !HL by auto. rewrite orb_comm.
  destruct (pinned (sequence conds) j || pinned (sequence conds) i); auto.
  unfold delta. rewrite Nat.eqb_sym. reflexivity.
Qed.

(* the quadratic form splits into pinned squares and the free part *)
Lemma elimination_qform n A b conds x : well_shaped n conds ->
  qform n (lhs (apply_dirichlet conds (mkSystem A b))) x =
  sum n (fun i => if pinned (sequence conds) i then x i * x i else 0) +
  qform n A (fun i => if pinned (sequence conds) i then 0 else x i).
Proof.
  intros W. pose proof (well_shaped_sequence _ _ W) as HF.
  destruct (closed_all n A b _ HF) as (g1 & g2 & [HL _ _ _]).
  rewrite apply_sequence, !qform_double. rewrite <- sum_plus. apply sum_ext. intros i Hi.
  destruct (pinned (sequence conds) i) eqn:E.
  - rewrite (sum_ext n (fun j => A i j * 0 * _) (fun _ => 0)) by (intros; ring).
    rewrite (sum_0 n (fun _ => 0)) by reflexivity.
    rewrite (sum_ext n _ (fun j => delta i j * (x i * x j))).
    + rewrite sum_delta_l by auto. ring.
    + intros j Hj. rewrite HL, E by auto. simpl. ring.
  - rewrite Rplus_0_l. apply sum_ext. intros j Hj. rewrite HL, E by auto. simpl.
    destruct (pinned (sequence conds) j) eqn:E2; [|ring].
    unfold delta. destruct (Nat.eqb_spec i j); [congruence|ring].
Qed.

Lemma elimination_pos_semidef n A b conds : well_shaped n conds -> pos_semidef n A ->
  pos_semidef n (lhs (apply_dirichlet conds (mkSystem A b))).
Proof.
  intros W P x. rewrite elimination_qform by auto.
  assert (0 <= qform n A (fun i => if pinned (sequence conds) i then 0 else x i)) by apply P.
  assert (0 <= sum n (fun i => if pinned (sequence conds) i then x i * x i else 0)).
  { apply sum_nonneg. intros i _. destruct (pinned _ i); nra. }
  lra.
Qed.

(* it is enough that A is positive definite on vectors that vanish on the pinned dofs *)
Lemma elimination_pos_def n A b conds : well_shaped n conds ->
  (forall x, (forall d v, prescribed conds d v -> x d = 0) ->
             (exists i, (i < n)%nat /\ x i <> 0) -> 0 < qform n A x) ->
  pos_def n (lhs (apply_dirichlet conds (mkSystem A b))).
Proof.
  intros W P x [i [Hi Hx]]. rewrite elimination_qform by auto.
  set (y := fun i => if pinned (sequence conds) i then 0 else x i).
  assert (Y0 : forall d v, prescribed conds d v -> y d = 0).
  { intros d v Hp. unfold y. assert (pinned (sequence conds) d = true) as ->
      by (apply (pinned_prescribed n); eauto). reflexivity. }
  assert (Q : 0 <= qform n A y).
  { destruct (vec_zero_dec n y) as [D|D]; [left; apply P; auto|].
    rewrite (qform_ext n A y _ D). right. unfold qform, dot. rewrite sum_0; auto. intros; ring. }
  assert (S : forall j, (j < n)%nat -> 0 <= (if pinned (sequence conds) j then x j * x j else 0)).
  { intros j _. destruct (pinned _ j); nra. }
  destruct (pinned (sequence conds) i) eqn:E.
  - assert (0 < sum n (fun j => if pinned (sequence conds) j then x j * x j else 0)).
    { apply (sum_pos n _ i); auto. rewrite E. nra. }
    lra.
  - assert (0 < qform n A y).
    { apply P; auto. exists i. split; auto. unfold y. rewrite E. auto. }
    assert (0 <= sum n (fun j => if pinned (sequence conds) j then x j * x j else 0)).
    { apply sum_nonneg; auto. }
    lra.
Qed.

(* C13 *)
Lemma overwrite_spec n conds v : well_shaped n conds ->
  (forall d, (exists w, prescribed conds d w) -> latest (sequence conds) d (overwrite_all conds v d)) /\
  (forall d, (forall w, ~ prescribed conds d w) -> overwrite_all conds v d = v d).
Proof.
  intros W. pose proof (well_shaped_sequence _ _ W) as HF.
  assert (G : forall l, Forall (shaped n) l ->
    (forall d, pinned l d = true ->
       latest l d (fold_left (fun v a => overwrite (fst a) (snd a) v) l v d)) /\
    (forall d, pinned l d = false ->
       fold_left (fun v a => overwrite (fst a) (snd a) v) l v d = v d)).
  { intros l. induction l as [|a l IH] using rev_ind; intros HF'.
    - split; [discriminate|reflexivity].
    - apply Forall_app in HF'. destruct HF' as [F1 F2]. inversion F2; subst.
      destruct (IH F1) as [I1 I2]. rewrite fold_left_app. simpl.
      assert (OV : forall u k, overwrite (fst a) (snd a) u k =
                               if a_in a k then a_val a k else u k).
      { intros u k. destruct a as [[[x e] [c0 c1]] c]. reflexivity. }
      assert (PA : forall d, pinned (l ++ [a]) d = pinned l d || a_in a d).
      { intros d. rewrite pinned_app. unfold pinned at 2. simpl. now rewrite orb_false_r. }
      split; intros d Hd; rewrite PA in Hd; rewrite OV; destruct (a_in a d) eqn:E.
      + exists l, a, []. split; auto. split; [apply (pins_spec n); auto|intros ? ? []].
      + rewrite orb_false_r in Hd. destruct (I1 d Hd) as (pre & a' & post & E' & P & NP).
        exists pre, a', (post ++ [a]). split; [rewrite E', <- app_assoc; reflexivity|].
        split; auto. intros a2 w Hin. apply in_app_or in Hin. destruct Hin as [Hin|[<-|[]]]; auto.
        intros Hp. apply (pins_spec n) in Hp; auto. destruct Hp; congruence.
      + rewrite orb_true_r in Hd. discriminate.
      + rewrite orb_false_r in Hd. auto. }
  destruct (G _ HF) as [G1 G2]. rewrite overwrite_sequence. split.
  - intros d Hd. apply G1. apply (pinned_prescribed n); auto.
  - intros d Hd. apply G2. destruct (pinned (sequence conds) d) eqn:E; auto.
    apply (pinned_prescribed n) in E; auto. destruct E as [w E]. exfalso. eapply Hd; eauto.
Qed.

Lemma overwrite_consistent n conds v : well_shaped n conds -> consistent (prescribed conds) ->
  (forall d w, prescribed conds d w -> overwrite_all conds v d = w) /\
  (forall d, (forall w, ~ prescribed conds d w) -> overwrite_all conds v d = v d).
Proof.
  intros W C. destruct (overwrite_spec n conds v W) as [H1 H2]. split; auto.
  intros d w Hp. eapply C; eauto. apply latest_prescribed. apply H1. eauto.
Qed.

(* a solution of the eliminated system is not changed by the final overwriting *)
Lemma overwrite_solution n A b conds x : well_shaped n conds ->
  let sys := apply_dirichlet conds (mkSystem A b) in
  solves n (lhs sys) (rhs sys) x -> veq n (overwrite_all conds x) x.
Proof.
  intros W sys S d Hd.
  pose proof (well_shaped_sequence _ _ W) as HF.
  destruct (closed_all n A b _ HF) as (g1 & g2 & HC).
  unfold sys in S. rewrite apply_sequence in S.
  rewrite (closed_solves n A b _ _ g1 g2 x HF HC) in S. destruct S as [S1 _].
  destruct (overwrite_spec n conds x W) as [H1 H2].
  destruct (pinned (sequence conds) d) eqn:E.
  - rewrite (S1 d E).
    assert (L1 : latest (sequence conds) d (g2 d)) by (eapply cl_last; eauto).
    assert (L2 : latest (sequence conds) d (overwrite_all conds x d))
      by (apply H1; apply (pinned_prescribed n); auto).
    clear - L1 L2 HF. destruct L1 as (p1 & a1 & q1 & E1 & P1 & N1).
    destruct L2 as (p2 & a2 & q2 & E2 & P2 & N2).
    assert (p1 ++ a1 :: q1 = p2 ++ a2 :: q2) as EQ by congruence.
    assert (FA1 : shaped n a1). { rewrite E1 in HF. apply Forall_elt in HF. auto. }
    assert (a1 = a2).
    { clear E1 E2 HF FA1. revert p2 EQ. induction p1 as [|z p1 IH]; intros p2 EQ.
      - destruct p2 as [|y p2]; simpl in EQ; inversion EQ; auto. subst.
        exfalso. eapply N1; [|exact P2]. apply in_or_app. right. left. reflexivity.
      - destruct p2 as [|y p2]; simpl in EQ; inversion EQ; subst.
        + exfalso. eapply N2; [|exact P1]. apply in_or_app. right. left. reflexivity.
        + eapply IH; eauto. }
    subst a2. apply (pins_spec n) in P1; auto. apply (pins_spec n) in P2; auto.
    destruct P1, P2; congruence.
  - apply H2. intros w Hw. assert (pinned (sequence conds) d = true)
      by (apply (pinned_prescribed n); eauto). congruence.
Qed.
