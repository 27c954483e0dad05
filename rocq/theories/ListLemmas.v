(* Generic list facts. *)
From Coq Require Import List Arith ZArith Bool Lia Sorted Permutation.
From Verif Require Import Common MeshSpec.
Import ListNotations.

Lemma mem_nat_spec i l : mem_nat i l = true <-> In i l.
Proof.
  unfold mem_nat. rewrite existsb_exists. split.
  - intros [x [Hx E]]. apply Nat.eqb_eq in E. now subst.
  - intros H. exists i. split; [exact H | apply Nat.eqb_refl].
Qed.

Lemma mem_nat_false i l : mem_nat i l = false <-> ~ In i l.
Proof.
  rewrite <- mem_nat_spec. destruct (mem_nat i l); split; congruence.
Qed.

Section Lists.
  Context {A : Type}.

  Lemma length_remove_nth i (l : list A) : i < length l -> S (length (remove_nth i l)) = length l.
  Proof.
    revert i. induction l as [|x l IH]; intros [|i] H; simpl in *; try lia.
    rewrite IH; lia.
  Qed.

  Lemma nth_error_remove_lt i j (l : list A) :
    j < i -> nth_error (remove_nth i l) j = nth_error l j.
  Proof.
    revert i j. induction l as [|x l IH]; intros [|i] [|j] H; simpl in *; try lia; auto.
    apply IH; lia.
  Qed.

  Lemma nth_error_remove_ge i j (l : list A) :
    i <= j -> nth_error (remove_nth i l) j = nth_error l (S j).
  Proof.
    revert i j. induction l as [|x l IH]; intros [|i] [|j] H; simpl in *; try lia; auto.
    - apply IH; lia.
  Qed.

  Lemma length_set_nth i x (l : list A) : length (set_nth i x l) = length l.
  Proof. revert i. induction l; intros [|i]; simpl; auto. Qed.

  Lemma nth_error_set_nth_eq i x (l : list A) :
    i < length l -> nth_error (set_nth i x l) i = Some x.
  Proof. revert i. induction l; intros [|i] H; simpl in *; try lia; auto. apply IHl; lia. Qed.

  Lemma nth_error_set_nth_neq i j x (l : list A) :
    i <> j -> nth_error (set_nth i x l) j = nth_error l j.
  Proof.
    revert i j. induction l; intros [|i] [|j] H; simpl in *; try lia; auto.
  Qed.

  Lemma select_mask_filter (f : A -> bool) (l : list A) :
    select_mask l (map f l) = filter f l.
  Proof. induction l; simpl; auto. destruct (f a); congruence. Qed.

  Lemma filter_filter (f g : A -> bool) l :
    filter f (filter g l) = filter (fun x => g x && f x) l.
  Proof.
    induction l; simpl; auto. destruct (g a); simpl; [|exact IHl].
    destruct (f a); congruence.
  Qed.

  Lemma filter_rev (f : A -> bool) l : filter f (rev l) = rev (filter f l).
  Proof.
    induction l; simpl; auto. rewrite filter_app, IHl. simpl.
    destruct (f a); simpl; auto. now rewrite app_nil_r.
  Qed.

  Lemma filter_ext_in' (f g : A -> bool) l :
    (forall x, In x l -> f x = g x) -> filter f l = filter g l.
  Proof. apply filter_ext_in. Qed.

  Lemma filter_nil (f : A -> bool) l : (forall x, In x l -> f x = false) -> filter f l = [].
  Proof.
    induction l; simpl; auto. intros H. rewrite H by auto. apply IHl. auto.
  Qed.

  Lemma filter_all (f : A -> bool) l : (forall x, In x l -> f x = true) -> filter f l = l.
  Proof.
    induction l; simpl; auto. intros H. rewrite H by auto. f_equal. apply IHl. auto.
  Qed.

  Lemma filter_partition_perm (f : A -> bool) l :
    Permutation (filter f l ++ filter (fun x => negb (f x)) l) l.
  Proof.
    induction l; simpl; auto. destruct (f a); simpl.
    - now constructor.
    - apply Permutation_sym. apply Permutation_cons_app. now apply Permutation_sym.
  Qed.

  Lemma filter_length_le (f : A -> bool) l : length (filter f l) <= length l.
  Proof. induction l; simpl; auto. destruct (f a); simpl; lia. Qed.

  Lemma filter_seq_length_split (f : A -> bool) l :
    length (filter f l) + length (filter (fun x => negb (f x)) l) = length l.
  Proof. induction l; simpl; auto. destruct (f a); simpl; lia. Qed.

  Lemma Permutation_filter (f : A -> bool) l l' :
    Permutation l l' -> Permutation (filter f l) (filter f l').
  Proof.
    induction 1; simpl; auto.
    - destruct (f x); auto.
    - destruct (f x), (f y); auto. constructor.
    - eauto using Permutation_trans.
  Qed.

  Lemma Forall2_length' {B} (R : A -> B -> Prop) l l' : Forall2 R l l' -> length l = length l'.
  Proof. induction 1; simpl; auto. Qed.

  Lemma Forall2_nth_error {B} (R : A -> B -> Prop) l l' i x :
    Forall2 R l l' -> nth_error l i = Some x -> exists y, nth_error l' i = Some y /\ R x y.
  Proof.
    intros H. revert i. induction H; intros [|i] E; simpl in *; try discriminate.
    - inversion E; subst. eauto.
    - eauto.
  Qed.

  Lemma Forall2_nth_error_r {B} (R : A -> B -> Prop) l l' i y :
    Forall2 R l l' -> nth_error l' i = Some y -> exists x, nth_error l i = Some x /\ R x y.
  Proof.
    intros H. revert i. induction H; intros [|i] E; simpl in *; try discriminate.
    - inversion E; subst. eauto.
    - eauto.
  Qed.

  Lemma Forall2_from_nth {B} (R : A -> B -> Prop) l l' :
    length l = length l' ->
    (forall i x y, nth_error l i = Some x -> nth_error l' i = Some y -> R x y) ->
    Forall2 R l l'.
  Proof.
    revert l'. induction l; intros [|b l'] L H; simpl in *; try lia; constructor.
    - apply (H 0); reflexivity.
    - apply IHl; [lia|]. intros i x y E1 E2. apply (H (S i)); assumption.
  Qed.

  Lemma Forall2_map_l {B C} (f : C -> A) (R : A -> B -> Prop) l l' :
    Forall2 R (map f l) l' <-> Forall2 (fun c b => R (f c) b) l l'.
  Proof.
    revert l'. induction l; intros l'; split; intros H; inversion H; subst; simpl;
      constructor; auto; now apply IHl.
  Qed.

  Lemma Forall2_map_r {B C} (f : C -> B) (R : A -> B -> Prop) l l' :
    Forall2 R l (map f l') <-> Forall2 (fun a c => R a (f c)) l l'.
  Proof.
    revert l. induction l'; intros l; split; intros H; inversion H; subst; simpl;
      constructor; auto; now apply IHl'.
  Qed.

  Lemma Forall2_same (R : A -> A -> Prop) l : Forall (fun x => R x x) l -> Forall2 R l l.
  Proof. induction 1; constructor; auto. Qed.

  Lemma Forall2_impl_strong {B} (R S : A -> B -> Prop) l l' :
    Forall2 R l l' -> (forall x y, In x l -> In y l' -> R x y -> S x y) -> Forall2 S l l'.
  Proof.
    induction 1; intros HS; constructor.
    - apply HS; simpl; auto.
    - apply IHForall2. intros; apply HS; simpl; auto.
  Qed.

  Lemma Forall2_In_l {B} (R : A -> B -> Prop) l l' x :
    Forall2 R l l' -> In x l -> exists y, In y l' /\ R x y.
  Proof.
    induction 1; simpl; intros []; subst.
    - eauto.
    - destruct IHForall2 as [y' [? ?]]; eauto.
  Qed.

  Lemma Forall2_In_r {B} (R : A -> B -> Prop) l l' y :
    Forall2 R l l' -> In y l' -> exists x, In x l /\ R x y.
  Proof.
    induction 1; simpl; intros []; subst.
    - eauto.
    - destruct IHForall2 as [y' [? ?]]; eauto.
  Qed.
End Lists.

(* ------------------------------------------------------------------ sorting *)

Lemma insert_nat_perm x l : Permutation (insert_nat x l) (x :: l).
Proof.
  induction l as [|y l IH]; simpl; auto. destruct (x <=? y); auto.
  rewrite IH. apply perm_swap.
Qed.

Lemma sort_nat_perm l : Permutation (sort_nat l) l.
Proof.
  induction l; simpl; auto. rewrite insert_nat_perm. now constructor.
Qed.

Lemma insert_nat_sorted x l : StronglySorted le l -> StronglySorted le (insert_nat x l).
Proof.
  induction 1 as [|y l Hs IH Hf]; simpl.
  - repeat constructor.
  - destruct (Nat.leb_spec x y).
    + constructor; [constructor; assumption|]. constructor; [assumption|].
      eapply Forall_impl; [|exact Hf]. simpl; lia.
    + constructor; [exact IH|].
      eapply Permutation_Forall; [apply Permutation_sym, insert_nat_perm|].
      constructor; [lia | assumption].
Qed.

Lemma sort_nat_sorted l : StronglySorted le (sort_nat l).
Proof. induction l; simpl; [constructor | now apply insert_nat_sorted]. Qed.

Lemma sorted_le_NoDup_lt l : StronglySorted le l -> NoDup l -> StronglySorted lt l.
Proof.
  induction 1 as [|x l Hs IH Hf]; intros ND; [constructor|].
  inversion ND; subst. constructor; [auto|].
  rewrite Forall_forall in *. intros y Hy. specialize (Hf y Hy).
  assert (x <> y) by (intros ->; contradiction). lia.
Qed.

Lemma sort_nat_lt l : NoDup l -> StronglySorted lt (sort_nat l).
Proof.
  intros H. apply sorted_le_NoDup_lt; [apply sort_nat_sorted|].
  eapply Permutation_NoDup; [apply Permutation_sym, sort_nat_perm | exact H].
Qed.

Lemma sorted_lt_NoDup l : StronglySorted lt l -> NoDup l.
Proof.
  induction 1 as [|x l Hs IH Hf]; constructor; auto.
  rewrite Forall_forall in Hf. intros Hi. specialize (Hf x Hi). lia.
Qed.

Lemma sorted_lt_unique l l' :
  StronglySorted lt l -> StronglySorted lt l' -> (forall x, In x l <-> In x l') -> l = l'.
Proof.
  intros H. revert l'. induction H as [|x l Hs IH Hf]; intros l' H' E.
  - destruct l' as [|y l']; auto. destruct (proj2 (E y)); simpl; auto.
  - destruct H' as [|y l' Hs' Hf'].
    + destruct (proj1 (E x)); simpl; auto.
    + rewrite Forall_forall in *.
      assert (x = y).
      { destruct (proj1 (E x)) as [->|Hx]; simpl; auto.
        destruct (proj2 (E y)) as [->|Hy]; simpl; auto.
        specialize (Hf y Hy). specialize (Hf' x Hx). lia. }
      subst y. f_equal. apply IH; auto. intros z.
      split; intros Hz.
      * destruct (proj1 (E z)); simpl; auto. subst. specialize (Hf z Hz). lia.
      * destruct (proj2 (E z)); simpl; auto. subst. specialize (Hf' z Hz). lia.
Qed.

Lemma sorted_lt_seq a n : StronglySorted lt (seq a n).
Proof.
  revert a. induction n; intros a; simpl; constructor; auto.
  apply Forall_forall. intros x Hx. apply in_seq in Hx. lia.
Qed.

Lemma sorted_lt_filter f l : StronglySorted lt l -> StronglySorted lt (filter f l).
Proof.
  induction 1 as [|x l Hs IH Hf]; simpl; [constructor|].
  destruct (f x); auto. constructor; auto.
  rewrite Forall_forall in *. intros y Hy. apply filter_In in Hy. apply Hf. tauto.
Qed.

Lemma sorted_lt_map f l :
  (forall x y, x < y -> f x < f y) -> StronglySorted lt l -> StronglySorted lt (map f l).
Proof.
  intros Hf. induction 1 as [|x l Hs IH HF]; simpl; constructor; auto.
  rewrite Forall_forall in *. intros y Hy. apply in_map_iff in Hy.
  destruct Hy as [z [<- Hz]]. apply Hf. auto.
Qed.

(* ---------------------------------------------------------- unique indices *)

Lemma insert_uniq_In x l y : In y (insert_uniq x l) <-> y = x \/ In y l.
Proof.
  induction l as [|z l IH]; simpl.
  - intuition congruence.
  - destruct (Nat.eqb_spec x z); [subst; simpl; intuition congruence|].
    destruct (Nat.ltb_spec x z); simpl; [intuition congruence|]. rewrite IH. intuition congruence.
Qed.

Lemma insert_uniq_sorted x l : StronglySorted lt l -> StronglySorted lt (insert_uniq x l).
Proof.
  induction 1 as [|z l Hs IH Hf]; simpl.
  - repeat constructor.
  - destruct (Nat.eqb_spec x z); [constructor; assumption|].
    destruct (Nat.ltb_spec x z).
    + constructor; [constructor; assumption|]. constructor; [assumption|].
      eapply Forall_impl; [|exact Hf]. simpl. intros; lia.
    + constructor; [exact IH|]. rewrite Forall_forall in *. intros y Hy.
      apply insert_uniq_In in Hy. destruct Hy as [->|Hy]; [lia|auto].
Qed.

Lemma unique_nat_In x l : In x (unique_nat l) <-> In x l.
Proof.
  induction l; simpl; [tauto|]. unfold unique_nat in *. simpl.
  rewrite insert_uniq_In, IHl. intuition congruence.
Qed.

Lemma unique_nat_sorted l : StronglySorted lt (unique_nat l).
Proof. induction l; simpl; [constructor | now apply insert_uniq_sorted]. Qed.

(* ------------------------------------------------------------- unique rows *)

Lemma row_eqb_spec a b : row_eqb a b = true <-> a = b.
Proof.
  revert b. induction a as [|x a IH]; intros [|y b]; simpl; split; intros H; try congruence.
  - apply andb_true_iff in H. destruct H as [H1 H2]. apply Nat.eqb_eq in H1.
    apply IH in H2. congruence.
  - inversion H; subst. rewrite Nat.eqb_refl. simpl. now apply IH.
Qed.

Lemma row_eqb_false a b : row_eqb a b = false <-> a <> b.
Proof. rewrite <- row_eqb_spec. destruct (row_eqb a b); split; congruence. Qed.

Lemma row_eqb_refl a : row_eqb a a = true.
Proof. now apply row_eqb_spec. Qed.

Lemma lex_ltb_spec a b : lex_ltb a b = true <-> lex_lt a b.
Proof.
  revert b. induction a as [|x a IH]; intros [|y b]; simpl; split; intros H; try congruence.
  - inversion H.
  - constructor.
  - inversion H.
  - apply orb_true_iff in H. destruct H as [H|H].
    + apply Nat.ltb_lt in H. now constructor.
    + apply andb_true_iff in H. destruct H as [H1 H2]. apply Nat.eqb_eq in H1. subst.
      apply lex_tail. now apply IH.
  - inversion H; subst.
    + apply orb_true_iff. left. now apply Nat.ltb_lt.
    + apply orb_true_iff. right. rewrite Nat.eqb_refl. simpl. now apply IH.
Qed.

Lemma lex_lt_total a b : lex_lt a b \/ a = b \/ lex_lt b a.
Proof.
  revert b. induction a as [|x a IH]; intros [|y b].
  - auto.
  - left; constructor.
  - right; right; constructor.
  - destruct (lt_eq_lt_dec x y) as [[H| ->]|H].
    + left; now constructor.
    + destruct (IH b) as [H|[->|H]].
      * left; now apply lex_tail.
      * auto.
      * right; right; now apply lex_tail.
    + right; right; now constructor.
Qed.

Lemma lex_lt_trans a b c : lex_lt a b -> lex_lt b c -> lex_lt a c.
Proof.
  intros H. revert c. induction H; intros c Hc; inversion Hc; subst;
    try apply lex_nil; try (apply lex_head; lia); apply lex_tail; auto.
Qed.

Lemma lex_lt_irrefl a : ~ lex_lt a a.
Proof. induction a; intros H; inversion H; subst; [lia | auto]. Qed.

Lemma insert_row_In r l s : In s (insert_row r l) <-> s = r \/ In s l.
Proof.
  induction l as [|z l IH]; simpl.
  - intuition congruence.
  - destruct (row_eqb r z) eqn:E; [apply row_eqb_spec in E; subst; simpl; intuition congruence|].
    destruct (lex_ltb r z); simpl; [intuition congruence|]. rewrite IH. intuition congruence.
Qed.

Lemma insert_row_sorted r l : StronglySorted lex_lt l -> StronglySorted lex_lt (insert_row r l).
Proof.
  induction 1 as [|z l Hs IH Hf]; simpl.
  - repeat constructor.
  - destruct (row_eqb r z) eqn:E; [constructor; assumption|].
    apply row_eqb_false in E.
    destruct (lex_ltb r z) eqn:L.
    + apply lex_ltb_spec in L.
      constructor; [constructor; assumption|]. constructor; [assumption|].
      eapply Forall_impl; [|exact Hf]. simpl. intros; eapply lex_lt_trans; eauto.
    + assert (lex_lt z r).
      { destruct (lex_lt_total r z) as [H|[H|H]]; auto; try congruence.
        apply lex_ltb_spec in H. congruence. }
      constructor; [exact IH|]. rewrite Forall_forall in *. intros y Hy.
      apply insert_row_In in Hy. destruct Hy as [->|Hy]; auto.
Qed.

Lemma unique_rows_In r rows : In r (unique_rows rows) <-> In r rows.
Proof.
  induction rows; simpl; [tauto|]. rewrite insert_row_In, IHrows. intuition congruence.
Qed.

Lemma unique_rows_sorted rows : StronglySorted lex_lt (unique_rows rows).
Proof. induction rows; simpl; [constructor | now apply insert_row_sorted]. Qed.

Lemma sorted_lex_NoDup l : StronglySorted lex_lt l -> NoDup l.
Proof.
  induction 1 as [|x l Hs IH Hf]; constructor; auto.
  rewrite Forall_forall in Hf. intros Hi. specialize (Hf x Hi).
  now apply lex_lt_irrefl in Hf.
Qed.

Lemma sorted_lex_filter f l : StronglySorted lex_lt l -> StronglySorted lex_lt (filter f l).
Proof.
  induction 1 as [|x l Hs IH Hf]; simpl; [constructor|].
  destruct (f x); auto. constructor; auto.
  rewrite Forall_forall in *. intros y Hy. apply filter_In in Hy. apply Hf. tauto.
Qed.

Lemma count_row_pos r rows : 0 < count_row r rows <-> In r rows.
Proof.
  induction rows as [|s rows IH]; simpl; [lia|].
  destruct (row_eqb r s) eqn:E.
  - apply row_eqb_spec in E. subst. split; [auto|lia].
  - apply row_eqb_false in E. rewrite IH. intuition congruence.
Qed.

Lemma count_row_app r l l' : count_row r (l ++ l') = count_row r l + count_row r l'.
Proof. induction l; simpl; auto. destruct (row_eqb r a); lia. Qed.

Lemma first_index_spec r rows :
  In r rows -> nth_error rows (first_index r rows) = Some r.
Proof.
  induction rows as [|s rows IH]; simpl; [tauto|]. intros H.
  destruct (row_eqb r s) eqn:E.
  - apply row_eqb_spec in E. subst. reflexivity.
  - apply row_eqb_false in E. simpl. apply IH. destruct H; congruence.
Qed.

Lemma count_one_unique r rows i j :
  count_row r rows = 1 -> nth_error rows i = Some r -> nth_error rows j = Some r -> i = j.
Proof.
  revert i j. induction rows as [|s rows IH]; simpl; intros i j H Hi Hj; [lia|].
  destruct (row_eqb r s) eqn:E.
  - assert (~ In r rows) by (rewrite <- count_row_pos; lia).
    destruct i, j; simpl in *; auto.
    + apply nth_error_In in Hj. contradiction.
    + apply nth_error_In in Hi. contradiction.
    + apply nth_error_In in Hi. contradiction.
  - apply row_eqb_false in E. destruct i, j; simpl in *; try congruence.
    f_equal. eapply IH; eauto.
Qed.
