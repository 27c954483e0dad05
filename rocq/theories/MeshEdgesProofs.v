(* Proofs about the edge matrix and the edge list (C08). *)
From Coq Require Import List Arith Bool Lia Sorted.
From Verif Require Import Common MeshModel MeshSpec ListLemmas.
Import ListNotations.

Definition b2n (b : bool) : nat := if b then 1 else 0.
Fixpoint sumn {A} (f : A -> nat) (l : list A) : nat :=
  match l with [] => 0 | x :: t => f x + sumn f t end.

Lemma sumn_ext {A} (f g : A -> nat) l : (forall x, In x l -> f x = g x) -> sumn f l = sumn g l.
Proof. induction l; simpl; intros H; [reflexivity|]. f_equal; auto. Qed.

Lemma sumn_zero {A} (f : A -> nat) l : (forall x, In x l -> f x = 0) -> sumn f l = 0.
Proof. induction l; simpl; intros H; [reflexivity|]. rewrite (H a), IHl by auto. reflexivity. Qed.

Lemma sumn_single (f : nat -> nat) l a :
  NoDup l -> In a l -> (forall x, In x l -> x <> a -> f x = 0) -> sumn f l = f a.
Proof.
  induction l as [|y l IH]; simpl; intros ND Hin Hz; [tauto|]. inversion ND; subst.
  destruct Hin as [->|Hin].
  - rewrite sumn_zero; [lia|]. intros x Hx. apply Hz; auto. intros ->. contradiction.
  - rewrite IH; auto. rewrite (Hz y); auto. intros ->. contradiction.
Qed.

Lemma inner_fold (e : list nat) i l m x y :
  fold_left (fun m j => if negb (i =? j) then bump m (nth i e 0) (nth j e 0) else m) l m x y =
  m x y + sumn (fun j => b2n (negb (i =? j) && (x =? nth i e 0) && (y =? nth j e 0))) l.
Proof.
  revert m. induction l as [|j l IH]; intros m; simpl; [lia|].
  rewrite IH. destruct (negb (i =? j)); simpl; [|lia].
  unfold bump. destruct ((x =? nth i e 0) && (y =? nth j e 0)); simpl; lia.
Qed.

Lemma element_fold (e : list nat) w l m x y :
  fold_left (fun m i =>
    fold_left (fun m j => if negb (i =? j) then bump m (nth i e 0) (nth j e 0) else m)
      (seq 0 w) m) l m x y =
  m x y + sumn (fun i => sumn (fun j => b2n (negb (i =? j) && (x =? nth i e 0) && (y =? nth j e 0)))
                           (seq 0 w)) l.
Proof.
  revert m. induction l as [|i l IH]; intros m; simpl; [lia|].
  rewrite IH, inner_fold. lia.
Qed.

Lemma element_contrib (e : list nat) m x y :
  NoDup e ->
  edges_matrix_element (length e) m e x y =
  m x y + b2n (negb (x =? y) && mem_nat x e && mem_nat y e).
Proof.
  intros ND. unfold edges_matrix_element. rewrite element_fold. f_equal.
  destruct (mem_nat x e) eqn:Ex.
  2:{ rewrite andb_false_r. simpl. apply sumn_zero. intros i Hi. apply in_seq in Hi.
      apply sumn_zero. intros j Hj. destruct (Nat.eqb_spec x (nth i e 0)) as [E|E].
      - exfalso. apply mem_nat_false in Ex. apply Ex. rewrite E. apply nth_In. lia.
      - now rewrite andb_false_r. }
  destruct (mem_nat y e) eqn:Ey.
  2:{ rewrite andb_false_r. simpl. apply sumn_zero. intros i Hi.
      apply sumn_zero. intros j Hj. apply in_seq in Hj.
      destruct (Nat.eqb_spec y (nth j e 0)) as [E|E].
      - exfalso. apply mem_nat_false in Ey. apply Ey. rewrite E. apply nth_In. lia.
      - now rewrite andb_false_r. }
  apply mem_nat_spec in Ex, Ey.
  destruct (In_nth e x 0 Ex) as [a [Ha Ea]]. destruct (In_nth e y 0 Ey) as [b [Hb Eb]].
  rewrite (sumn_single _ _ a).
  - rewrite (sumn_single _ _ b).
    + rewrite Ea, Eb, !Nat.eqb_refl, !andb_true_r. f_equal. f_equal.
      destruct (Nat.eqb_spec a b), (Nat.eqb_spec x y); auto; exfalso; [congruence|].
      apply n. apply (proj1 (NoDup_nth e 0) ND); auto; congruence.
    + apply seq_NoDup.
    + apply in_seq. lia.
    + intros j Hj Hne. apply in_seq in Hj. destruct (Nat.eqb_spec y (nth j e 0)) as [E|E].
      * exfalso. apply Hne. apply (proj1 (NoDup_nth e 0) ND); auto; try lia; congruence.
      * now rewrite andb_false_r.
  - apply seq_NoDup.
  - apply in_seq. lia.
  - intros i Hi Hne. apply in_seq in Hi. apply sumn_zero. intros j Hj.
    destruct (Nat.eqb_spec x (nth i e 0)) as [E|E].
    + exfalso. apply Hne. apply (proj1 (NoDup_nth e 0) ND); auto; try lia; congruence.
    + now rewrite andb_false_r.
Qed.

Definition shared (x y : nat) (e : list nat) : bool := mem_nat x e && mem_nat y e.

Lemma edges_fold w els m x y :
  simplices w els ->
  fold_left (edges_matrix_element w) els m x y =
  m x y + (if x =? y then 0 else length (filter (shared x y) els)).
Proof.
  intros HS. revert m. induction els as [|e els IH]; intros m; simpl.
  - destruct (x =? y); lia.
  - inversion HS as [|e0 els0 [L ND] HS']; subst e0 els0. rewrite (IH HS'). subst w. rewrite element_contrib by assumption.
    unfold shared. destruct (x =? y); simpl; [lia|].
    destruct (mem_nat x e), (mem_nat y e); simpl; lia.
Qed.

Lemma get_edges_matrix_count w els x y :
  simplices w els ->
  get_edges_matrix els x y = if x =? y then 0 else length (filter (shared x y) els).
Proof.
  intros HS. unfold get_edges_matrix. destruct els as [|e els].
  - simpl. destruct (x =? y); reflexivity.
  - assert (L : length (nth 0 (e :: els) []) = w) by (inversion HS; simpl; tauto).
    rewrite L, (edges_fold w); auto.
Qed.

Lemma filter_shared_count els x y : shared_count els x y (length (filter (shared x y) els)).
Proof.
  exists (filter (fun k => shared x y (nth k els [])) (seq 0 (length els))). split; [|split].
  - apply NoDup_filter, seq_NoDup.
  - assert (G : forall l a pre, a = length pre ->
      length (filter (fun k => shared x y (nth k (pre ++ l) [])) (seq a (length l))) =
      length (filter (shared x y) l)).
    { induction l as [|e l IH]; intros a pre Ha; simpl; auto.
      rewrite app_nth2 by lia. replace (a - length pre) with 0 by lia. simpl.
      specialize (IH (S a) (pre ++ [e])). rewrite <- app_assoc in IH. simpl in IH.
      assert (S a = length (pre ++ [e])) by (rewrite app_length; simpl; lia).
      destruct (shared x y e); simpl; rewrite IH; auto. }
    apply (G els 0 []). reflexivity.
  - intros k. rewrite filter_In, in_seq. unfold shared. rewrite andb_true_iff, !mem_nat_spec. split.
    + intros [Hk [H1 H2]]. exists (nth k els []). split; [apply nth_error_nth'; lia|auto].
    + intros [e [Hk [H1 H2]]]. rewrite (nth_error_nth _ _ _ Hk).
      assert (k < length els) by (apply nth_error_Some; congruence). split; auto. lia.
Qed.

Lemma edges_matrix_spec w els x y :
  simplices w els ->
  (x <> y -> shared_count els x y (get_edges_matrix els x y)) /\
  get_edges_matrix els x x = 0 /\
  get_edges_matrix els x y = get_edges_matrix els y x.
Proof.
  intros HS. rewrite !(get_edges_matrix_count w els) by assumption.
  rewrite Nat.eqb_refl, (Nat.eqb_sym y x). split; [|split; auto].
  - intros Hne. apply Nat.eqb_neq in Hne. rewrite Hne. apply filter_shared_count.
  - destruct (x =? y); auto. f_equal. apply filter_ext. intros e. unfold shared. apply andb_comm.
Qed.

Lemma edges_matrix_pos w els x y :
  simplices w els -> (0 < get_edges_matrix els x y <-> share_element els x y).
Proof.
  intros HS. rewrite (get_edges_matrix_count w els) by assumption. unfold share_element.
  destruct (Nat.eqb_spec x y) as [E|E]; [split; [lia|intros [? _]; contradiction]|].
  split.
  - intros H. split; auto. destruct (filter (shared x y) els) as [|e l] eqn:F; [simpl in H; lia|].
    assert (Hin : In e (filter (shared x y) els)) by (rewrite F; simpl; auto).
    apply filter_In in Hin. unfold shared in Hin. rewrite andb_true_iff, !mem_nat_spec in Hin.
    exists e. tauto.
  - intros [_ [e [He [H1 H2]]]].
    assert (Hin : In e (filter (shared x y) els)).
    { apply filter_In. unfold shared. rewrite andb_true_iff, !mem_nat_spec. auto. }
    destruct (filter (shared x y) els); [contradiction|simpl; lia].
Qed.

Lemma product_In n i j :
  In (i, j) (flat_map (fun i => map (fun j => (i, j)) (seq 0 n)) (seq 0 n)) <-> i < n /\ j < n.
Proof.
  rewrite in_flat_map. split.
  - intros [a [Ha H]]. apply in_map_iff in H. destruct H as [b [E Hb]]. inversion E; subst.
    apply in_seq in Ha, Hb. lia.
  - intros [H1 H2]. exists i. split; [apply in_seq; lia|]. apply in_map, in_seq. lia.
Qed.

Lemma SS_app {A} (R : A -> A -> Prop) l l' :
  StronglySorted R l -> StronglySorted R l' -> (forall x y, In x l -> In y l' -> R x y) ->
  StronglySorted R (l ++ l').
Proof.
  induction 1 as [|x l Hs IH Hf]; intros H' HR; simpl; auto.
  constructor.
  - apply IH; auto. intros; apply HR; simpl; auto.
  - rewrite Forall_forall in *. intros y Hy. apply in_app_or in Hy.
    destruct Hy; [auto|apply HR; simpl; auto].
Qed.

Lemma product_sorted n :
  StronglySorted lex_lt2 (flat_map (fun i => map (fun j => (i, j)) (seq 0 n)) (seq 0 n)).
Proof.
  assert (R : forall i l, StronglySorted lt l -> StronglySorted lex_lt2 (map (fun j => (i, j)) l)).
  { intros i l H. induction H as [|x l Hs IH Hf]; simpl; constructor; auto.
    rewrite Forall_forall in *. intros p Hp. apply in_map_iff in Hp. destruct Hp as [j [<- Hj]].
    right. simpl. auto. }
  assert (G : forall m a, StronglySorted lex_lt2
                (flat_map (fun i => map (fun j => (i, j)) (seq 0 n)) (seq a m))).
  { induction m as [|m IH]; intros a; simpl; [constructor|]. apply SS_app.
    - apply R, sorted_lt_seq.
    - apply IH.
    - intros p q Hp Hq. apply in_map_iff in Hp. destruct Hp as [j [<- _]].
      apply in_flat_map in Hq. destruct Hq as [i [Hi Hq]]. apply in_map_iff in Hq.
      destruct Hq as [j' [<- _]]. apply in_seq in Hi. left. simpl. lia. }
  apply G.
Qed.

Lemma SS_filter {A} (R : A -> A -> Prop) f l : StronglySorted R l -> StronglySorted R (filter f l).
Proof.
  induction 1 as [|x l Hs IH Hf]; simpl; [constructor|].
  destruct (f x); auto. constructor; auto.
  rewrite Forall_forall in *. intros y Hy. apply filter_In in Hy. apply Hf. tauto.
Qed.

Lemma edges_list_spec w n els :
  simplices w els -> in_range n els ->
  StronglySorted lex_lt2 (get_edges_list n (get_edges_matrix els)) /\
  forall i j, In (i, j) (get_edges_list n (get_edges_matrix els)) <-> i < j /\ share_element els i j.
Proof.
  intros HS HR. unfold get_edges_list. split; [apply SS_filter, product_sorted|].
  intros i j. rewrite filter_In, product_In, andb_true_iff, !Nat.ltb_lt,
    (edges_matrix_pos w els i j HS). split; [tauto|].
  intros [H1 H2]. repeat split; auto; try lia; try apply H2.
  - destruct H2 as [_ [e [He [Hi _]]]]. unfold in_range in HR. rewrite Forall_forall in HR.
    specialize (HR e He). rewrite Forall_forall in HR. auto.
  - destruct H2 as [_ [e [He [_ Hj]]]]. unfold in_range in HR. rewrite Forall_forall in HR.
    specialize (HR e He). rewrite Forall_forall in HR. auto.
Qed.
