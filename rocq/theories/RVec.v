(* Finite sums, vectors and matrices over the reals.
   A vector of size n is a function nat -> R of which only the entries < n matter; a
   matrix likewise.  The definitions are the numeric vocabulary shared by models and
   specifications; the lemmas are elementary facts about finite sums. *)
From Coq Require Import Reals List Arith Bool Lia Lra.
Import ListNotations.
Local Open Scope R_scope.

Definition vec := nat -> R.
Definition mat := nat -> nat -> R.

(* sum_{i<n} f i *)
Fixpoint sum (n : nat) (f : nat -> R) : R :=
  match n with
  | O => 0
  | S m => sum m f + f m
  end.

(* sum over a list *)
Fixpoint lsum {A} (l : list A) (f : A -> R) : R :=
  match l with
  | [] => 0
  | x :: t => f x + lsum t f
  end.

(* np.dot of two vectors *)
Definition dot (n : nat) (x y : vec) : R := sum n (fun i => x i * y i).

(* (A @ x)[i], A with n columns *)
Definition mv (n : nat) (A : mat) (x : vec) : vec := fun i => sum n (fun j => A i j * x j).

(* (A @ B)[i,j], inner dimension n *)
Definition mm (n : nat) (A B : mat) : mat := fun i j => sum n (fun k => A i k * B k j).

Definition mT (A : mat) : mat := fun i j => A j i.

(* entry of the identity matrix *)
Definition delta (i j : nat) : R := if Nat.eqb i j then 1 else 0.

(* pointwise equality on the first n entries *)
Definition veq (n : nat) (x y : vec) : Prop := forall i, (i < n)%nat -> x i = y i.
Definition meq (n m : nat) (A B : mat) : Prop :=
  forall i j, (i < n)%nat -> (j < m)%nat -> A i j = B i j.

Definition symmetric (n : nat) (A : mat) : Prop :=
  forall i j, (i < n)%nat -> (j < n)%nat -> A i j = A j i.

(* x' A x *)
Definition qform (n : nat) (A : mat) (x : vec) : R := dot n x (mv n A x).

Definition pos_semidef (n : nat) (A : mat) : Prop := forall x, 0 <= qform n A x.

Definition pos_def (n : nat) (A : mat) : Prop :=
  forall x, (exists i, (i < n)%nat /\ x i <> 0) -> 0 < qform n A x.

(* ------------------------------------------------------------------ *)

Lemma sum_ext n f g : (forall i, (i < n)%nat -> f i = g i) -> sum n f = sum n g.
Proof.
  induction n as [|n IH]; intros H; simpl; [reflexivity|].
  rewrite IH by (intros; apply H; lia). rewrite H by lia. reflexivity.
Qed.

Lemma sum_0 n f : (forall i, (i < n)%nat -> f i = 0) -> sum n f = 0.
Proof.
  induction n as [|n IH]; intros H; simpl; [reflexivity|].
  rewrite IH by (intros; apply H; lia). rewrite H by lia. ring.
Qed.

Lemma sum_plus n f g : sum n (fun i => f i + g i) = sum n f + sum n g.
Proof. induction n as [|n IH]; simpl; [ring|]. rewrite IH. ring. Qed.

Lemma sum_minus n f g : sum n (fun i => f i - g i) = sum n f - sum n g.
Proof. induction n as [|n IH]; simpl; [ring|]. rewrite IH. ring. Qed.

Lemma sum_opp n f : sum n (fun i => - f i) = - sum n f.
Proof. induction n as [|n IH]; simpl; [ring|]. rewrite IH. ring. Qed.

Lemma sum_scal n c f : sum n (fun i => c * f i) = c * sum n f.
Proof. induction n as [|n IH]; simpl; [ring|]. rewrite IH. ring. Qed.

Lemma sum_scal_r n c f : sum n (fun i => f i * c) = sum n f * c.
Proof. induction n as [|n IH]; simpl; [ring|]. rewrite IH. ring. Qed.

Lemma sum_swap n m (f : nat -> nat -> R) :
  sum n (fun i => sum m (fun j => f i j)) = sum m (fun j => sum n (fun i => f i j)).
Proof.
  induction n as [|n IH]; simpl.
  - symmetry. apply sum_0. reflexivity.
  - rewrite IH. rewrite <- sum_plus. reflexivity.
Qed.

Lemma sum_split n m f : sum (n + m) f = sum n f + sum m (fun i => f (n + i)%nat).
Proof.
  induction m as [|m IH]; simpl.
  - rewrite Nat.add_0_r. ring.
  - rewrite Nat.add_succ_r. simpl. rewrite IH. ring.
Qed.

Lemma sum_single n k f :
  (k < n)%nat -> (forall i, (i < n)%nat -> i <> k -> f i = 0) -> sum n f = f k.
Proof.
  induction n as [|n IH]; intros Hk H; [lia|]. simpl.
  destruct (Nat.eq_dec k n) as [->|Hne].
  - rewrite sum_0; [ring|]. intros i Hi. apply H; lia.
  - rewrite IH; [|lia|intros; apply H; lia]. rewrite (H n) by lia. ring.
Qed.

Lemma sum_delta_l n k f : (k < n)%nat -> sum n (fun i => delta k i * f i) = f k.
Proof.
  intros Hk. rewrite (sum_single n k); auto.
  - unfold delta. rewrite Nat.eqb_refl. ring.
  - intros i _ Hi. unfold delta. destruct (Nat.eqb_spec k i); [congruence|ring].
Qed.

Lemma sum_delta_r n k f : (k < n)%nat -> sum n (fun i => f i * delta i k) = f k.
Proof.
  intros Hk. rewrite (sum_single n k); auto.
  - unfold delta. rewrite Nat.eqb_refl. ring.
  - intros i _ Hi. unfold delta. destruct (Nat.eqb_spec i k); [congruence|ring].
Qed.

Lemma sum_nonneg n f : (forall i, (i < n)%nat -> 0 <= f i) -> 0 <= sum n f.
Proof.
  induction n as [|n IH]; intros H; simpl; [lra|].
  assert (0 <= sum n f) by (apply IH; intros; apply H; lia).
  assert (0 <= f n) by (apply H; lia). lra.
Qed.

Lemma sum_le n f g : (forall i, (i < n)%nat -> f i <= g i) -> sum n f <= sum n g.
Proof.
  induction n as [|n IH]; intros H; simpl; [lra|].
  assert (sum n f <= sum n g) by (apply IH; intros; apply H; lia).
  assert (f n <= g n) by (apply H; lia). lra.
Qed.

Lemma sum_nonneg_0 n f :
  (forall i, (i < n)%nat -> 0 <= f i) -> sum n f = 0 -> forall i, (i < n)%nat -> f i = 0.
Proof.
  induction n as [|n IH]; intros H H0 i Hi; [lia|]. simpl in H0.
  assert (A : 0 <= sum n f) by (apply sum_nonneg; intros; apply H; lia).
  assert (B : 0 <= f n) by (apply H; lia).
  destruct (Nat.eq_dec i n) as [->|]; [lra|].
  apply IH; [intros; apply H; lia|lra|lia].
Qed.

Lemma sum_pos n f k :
  (forall i, (i < n)%nat -> 0 <= f i) -> (k < n)%nat -> 0 < f k -> 0 < sum n f.
Proof.
  intros H Hk Hp. destruct (Rle_lt_or_eq_dec 0 (sum n f)) as [L|L]; auto.
  - apply sum_nonneg; auto.
  - symmetry in L. rewrite (sum_nonneg_0 n f H L k Hk) in Hp. lra.
Qed.

Lemma sum_const n c : sum n (fun _ => c) = INR n * c.
Proof.
  induction n as [|n IH]; [simpl; ring|].
  rewrite S_INR. simpl sum. rewrite IH. ring.
Qed.

(* two-level indexing: k = d*N + i *)
Lemma sum_blocks d N f :
  sum (d * N) f = sum d (fun c => sum N (fun i => f (c * N + i)%nat)).
Proof.
  induction d as [|d IH]; simpl; [reflexivity|].
  rewrite Nat.add_comm, sum_split, IH. reflexivity.
Qed.

(* restriction of the summation range *)
Lemma sum_range n a b (f : nat -> R) : (a <= b <= n)%nat ->
  sum n (fun i => if (a <=? i)%nat && (i <? b)%nat then f i else 0)
  = sum (b - a) (fun t => f (a + t)%nat).
Proof.
  intros H. replace n with (a + ((b - a) + (n - b)))%nat by lia.
  rewrite !sum_split.
  rewrite sum_0; [|intros i Hi; destruct (Nat.leb_spec a i); [lia|reflexivity]].
  rewrite (sum_ext (b - a) _ (fun t => f (a + t)%nat)).
  2:{ intros i Hi. destruct (Nat.leb_spec a (a + i)); [|lia].
      destruct (Nat.ltb_spec (a + i) b); [reflexivity|lia]. }
  rewrite (sum_0 (n - b)); [ring|].
  intros i Hi. destruct (Nat.ltb_spec (a + (b - a + i)) b); [lia|].
  rewrite Bool.andb_false_r. reflexivity.
Qed.

(* lists *)
Lemma lsum_ext {A} (l : list A) f g : (forall x, In x l -> f x = g x) -> lsum l f = lsum l g.
Proof.
  induction l as [|x l IH]; intros H; simpl; [reflexivity|].
  rewrite H by (left; reflexivity). rewrite IH; auto. intros; apply H; right; auto.
Qed.

Lemma lsum_0 {A} (l : list A) f : (forall x, In x l -> f x = 0) -> lsum l f = 0.
Proof.
  induction l as [|x l IH]; intros H; simpl; [reflexivity|].
  rewrite H by (left; reflexivity). rewrite IH; [ring|]. intros; apply H; right; auto.
Qed.

Lemma lsum_plus {A} (l : list A) f g : lsum l (fun x => f x + g x) = lsum l f + lsum l g.
Proof. induction l as [|x l IH]; simpl; [ring|]. rewrite IH. ring. Qed.

Lemma lsum_minus {A} (l : list A) f g : lsum l (fun x => f x - g x) = lsum l f - lsum l g.
Proof. induction l as [|x l IH]; simpl; [ring|]. rewrite IH. ring. Qed.

Lemma lsum_scal {A} (l : list A) c f : lsum l (fun x => c * f x) = c * lsum l f.
Proof. induction l as [|x l IH]; simpl; [ring|]. rewrite IH. ring. Qed.

Lemma lsum_scal_r {A} (l : list A) c f : lsum l (fun x => f x * c) = lsum l f * c.
Proof. induction l as [|x l IH]; simpl; [ring|]. rewrite IH. ring. Qed.

Lemma lsum_app {A} (l m : list A) f : lsum (l ++ m) f = lsum l f + lsum m f.
Proof. induction l as [|x l IH]; simpl; [ring|]. rewrite IH. ring. Qed.

Lemma lsum_map {A B} (h : A -> B) (l : list A) f : lsum (map h l) f = lsum l (fun x => f (h x)).
Proof. induction l as [|x l IH]; simpl; [reflexivity|]. rewrite IH. reflexivity. Qed.

Lemma lsum_sum_swap {A} (l : list A) n (f : A -> nat -> R) :
  lsum l (fun x => sum n (f x)) = sum n (fun i => lsum l (fun x => f x i)).
Proof.
  induction l as [|x l IH]; simpl.
  - symmetry. apply sum_0. reflexivity.
  - rewrite IH, <- sum_plus. reflexivity.
Qed.

Lemma lsum_swap {A B} (l : list A) (m : list B) (f : A -> B -> R) :
  lsum l (fun x => lsum m (f x)) = lsum m (fun y => lsum l (fun x => f x y)).
Proof.
  induction l as [|x l IH]; simpl.
  - symmetry. apply lsum_0. reflexivity.
  - rewrite IH, <- lsum_plus. reflexivity.
Qed.

Lemma lsum_nonneg {A} (l : list A) f : (forall x, In x l -> 0 <= f x) -> 0 <= lsum l f.
Proof.
  induction l as [|x l IH]; intros H; simpl; [lra|].
  assert (0 <= f x) by (apply H; left; reflexivity).
  assert (0 <= lsum l f) by (apply IH; intros; apply H; right; auto). lra.
Qed.

Lemma lsum_le {A} (l : list A) f g :
  (forall x, In x l -> f x <= g x) -> lsum l f <= lsum l g.
Proof.
  induction l as [|x l IH]; intros H; simpl; [lra|].
  assert (f x <= g x) by (apply H; left; reflexivity).
  assert (lsum l f <= lsum l g) by (apply IH; intros; apply H; right; auto). lra.
Qed.

Lemma lsum_nonneg_0 {A} (l : list A) f :
  (forall x, In x l -> 0 <= f x) -> lsum l f = 0 -> forall x, In x l -> f x = 0.
Proof.
  induction l as [|y l IH]; intros H H0 x Hx; [destruct Hx|]. simpl in H0.
  assert (A1 : 0 <= f y) by (apply H; left; reflexivity).
  assert (A2 : 0 <= lsum l f) by (apply lsum_nonneg; intros; apply H; right; auto).
  destruct Hx as [->|Hx]; [lra|].
  apply IH; auto; [intros; apply H; right; auto|lra].
Qed.

Lemma lsum_seq n f : lsum (seq 0 n) f = sum n f.
Proof.
  induction n as [|n IH]; [reflexivity|].
  rewrite seq_S, lsum_app, IH. simpl. ring.
Qed.

(* ------------------------------------------------------------------ *)
(* vectors and matrices *)

Lemma dot_ext n x x' y y' : veq n x x' -> veq n y y' -> dot n x y = dot n x' y'.
Proof. intros Hx Hy. apply sum_ext. intros i Hi. rewrite Hx, Hy; auto. Qed.

Lemma dot_comm n x y : dot n x y = dot n y x.
Proof. apply sum_ext. intros; ring. Qed.

Lemma dot_plus_l n x y z : dot n (fun i => x i + y i) z = dot n x z + dot n y z.
Proof. unfold dot. rewrite <- sum_plus. apply sum_ext. intros; ring. Qed.

Lemma dot_plus_r n x y z : dot n x (fun i => y i + z i) = dot n x y + dot n x z.
Proof. unfold dot. rewrite <- sum_plus. apply sum_ext. intros; ring. Qed.

Lemma dot_minus_l n x y z : dot n (fun i => x i - y i) z = dot n x z - dot n y z.
Proof. unfold dot. rewrite <- sum_minus. apply sum_ext. intros; ring. Qed.

Lemma dot_minus_r n x y z : dot n x (fun i => y i - z i) = dot n x y - dot n x z.
Proof. unfold dot. rewrite <- sum_minus. apply sum_ext. intros; ring. Qed.

Lemma dot_scal_l n c x y : dot n (fun i => c * x i) y = c * dot n x y.
Proof. unfold dot. rewrite <- sum_scal. apply sum_ext. intros; ring. Qed.

Lemma dot_scal_r n c x y : dot n x (fun i => c * y i) = c * dot n x y.
Proof. unfold dot. rewrite <- sum_scal. apply sum_ext. intros; ring. Qed.

Lemma mv_ext n A x y : veq n x y -> forall i, mv n A x i = mv n A y i.
Proof. intros H i. apply sum_ext. intros j Hj. rewrite H; auto. Qed.

Lemma mv_meq n m A B x : meq n m A B -> veq n (mv m A x) (mv m B x).
Proof. intros H i Hi. apply sum_ext. intros j Hj. rewrite H; auto. Qed.

Lemma mv_plus n A x y i : mv n A (fun k => x k + y k) i = mv n A x i + mv n A y i.
Proof. unfold mv. rewrite <- sum_plus. apply sum_ext. intros; ring. Qed.

Lemma mv_minus n A x y i : mv n A (fun k => x k - y k) i = mv n A x i - mv n A y i.
Proof. unfold mv. rewrite <- sum_minus. apply sum_ext. intros; ring. Qed.

Lemma mv_scal n A c x i : mv n A (fun k => c * x k) i = c * mv n A x i.
Proof. unfold mv. rewrite <- sum_scal. apply sum_ext. intros; ring. Qed.

Lemma mv_mat_plus n A B x i : mv n (fun k l => A k l + B k l) x i = mv n A x i + mv n B x i.
Proof. unfold mv. rewrite <- sum_plus. apply sum_ext. intros; ring. Qed.

Lemma mv_mat_scal n A c x i : mv n (fun k l => c * A k l) x i = c * mv n A x i.
Proof. unfold mv. rewrite <- sum_scal. apply sum_ext. intros; ring. Qed.

Lemma mv_assoc n m A B x i : mv n A (mv m B x) i = mv m (mm n A B) x i.
Proof.
  unfold mv, mm.
  rewrite (sum_ext n _ (fun j => sum m (fun k => A i j * B j k * x k))).
  2:{ intros j _. rewrite <- sum_scal. apply sum_ext. intros; ring. }
  rewrite sum_swap. apply sum_ext. intros k _. rewrite <- sum_scal_r.
  apply sum_ext. intros; ring.
Qed.

Lemma mm_assoc n m A B C i j : mm n A (mm m B C) i j = mm m (mm n A B) C i j.
Proof.
  unfold mm.
  rewrite (sum_ext n _ (fun k => sum m (fun l => A i k * B k l * C l j))).
  2:{ intros k _. rewrite <- sum_scal. apply sum_ext. intros; ring. }
  rewrite sum_swap. apply sum_ext. intros k _. rewrite <- sum_scal_r.
  apply sum_ext. intros; ring.
Qed.

Lemma dot_mv_T n m A x y : dot n x (mv m A y) = dot m (mv n (mT A) x) y.
Proof.
  unfold dot, mv, mT.
  rewrite (sum_ext n _ (fun i => sum m (fun j => A i j * x i * y j))).
  2:{ intros i _. rewrite <- sum_scal. apply sum_ext. intros; ring. }
  rewrite sum_swap. apply sum_ext. intros j _. rewrite <- sum_scal_r.
  apply sum_ext. intros; ring.
Qed.

Lemma dot_mv_sym n A x y : symmetric n A -> dot n x (mv n A y) = dot n y (mv n A x).
Proof.
  intros H. rewrite dot_mv_T, dot_comm. apply sum_ext. intros i Hi. f_equal.
  apply sum_ext. intros j Hj. unfold mT. rewrite H; auto.
Qed.

Lemma qform_ext n A x y : veq n x y -> qform n A x = qform n A y.
Proof.
  intros H. unfold qform. apply dot_ext; auto. intros i Hi. apply mv_ext; auto.
Qed.

Lemma qform_meq n A B x : meq n n A B -> qform n A x = qform n B x.
Proof.
  intros H. unfold qform. apply dot_ext; [intros i _; reflexivity|]. apply mv_meq; auto.
Qed.

Lemma qform_double n A x : qform n A x = sum n (fun i => sum n (fun j => A i j * x i * x j)).
Proof.
  unfold qform, dot, mv. apply sum_ext. intros i _. rewrite <- sum_scal.
  apply sum_ext. intros; ring.
Qed.

Lemma qform_plus n A B x :
  qform n (fun i j => A i j + B i j) x = qform n A x + qform n B x.
Proof.
  rewrite !qform_double, <- sum_plus. apply sum_ext. intros i _.
  rewrite <- sum_plus. apply sum_ext. intros; ring.
Qed.

Lemma qform_scal n c A x : qform n (fun i j => c * A i j) x = c * qform n A x.
Proof.
  rewrite !qform_double, <- sum_scal. apply sum_ext. intros i _.
  rewrite <- sum_scal. apply sum_ext. intros; ring.
Qed.

(* expansion of the quadratic form of a sum *)
Lemma qform_add_sym n A x y : symmetric n A ->
  qform n A (fun i => x i + y i) = qform n A x + 2 * dot n y (mv n A x) + qform n A y.
Proof.
  intros H. unfold qform.
  rewrite (dot_ext n _ (fun i => x i + y i) _ (fun i => mv n A x i + mv n A y i)).
  - rewrite dot_plus_l, !dot_plus_r. rewrite (dot_mv_sym n A x y H). ring.
  - intros i _; reflexivity.
  - intros i _. apply mv_plus.
Qed.

Lemma pos_def_semidef n A : pos_def n A -> pos_semidef n A.
Proof.
  intros H x.
  assert (D : (exists i, (i < n)%nat /\ x i <> 0) \/ veq n x (fun _ => 0)).
  { clear H. induction n as [|n IH]; [right; intros i Hi; lia|].
    destruct IH as [[i [Hi Hx]]|IH].
    - left; exists i; split; [lia|auto].
    - destruct (Req_dec (x n) 0) as [Z|Z].
      + right. intros i Hi. destruct (Nat.eq_dec i n) as [->|]; auto. apply IH; lia.
      + left. exists n. split; [lia|auto]. }
  destruct D as [D|D]; [left; apply H; auto|].
  rewrite (qform_ext n A x _ D). unfold qform, dot. right. symmetry.
  apply sum_0. intros; ring.
Qed.

Lemma vec_zero_dec n (x : vec) : (exists i, (i < n)%nat /\ x i <> 0) \/ veq n x (fun _ => 0).
Proof.
  induction n as [|n IH]; [right; intros i Hi; lia|].
  destruct IH as [[i [Hi Hx]]|IH].
  - left; exists i; split; [lia|auto].
  - destruct (Req_dec (x n) 0) as [Z|Z].
    + right. intros i Hi. destruct (Nat.eq_dec i n) as [->|]; auto. apply IH; lia.
    + left. exists n. split; [lia|auto].
Qed.

(* a positive definite matrix has at most one solution *)
Lemma pos_def_unique n A b x y : pos_def n A ->
  veq n (mv n A x) b -> veq n (mv n A y) b -> veq n x y.
Proof.
  intros P Hx Hy.
  destruct (vec_zero_dec n (fun i => x i - y i)) as [D|D].
  - exfalso. assert (Q := P _ D). unfold qform in Q.
    rewrite (dot_ext n _ (fun i => x i - y i) _ (fun _ => 0)) in Q.
    + unfold dot in Q. rewrite sum_0 in Q; [lra|]. intros; ring.
    + intros i _; reflexivity.
    + intros i Hi. rewrite mv_minus, Hx, Hy by auto. ring.
  - intros i Hi. specialize (D i Hi). simpl in D. lra.
Qed.
