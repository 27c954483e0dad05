(* The assembly loops produce the sum of the element matrices. *)
From Coq Require Import Reals List Arith Bool Lia Lra.
From Verif Require Import RVec MeshSpec FemModel FemSpec FemGeomProofs.
Import ListNotations.
Local Open Scope R_scope.

(* a fold whose step adds a term, observed through [obs] *)
Lemma fold_add {S A} (obs : S -> R) (step : S -> A -> S) (term : A -> R) :
  (forall s x, obs (step s x) = obs s + term x) ->
  forall l s, obs (fold_left step l s) = obs s + lsum l term.
Proof.
  intros H l. induction l as [|x l IH]; intros s; simpl; [ring|].
  rewrite IH, H. ring.
Qed.

Lemma fold_add_in {S A} (obs : S -> R) (step : S -> A -> S) (term : A -> R) l :
  (forall s x, In x l -> obs (step s x) = obs s + term x) ->
  forall s, obs (fold_left step l s) = obs s + lsum l term.
Proof.
  induction l as [|x l IH]; intros H s; simpl; [ring|].
  rewrite IH, H; [ring|left; reflexivity|]. intros; apply H; right; auto.
Qed.

Lemma edges_features_entry contribution nodes els m f a b :
  Forall (fun e => length e = m) els ->
  edges_features contribution nodes els f a b
  = assembly m els (fun e i j => nth f (contribution (corners nodes e) i j) 0) a b.
Proof.
  intros HL. unfold edges_features, assembly.
  assert (Hm : els = [] \/ length (nth 0 els []) = m).
  { destruct els; [auto|]. inversion HL; subst; auto. }
  destruct Hm as [->|Hm]; [reflexivity|]. rewrite Hm.
  rewrite (fold_add (fun E : features => E f a b) _ (fun e => sum m (fun i => sum m (fun j =>
    delta (nth i e 0%nat) a * delta (nth j e 0%nat) b
    * nth f (contribution (corners nodes e) i j) 0)))); [ring|].
  intros E e.
  rewrite (fold_add (fun E : features => E f a b) _ (fun i => sum m (fun j =>
    delta (nth i e 0%nat) a * delta (nth j e 0%nat) b
    * nth f (contribution (corners nodes e) i j) 0))); [rewrite lsum_seq; reflexivity|].
  clear E. intros E i.
  rewrite (fold_add (fun E : features => E f a b) _ (fun j =>
    delta (nth i e 0%nat) a * delta (nth j e 0%nat) b
    * nth f (contribution (corners nodes e) i j) 0)); [rewrite lsum_seq; reflexivity|].
  clear E. intros E j. unfold add_column, delta, corners, element_nodes.
  rewrite (Nat.eqb_sym (nth i e 0%nat)), (Nat.eqb_sym (nth j e 0%nat)).
  destruct (a =? nth i e 0)%nat, (b =? nth j e 0)%nat; simpl; ring.
Qed.

Lemma assembly_ext m els loc loc' a b :
  (forall e i j, In e els -> (i < m)%nat -> (j < m)%nat -> loc e i j = loc' e i j) ->
  assembly m els loc a b = assembly m els loc' a b.
Proof.
  intros H. apply lsum_ext. intros e He. apply sum_ext. intros i Hi. apply sum_ext. intros j Hj.
  rewrite H; auto.
Qed.

Lemma in_range_nth N m els e k : in_range N els -> Forall (fun e => length e = m) els ->
  In e els -> (k < m)%nat -> (nth k e 0 < N)%nat.
Proof.
  intros HR HL He Hk. unfold in_range in HR. rewrite Forall_forall in HR, HL.
  specialize (HR e He). rewrite Forall_forall in HR. apply HR. apply nth_In. rewrite HL; auto.
Qed.

(* the bilinear form of an assembled matrix, element by element *)
Lemma assembly_bilinear N m els loc y x :
  in_range N els -> Forall (fun e => length e = m) els ->
  bilinear N N (assembly m els loc) y x
  = lsum els (fun e => sum m (fun i => sum m (fun j =>
      y (nth i e 0%nat) * loc e i j * x (nth j e 0%nat)))).
Proof.
  intros HR HL. unfold bilinear, assembly.
  rewrite (sum_ext N _ (fun a => lsum els (fun e => sum N (fun b =>
    sum m (fun i => sum m (fun j =>
      y a * (delta (nth i e 0%nat) a * delta (nth j e 0%nat) b * loc e i j) * x b)))))).
  2:{ intros a _. rewrite lsum_sum_swap. apply sum_ext. intros b _.
      rewrite (Rmult_comm (y a)), Rmult_assoc, Rmult_comm, <- lsum_scal. apply lsum_ext.
      intros e _. rewrite <- sum_scal. apply sum_ext. intros i _.
      rewrite <- sum_scal. apply sum_ext. intros j _. ring. }
  rewrite <- lsum_sum_swap. apply lsum_ext. intros e He.
  rewrite (sum_ext N _ (fun a => sum m (fun i => sum m (fun j =>
     delta (nth i e 0%nat) a * (y a * loc e i j * x (nth j e 0%nat)))))).
  2:{ intros a _. rewrite sum_swap. apply sum_ext. intros i _. rewrite sum_swap.
      apply sum_ext. intros j Hj.
      rewrite (sum_ext N _ (fun b => delta (nth j e 0%nat) b *
                (delta (nth i e 0%nat) a * (y a * loc e i j * x b)))) by (intros; ring).
      apply sum_delta_l. eapply in_range_nth; eauto. }
  rewrite sum_swap. apply sum_ext. intros i Hi. rewrite sum_swap. apply sum_ext. intros j Hj.
  apply (sum_delta_l N _ (fun a => y a * loc e i j * x (nth j e 0%nat))).
  eapply in_range_nth; eauto.
Qed.

(* bilinear forms *)
Lemma bilinear_ext n m A B y x : meq n m A B -> bilinear n m A y x = bilinear n m B y x.
Proof.
  intros H. apply sum_ext. intros a Ha. apply sum_ext. intros b Hb. rewrite H; auto.
Qed.

Lemma bilinear_vec n m A y y' x x' : veq n y y' -> veq m x x' ->
  bilinear n m A y x = bilinear n m A y' x'.
Proof.
  intros H1 H2. apply sum_ext. intros a Ha. apply sum_ext. intros b Hb. rewrite H1, H2; auto.
Qed.

Lemma bilinear_dot n m A y x : bilinear n m A y x = dot n y (mv m A x).
Proof.
  apply sum_ext. intros a _. unfold mv. rewrite <- sum_scal. apply sum_ext. intros; ring.
Qed.

Lemma bilinear_madd n m A B y x :
  bilinear n m (madd A B) y x = bilinear n m A y x + bilinear n m B y x.
Proof.
  unfold bilinear, madd. rewrite <- sum_plus. apply sum_ext. intros a _.
  rewrite <- sum_plus. apply sum_ext. intros; ring.
Qed.

Lemma bilinear_smul n m c A y x : bilinear n m (smul c A) y x = c * bilinear n m A y x.
Proof.
  unfold bilinear, smul. rewrite <- sum_scal. apply sum_ext. intros a _.
  rewrite <- sum_scal. apply sum_ext. intros; ring.
Qed.

Lemma bilinear_entry n m A i j : (i < n)%nat -> (j < m)%nat ->
  bilinear n m A (delta i) (delta j) = A i j.
Proof.
  intros Hi Hj. unfold bilinear.
  rewrite (sum_ext n _ (fun a => delta i a * A a j)).
  - apply (sum_delta_l n i (fun a => A a j)); auto.
  - intros a _. rewrite (sum_ext m _ (fun b => delta j b * (delta i a * A a b))) by (intros; ring).
    apply (sum_delta_l m j (fun b => delta i a * A a b)); auto.
Qed.

Lemma bilinear_row n m A i x : (i < n)%nat -> bilinear n m A (delta i) x = mv m A x i.
Proof.
  intros Hi. rewrite bilinear_dot. unfold dot. apply sum_delta_l; auto.
Qed.

Lemma bilinear_ones n A : bilinear n n A (fun _ => 1) (fun _ => 1) = sum n (fun a => sum n (fun b => A a b)).
Proof. apply sum_ext. intros a _. apply sum_ext. intros; ring. Qed.

(* block matrices *)
Lemma block_bilinear r c N B y x :
  bilinear (r * N) (c * N) (block N B) y x
  = sum r (fun k => sum c (fun l => bilinear N N (B k l) (component N y k) (component N x l))).
Proof.
  unfold bilinear. rewrite sum_blocks. apply sum_ext. intros k _.
  rewrite (sum_ext N _ (fun a => sum c (fun l => sum N (fun b =>
     component N y k a * B k l a b * component N x l b)))).
  - apply sum_swap.
  - intros a Ha. rewrite sum_blocks. apply sum_ext. intros l _. apply sum_ext. intros b Hb.
    unfold block, component.
    rewrite !(Nat.add_comm (_ * N)), !Nat.div_add, !Nat.mod_add, !Nat.div_small, !Nat.mod_small by lia.
    reflexivity.
Qed.
