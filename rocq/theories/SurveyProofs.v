(* The partition into layers and the marks of losses. *)
From Coq Require Import Reals List Arith Bool Lra Lia String.
From Verif Require Import RVec PyModel SurveyModel SurveySpec.
Import ListNotations.
Local Open Scope R_scope.

Definition powers (p : R) (n : nat) : R := sum n (fun k => p ^ k).
Lemma powers_S p n : powers p (S n) = powers p n + p ^ n.
Proof. reflexivity. Qed.
Lemma powers_closed p n : (if Req_EM_T p 1 then INR n else (1 - p ^ n) / (1 - p)) = powers p n.
Proof.
  destruct (Req_EM_T p 1) as [->|N].
  - induction n as [|n IH]; [reflexivity|]. rewrite powers_S, <- IH, pow1, S_INR. reflexivity.
  - induction n as [|n IH]; [unfold powers; cbn; field; lra|]. rewrite powers_S, <- IH. cbn [pow]. field. lra.
Qed.
Lemma powers_pos p n : 0 < p -> (0 < n)%nat -> 0 < powers p n.
Proof.
  intros P. induction n as [|n IH]; [lia|]. intros _. rewrite powers_S. assert (Q := pow_lt p n P). destruct n; [cbn; lra|]. assert (0 < powers p (S n)) by (apply IH; lia). lra.
Qed.
Lemma walk_length f p : forall n c i, List.length (walk f p c i n) = n.
Proof. induction n as [|n IH]; intros c i; cbn [walk List.length]; [reflexivity|]. rewrite IH. reflexivity. Qed.
Lemma walk_nth f p a : forall n i j, (j <= n)%nat -> nth j ((a + f * powers p i) :: walk f p (a + f * powers p i) i n) 0 = a + f * powers p (i + j).
Proof.
  induction n as [|n IH]; intros i j J.
  - assert (j = 0)%nat by lia. subst. cbn. rewrite Nat.add_0_r. reflexivity.
  - destruct j as [|j]; [cbn; rewrite Nat.add_0_r; reflexivity|].
    change (nth j ((a + f * powers p i + f * p ^ i) :: walk f p (a + f * powers p i + f * p ^ i) (i + 1) n) 0 = a + f * powers p (i + S j)).
    replace (a + f * powers p i + f * p ^ i) with (a + f * powers p (i + 1)) by (rewrite Nat.add_1_r, powers_S; ring).
    rewrite (IH (i + 1)%nat j) by lia. do 3 f_equal. lia.
Qed.

Lemma partition_fails a b n p : partition a b n p = Err ZeroDivision <-> powers p n = 0.
Proof. unfold partition. rewrite powers_closed. destruct (Req_EM_T (powers p n) 0); split; intros; try discriminate; try reflexivity; try assumption. contradiction. Qed.
Lemma partition_points a b n p : powers p n <> 0 -> exists l, partition a b n p = Ok l /\ List.length l = (n + 1)%nat /\
  forall j, (j <= n)%nat -> nth j l 0 = a + (b - a) / powers p n * powers p j.
Proof.
  intros N. unfold partition. rewrite powers_closed. destruct (Req_EM_T (powers p n) 0); [contradiction|]. eexists. split; [reflexivity|].
  split; [cbn [List.length]; rewrite walk_length; lia|]. intros j J. assert (W := walk_nth ((b - a) / powers p n) p a n 0 j J).
  replace (a + (b - a) / powers p n * powers p 0) with a in W by (unfold powers; cbn; ring). exact W.
Qed.

Lemma partition_right a b n p : 0 < p -> (0 < n)%nat -> exists l, partition a b n p = Ok l /\ parts_of a b n l /\ in_progression p l /\ (a < b -> increasing_list l).
Proof.
  intros P NP. assert (G := powers_pos p n P NP). destruct (partition_points a b n p) as (l & E & L & H); [lra|]. exists l. split; [exact E|]. split; [|split].
  - split; [exact L|]. rewrite !H by lia. split; [unfold powers at 2; cbn; ring|field; lra].
  - intros i I. rewrite !H by lia. rewrite (Nat.add_1_r i). replace (i + 2)%nat with (S (S i)) by lia. rewrite !powers_S. cbn [pow]. ring.
  - intros AB i I. rewrite !H by lia. rewrite Nat.add_1_r, powers_S. assert (Q := pow_lt p i P). assert (D : 0 < (b - a) / powers p n) by (apply Rdiv_lt_0_compat; lra). nra.
Qed.
Lemma progression_unique a b n p l l' : 0 < p -> parts_of a b n l -> in_progression p l -> parts_of a b n l' -> in_progression p l' -> l = l'.
Proof.
  intros P (L & A & B) Q (L' & A' & B') Q'.
  assert (X : forall l, List.length l = (n + 1)%nat -> in_progression p l -> forall j, (j <= n)%nat -> nth j l 0 = nth 0 l 0 + (nth 1 l 0 - nth 0 l 0) * powers p j /\
      ((j + 1 <= n)%nat -> nth (j + 1) l 0 - nth j l 0 = p ^ j * (nth 1 l 0 - nth 0 l 0))).
  { intros m Lm Qm. induction j as [|j IH]; intros J.
    - split; [unfold powers; cbn; ring|]. intros _. cbn. ring.
    - destruct (IH ltac:(lia)) as (I1 & I2). specialize (I2 ltac:(lia)). rewrite Nat.add_1_r in I2. split; [rewrite powers_S; lra|].
      intros K. assert (S0 := Qm j ltac:(lia)). replace (S j + 1)%nat with (j + 2)%nat by lia. replace (S j) with (j + 1)%nat at 1 by lia. rewrite S0. rewrite Nat.add_1_r, I2. cbn [pow]. ring. }
  apply (nth_ext l l' 0 0); [lia|]. intros j J. destruct n as [|n].
  - assert (j = 0)%nat by lia. subst j. lra.
  - assert (G := powers_pos p (S n) P ltac:(lia)). destruct (X l L Q (S n) (le_n _)) as (E & _). destruct (X l' L' Q' (S n) (le_n _)) as (E' & _).
    destruct (X l L Q j ltac:(lia)) as (Ej & _). destruct (X l' L' Q' j ltac:(lia)) as (Ej' & _). rewrite Ej, Ej', A, A'.
    assert (nth 1 l 0 - a = nth 1 l' 0 - a); [|rewrite A, A' in *; congruence].
    rewrite B, A in E. rewrite B', A' in E'. apply (Rmult_eq_reg_r (powers p (S n))); lra.
Qed.
Lemma partition_only a b n p l : 0 < p -> (0 < n)%nat -> parts_of a b n l -> in_progression p l -> partition a b n p = Ok l.
Proof. intros P NP A Q. destruct (partition_right a b n p P NP) as (l' & E & A' & Q' & _). rewrite E. f_equal. exact (progression_unique a b n p l' l P A' Q' A Q). Qed.
Lemma partition_none a b p : partition a b 0 p = Err ZeroDivision.
Proof. apply partition_fails. reflexivity. Qed.
Lemma partition_alternating a b n : partition a b (2 * n) (-1) = Err ZeroDivision.
Proof.
  apply partition_fails. induction n as [|n IH]; [reflexivity|]. replace (2 * S n)%nat with (S (S (2 * n))) by lia. rewrite !powers_S, IH. cbn [pow]. ring.
Qed.

(* labels *)
Lemma plot_label_in key d : In key (map fst d) -> exists v, plot_label key d = Ok v.
Proof.
  induction d as [|(k, v) d IH]; cbn [plot_label map In fst]; [tauto|]. destruct (string_dec key k) as [->|N]; [eauto|]. intros [Q|Q]; [congruence|auto].
Qed.
Lemma plot_label_out key d : ~ In key (map fst d) -> plot_label key d = Err (KeyError key).
Proof.
  induction d as [|(k, v) d IH]; cbn [plot_label map In fst]; [reflexivity|]. destruct (string_dec key k) as [->|N]; tauto.
Qed.
Lemma plot_labels_known ms : Forall (fun m => In m (map fst plot_data)) ms -> exists l, plot_labels ms = Ok l.
Proof.
  induction 1 as [|m ms I _ (l & E)]; cbn [plot_labels]; [eauto|]. destruct (plot_label_in _ _ I) as (v & ->). rewrite E. cbn [bind]. eauto.
Qed.
Lemma plot_labels_unknown a m b : Forall (fun m => In m (map fst plot_data)) a -> ~ In m (map fst plot_data) -> plot_labels (a ++ m :: b) = Err (KeyError m).
Proof.
  intros H N. induction H as [|x a I _ IH]; cbn [plot_labels app].
  - rewrite (plot_label_out _ _ N). reflexivity.
  - destruct (plot_label_in _ _ I) as (v & ->). cbn [bind]. rewrite IH. reflexivity.
Qed.
Lemma script_fails : plot_labels script_methods = Err (KeyError "gradiented CG"%string).
Proof. reflexivity. Qed.
Lemma survey_labels : plot_labels survey_methods = Ok ["BFGS"; "CG"; "subgradient"]%string.
Proof. reflexivity. Qed.

(* marks *)
Lemma least_right x l : least_of (least x l) (x :: l).
Proof.
  revert x. induction l as [|y l IH]; intros x; cbn [least]; [split; [left; reflexivity|intros z [<-|[]]; lra]|].
  destruct (IH y) as (I & M). split.
  - unfold Rmin. destruct (Rle_dec _ _); [left; reflexivity|right; exact I].
  - intros z [<-|Z]; [apply Rmin_l|]. apply Rle_trans with (least y l); [apply Rmin_r|exact (M z Z)].
Qed.
Lemma marker_best best loss : marker best loss = Best <-> loss = best.
Proof. unfold marker. destruct (Req_EM_T loss best); [tauto|]. destruct (Rle_dec _ _); split; intros; try discriminate; contradiction. Qed.
Lemma marker_near best loss : best <= 0 -> best <= loss -> (marker best loss = Near <-> best < loss /\ loss - best <= Rabs best / 10 + 1 / 100).
Proof.
  intros B L. rewrite (Rabs_left1 best B). unfold marker. destruct (Req_EM_T loss best) as [->|N]; [split; [discriminate|lra]|].
  destruct (Rle_dec _ _); split; intros; try discriminate; try reflexivity; try (split; lra). exfalso. lra.
Qed.
Lemma marker_positive best loss : 1 / 10 < best -> best < loss -> marker best loss = Fail.
Proof. intros B L. unfold marker. destruct (Req_EM_T loss best); [lra|]. destruct (Rle_dec _ _); [lra|reflexivity]. Qed.
Lemma marker_witness : ~ (exists eps, 0 < eps /\ forall best loss, best <= loss <= best + eps -> marker best loss <> Fail).
Proof. intros (eps & E & H). apply (H 1 (1 + eps)); [lra|]. apply marker_positive; lra. Qed.
