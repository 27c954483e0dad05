(* When elements are on different sides of their common faces: elements that do not overlap; renumbered meshes. *)
From Coq Require Import Reals List Arith Bool Lia Lra Permutation Sorted.
From Verif Require Import Common RVec ListLemmas MeshModel MeshSpec MeshFacesProofs FemModel FemSpec ForcesSpec
  FemGeomProofs FemBuildProofs FemFinalProofs StatementSpec CrossSpec SolidSpec ZooSpec ImportSpec GaussSpec GaussProofs.
Import ListNotations.
Local Open Scope R_scope.

Lemma dot_plus d n a b : dot d n (fun c => a c + b c) = dot d n a + dot d n b.
Proof. unfold dot. rewrite <- sum_plus. apply sum_ext. intros; ring. Qed.

(* points of a simplex with d + 1 corners *)
Definition point_in (d : nat) (rel : R -> Prop) (corner : nat -> vec) (p : vec) : Prop :=
  exists a : nat -> R, (forall i, (i <= d)%nat -> rel (a i)) /\ sum (S d) a = 1 /\ forall c, (c < d)%nat -> p c = sum (S d) (fun i => a i * corner i c).

Definition no_overlap (d : nat) (x : nat -> vec) (els : list (list nat)) : Prop :=
  forall i j e f p, nth_error els i = Some e -> nth_error els j = Some f ->
  point_in d (fun r => 0 < r) (corners x e) p -> point_in d (fun r => 0 <= r) (corners x f) p -> i = j.

Section Apart.
  Variables (d : nat) (x : nat -> vec) (els : list (list nat)) (G : list nat -> nat -> vec).
  Hypothesis Hd : (0 < d)%nat.
  Hypothesis HS : simplices (S d) els.
  Hypothesis R0 : forall e k, In e els -> (k < d)%nat -> sum (S d) (fun i => G e i k) = 0.
  Hypothesis R1 : forall e k c, In e els -> (k < d)%nat -> (c < d)%nat -> sum (S d) (fun i => G e i k * x (nth i e 0%nat) c) = delta k c.
  Hypothesis HG : forall e m, In e els -> (m <= d)%nat -> affine_gradient d (corners x e) (delta m) (G e m).

  (* barycentric coordinates *)
  Definition bary (e : list nat) (p : vec) (i : nat) : R := delta i 0 + dot d (G e i) (minus_vec p (x (nth 0 e 0%nat))).

  Lemma bary_sum e p : In e els -> sum (S d) (bary e p) = 1.
  Proof.
    intros He. unfold bary. rewrite sum_plus. rewrite (sum_ext (S d) (fun i => delta i 0) (fun i => delta i 0 * 1)) by (intros; ring).
    rewrite (sum_ext (S d) (fun i => delta i 0 * 1) (fun i => 1 * delta i 0)) by (intros; ring).
    rewrite (sum_delta_r (S d) 0 (fun _ => 1)) by lia. unfold dot. rewrite sum_swap, sum_0; [ring|].
    intros c Hc. rewrite sum_scal_r, R0 by auto. ring.
  Qed.
  Lemma bary_point e p c : In e els -> (c < d)%nat -> sum (S d) (fun i => bary e p i * x (nth i e 0%nat) c) = p c.
  Proof.
    intros He Hc. unfold bary.
    rewrite (sum_ext (S d) _ (fun i => x (nth i e 0%nat) c * delta i 0 + sum d (fun k => minus_vec p (x (nth 0 e 0%nat)) k * (G e i k * x (nth i e 0%nat) c)))).
    2:{ intros i Hi. rewrite Rmult_plus_distr_r, Rmult_comm. f_equal. unfold dot. rewrite <- sum_scal_r. apply sum_ext. intros; ring. }
    rewrite sum_plus, (sum_delta_r (S d) 0 (fun i => x (nth i e 0%nat) c)) by lia. rewrite sum_swap.
    rewrite (sum_ext d _ (fun k => minus_vec p (x (nth 0 e 0%nat)) k * delta k c)).
    - rewrite sum_delta_r by auto. unfold minus_vec. cbn [nth]. ring.
    - intros k Hk. rewrite sum_scal, R1 by auto. ring.
  Qed.

  Lemma shape' e : In e els -> List.length e = S d /\ NoDup e.
  Proof. intros He. unfold simplices in HS. rewrite Forall_forall in HS. auto. Qed.

  (* the point on the way from the centre of the face j of e to q *)
  Definition near (e : list nat) (j : nat) (t : R) (q : vec) : vec :=
    fun c => sum (S d) (fun i => ((1 - t) * ((1 - delta i j) / INR d)) * x (nth i e 0%nat) c) + t * q c.

  Lemma centre_weights j : (j <= d)%nat -> sum (S d) (fun i => (1 - delta i j) / INR d) = 1.
  Proof.
    intros Hj. unfold Rdiv. rewrite sum_scal_r, sum_minus.
    rewrite (sum_ext (S d) (fun i => delta i j) (fun i => 1 * delta i j)) by (intros; ring).
    rewrite (sum_delta_r (S d) j (fun _ => 1)) by lia. rewrite sum_const, S_INR. field. apply not_0_INR. lia.
  Qed.

  Lemma near_inside e j t : In e els -> (j <= d)%nat -> 0 < t < 1 ->
    point_in d (fun r => 0 < r) (corners x e) (near e j t (x (nth j e 0%nat))).
  Proof.
    intros He Hj Ht. exists (fun i => (1 - t) * ((1 - delta i j) / INR d) + t * delta i j). split; [|split].
    - intros i Hi. unfold delta. assert (DP : 0 < INR d) by (apply lt_0_INR; auto). destruct (Nat.eqb_spec i j).
      + replace (1 - 1) with 0 by ring. unfold Rdiv. rewrite Rmult_0_l, Rmult_0_r. lra.
      + rewrite Rmult_0_r, Rplus_0_r. apply Rmult_lt_0_compat; [lra|]. apply Rdiv_lt_0_compat; lra.
    - rewrite sum_plus, !sum_scal, centre_weights by auto.
      rewrite (sum_ext (S d) (fun i => delta i j) (fun i => 1 * delta i j)) by (intros; ring).
      rewrite (sum_delta_r (S d) j (fun _ => 1)) by lia. ring.
    - intros c Hc. unfold near, corners.
      rewrite (sum_ext (S d) (fun i => ((1 - t) * ((1 - delta i j) / INR d) + t * delta i j) * x (nth i e 0%nat) c)
        (fun i => (1 - t) * ((1 - delta i j) / INR d) * x (nth i e 0%nat) c + t * x (nth i e 0%nat) c * delta i j)) by (intros; ring).
      rewrite sum_plus. f_equal. rewrite (sum_delta_r (S d) j (fun i => t * x (nth i e 0%nat) c)) by lia. reflexivity.
  Qed.

  Lemma near_within e j t q : In e els -> (j <= d)%nat -> 0 < t < 1 -> 0 <= bary e q j ->
    (forall i, (i <= d)%nat -> t * (1 + INR d * Rabs (bary e q i)) <= 1) ->
    point_in d (fun r => 0 <= r) (corners x e) (near e j t q).
  Proof.
    intros He Hj Ht HB HT. exists (fun i => (1 - t) * ((1 - delta i j) / INR d) + t * bary e q i). split; [|split].
    - intros i Hi. unfold delta. assert (DP : 0 < INR d) by (apply lt_0_INR; auto). destruct (Nat.eqb_spec i j) as [->|NE].
      + replace (1 - 1) with 0 by ring. unfold Rdiv. rewrite Rmult_0_l, Rmult_0_r, Rplus_0_l. apply Rmult_le_pos; lra.
      + specialize (HT i Hi). pose proof (Rle_abs (- bary e q i)) as A. rewrite Rabs_Ropp in A.
        assert (X : t * INR d * (- bary e q i) <= t * INR d * Rabs (bary e q i)) by (apply Rmult_le_compat_l; auto; apply Rmult_le_pos; lra).
        apply (Rmult_le_reg_l (INR d)); auto. rewrite Rmult_0_r, Rmult_plus_distr_l.
        replace (INR d * ((1 - t) * ((1 - 0) / INR d))) with (1 - t) by (field; lra). lra.
    - rewrite sum_plus, !sum_scal, centre_weights, bary_sum by auto. ring.
    - intros c Hc. unfold near, corners. rewrite <- (bary_point e q c He Hc) at 1. rewrite <- sum_scal, <- sum_plus. apply sum_ext. intros; ring.
  Qed.

  (* the centre depends on the face only *)
  Lemma near_face e j t q c : In e els -> (j <= d)%nat -> near e j t q c = (1 - t) / INR d * lsum (face e j) (fun i => x i c) + t * q c.
  Proof.
    intros He Hj. destruct (shape' e He) as [L ND]. unfold near. f_equal. rewrite (face_lsum e j (fun i => x i c)) by lia.
    rewrite (sum_ext (S d) _ (fun i => (1 - t) / INR d * x (nth i e 0%nat) c - (1 - t) / INR d * x (nth i e 0%nat) c * delta i j)) by (intros; unfold Rdiv; ring).
    rewrite sum_minus, sum_scal, (sum_delta_r (S d) j (fun i => (1 - t) / INR d * x (nth i e 0%nat) c)) by lia.
    rewrite (lsum_nth e (fun i => x i c)), L. ring.
  Qed.

  (* the coordinate of the opposite corner has the sign of the side *)
  Lemma bary_side e j q n p : In e els -> (j <= d)%nat -> normal_to d x (face e j) n -> In p (face e j) ->
    dot d n (minus_vec q (x p)) = bary e q j * dot d n (minus_vec (x (nth j e 0%nat)) (x p)).
  Proof.
    intros He Hj Hn Hp. destruct (shape' e He) as [L ND].
    assert (E : dot d n (minus_vec q (x p)) = sum (S d) (fun i => bary e q i * dot d n (minus_vec (x (nth i e 0%nat)) (x p)))).
    { unfold dot. rewrite (sum_ext (S d) _ (fun i => sum d (fun c => n c * (bary e q i * x (nth i e 0%nat) c - bary e q i * x p c)))).
      2:{ intros i _. rewrite <- sum_scal. apply sum_ext. intros; unfold minus_vec; ring. }
      rewrite sum_swap. apply sum_ext. intros c Hc. rewrite sum_scal, sum_minus, bary_point by auto.
      rewrite sum_scal_r, bary_sum by auto. unfold minus_vec. ring. }
    rewrite E. rewrite (sum_ext (S d) _ (fun i => bary e q i * dot d n (minus_vec (x (nth i e 0%nat)) (x p)) * delta i j)).
    - rewrite (sum_delta_r (S d) j (fun i => bary e q i * dot d n (minus_vec (x (nth i e 0%nat)) (x p)))) by lia. reflexivity.
    - intros i Hi. unfold delta. destruct (Nat.eqb_spec i j) as [->|NE]; [ring|].
      rewrite Hn; auto; [ring|]. apply face_In; auto; [lia|]. split; [apply nth_In; lia|].
      intros Z. apply NE. apply (proj1 (NoDup_nth e 0%nat) ND); auto; lia.
  Qed.

  Lemma apart_sided : no_overlap d x els -> two_sided d x els.
  Proof.
    intros NO i j e e' f o o' n p NE Hi Hj Lf ND I I' Ho No Ho' No' Hn Hp [P1 P2].
    pose proof (nth_error_In _ _ Hi) as He. pose proof (nth_error_In _ _ Hj) as He'.
    destruct (shape' e He) as [L1 D1]. destruct (shape' e' He') as [L2 D2].
    destruct (In_nth e o 0%nat Ho) as (a & Ha & Ea). destruct (In_nth e' o' 0%nat Ho') as (b & Hb & Eb).
    assert (FA : forall g k og, NoDup g -> List.length g = S d -> incl f g -> (k < List.length g)%nat -> nth k g 0%nat = og -> ~ In og f -> Permutation f (face g k)).
    { intros g k og Dg Lg Ig Hk Ek Nk. apply NoDup_Permutation_bis; auto; [pose proof (face_length g k Hk); lia|].
      intros q Hq. apply face_In; auto. split; auto. intros ->. rewrite Ek in Hq. auto. }
    pose proof (FA e a o D1 L1 I Ha Ea No) as PA. pose proof (FA e' b o' D2 L2 I' Hb Eb No') as PB.
    assert (NB : normal_to d x (face e' b) n).
    { intros q r Hq Hr. apply Hn; apply (Permutation_in _ (Permutation_sym PB)); auto. }
    pose proof (bary_side e' b (x o) n p He' ltac:(lia) NB (Permutation_in _ PB Hp)) as BS. rewrite Eb in BS.
    assert (B0 : 0 < bary e' (x o) b).
    { destruct (Rlt_dec 0 (bary e' (x o) b)) as [|N0]; auto. exfalso.
      pose proof (Rmult_le_compat_r _ _ _ (Rlt_le _ _ P2) (Rnot_lt_le _ _ N0)). lra. }
    set (M := sum (S d) (fun k => Rabs (bary e' (x o) k))).
    assert (MK : forall k, (k <= d)%nat -> Rabs (bary e' (x o) k) <= M).
    { intros k Hk. unfold M. rewrite <- (sum_delta_r (S d) k (fun k => Rabs (bary e' (x o) k))) by lia. apply sum_le. intros r _.
      pose proof (Rabs_pos (bary e' (x o) r)). unfold delta. destruct (Nat.eqb r k); lra. }
    assert (MP : 0 <= M) by (unfold M; apply sum_nonneg; intros; apply Rabs_pos).
    assert (DP : 0 < INR d) by (apply lt_0_INR; auto).
    pose proof (Rmult_le_pos _ _ (Rlt_le _ _ DP) MP) as DM.
    set (t := / (2 + INR d * M)).
    assert (T0 : 0 < t) by (apply Rinv_0_lt_compat; lra).
    assert (T1 : t * (2 + INR d * M) = 1) by (unfold t; field; lra).
    pose proof (Rmult_le_pos _ _ (Rlt_le _ _ T0) DM) as TDM.
    apply NE. apply (NO i j e e' (near e a t (x (nth a e 0%nat))) Hi Hj).
    - apply near_inside; auto; [lia|]. lra.
    - assert (EQ : forall c, (c < d)%nat -> near e a t (x (nth a e 0%nat)) c = near e' b t (x o) c).
      { intros c Hc. rewrite !near_face by (auto; lia). rewrite Ea. do 2 f_equal. rewrite <- (lsum_perm _ _ _ PA). apply lsum_perm; auto. }
      destruct (near_within e' b t (x o) He' ltac:(lia) ltac:(lra) ltac:(lra)) as (w & W1 & W2 & W3).
      { intros k Hk. pose proof (Rmult_le_compat_l _ _ _ (Rmult_le_pos _ _ (Rlt_le _ _ T0) (Rlt_le _ _ DP)) (MK k Hk)). lra. }
      exists w. split; auto. split; auto. intros c Hc. rewrite EQ by auto. auto.
  Qed.
End Apart.

(* a mesh renumbered and moved *)
Lemma two_sided_transfer d x els x' els' (old : nat -> nat) (v : vec) : simplices (S d) els -> two_sided d x els ->
  Forall2 (fun e e' => Permutation e (map old e')) els els' ->
  (forall n c, referenced els' n -> (c < d)%nat -> x' n c = x (old n) c + v c) ->
  two_sided d x' els'.
Proof.
  intros HS TS HF HX i j e e' f o o' n p NE Hi Hj Lf ND I I' Ho No Ho' No' Hn Hp [P1 P2].
  assert (PK : forall k g', nth_error els' k = Some g' -> exists g, nth_error els k = Some g /\ Permutation g (map old g')).
  { clear - HF. intros k g' Hk. revert k Hk. induction HF as [|a b l l' H F IH]; intros [|k] Hk; try discriminate.
    - injection Hk as <-. exists a. auto.
    - apply IH; auto. }
  destruct (PK i e Hi) as (g & Hg & Pg). destruct (PK j e' Hj) as (g' & Hg' & Pg').
  pose proof (nth_error_In _ _ Hi) as Ie. pose proof (nth_error_In _ _ Hj) as Ie'.
  unfold simplices in HS. rewrite Forall_forall in HS.
  destruct (HS g (nth_error_In _ _ Hg)) as [Lg Dg]. destruct (HS g' (nth_error_In _ _ Hg')) as [Lg' Dg'].
  assert (IJ : forall h a b, NoDup (map old h) -> In a h -> In b h -> old a = old b -> a = b).
  { clear. induction h as [|y h IH]; intros a b N Ha Hb E; [destruct Ha|]. cbn in N. inversion N as [|? ? N1 N2]; subst.
    destruct Ha as [->|Ha], Hb as [->|Hb]; auto; exfalso; apply N1.
    - rewrite E. apply in_map; auto.
    - rewrite <- E. apply in_map; auto. }
  pose proof (Permutation_NoDup Pg Dg) as Ng. pose proof (Permutation_NoDup Pg' Dg') as Ng'.
  assert (RF : forall q, In q f -> referenced els' q) by (intros q Hq; exists e; auto).
  assert (Ro : referenced els' o) by (exists e; auto). assert (Ro' : referenced els' o') by (exists e'; auto).
  assert (DX : forall q r m, referenced els' q -> referenced els' r -> dot d m (minus_vec (x' q) (x' r)) = dot d m (minus_vec (x (old q)) (x (old r)))).
  { intros q r m Hq Hr. unfold dot, minus_vec. apply sum_ext. intros c Hc. rewrite !HX by auto. ring. }
  apply (TS i j g g' (map old f) (old o) (old o') n (old p) NE Hg Hg'); auto.
  - rewrite map_length. auto.
  - assert (IN : forall a b, In a f -> In b f -> old a = old b -> a = b) by (intros a b Ha Hb; apply (IJ e); auto).
    clear - ND IN. induction ND as [|a l N ND IH]; cbn; constructor.
    + intros H. apply in_map_iff in H. destruct H as (b & E & Hb). apply N. rewrite (IN a b); auto; [left; auto|right; auto].
    + apply IH. intros b c Hb Hc. apply IN; right; auto.
  - intros q Hq. apply in_map_iff in Hq. destruct Hq as (r & <- & Hr). apply (Permutation_in _ (Permutation_sym Pg)). apply in_map; auto.
  - intros q Hq. apply in_map_iff in Hq. destruct Hq as (r & <- & Hr). apply (Permutation_in _ (Permutation_sym Pg')). apply in_map; auto.
  - apply (Permutation_in _ (Permutation_sym Pg)). apply in_map; auto.
  - intros H. apply in_map_iff in H. destruct H as (r & E & Hr). apply No. rewrite <- (IJ e r o); auto.
  - apply (Permutation_in _ (Permutation_sym Pg')). apply in_map; auto.
  - intros H. apply in_map_iff in H. destruct H as (r & E & Hr). apply No'. rewrite <- (IJ e' r o'); auto.
  - intros a b Ha Hb. apply in_map_iff in Ha. apply in_map_iff in Hb. destruct Ha as (a' & <- & Ha), Hb as (b' & <- & Hb). rewrite <- DX by auto. apply Hn; auto.
  - apply in_map; auto.
  - rewrite <- !DX by auto. auto.
Qed.
