(* Proof of the divergence theorem for piecewise linear functions. *)
From Coq Require Import Reals List Arith Bool Lia Lra Permutation Sorted.
From Verif Require Import Common RVec ListLemmas MeshModel MeshSpec MeshFacesProofs FemModel FemSpec ForcesSpec
  FemGeomProofs FemBuildProofs FemFinalProofs GaussSpec.
Import ListNotations.
Local Open Scope R_scope.

Lemma lsum_perm {A} (l l' : list A) f : Permutation l l' -> lsum l f = lsum l' f.
Proof. induction 1; cbn; lra. Qed.

Lemma lsum_filter {A} (p : A -> bool) l f : lsum l f = lsum (filter p l) f + lsum (filter (fun a => negb (p a)) l) f.
Proof. induction l as [|a l IH]; cbn; [lra|]. destruct (p a); cbn; rewrite IH; lra. Qed.

(* summing by groups of equal keys *)
Lemma lsum_groups {A B} (dec : forall x y : B, {x = y} + {x <> y}) (key : A -> B) (h : A -> R) (ks : list B) (l : list A) :
  NoDup ks -> (forall a, In a l -> In (key a) ks) ->
  lsum l h = lsum ks (fun k => lsum (filter (fun a => if dec (key a) k then true else false) l) h).
Proof.
  revert l. induction ks as [|k ks IH]; intros l ND HK.
  - destruct l as [|a l]; auto. destruct (HK a (or_introl eq_refl)).
  - inversion ND as [|? ? N1 N2]; subst. cbn [lsum].
    rewrite (lsum_filter (fun a => if dec (key a) k then true else false) l h). f_equal.
    rewrite (IH (filter (fun a => negb (if dec (key a) k then true else false)) l) N2).
    + apply lsum_ext. intros k' Hk'. f_equal.
      clear - N1 Hk'. induction l as [|a l IHl]; auto. cbn. destruct (dec (key a) k) as [E|E]; cbn.
      * destruct (dec (key a) k') as [E'|E']; [exfalso; apply N1; congruence|auto].
      * destruct (dec (key a) k'); rewrite IHl; auto.
    + intros a Ha. apply filter_In in Ha. destruct Ha as [Ha E]. destruct (HK a Ha) as [X|X]; auto.
      destruct (dec (key a) k); [discriminate|congruence].
Qed.

Definition face (e : list nat) (i : nat) : list nat := sort_nat (remove_nth i e).

Lemma face_In e i q : NoDup e -> (i < List.length e)%nat ->
  (In q (face e i) <-> In q e /\ q <> nth i e 0%nat).
Proof.
  intros ND Hi. unfold face. rewrite In_sort_nat. destruct (remove_nth_split i e 0%nat Hi) as (a & b & E & L & R).
  rewrite R. pose proof (remove_nth_NoDup_notin i e ND Hi) as NI. rewrite R in NI. revert E NI. generalize (nth i e 0%nat). intros o E NI.
  split.
  - intros H. split; [|intros ->; auto]. rewrite E. apply in_or_app. apply in_app_or in H. destruct H; [left|right; right]; auto.
  - intros [H NE]. rewrite E in H. apply in_or_app. apply in_app_or in H. destruct H as [H|[H|H]]; auto. congruence.
Qed.

Lemma face_sorted e i : NoDup e -> StronglySorted lt (face e i).
Proof.
  intros ND. apply sorted_le_NoDup_lt; [apply sort_nat_sorted|]. apply (Permutation_NoDup (Permutation_sym (sort_nat_perm _))).
  revert i. induction ND as [|a l N ND IH]; intros [|i]; cbn; auto using NoDup_nil. constructor; auto.
  intros H. apply N. apply remove_nth_In in H. auto.
Qed.

Lemma face_length e i : (i < List.length e)%nat -> S (List.length (face e i)) = List.length e.
Proof. intros Hi. unfold face. rewrite length_sort_nat. apply length_remove_nth; auto. Qed.

Lemma face_perm e i : (i < List.length e)%nat -> Permutation e (nth i e 0%nat :: face e i).
Proof.
  intros Hi. destruct (remove_nth_split i e 0%nat Hi) as (a & b & E & L & R). unfold face. rewrite R.
  rewrite E at 1. rewrite <- Permutation_middle. constructor. symmetry. apply sort_nat_perm.
Qed.

Lemma face_of e f : NoDup e -> StronglySorted lt f -> S (List.length f) = List.length e -> incl f e ->
  exists i, (i < List.length e)%nat /\ face e i = f.
Proof.
  intros ND SF L I. assert (NF : NoDup f) by (apply sorted_lt_NoDup; auto).
  destruct (exists_outside f e ND) as (o & Ho & No); [lia|].
  destruct (In_nth e o 0%nat Ho) as (i & Hi & Ei). exists i. split; auto.
  apply sorted_lt_unique; auto using face_sorted.
  assert (I1 : incl f (face e i)).
  { intros q Hq. apply face_In; auto. split; auto. intros ->. rewrite Ei in Hq. auto. }
  pose proof (face_length e i Hi). assert (I2 : incl (face e i) f) by (apply NoDup_length_incl; auto; lia).
  intros q. split; auto.
Qed.

Lemma face_inj e i j : NoDup e -> (i < List.length e)%nat -> (j < List.length e)%nat -> face e i = face e j -> i = j.
Proof.
  intros ND Hi Hj E. destruct (Nat.eq_dec i j) as [|NE]; auto. exfalso.
  assert (H : In (nth j e 0%nat) (face e i)).
  { apply face_In; auto. split; [apply nth_In; auto|]. intros X. apply NE. symmetry. apply (proj1 (NoDup_nth e 0%nat) ND); auto. }
  rewrite E in H. apply face_In in H; auto. tauto.
Qed.

Lemma face_lsum e i (v : vec) : (i < List.length e)%nat -> lsum (face e i) v = lsum e v - v (nth i e 0%nat).
Proof. intros Hi. rewrite (lsum_perm _ _ v (face_perm e i Hi)). cbn. lra. Qed.

Lemma lsum_nth e (v : vec) : lsum e v = sum (List.length e) (fun k => v (nth k e 0%nat)).
Proof.
  rewrite <- (lsum_seq (List.length e)). induction e as [|a e IH]; auto.
  cbn [List.length seq lsum]. cbn [nth]. rewrite IH, <- seq_shift, lsum_map. reflexivity.
Qed.

Lemma dot_scal d c a b : dot d (fun k => c * a k) b = c * dot d a b.
Proof. unfold dot. rewrite <- sum_scal. apply sum_ext. intros; ring. Qed.

Section Gauss.
  Variables (d : nat) (x : nat -> vec) (els : list (list nat)) (G : list nat -> nat -> vec) (meas : list nat -> R).
  Variable F : list nat -> vec.
  Hypothesis Hd : (0 < d)%nat.
  Hypothesis HS : simplices (S d) els.
  Hypothesis R0 : forall e k, In e els -> (k < d)%nat -> sum (S d) (fun i => G e i k) = 0.
  Hypothesis R1 : forall e k c, In e els -> (k < d)%nat -> (c < d)%nat -> sum (S d) (fun i => G e i k * x (nth i e 0%nat) c) = delta k c.
  Hypothesis HG : forall e m, In e els -> (m <= d)%nat -> affine_gradient d (corners x e) (delta m) (G e m).
  Hypothesis M0 : forall e, In e els -> 0 < meas e.
  Hypothesis F1 : forall e i, In e els -> (i <= d)%nat -> normal_to d x (face e i) (F (face e i)).
  Hypothesis F2 : forall e i p, In e els -> (i <= d)%nat -> In p (face e i) ->
    Rabs (dot d (F (face e i)) (minus_vec (x (nth i e 0%nat)) (x p))) = INR d * meas e.
  Hypothesis F3 : forall e i, In e els -> (i <= d)%nat -> dot d (F (face e i)) (F (face e i)) = Rsqr (face_measure d x (face e i)).
  Hypothesis F4 : forall f, 0 <= face_measure d x f.

  Lemma shape e : In e els -> List.length e = S d /\ NoDup e.
  Proof. intros He. unfold simplices in HS. rewrite Forall_forall in HS. auto. Qed.

  (* vectors are determined by their products with the edges *)
  Lemma edge_unique e i a b p : In e els -> (i <= d)%nat -> In p (face e i) ->
    normal_to d x (face e i) a -> normal_to d x (face e i) b ->
    dot d a (minus_vec (x (nth i e 0%nat)) (x p)) = dot d b (minus_vec (x (nth i e 0%nat)) (x p)) -> veq d a b.
  Proof.
    intros He Hi Hp Ha Hb E. destruct (shape e He) as [L ND].
    assert (X : forall g, normal_to d x (face e i) g -> affine_gradient d (corners x e)
       (fun k => delta i k * dot d g (minus_vec (x (nth i e 0%nat)) (x p))) g).
    { intros g Hg j k Hj Hk. unfold corners.
      assert (Y : forall j, (j <= d)%nat -> dot d g (minus_vec (x (nth j e 0%nat)) (x p)) = delta i j * dot d g (minus_vec (x (nth i e 0%nat)) (x p))).
      { intros l Hl. unfold delta. destruct (Nat.eqb_spec i l) as [->|NE]; [ring|]. rewrite Rmult_0_l.
        apply Hg; auto. apply face_In; auto; [lia|]. split; [apply nth_In; lia|]. intros Z. apply NE.
        apply (proj1 (NoDup_nth e 0%nat) ND); auto; lia. }
      rewrite <- (Y j Hj), <- (Y k Hk). unfold dot. rewrite <- sum_minus. apply sum_ext. intros c _. unfold minus_vec. ring. }
    pose proof (X a Ha) as A. pose proof (X b Hb) as B. rewrite E in A.
    apply (gradient_unique d (corners x e) (G e) (fun k H => R0 e k He H) (fun k c H H' => R1 e k c He H H') _ a b A B).
  Qed.

  (* the sign of the side on which the corner i is *)
  Definition sg (e : list nat) (i : nat) : R :=
    if Rlt_dec 0 (dot d (F (face e i)) (minus_vec (x (nth i e 0%nat)) (x (nth 0 (face e i) 0%nat)))) then 1 else -1.

  Lemma head_In e i : In e els -> (i <= d)%nat -> In (nth 0 (face e i) 0%nat) (face e i).
  Proof. intros He Hi. destruct (shape e He) as [L _]. pose proof (face_length e i). apply nth_In. lia. Qed.

  Lemma sg_side e i p : In e els -> (i <= d)%nat -> In p (face e i) ->
    sg e i * dot d (F (face e i)) (minus_vec (x (nth i e 0%nat)) (x p)) = INR d * meas e.
  Proof.
    intros He Hi Hp. pose proof (head_In e i He Hi) as H0.
    assert (E : dot d (F (face e i)) (minus_vec (x (nth i e 0%nat)) (x p)) =
                dot d (F (face e i)) (minus_vec (x (nth i e 0%nat)) (x (nth 0 (face e i) 0%nat)))).
    { pose proof (F1 e i He Hi _ _ H0 Hp) as N. unfold dot, minus_vec in *.
      rewrite (sum_ext d (fun c => F (face e i) c * (x (nth i e 0%nat) c - x p c))
        (fun c => F (face e i) c * (x (nth i e 0%nat) c - x (nth 0 (face e i) 0%nat) c) + F (face e i) c * (x (nth 0 (face e i) 0%nat) c - x p c)))
        by (intros; ring). rewrite sum_plus, N. ring. }
    rewrite E. pose proof (F2 e i _ He Hi H0) as A. unfold sg. revert A.
    generalize (dot d (F (face e i)) (minus_vec (x (nth i e 0%nat)) (x (nth 0 (face e i) 0%nat)))). intros t A.
    destruct (Rlt_dec 0 t) as [P|P].
    - rewrite Rabs_pos_eq in A; lra.
    - rewrite Rabs_left1 in A; lra.
  Qed.

  Lemma sg_square e i : sg e i * sg e i = 1.
  Proof. unfold sg. destruct (Rlt_dec _ _); lra. Qed.

  Lemma basis_edges e i j k : In e els -> (i <= d)%nat -> (j <= d)%nat -> (k <= d)%nat ->
    sum d (fun c => G e i c * minus_vec (x (nth j e 0%nat)) (x (nth k e 0%nat)) c) = delta i j - delta i k.
  Proof. intros He Hi Hj Hk. exact (HG e i He Hi j k Hj Hk). Qed.

  Lemma basis_face e i c : In e els -> (i <= d)%nat -> (c < d)%nat -> INR d * meas e * G e i c = sg e i * F (face e i) c.
  Proof.
    intros He Hi Hc. destruct (shape e He) as [L ND].
    apply (edge_unique e i (fun c => INR d * meas e * G e i c) (fun c => sg e i * F (face e i) c) (nth 0 (face e i) 0%nat)); auto.
    - apply head_In; auto.
    - intros p q Hp Hq. apply face_In in Hp; auto; [|lia]. apply face_In in Hq; auto; [|lia]. destruct Hp as [Hp Np], Hq as [Hq Nq].
      apply (In_nth _ _ 0%nat) in Hp. apply (In_nth _ _ 0%nat) in Hq. destruct Hp as (j & Hj & <-), Hq as (k & Hk & <-).
      rewrite dot_scal. unfold dot. rewrite (basis_edges e i j k) by (auto; lia). unfold delta.
      destruct (Nat.eqb_spec i j); [subst; congruence|]. destruct (Nat.eqb_spec i k); [subst; congruence|]. ring.
    - intros p q Hp Hq. rewrite dot_scal, (F1 e i He Hi p q Hp Hq). ring.
    - pose proof (head_In e i He Hi) as H0. rewrite !dot_scal, (sg_side e i _ He Hi H0).
      apply face_In in H0; auto; [|lia]. destruct H0 as [H0 N0]. apply (In_nth _ _ 0%nat) in H0. destruct H0 as (k & Hk & E0).
      rewrite <- E0 in *. unfold dot. rewrite (basis_edges e i i k) by (auto; lia). unfold delta. rewrite Nat.eqb_refl.
      destruct (Nat.eqb_spec i k); [subst; congruence|]. ring.
  Qed.

  (* one element *)
  Lemma element_gauss e (v g : vec) c : In e els -> affine_gradient d (corners x e) (fun k => v (nth k e 0%nat)) g -> (c < d)%nat ->
    meas e * g c = sum (S d) (fun i => - sg e i * F (face e i) c * (lsum (face e i) v / INR d)).
  Proof.
    intros He Hg Hc. destruct (shape e He) as [L ND]. assert (ID : INR d <> 0) by (apply not_0_INR; lia).
    rewrite <- (gradient_combination d (corners x e) (G e) (fun k H => R0 e k He H) (fun k c H H' => R1 e k c He H H') _ g c Hg Hc).
    rewrite (sum_ext (S d) (fun i => - sg e i * F (face e i) c * (lsum (face e i) v / INR d))
      (fun i => - meas e * lsum e v * G e i c + meas e * (v (nth i e 0%nat) * G e i c))).
    - rewrite sum_plus, !sum_scal, R0 by auto. ring.
    - intros i Hi. rewrite face_lsum by lia.
      replace (- sg e i * F (face e i) c * ((lsum e v - v (nth i e 0%nat)) / INR d))
        with (- (sg e i * F (face e i) c) * ((lsum e v - v (nth i e 0%nat)) / INR d)) by ring.
      rewrite <- basis_face by (auto; lia). field. auto.
  Qed.

  (* positions of elements and corners *)
  Definition incidences : list (nat * nat) := list_prod (seq 0 (List.length els)) (seq 0 (S d)).
  Definition el (k : nat) : list nat := nth k els [].
  Definition key (a : nat * nat) : list nat := face (el (fst a)) (snd a).
  Definition share (v : vec) (c : nat) (a : nat * nat) : R :=
    - sg (el (fst a)) (snd a) * F (key a) c * (lsum (key a) v / INR d).

  Lemma lsum_prod {A B} (l : list A) (l' : list B) (h : A * B -> R) : lsum (list_prod l l') h = lsum l (fun a => lsum l' (fun b => h (a, b))).
  Proof. induction l as [|a l IH]; cbn; auto. rewrite lsum_app, lsum_map, IH. reflexivity. Qed.

  Lemma lsum_els (h : list nat -> R) (l : list (list nat)) : lsum l h = lsum (seq 0 (List.length l)) (fun k => h (nth k l [])).
  Proof. induction l as [|a l IH]; auto. cbn [List.length seq lsum]. cbn [nth]. rewrite IH, <- seq_shift, lsum_map. reflexivity. Qed.

  Lemma el_In k : (k < List.length els)%nat -> In (el k) els.
  Proof. intros Hk. apply nth_In. auto. Qed.

  Lemma mesh_gauss v g c : field_gradient d x els v g -> (c < d)%nat -> integral meas els (fun e => g e c) = lsum incidences (share v c).
  Proof.
    intros Hg Hc. unfold integral, incidences. rewrite lsum_prod, (lsum_els _ els). apply lsum_ext. intros k Hk. apply in_seq in Hk.
    assert (He : In (el k) els) by (apply el_In; lia). unfold el in *.
    rewrite (element_gauss _ v (g (nth k els [])) c He (Hg _ He) Hc). rewrite lsum_seq. apply sum_ext. intros i Hi. reflexivity.
  Qed.

  Lemma incidence_In a : In a incidences <-> (fst a < List.length els)%nat /\ (snd a <= d)%nat.
  Proof. destruct a as [k i]. unfold incidences. rewrite in_prod_iff, !in_seq. cbn. lia. Qed.

  Lemma NoDup_prod {A B} (l : list A) (l' : list B) : NoDup l -> NoDup l' -> NoDup (list_prod l l').
  Proof.
    intros N N'. induction N as [|a l NI N IH]; cbn; [constructor|].
    apply (Permutation_NoDup (l := list_prod l l' ++ map (fun y => (a, y)) l')); [apply Permutation_app_comm|].
    assert (M : NoDup (map (fun y => (a, y)) l')) by (apply FinFun.Injective_map_NoDup; auto; intros y z E; cbn in E; congruence).
    clear N'. revert M. generalize (list_prod l l') IH (fun y => in_prod_iff l l' a y). intros q Q1 Q2 M.
    assert (D : forall z, In z q -> ~ In z (map (fun y => (a, y)) l')).
    { intros z Hz H. apply in_map_iff in H. destruct H as (y & <- & Hy). apply NI. apply (proj1 (Q2 y)) in Hz. tauto. }
    clear IH Q2. induction q as [|z q IHq]; cbn; auto. inversion Q1; subst. constructor.
    - rewrite in_app_iff. intros [H|H]; auto. apply (D z); auto. left; auto.
    - apply IHq; auto. intros t Ht. apply D. right; auto.
  Qed.

  Lemma NoDup_incidences : NoDup incidences.
  Proof. apply NoDup_prod; apply seq_NoDup. Qed.

  Definition same_list := list_eq_dec Nat.eq_dec.
  Definition around_face (f : list nat) : list (nat * nat) := filter (fun a => if same_list (key a) f then true else false) incidences.

  Lemma around_In f a : In a (around_face f) <-> (fst a < List.length els)%nat /\ (snd a <= d)%nat /\ key a = f.
  Proof. unfold around_face. rewrite filter_In, incidence_In. destruct (same_list (key a) f); split; intros; intuition congruence. Qed.

  Lemma key_of k e f : nth_error els k = Some e -> StronglySorted lt f -> List.length f = d -> incl f e ->
    exists i, In (k, i) (around_face f) /\ face e i = f.
  Proof.
    intros Hk SF L I. assert (He : In e els) by (apply (nth_error_In _ _ Hk)). destruct (shape e He) as [Le ND].
    destruct (face_of e f ND SF) as (i & Hi & E); auto; [lia|]. exists i. split; auto. apply around_In. cbn.
    assert (KL : (k < List.length els)%nat) by (apply nth_error_Some; congruence).
    assert (EK : el k = e) by (unfold el; apply nth_error_nth; auto). unfold key. cbn. rewrite EK. repeat split; auto; lia.
  Qed.

  Lemma around_element f a b : In a (around_face f) -> In b (around_face f) -> fst a = fst b -> a = b.
  Proof.
    intros Ha Hb E. apply around_In in Ha. apply around_In in Hb. destruct Ha as (A1 & A2 & A3), Hb as (B1 & B2 & B3).
    assert (E2 : key a = key b) by congruence. clear A3 B3. unfold key in E2.
    destruct a as [k i], b as [k' j]. cbn [fst snd] in *. subst k'. f_equal.
    destruct (shape (el k) (el_In k A1)) as [L ND]. apply (face_inj (el k)); auto; lia.
  Qed.

  Lemma key_facts a : In a incidences -> StronglySorted lt (key a) /\ List.length (key a) = d /\ incl (key a) (el (fst a)) /\
    In (nth (snd a) (el (fst a)) 0%nat) (el (fst a)) /\ ~ In (nth (snd a) (el (fst a)) 0%nat) (key a) /\ nth_error els (fst a) = Some (el (fst a)).
  Proof.
    intros H. apply incidence_In in H. destruct H as [A1 A2]. destruct (shape (el (fst a)) (el_In _ A1)) as [L ND]. unfold key.
    split; [apply face_sorted; auto|]. split; [pose proof (face_length (el (fst a)) (snd a)); lia|].
    split; [intros q Hq; apply face_In in Hq; auto; [tauto|lia]|]. split; [apply nth_In; lia|]. split.
    - intros H. apply face_In in H; auto; [tauto|lia].
    - unfold el. apply nth_error_nth'. auto.
  Qed.

  Lemma around_incidence f a : In a (around_face f) -> In a incidences /\ key a = f.
  Proof. intros H. apply around_In in H. split; [apply incidence_In|]; tauto. Qed.

  Lemma single_boundary f a : around_face f = [a] -> boundary_face (S d) els f.
  Proof.
    intros E. assert (Ha : In a (around_face f)) by (rewrite E; left; auto).
    destruct (around_incidence f a Ha) as [Ia Ka]. destruct (key_facts a Ia) as (K1 & K2 & K3 & K4 & K5 & K6). rewrite Ka in *.
    split; auto. split; auto. exists (fst a), (el (fst a)). split; auto. split; auto. intros k' e' H' I'.
    destruct (key_of k' e' f H' K1 K2 I') as (i & Hi & _). rewrite E in Hi. destruct Hi as [Hi|[]]. subst a. reflexivity.
  Qed.

  Lemma boundary_single f : boundary_face (S d) els f -> exists a, around_face f = [a] /\
    only_element els f (fst a) (el (fst a)).
  Proof.
    intros (SF & L & k & e & (Hk & I & U)). destruct (key_of k e f Hk SF ltac:(lia) I) as (i & Hi & _).
    assert (EK : el k = e) by (unfold el; apply nth_error_nth; auto).
    exists (k, i). cbn. rewrite EK. split; [|split; auto].
    assert (N : NoDup (around_face f)) by (apply NoDup_filter, NoDup_incidences).
    assert (A : forall b, In b (around_face f) -> b = (k, i)).
    { intros b Hb. apply (around_element f); auto. cbn. destruct (around_incidence f b Hb) as [Ib Kb].
      destruct (key_facts b Ib) as (_ & _ & K3 & _ & _ & K6). rewrite Kb in K3. apply (U _ _ K6 K3). }
    destruct (around_face f) as [|b [|b' l]]; [destruct Hi| |].
    - f_equal. apply A. left; auto.
    - exfalso. inversion N as [|? ? N1 _]; subst. apply N1. left. rewrite (A b), (A b'); auto; [right; left; auto|left; auto].
  Qed.

  Section Sides.
    Hypothesis TS : two_sided d x els.

    Lemma opposite_sides f a b : In a (around_face f) -> In b (around_face f) -> a <> b ->
      sg (el (fst a)) (snd a) = - sg (el (fst b)) (snd b).
    Proof.
      intros Ha Hb NE. destruct (around_incidence f a Ha) as [Ia Ka]. destruct (around_incidence f b Hb) as [Ib Kb].
      destruct (key_facts a Ia) as (A1 & A2 & A3 & A4 & A5 & A6). destruct (key_facts b Ib) as (B1 & B2 & B3 & B4 & B5 & B6).
      rewrite Ka in *. rewrite Kb in *.
      assert (NK : fst a <> fst b) by (intros E; apply NE; apply (around_element f); auto).
      apply incidence_In in Ia. apply incidence_In in Ib. destruct Ia as [Ia1 Ia2], Ib as [Ib1 Ib2].
      pose proof (el_In _ Ia1) as Ea. pose proof (el_In _ Ib1) as Eb.
      assert (Hp : In (nth 0 f 0%nat) f) by (apply nth_In; lia).
      assert (NF : NoDup f) by (apply sorted_lt_NoDup; auto).
      unfold key in Ka, Kb.
      pose proof (sg_side (el (fst a)) (snd a) (nth 0 f 0%nat) Ea Ia2 ltac:(rewrite Ka; auto)) as SA. rewrite Ka in SA.
      pose proof (sg_side (el (fst b)) (snd b) (nth 0 f 0%nat) Eb Ib2 ltac:(rewrite Kb; auto)) as SB. rewrite Kb in SB.
      pose proof (F1 _ _ Ea Ia2) as FA. rewrite Ka in FA.
      assert (PA : 0 < INR d * meas (el (fst a))) by (apply Rmult_lt_0_compat; auto; apply lt_0_INR; auto).
      assert (PB : 0 < INR d * meas (el (fst b))) by (apply Rmult_lt_0_compat; auto; apply lt_0_INR; auto).
      pose proof (TS _ _ _ _ f _ _ (F f) (nth 0 f 0%nat) NK A6 B6 A2 NF A3 B3 A4 A5 B4 B5 FA Hp) as T1.
      assert (FB : normal_to d x f (fun c => -1 * F f c)) by (intros p q P Q; rewrite dot_scal, (FA p q P Q); ring).
      pose proof (TS _ _ _ _ f _ _ (fun c => -1 * F f c) (nth 0 f 0%nat) NK A6 B6 A2 NF A3 B3 A4 A5 B4 B5 FB Hp) as T2.
      rewrite !dot_scal in T2. revert SA SB T1 T2.
      pose proof (sg_square (el (fst a)) (snd a)) as QA. pose proof (sg_square (el (fst b)) (snd b)) as QB. revert QA QB.
      generalize (sg (el (fst a)) (snd a)), (sg (el (fst b)) (snd b)). intros s t QA QB.
      generalize (dot d (F f) (minus_vec (x (nth (snd a) (el (fst a)) 0%nat)) (x (nth 0 f 0%nat)))).
      generalize (dot d (F f) (minus_vec (x (nth (snd b) (el (fst b)) 0%nat)) (x (nth 0 f 0%nat)))). intros u w SA SB T1 T2.
      assert (CS : s = 1 \/ s = -1) by (assert ((s - 1) * (s + 1) = 0) by lra; destruct (Rmult_integral _ _ H); [left|right]; lra).
      assert (CT : t = 1 \/ t = -1) by (assert ((t - 1) * (t + 1) = 0) by lra; destruct (Rmult_integral _ _ H); [left|right]; lra).
      destruct CS as [-> | ->], CT as [-> | ->]; lra.
    Qed.

    Lemma inner_cancels v c f : In f (map key incidences) -> ~ boundary_face (S d) els f -> lsum (around_face f) (share v c) = 0.
    Proof.
      intros Hf NB. pose proof (opposite_sides f) as OS. pose proof (single_boundary f) as SB.
      assert (N : NoDup (around_face f)) by (apply NoDup_filter, NoDup_incidences).
      assert (KE : forall a, In a (around_face f) -> key a = f) by (intros a Ha; apply around_incidence in Ha; tauto).
      assert (SQ : forall a, In a (around_face f) -> sg (el (fst a)) (snd a) * sg (el (fst a)) (snd a) = 1) by (intros; apply sg_square).
      destruct (around_face f) as [|a [|b [|b' l]]]; auto.
      - exfalso. apply NB, (SB a); auto.
      - cbn [lsum]. unfold share. rewrite (KE a), (KE b) by (cbn; auto).
        rewrite (OS a b); [ring|cbn; auto|cbn; auto|]. inversion N as [|? ? N1 _]; subst. intros ->. apply N1. left; auto.
      - exfalso. inversion N as [|? ? N1 N2]; subst. inversion N2 as [|? ? N3 _]; subst.
        assert (X : forall p q, In p [a; b; b'] -> In q [a; b; b'] -> p <> q -> sg (el (fst p)) (snd p) = - sg (el (fst q)) (snd q)).
        { intros p q Hp Hq. apply OS; cbn in *; tauto. }
        assert (N4 : a <> b) by (intros ->; apply N1; left; auto).
        assert (N5 : a <> b') by (intros ->; apply N1; right; left; auto).
        assert (N6 : b <> b') by (intros ->; apply N3; left; auto).
        pose proof (X a b ltac:(cbn; auto) ltac:(cbn; auto) N4). pose proof (X a b' ltac:(cbn; auto) ltac:(cbn; auto) N5).
        pose proof (X b b' ltac:(cbn; auto) ltac:(cbn; auto) N6). pose proof (SQ a ltac:(cbn; auto)) as Q.
        assert (sg (el (fst a)) (snd a) = 0) by lra. rewrite H2 in Q. lra.
    Qed.

    Variable n : list nat -> vec.
    Hypothesis HN : outer_normals d x els n.

    Lemma normal_share f a c : In a (around_face f) -> only_element els f (fst a) (el (fst a)) -> boundary_face (S d) els f -> (c < d)%nat ->
      face_measure d x f * n f c = - sg (el (fst a)) (snd a) * F f c.
    Proof.
      intros Ha HO HB Hc. destruct (around_incidence f a Ha) as [Ia Ka]. destruct (key_facts a Ia) as (A1 & A2 & A3 & A4 & A5 & A6). rewrite Ka in *.
      apply incidence_In in Ia. destruct Ia as [Ia1 Ia2]. pose proof (el_In _ Ia1) as Ea. unfold key in Ka.
      destruct (HN f (nth (snd a) (el (fst a)) 0%nat) HB) as (N1 & N2 & N3).
      { exists (fst a), (el (fst a)). auto. }
      assert (Hp : In (nth 0 f 0%nat) f) by (apply nth_In; lia).
      set (e := el (fst a)) in *. set (i := snd a) in *. set (o := nth i e 0%nat) in *. set (p := nth 0 f 0%nat) in *.
      pose proof (sg_side e i p Ea Ia2 ltac:(rewrite Ka; auto)) as S1. rewrite Ka in S1. fold o in S1.
      pose proof (N3 p Hp) as NP. pose proof (M0 e Ea) as MP. assert (DP : 0 < INR d) by (apply lt_0_INR; auto).
      set (t := dot d (n f) (minus_vec (x o) (x p))) in *.
      set (A := fun c => - sg e i * F f c).
      assert (P0 : 0 < INR d * meas e) by (apply Rmult_lt_0_compat; auto).
      assert (DA : dot d A (minus_vec (x o) (x p)) = - (INR d * meas e)) by (unfold A; rewrite dot_scal; lra).
      assert (V : veq d (n f) (fun c => (- t / (INR d * meas e)) * A c)).
      { apply (edge_unique e i (n f) _ p Ea Ia2); rewrite ?Ka; auto.
        - intros q r Q1 Q2. unfold A. rewrite !dot_scal. pose proof (F1 e i Ea Ia2) as FF. rewrite Ka in FF. rewrite (FF q r Q1 Q2). ring.
        - fold o. fold t. rewrite dot_scal, DA. field. split; lra. }
      assert (AA : dot d A A = Rsqr (face_measure d x f)).
      { unfold A. rewrite dot_scal. unfold dot. rewrite (sum_ext d _ (fun c => - sg e i * (F f c * F f c))) by (intros; ring). rewrite sum_scal.
        pose proof (F3 e i Ea Ia2) as FF. rewrite Ka in FF. unfold dot in FF. rewrite FF. replace (- sg e i * (- sg e i * Rsqr (face_measure d x f))) with (sg e i * sg e i * Rsqr (face_measure d x f)) by ring.
        unfold e, i. rewrite sg_square. ring. }
      set (r := - t / (INR d * meas e)) in *.
      assert (RP : 0 < r) by (unfold r; apply Rdiv_lt_0_compat; lra).
      assert (NN : 1 = r * r * Rsqr (face_measure d x f)).
      { rewrite <- AA, <- N1. unfold dot. rewrite <- sum_scal. apply sum_ext. intros k Hk. rewrite (V k Hk). ring. }
      assert (RM : r * face_measure d x f = 1).
      { pose proof (F4 f) as F0. unfold Rsqr in NN. assert (Z : (r * face_measure d x f - 1) * (r * face_measure d x f + 1) = 0) by lra.
        destruct (Rmult_integral _ _ Z) as [Z'|Z']; [lra|]. pose proof (Rmult_le_pos r _ ltac:(lra) F0). lra. }
      rewrite (V c Hc). fold (A c). replace (face_measure d x f * (r * A c)) with (r * face_measure d x f * A c) by ring. rewrite RM. unfold A. ring.
    Qed.

    Lemma boundary_share v c f : boundary_face (S d) els f -> (c < d)%nat ->
      lsum (around_face f) (share v c) = face_measure d x f * (n f c * (lsum f v / INR d)).
    Proof.
      intros HB Hc. destruct (boundary_single f HB) as (a & E & O).
      assert (Ha : In a (around_face f)) by (rewrite E; left; auto).
      pose proof (normal_share f a c Ha O HB Hc) as NS. destruct (around_incidence f a Ha) as [_ Ka].
      rewrite E. cbn [lsum]. unfold share. rewrite Ka, Rplus_0_r.
      replace (face_measure d x f * (n f c * (lsum f v / INR d))) with (face_measure d x f * n f c * (lsum f v / INR d)) by ring.
      rewrite NS. reflexivity.
    Qed.

    Theorem gauss faces v g c : boundary_list d els faces -> field_gradient d x els v g -> (c < d)%nat ->
      integral meas els (fun e => g e c) = flux d x faces n v c.
    Proof.
      intros [BN BI] Hg Hc. rewrite (mesh_gauss v g c Hg Hc).
      rewrite (lsum_groups same_list key (share v c) (nodup same_list (map key incidences)) incidences).
      2: apply NoDup_nodup.
      2:{ intros a Ha. apply nodup_In, in_map; auto. }
      fold (around_face). 
      rewrite (lsum_filter (fun f => (List.length (around_face f) =? 1)%nat)).
      rewrite (lsum_0 (filter (fun f => negb _) _)).
      2:{ intros f Hf. apply filter_In in Hf. destruct Hf as [Hf L]. apply nodup_In in Hf. apply (inner_cancels v c f Hf).
          intros B. destruct (boundary_single f B) as (a & E & _). rewrite E in L. discriminate. }
      rewrite Rplus_0_r. unfold flux. rewrite <- (lsum_perm faces).
      - apply lsum_ext. intros f Hf. apply (boundary_share v c f); auto. apply BI; auto.
      - apply NoDup_Permutation; auto.
        + apply NoDup_filter, NoDup_nodup.
        + intros f. rewrite BI, filter_In, nodup_In. split.
          * intros B. destruct (boundary_single f B) as (a & E & _). split; [|rewrite E; reflexivity].
            assert (Ha : In a (around_face f)) by (rewrite E; left; auto). destruct (around_incidence f a Ha) as [Ia Ka].
            rewrite <- Ka. apply in_map; auto.
          * intros [_ L]. apply Nat.eqb_eq in L. destruct (around_face f) as [|a [|]] eqn:E; try discriminate. apply (single_boundary f a); auto.
    Qed.
  End Sides.

  (* the normals: F, normed and turned away from the opposite corner *)
  Definition owner (f : list nat) : option (list nat) := find (fun e => forallb (fun q => mem_nat q e) f) els.
  Definition outward (f : list nat) : vec :=
    match owner f with
    | None => F f
    | Some e => match find (fun o => negb (mem_nat o f)) e with
      | None => F f
      | Some o => fun c => (if Rlt_dec 0 (dot d (F f) (minus_vec (x o) (x (nth 0 f 0%nat)))) then -1 else 1) / face_measure d x f * F f c
      end
    end.

  Lemma outward_normals : outer_normals d x els outward.
  Proof.
    intros f o (SF & LF & k & e & K1 & K2 & K3) (k' & e' & (K1' & K2' & K3') & Ho & No).
    assert (k' = k) by (apply (K3 k' e'); auto). subst k'. rewrite K1 in K1'. injection K1' as <-.
    pose proof (nth_error_In _ _ K1) as He. destruct (shape e He) as [L ND].
    assert (OW : owner f = Some e).
    { unfold owner. destruct (find _ els) as [a|] eqn:E.
      - apply find_some in E. destruct E as [Ha Hf]. rewrite forallb_forall in Hf.
        destruct (In_nth_error _ _ Ha) as (j & Hj). assert (j = k).
        { apply (K3 j a); auto. intros q Hq. apply mem_nat_spec. auto. }
        subst j. congruence.
      - exfalso. pose proof (find_none _ _ E e He) as X. cbn in X.
        assert (Y : forallb (fun q => mem_nat q e) f = true) by (apply forallb_forall; intros q Hq; apply mem_nat_spec; auto). congruence. }
    destruct (face_of e f ND SF ltac:(lia) K2) as (i & Hi & Fi).
    assert (OI : forall q, In q e -> ~ In q f -> q = nth i e 0%nat).
    { intros q Hq Nq. destruct (Nat.eq_dec q (nth i e 0%nat)) as [|NE]; auto. exfalso. apply Nq. rewrite <- Fi. apply face_In; auto. }
    assert (OF : find (fun o => negb (mem_nat o f)) e = Some o).
    { destruct (find _ e) as [q|] eqn:E.
      - apply find_some in E. destruct E as [Hq Nq]. apply negb_true_iff, mem_nat_false in Nq. rewrite (OI q Hq Nq), (OI o Ho No). auto.
      - exfalso. pose proof (find_none _ _ E o Ho) as X. cbn in X. apply negb_false_iff, mem_nat_spec in X. auto. }
    pose proof (OI o Ho No) as EO.
    assert (P0 : In (nth 0 f 0%nat) f) by (apply nth_In; lia).
    assert (ID : (i <= d)%nat) by lia.
    pose proof (F2 e i (nth 0 f 0%nat) He ID) as A. rewrite Fi, <- EO in A. specialize (A P0).
    pose proof (F1 e i He ID) as N1. rewrite Fi in N1. pose proof (F3 e i He ID) as N3. rewrite Fi in N3.
    pose proof (M0 e He) as MP. assert (DP : 0 < INR d) by (apply lt_0_INR; auto).
    pose proof (Rmult_lt_0_compat _ _ DP MP) as DM.
    set (t := dot d (F f) (minus_vec (x o) (x (nth 0 f 0%nat)))) in *.
    assert (FM : 0 < face_measure d x f).
    { destruct (Rle_lt_or_eq_dec _ _ (F4 f)) as [|E0]; auto. exfalso. rewrite <- E0 in N3. unfold Rsqr in N3. rewrite Rmult_0_l in N3.
      assert (Z : forall c, (c < d)%nat -> F f c * F f c = 0).
      { apply (sum_nonneg_0 d (fun c => F f c * F f c)); auto. intros c _. pose proof (Rle_0_sqr (F f c)). unfold Rsqr in *. lra. }
      assert (T0 : t = 0).
      { unfold t, dot. apply sum_0. intros c Hc. specialize (Z c Hc). destruct (Rmult_integral _ _ Z) as [->| ->]; ring. }
      rewrite T0, Rabs_R0 in A. lra. }
    unfold outward. rewrite OW, OF. fold t. set (s := if Rlt_dec 0 t then -1 else 1).
    assert (SS : s * s = 1) by (unfold s; destruct (Rlt_dec 0 t); ring).
    assert (ST : s * t < 0).
    { unfold s. destruct (Rlt_dec 0 t) as [|NT]; [lra|]. unfold Rabs in A. destruct (Rcase_abs t); lra. }
    split; [|split].
    - rewrite dot_scal. unfold dot.
      rewrite (sum_ext d _ (fun c => s / face_measure d x f * (F f c * F f c))) by (intros; ring). rewrite sum_scal. unfold dot in N3. rewrite N3.
      unfold Rsqr. replace (s / face_measure d x f * (s / face_measure d x f * (face_measure d x f * face_measure d x f))) with (s * s) by (field; lra). auto.
    - intros p q Hp Hq. rewrite dot_scal, (N1 p q Hp Hq). ring.
    - intros p Hp. rewrite dot_scal.
      replace (dot d (F f) (minus_vec (x o) (x p))) with t.
      + replace (s / face_measure d x f * t) with (- ((- (s * t)) / face_measure d x f)) by (field; lra).
        pose proof (Rdiv_lt_0_compat (- (s * t)) (face_measure d x f) ltac:(lra) FM). lra.
      + unfold t. pose proof (N1 (nth 0 f 0%nat) p P0 Hp) as Q. unfold dot, minus_vec in *.
        rewrite (sum_ext d (fun c => F f c * (x o c - x (nth 0 f 0%nat) c)) (fun c => F f c * (x o c - x p c) - F f c * (x (nth 0 f 0%nat) c - x p c))) by (intros; ring).
        rewrite sum_minus, Q. ring.
  Qed.

  Lemma gauss_all : (exists n, outer_normals d x els n) /\
    (two_sided d x els -> forall n, outer_normals d x els n -> forall faces v g c, boundary_list d els faces -> field_gradient d x els v g -> (c < d)%nat ->
      integral meas els (fun e => g e c) = flux d x faces n v c).
  Proof. split; [exists outward; apply outward_normals|]. intros TS n HN faces v g c. apply gauss; auto. Qed.
End Gauss.
