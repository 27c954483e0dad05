(* The contact cost is the quadrature of the contact potential. *)
From Coq Require Import Reals List Arith Bool Lia Lra Psatz.
From Verif Require Import RVec PyModel ForcesSpec FemSpec ContactModel ContactSpec.
Import ListNotations.
Local Open Scope R_scope.

Lemma accumulate_sum {B} (f : R -> B -> result R) (g : B -> R) l :
  (forall x acc, In x l -> f acc x = Ok (acc + g x)) ->
  forall acc, accumulate f l acc = Ok (acc + lsum l g).
Proof.
  induction l as [|x l IH]; intros H acc; cbn [accumulate lsum].
  - rewrite Rplus_0_r. reflexivity.
  - rewrite H by (left; reflexivity). cbn [bind]. rewrite IH by (intros; apply H; right; auto).
    f_equal. ring.
Qed.

Lemma fold_mean (r : nat -> R) L e : forall acc,
  fold_left (fun acc node => acc + r node / L) e acc = acc + lsum e r / L.
Proof.
  induction e as [|a e IH]; intros acc; cbn [fold_left lsum].
  - unfold Rdiv. ring.
  - rewrite IH. unfold Rdiv. ring.
Qed.

(* the field read by get_nodes: current values below C, old values above *)
Definition mixed (C : nat) (x : vec) (N : nat) (old : vec) : nat -> vec :=
  fun node k => if (node <? C)%nat then nodal C x node k else nodal N old node k.

Lemma mixed_low C x N old node k : (node < C)%nat -> mixed C x N old node k = nodal C x node k.
Proof. intros H. unfold mixed. apply Nat.ltb_lt in H. rewrite H. reflexivity. Qed.

Lemma read_mixed d C x N old i node : d <> 0%nat ->
  read (d * C, x)%nat (d * N, old)%nat d i node = mixed C x N old node i.
Proof.
  intros Hd. unfold read, mixed, nodal. cbn [fst snd].
  rewrite !(Nat.mul_comm d), !Nat.div_mul by auto. reflexivity.
Qed.

Lemma nodes_mean d C x N old e i : d <> 0%nat ->
  get_nodes e (d * C, x)%nat (d * N, old)%nat d i 0%nat = mean_at e (mixed C x N old) i.
Proof.
  intros Hd. unfold get_nodes. rewrite fold_mean. unfold mean_at. rewrite Rplus_0_l. f_equal.
  apply lsum_ext. intros. apply read_mixed; auto.
Qed.
Lemma nodes_node d C x N old e i n : d <> 0%nat ->
  get_nodes e (d * C, x)%nat (d * N, old)%nat d i (S n) = mixed C x N old (nth n e 0%nat) i.
Proof. intros Hd. unfold get_nodes. rewrite read_mixed by auto. ring. Qed.

Lemma interpolate_mean d C x e i : d <> 0%nat ->
  snd (interpolate_node_between e (d * C, x)%nat (d * C, x)%nat d) i = mean_at e (nodal C x) i.
Proof.
  intros Hd. unfold interpolate_node_between. cbn [snd]. rewrite fold_mean, Rplus_0_l. unfold mean_at. f_equal.
  apply lsum_ext. intros a _. rewrite read_mixed by auto. unfold mixed, nodal.
  destruct (a <? C)%nat; reflexivity.
Qed.

(* along and across only see the two components *)
Lemma along_ext n v w : v 0%nat = w 0%nat -> v 1%nat = w 1%nat -> along n v = along n w.
Proof. intros H0 H1. unfold along, inner_product. cbn [sum]. rewrite H0, H1. reflexivity. Qed.
Lemma across_ext n v w : v 0%nat = w 0%nat -> v 1%nat = w 1%nat -> across n v = across n w.
Proof. intros H0 H1. unfold across. cbn [map]. rewrite H0, H1, (along_ext n v w) by auto. reflexivity. Qed.
Lemma density_ext hn jn ht jt dt n v w s s' :
  v 0%nat = w 0%nat -> v 1%nat = w 1%nat -> s 0%nat = s' 0%nat -> s 1%nat = s' 1%nat ->
  density hn jn ht jt dt n v s = density hn jn ht jt dt n w s'.
Proof.
  intros. unfold density. rewrite (along_ext n v w), (along_ext n s s'), (across_ext n v w), (across_ext n s s') by auto.
  reflexivity.
Qed.

Lemma split_2 (v n : vec) :
  exists t, split (2%nat, v) (2%nat, n) = Ok (along n v, t) /\ entries t = across n v.
Proof.
  eexists. unfold split, broadcast. cbn [fst snd Nat.eqb bind]. split.
  - reflexivity.
  - unfold entries, across, along, inner_product, total. cbn [fst snd seq map sum]. reflexivity.
Qed.

Lemma length_measure e nodes : (exists a b, e = [a; b]) -> length e nodes = face_measure 2 nodes e.
Proof.
  intros (a & b & ->). unfold length, face_measure, segment_length, inner_product, corners.
  cbn [nth sum]. f_equal. ring.
Qed.

Lemma point_value jn hn jt ht nodes n v u N e dt : (exists a b, e = [a; b]) ->
  point_cost (Function jn) (Function hn) (Function jt) (Function ht) 2 2 nodes e (2%nat, n) (2%nat, v) (2 * N, u)%nat dt
  = Ok (face_measure 2 nodes e / 3 * density hn jn ht jt dt n v (mean_at e (nodal N u))).
Proof.
  intros He. unfold point_cost. cbn [Nat.eqb njit].
  destruct (split_2 v n) as (t & -> & Ht). cbn [bind].
  set (m := interpolate_node_between e _ _ 2).
  assert (Hm : m = (2%nat, snd m)) by reflexivity. rewrite Hm.
  destruct (split_2 (snd m) n) as (t' & -> & Ht'). cbn [bind].
  assert (E0 : snd m 0%nat = mean_at e (nodal N u) 0%nat) by (apply interpolate_mean; lia).
  assert (E1 : snd m 1%nat = mean_at e (nodal N u) 1%nat) by (apply interpolate_mean; lia).
  f_equal. unfold contact_cost. rewrite (length_measure e nodes He).
  replace (INR (List.length e + 1)) with 3.
  2:{ destruct He as (a & b & ->). simpl. lra. }
  f_equal. rewrite Ht, Ht'. unfold density.
  rewrite (along_ext n (snd m) _ E0 E1), (across_ext n (snd m) _ E0 E1). ring.
Qed.

Lemma face_pairs d N faces ei : faces_ok 2 N faces -> d = 2%nat -> (ei < List.length faces)%nat ->
  exists a b, nth ei faces [] = [a; b].
Proof.
  intros H _ Hi. unfold faces_ok in H. rewrite Forall_forall in H.
  destruct (H (nth ei faces []) (nth_In _ _ Hi)) as (HL & _ & _).
  destruct (nth ei faces []) as [|a [|b [|]]]; try discriminate. eauto.
Qed.

Lemma face_in_range N faces ei a : faces_ok 2 N faces -> (ei < List.length faces)%nat ->
  In a (nth ei faces []) -> (a < N)%nat.
Proof.
  intros H Hi Ha. unfold faces_ok in H. rewrite Forall_forall in H.
  destruct (H (nth ei faces []) (nth_In _ _ Hi)) as (_ & _ & HR). rewrite Forall_forall in HR. auto.
Qed.

Theorem contact_value jn hn jt ht nodes normals M faces C x N old u dt :
  faces_ok 2 M faces ->
  contact_cost_functional (Function jn) (Function hn) (Function jt) (Function ht) 2 2 nodes 2 normals
    (2 * C, x)%nat (2 * N, old)%nat (2 * N, u)%nat faces dt
  = Ok (boundary_sum nodes faces (fun ei => density hn jn ht jt dt (normals ei))
          (mixed C x N old) (nodal N u)).
Proof.
  intros HF. unfold contact_cost_functional.
  rewrite (accumulate_sum _ (fun ei => let e := nth ei faces [] in
     face_measure 2 nodes e / 3 * lsum (samples e (mixed C x N old))
       (fun p => density hn jn ht jt dt (normals ei) p (mean_at e (nodal N u))))).
  { rewrite lsum_seq, Rplus_0_l. reflexivity. }
  intros ei acc Hei. apply in_seq in Hei.
  destruct (face_pairs 2 M faces ei HF eq_refl ltac:(lia)) as (a & b & He).
  cbv zeta. rewrite He.
  rewrite (accumulate_sum _ (fun node_ => face_measure 2 nodes [a; b] / 3 *
     density hn jn ht jt dt (normals ei)
       (fun i => get_nodes [a; b] (2 * C, x)%nat (2 * N, old)%nat 2 i node_) (mean_at [a; b] (nodal N u)))).
  2:{ intros k acc' _. unfold column. rewrite point_value by eauto. reflexivity. }
  f_equal. f_equal. rewrite <- lsum_scal.
  change (seq 0 (List.length [a; b] + 1)) with [0; 1; 2]%nat. unfold samples. cbn [lsum map].
  set (G := get_nodes [a; b] (2 * C, x)%nat (2 * N, old)%nat 2).
  assert (D : forall c w, G 0%nat c = w 0%nat -> G 1%nat c = w 1%nat ->
    density hn jn ht jt dt (normals ei) (fun i => G i c) (mean_at [a; b] (nodal N u))
    = density hn jn ht jt dt (normals ei) w (mean_at [a; b] (nodal N u))).
  { intros c w H0 H1. apply density_ext; auto. }
  rewrite (D 0%nat (mean_at [a; b] (mixed C x N old))) by (apply nodes_mean; lia).
  rewrite (D 1%nat (mixed C x N old a)) by (apply (nodes_node 2 C x N old [a; b] _ 0%nat); lia).
  rewrite (D 2%nat (mixed C x N old b)) by (apply (nodes_node 2 C x N old [a; b] _ 1%nat); lia).
  reflexivity.
Qed.
