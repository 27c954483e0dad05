(* The elements of the cross mesh. *)
From Coq Require Import Reals R_Ifp List Arith ZArith Bool Lia Lra.
From Verif Require Import RVec PyModel MeshSpec FemSpec CrossModel CrossSpec CrossProofs.
Import ListNotations.
Local Open Scope R_scope.

Definition pair_dec (p q : nat * nat) : {p = q} + {p <> q}.
Proof. decide equality; apply Nat.eq_dec. Defined.
Fixpoint position (p : nat * nat) (l : list (nat * nat)) : nat :=
  match l with
  | [] => 0%nat
  | q :: l => if pair_dec p q then 0%nat else S (position p l)
  end.

Lemma position_nth p : forall l, In p l -> nth_error l (position p l) = Some p.
Proof.
  induction l as [|q l IH]; intros H; [destruct H|]. cbn. destruct (pair_dec p q) as [->|N]; auto.
  cbn. apply IH. destruct H; [congruence|auto].
Qed.
Lemma position_inj l p q : In p l -> In q l -> position p l = position q l -> p = q.
Proof. intros P Q E. apply position_nth in P, Q. congruence. Qed.
Lemma position_lt l p : In p l -> (position p l < length l)%nat.
Proof. intros P. apply nth_error_Some. rewrite (position_nth p l P). discriminate. Qed.

Lemma index_position hx hy p : forall l k, In p l ->
  (forall q, In q l -> q <> p -> tolerance <= distance (at_point hx hy p) (at_point hx hy q)) ->
  index_from k (at_point hx hy p) (map (at_point hx hy) l) = Ok (k + position p l)%nat.
Proof.
  induction l as [|q l IH]; intros k H D; [destruct H|]. cbn [map index_from position].
  destruct (pair_dec p q) as [->|N].
  - destruct (Rlt_dec _ _) as [L|L]; [f_equal; lia|]. exfalso. apply L.
    unfold distance, at_point, tolerance. cbn. rewrite !Rminus_eq_0, Rabs_R0. lra.
  - destruct (Rlt_dec _ _) as [L|L].
    + exfalso. pose proof (D q (or_introl eq_refl) (fun E => N (eq_sym E))). lra.
    + rewrite IH.
      * f_equal. lia.
      * destruct H; [congruence|auto].
      * intros. apply D; auto. right. auto.
Qed.

Lemma INR_apart d a b : (a + d <= b \/ b + d <= a)%nat -> INR d <= Rabs (INR a - INR b).
Proof.
  intros [H|H]; apply le_INR in H; rewrite plus_INR in H.
  - rewrite Rabs_minus_sym. eapply Rle_trans; [|apply Rle_abs]. lra.
  - eapply Rle_trans; [|apply Rle_abs]. lra.
Qed.

Lemma point_distance sx sy hx hy p q : tolerance <= hx -> tolerance <= hy -> is_point sx sy p -> is_point sx sy q -> q <> p ->
  tolerance <= distance (at_point hx hy p) (at_point hx hy q).
Proof.
  intros X Y P Q N. assert (0 < tolerance) by (unfold tolerance; lra).
  unfold distance, at_point. cbn [map2 total fold_right].
  rewrite <- !Rmult_minus_distr_r, !Rabs_mult.
  rewrite (Rabs_pos_eq (hx / 2)), (Rabs_pos_eq (hy / 2)) by lra.
  destruct p as [a b], q as [c d]. cbn [fst snd].
  assert (S0 : (a + 2 <= c \/ c + 2 <= a)%nat \/ (b + 2 <= d \/ d + 2 <= b)%nat \/
           ((a + 1 <= c \/ c + 1 <= a)%nat /\ (b + 1 <= d \/ d + 1 <= b)%nat)).
  { destruct P as [(i & j & _ & _ & E)|(i & j & _ & _ & E)], Q as [(k & l & _ & _ & F)|(k & l & _ & _ & F)];
      injection E as -> ->; injection F as -> ->.
    - destruct (Nat.eq_dec i k) as [->|]; [|lia]. destruct (Nat.eq_dec j l) as [->|]; [contradiction|lia].
    - lia.
    - lia.
    - destruct (Nat.eq_dec i k) as [->|]; [|lia]. destruct (Nat.eq_dec j l) as [->|]; [contradiction|lia]. }
  pose proof (Rabs_pos (INR a - INR c)) as A. pose proof (Rabs_pos (INR b - INR d)) as B.
  destruct S0 as [H0|[H0|[H0 H1]]].
  - apply INR_apart in H0. cbn in H0. nra.
  - apply INR_apart in H0. cbn in H0. nra.
  - apply INR_apart in H0. apply INR_apart in H1. cbn in H0, H1. nra.
Qed.

Section Elements.
  Variables sx sy : nat.
  Hypothesis Hx : (1 <= sx)%nat.
  Hypothesis Hy : (1 <= sy)%nat.
  Variables hx hy : R.
  Hypothesis Tx : tolerance <= hx.
  Hypothesis Ty : tolerance <= hy.

  Notation pts := (points sx sy).
  Notation nodes := (map (at_point hx hy) pts).
  Notation pos := (fun p => position p pts).

  Lemma look_up p : is_point sx sy p -> get_node_index (at_point hx hy p) nodes = Ok (pos p).
  Proof.
    intros P. unfold get_node_index. rewrite index_position; [reflexivity| |].
    - apply in_points; auto.
    - intros q Q N. apply (point_distance sx sy); auto. apply in_points in Q; auto.
  Qed.

  (* the four triangles of a cell, by points *)
  Definition lb (i j : nat) := (2 * i, 2 * j)%nat.
  Definition centre (i j : nat) := (2 * i + 1, 2 * j + 1)%nat.
  Definition triangle (i j q : nat) : (nat * nat) * (nat * nat) * (nat * nat) :=
    match q with
    | 0 => (lb i j, lb (S i) j, centre i j)
    | 1 => (lb (S i) j, lb (S i) (S j), centre i j)
    | 2 => (lb (S i) (S j), lb i (S j), centre i j)
    | _ => (lb i (S j), lb i j, centre i j)
    end%nat.
  Definition element (i j q : nat) : list nat :=
    let '(a, b, c) := triangle i j q in [pos a; pos b; pos c].
  Definition cell (i j : nat) : list (list nat) := map (element i j) (seq 0 4).
  Definition elements : list (list nat) := flat_map (fun i => flat_map (cell i) (seq 0 sy)) (seq 0 sx).

  Lemma set_elements : set_cross_elements (zx sx) (zy sy) hx hy [0; 0] nodes (repeat [0; 0; 0]%nat (length elements)) = Ok elements.
  Proof.
    unfold set_cross_elements.
    erewrite fills_zeros; [reflexivity| |reflexivity].
    unfold elements. unfold upto, zx. rewrite Nat2Z.id.
    apply fills_for. intros i Hi. unfold zy. rewrite Nat2Z.id. apply fills_for. intros j Hj.
    apply in_seq in Hi, Hj.
    rewrite (plus_origin [INR i * hx; INR j * hy]) by reflexivity.
    replace [INR i * hx; INR j * hy] with (at_point hx hy (lb i j)) by apply at_corner.
    replace (map2 Rplus (at_point hx hy (lb i j)) [hx; 0]) with (at_point hx hy (lb (S i) j)).
    2:{ unfold lb. rewrite !at_corner, S_INR. cbn. f_equal; [|f_equal]; ring. }
    replace (map2 Rplus (at_point hx hy (lb i j)) [1 / 2 * hx; 1 / 2 * hy]) with (at_point hx hy (centre i j)).
    2:{ unfold lb, centre. rewrite at_centre, at_corner. cbn. f_equal; [|f_equal]; field. }
    replace (map2 Rplus (at_point hx hy (lb i j)) [0; hy]) with (at_point hx hy (lb i (S j))).
    2:{ unfold lb. rewrite !at_corner, S_INR. cbn. f_equal; [|f_equal]; ring. }
    replace (map2 Rplus (at_point hx hy (lb i j)) [hx; hy]) with (at_point hx hy (lb (S i) (S j))).
    2:{ unfold lb. rewrite !at_corner, !S_INR. cbn. f_equal; [|f_equal]; ring. }
    rewrite (look_up (lb i j)), (look_up (lb (S i) j)), (look_up (centre i j)), (look_up (lb i (S j))), (look_up (lb (S i) (S j))).
    2,3,5,6: left; eexists; eexists; unfold lb; repeat split; lia.
    2:{ right. exists i, j. unfold centre. repeat split; lia. }
    cbn [bind]. change (cell i j) with ([element i j 0] ++ [element i j 1] ++ [element i j 2] ++ [element i j 3]).
    apply fills_bind; [apply fills_put|]. apply fills_bind; [apply fills_put|]. apply fills_bind; apply fills_put.
  Qed.

  Lemma elements_length : length elements = (4 * (sx * sy))%nat.
  Proof.
    unfold elements. rewrite (flat_length _ (sy * 4)).
    - rewrite seq_length. lia.
    - intros i _. rewrite (flat_length _ 4); [rewrite seq_length; auto|]. intros. unfold cell. rewrite map_length. reflexivity.
  Qed.

  (* the element with a given number *)
  Lemma flat_nth {A B} (f : A -> list B) n : (forall x, length (f x) = n) -> (1 <= n)%nat -> forall xs k y,
    nth_error (flat_map f xs) k = Some y <-> exists x, nth_error xs (k / n) = Some x /\ nth_error (f x) (k mod n) = Some y.
  Proof.
    intros L Hn. induction xs as [|x xs IH]; intros k y; cbn [flat_map].
    - split; [destruct k; discriminate|]. intros (x & H & _). destruct (k / n)%nat; discriminate.
    - destruct (Nat.lt_ge_cases k n) as [K|K].
      + rewrite Nat.div_small, Nat.mod_small by auto. rewrite nth_error_app1 by (rewrite L; auto). split.
        * intros H. exists x. auto.
        * intros (z & E & H). injection E as <-. auto.
      + rewrite nth_error_app2 by (rewrite L; auto). rewrite L, IH.
        assert (D : (k / n = S ((k - n) / n))%nat).
        { replace k with ((k - n) + 1 * n)%nat at 1 by lia. rewrite Nat.div_add by lia. lia. }
        assert (M : (k mod n = (k - n) mod n)%nat).
        { replace k with ((k - n) + 1 * n)%nat at 1 by lia. rewrite Nat.mod_add by lia. reflexivity. }
        rewrite D, M. reflexivity.
  Qed.
  Lemma nth_seq n k i : nth_error (seq 0 n) k = Some i <-> k = i /\ (i < n)%nat.
  Proof.
    split.
    - intros H. assert (L : (k < n)%nat) by (rewrite <- (seq_length n 0); apply nth_error_Some; congruence).
      rewrite (nth_error_nth' _ 0%nat) in H by (rewrite seq_length; auto).
      rewrite seq_nth in H by auto. injection H as <-. cbn. auto.
    - intros [-> H]. rewrite (nth_error_nth' _ 0%nat) by (rewrite seq_length; auto). rewrite seq_nth by auto. reflexivity.
  Qed.

  Definition number (i j q : nat) : nat := (i * (sy * 4) + (j * 4 + q))%nat.
  Lemma elements_nth k e : nth_error elements k = Some e <->
    exists i j q, (i < sx)%nat /\ (j < sy)%nat /\ (q < 4)%nat /\ k = number i j q /\ e = element i j q.
  Proof.
    unfold elements. rewrite (flat_nth _ (sy * 4)); [| |lia].
    2:{ intros i. rewrite (flat_length _ 4); [rewrite seq_length; auto|]. intros. unfold cell. rewrite map_length. reflexivity. }
    split.
    - intros (i & Hi & H). apply nth_seq in Hi. destruct Hi as [Ei Hi].
      rewrite (flat_nth _ 4) in H; [| |lia]. 2:{ intros. unfold cell. rewrite map_length. reflexivity. }
      destruct H as (j & Hj & H). apply nth_seq in Hj. destruct Hj as [Ej Hj].
      unfold cell in H. rewrite nth_error_map in H.
      destruct (nth_error (seq 0 4) _) as [q|] eqn:Q; [|discriminate]. apply nth_seq in Q. destruct Q as [Eq Q].
      cbn in H. injection H as <-. exists i, j, q. repeat split; auto. unfold number.
      rewrite <- Ei, <- Eq, <- Ej. rewrite (Nat.div_mod k (sy * 4)) at 1 by lia.
      rewrite (Nat.div_mod (k mod (sy * 4)) 4) at 1 by lia. lia.
    - intros (i & j & q & Hi & Hj & Hq & -> & ->). unfold number.
      assert (B : (j * 4 + q < sy * 4)%nat) by nia.
      exists i. rewrite nth_seq. split.
      + split; [|auto]. rewrite Nat.div_add_l by lia. rewrite Nat.div_small by auto. lia.
      + replace ((i * (sy * 4) + (j * 4 + q)) mod (sy * 4))%nat with (j * 4 + q)%nat.
        2:{ rewrite (Nat.add_comm (i * (sy * 4))), Nat.mod_add by lia. rewrite Nat.mod_small; auto. }
        apply (flat_nth (cell i) 4); [intros; unfold cell; rewrite map_length; reflexivity|lia|].
        exists j. rewrite nth_seq. split.
        * split; [|auto]. rewrite Nat.div_add_l by lia. rewrite Nat.div_small by auto. lia.
        * replace ((j * 4 + q) mod 4)%nat with q.
          2:{ rewrite (Nat.add_comm (j * 4)), Nat.mod_add by lia. rewrite Nat.mod_small; auto. }
          unfold cell. rewrite nth_error_map. replace (nth_error (seq 0 4) q) with (Some q) by (symmetry; apply nth_seq; auto).
          reflexivity.
  Qed.
  Lemma in_elements e : In e elements <->
    exists i j q, (i < sx)%nat /\ (j < sy)%nat /\ (q < 4)%nat /\ e = element i j q.
  Proof.
    split.
    - intros H. apply In_nth_error in H. destruct H as (k & H). apply elements_nth in H.
      destruct H as (i & j & q & A & B & C & _ & E). eauto 10.
    - intros (i & j & q & A & B & C & ->). apply (nth_error_In _ (number i j q)). apply elements_nth. eauto 10.
  Qed.
  Lemma number_inj i j q i' j' q' : (j < sy)%nat -> (j' < sy)%nat -> (q < 4)%nat -> (q' < 4)%nat ->
    number i j q = number i' j' q' -> i = i' /\ j = j' /\ q = q'.
  Proof.
    unfold number. intros A B C D E.
    assert (I : i = i').
    { assert (E' := f_equal (fun k => (k / (sy * 4))%nat) E). cbn beta in E'.
      rewrite !Nat.div_add_l in E' by lia. rewrite !Nat.div_small in E' by nia. lia. }
    subst. repeat split; lia.
  Qed.

  (* the corners of the elements *)
  Lemma triangle_points i j q : (i < sx)%nat -> (j < sy)%nat ->
    let '(a, b, c) := triangle i j q in is_point sx sy a /\ is_point sx sy b /\ is_point sx sy c.
  Proof.
    intros Hi Hj.
    assert (L : forall a b, (a <= sx)%nat -> (b <= sy)%nat -> is_point sx sy (lb a b)) by (intros a b A B; left; exists a, b; auto).
    assert (C : is_point sx sy (centre i j)) by (right; exists i, j; auto).
    destruct q as [|[|[|q]]]; cbn [triangle]; (split; [|split]); auto; apply L; lia.
  Qed.
  Lemma node_at p : is_point sx sy p -> nth (pos p) nodes [] = at_point hx hy p.
  Proof.
    intros P. apply nth_error_nth. rewrite nth_error_map, position_nth; [reflexivity|]. apply in_points; auto.
  Qed.
  Lemma corners_at i j q : (i < sx)%nat -> (j < sy)%nat ->
    let '(a, b, c) := triangle i j q in
    forall k, corners (table_of nodes) (element i j q) 0%nat k = nth k (at_point hx hy a) 0 /\
              corners (table_of nodes) (element i j q) 1%nat k = nth k (at_point hx hy b) 0 /\
              corners (table_of nodes) (element i j q) 2%nat k = nth k (at_point hx hy c) 0.
  Proof.
    intros Hi Hj. pose proof (triangle_points i j q Hi Hj) as T. unfold element.
    destruct (triangle i j q) as [[a b] c]. destruct T as (A & B & C). intros k. unfold corners, table_of. cbn [nth].
    rewrite !node_at; auto.
  Qed.

  (* ----------------------------------------------------------- areas *)

  Lemma element_det i j q : (i < sx)%nat -> (j < sy)%nat -> (q < 4)%nat ->
    det_2d (corners (table_of nodes) (element i j q)) = hx * hy / 2.
  Proof.
    intros Hi Hj Hq. pose proof (corners_at i j q Hi Hj) as T.
    destruct q as [|[|[|[|]]]]; [| | | |lia]; cbn [triangle] in T; unfold lb, centre in T; rewrite !at_corner, at_centre in T;
      pose proof (T 0%nat) as (T1 & T2 & T3); pose proof (T 1%nat) as (T4 & T5 & T6); cbn [nth] in *;
      unfold det_2d; rewrite T1, T2, T3, T4, T5, T6, ?S_INR; field.
  Qed.
  Lemma hpos : 0 < hx /\ 0 < hy.
  Proof. assert (0 < tolerance) by (unfold tolerance; lra). lra. Qed.
  Lemma element_area_of i j q : (i < sx)%nat -> (j < sy)%nat -> (q < 4)%nat ->
    element_area (table_of nodes) (element i j q) = hx * hy / 4.
  Proof.
    intros Hi Hj Hq. unfold element_area, area. rewrite element_det by auto.
    pose proof hpos as [A B]. rewrite Rabs_pos_eq by nra. field.
  Qed.
  Lemma lsum_const {A} (f : A -> R) c l : (forall x, In x l -> f x = c) -> lsum l f = INR (length l) * c.
  Proof.
    induction l as [|x l IH]; intros H; cbn [lsum length]; [cbn; ring|].
    rewrite S_INR, IH, (H x); [ring|left; auto|intros; apply H; right; auto].
  Qed.
  Lemma total_area : lsum elements (element_area (table_of nodes)) = (INR sx * hx) * (INR sy * hy).
  Proof.
    rewrite (lsum_const _ (hx * hy / 4)).
    - rewrite elements_length, !mult_INR. cbn [INR]. field.
    - intros e He. apply in_elements in He. destruct He as (i & j & q & A & B & C & ->). apply element_area_of; auto.
  Qed.

  Lemma cross_triangles : triangles (length nodes) (table_of nodes) elements.
  Proof.
    split; [|split].
    - apply Forall_forall. intros e He. apply in_elements in He. destruct He as (i & j & q & A & B & C & ->).
      pose proof (triangle_points i j q A B) as T. unfold element. destruct (triangle i j q) as [[a b] c].
      destruct T as (Ta & Tb & Tc). rewrite map_length.
      repeat constructor; apply position_lt; apply in_points; auto.
    - apply Forall_forall. intros e He. apply in_elements in He. destruct He as (i & j & q & A & B & C & ->).
      unfold element. destruct (triangle i j q) as [[a b] c]. reflexivity.
    - intros e He. apply in_elements in He. destruct He as (i & j & q & A & B & C & ->).
      rewrite element_det by auto. pose proof hpos as [H1 H2]. nra.
  Qed.

  Lemma element_nodup i j q : (i < sx)%nat -> (j < sy)%nat -> NoDup (element i j q).
  Proof.
    intros Hi Hj. pose proof (triangle_points i j q Hi Hj) as T.
    assert (D : let '(a, b, c) := triangle i j q in a <> b /\ a <> c /\ b <> c).
    { unfold triangle, lb, centre. destruct q as [|[|[|q]]]; (split; [|split]); intros E; injection E; lia. }
    unfold element. destruct (triangle i j q) as [[a b] c]. destruct T as (Ta & Tb & Tc), D as (D1 & D2 & D3).
    apply in_points in Ta, Tb, Tc; auto.
    repeat constructor; cbn; intros X; repeat destruct X as [X|X]; try contradiction; eauto using position_inj;
      apply position_inj in X; auto; congruence.
  Qed.
  Lemma cross_simplices : simplices 3 elements.
  Proof.
    apply Forall_forall. intros e He. apply in_elements in He. destruct He as (i & j & q & A & B & C & ->).
    split; [|apply element_nodup; auto]. unfold element. destruct (triangle i j q) as [[a b] c]. reflexivity.
  Qed.

  Lemma cross_referenced k : (k < length nodes)%nat -> referenced elements k.
  Proof.
    rewrite map_length. intros K. destruct (nth_error pts k) as [p|] eqn:E; [|apply nth_error_None in E; lia].
    assert (P : In p pts) by (eapply nth_error_In; eauto).
    assert (k = position p pts).
    { pose proof (position_nth p pts P). eapply (proj1 (NoDup_nth_error pts)); [apply points_nodup; auto|auto|congruence]. }
    subst k. apply in_points in P; auto. destruct P as [(i & j & Hi & Hj & ->)|(i & j & Hi & Hj & ->)].
    - destruct (Nat.eq_dec i sx) as [->|Ni], (Nat.eq_dec j sy) as [->|Nj].
      + exists (element (sx - 1) (sy - 1) 1). split; [apply in_elements; exists (sx - 1)%nat, (sy - 1)%nat, 1%nat; repeat split; lia|].
        cbn. right. left. unfold lb. do 2 f_equal; lia.
      + exists (element (sx - 1) j 0). split; [apply in_elements; exists (sx - 1)%nat, j, 0%nat; repeat split; lia|].
        cbn. right. left. unfold lb. do 2 f_equal; lia.
      + exists (element i (sy - 1) 3). split; [apply in_elements; exists i, (sy - 1)%nat, 3%nat; repeat split; lia|].
        cbn. left. unfold lb. do 2 f_equal; lia.
      + exists (element i j 0). split; [apply in_elements; exists i, j, 0%nat; repeat split; lia|]. cbn. left. reflexivity.
    - exists (element i j 0). split; [apply in_elements; exists i, j, 0%nat; repeat split; lia|]. cbn. auto.
  Qed.

  (* ----------------------------------------------------------- tiling *)

  (* in coordinates of the cell *)
  Definition region (q : nat) (u v : R) : Prop :=
    match q with
    | 0%nat => 0 <= v <= u /\ u + v <= 1
    | 1%nat => v <= u <= 1 /\ 1 <= u + v
    | 2%nat => u <= v <= 1 /\ 1 <= u + v
    | _ => 0 <= u <= v /\ u + v <= 1
    end.
  Definition interior (q : nat) (u v : R) : Prop :=
    match q with
    | 0%nat => 0 < v < u /\ u + v < 1
    | 1%nat => v < u < 1 /\ 1 < u + v
    | 2%nat => u < v < 1 /\ 1 < u + v
    | _ => 0 < u < v /\ u + v < 1
    end.


  Section InCell.
    Variables i j q : nat.
    Hypothesis Hi : (i < sx)%nat.
    Hypothesis Hj : (j < sy)%nat.
    Hypothesis Hq : (q < 4)%nat.
    Variables u v : R.
    Notation tri := (corners (table_of nodes) (element i j q)).

    Definition weight (q : nat) : R * R * R :=
      match q with
      | 0%nat => (1 - u - v, u - v, 2 * v)
      | 1%nat => (u - v, u + v - 1, 2 * (1 - u))
      | 2%nat => (u + v - 1, v - u, 2 * (1 - v))
      | _ => (v - u, 1 - u - v, 2 * u)
      end.

    (* barycentric coordinates are unique *)
    Lemma weights a b c : a + b + c = 1 ->
      ((INR i + u) * hx = a * tri 0%nat 0%nat + b * tri 1%nat 0%nat + c * tri 2%nat 0%nat /\
       (INR j + v) * hy = a * tri 0%nat 1%nat + b * tri 1%nat 1%nat + c * tri 2%nat 1%nat) <->
      (a, b, c) = weight q.
    Proof.
      intros S1. pose proof hpos as [A B]. pose proof (corners_at i j q Hi Hj) as T.
      assert (C : forall s t h, 0 < h -> s * h = t * h -> s = t).
      { intros s t h H E. apply Rmult_eq_reg_r in E; auto. lra. }
      assert (E0 : a = 1 - b - c) by lra. subst a. clear S1.
      destruct q as [|[|[|[|]]]]; [| | | |lia]; cbn [triangle] in T; unfold lb, centre in T; rewrite !at_corner, at_centre in T;
        pose proof (T 0%nat) as (T1 & T2 & T3); pose proof (T 1%nat) as (T4 & T5 & T6); cbn [nth] in *; rewrite ?S_INR in *;
        rewrite T1, T2, T3, T4, T5, T6; clear T T1 T2 T3 T4 T5 T6; cbn [weight].
      - split.
        + intros [E1 E2].
          assert (F1 : u = b + c / 2) by (apply (C _ _ hx A); lra).
          assert (F2 : v = c / 2) by (apply (C _ _ hy B); lra). subst. f_equal; [f_equal|]; field.
        + intros E. injection E as E1 E2 E3. subst b c. split; field.
      - split.
        + intros [E1 E2].
          assert (F1 : u = 1 - c / 2) by (apply (C _ _ hx A); lra).
          assert (F2 : v = b + c / 2) by (apply (C _ _ hy B); lra). subst. f_equal; [f_equal|]; field.
        + intros E. injection E as E1 E2 E3. subst b c. split; field.
      - split.
        + intros [E1 E2].
          assert (F1 : u = (1 - b - c) + c / 2) by (apply (C _ _ hx A); lra).
          assert (F2 : v = 1 - c / 2) by (apply (C _ _ hy B); lra). subst. f_equal; [f_equal|]; field.
        + intros E. injection E as E1 E2 E3. subst b c. split; field.
      - split.
        + intros [E1 E2].
          assert (F1 : u = c / 2) by (apply (C _ _ hx A); lra).
          assert (F2 : v = (1 - b - c) + c / 2) by (apply (C _ _ hy B); lra). subst. f_equal; [f_equal|]; field.
        + intros E. injection E as E1 E2 E3. subst b c. split; field.
    Qed.

    Lemma within_cell : within tri ((INR i + u) * hx) ((INR j + v) * hy) <-> region q u v.
    Proof.
      unfold within. split.
      - intros (a & b & c & Pa & Pb & Pc & S1 & E). apply (weights a b c S1) in E.
        destruct q as [|[|[|[|]]]]; [| | | |lia]; cbn [weight region] in *; injection E as E1 E2 E3; lra.
      - intros H. destruct (weight q) as [[a b] c] eqn:W. exists a, b, c.
        assert (S1 : a + b + c = 1).
        { destruct q as [|[|[|[|]]]]; [| | | |lia]; cbn [weight region] in *; injection W as E1 E2 E3; lra. }
        pose proof (proj2 (weights a b c S1) (eq_sym W)) as E.
        destruct q as [|[|[|[|]]]]; [| | | |lia]; cbn [weight region] in *; injection W as E1 E2 E3;
          (split; [lra|]; split; [lra|]; split; [lra|]; split; [lra|exact E]).
    Qed.
    Lemma inside_cell : inside tri ((INR i + u) * hx) ((INR j + v) * hy) <-> interior q u v.
    Proof.
      unfold inside. split.
      - intros (a & b & c & Pa & Pb & Pc & S1 & E). apply (weights a b c S1) in E.
        destruct q as [|[|[|[|]]]]; [| | | |lia]; cbn [weight interior] in *; injection E as E1 E2 E3; lra.
      - intros H. destruct (weight q) as [[a b] c] eqn:W. exists a, b, c.
        assert (S1 : a + b + c = 1).
        { destruct q as [|[|[|[|]]]]; [| | | |lia]; cbn [weight interior] in *; injection W as E1 E2 E3; lra. }
        pose proof (proj2 (weights a b c S1) (eq_sym W)) as E.
        destruct q as [|[|[|[|]]]]; [| | | |lia]; cbn [weight interior] in *; injection W as E1 E2 E3;
          (split; [lra|]; split; [lra|]; split; [lra|]; split; [lra|exact E]).
    Qed.
  End InCell.

  Lemma within_region i j q x y : (i < sx)%nat -> (j < sy)%nat -> (q < 4)%nat ->
    (within (corners (table_of nodes) (element i j q)) x y <-> region q (x / hx - INR i) (y / hy - INR j)).
  Proof.
    intros Hi Hj Hq. pose proof hpos as [A B]. rewrite <- (within_cell i j q) by auto.
    replace ((INR i + (x / hx - INR i)) * hx) with x by (field; lra).
    replace ((INR j + (y / hy - INR j)) * hy) with y by (field; lra). tauto.
  Qed.
  Lemma inside_region i j q x y : (i < sx)%nat -> (j < sy)%nat -> (q < 4)%nat ->
    (inside (corners (table_of nodes) (element i j q)) x y <-> interior q (x / hx - INR i) (y / hy - INR j)).
  Proof.
    intros Hi Hj Hq. pose proof hpos as [A B]. rewrite <- (inside_cell i j q) by auto.
    replace ((INR i + (x / hx - INR i)) * hx) with x by (field; lra).
    replace ((INR j + (y / hy - INR j)) * hy) with y by (field; lra). tauto.
  Qed.

  Lemma find_step n : (1 <= n)%nat -> forall t, 0 <= t <= INR n -> exists i, (i < n)%nat /\ INR i <= t <= INR i + 1.
  Proof.
    intros Hn t. induction n as [|n IH]; [lia|]. intros T.
    destruct (Rle_lt_dec (INR n) t) as [L|L].
    - exists n. rewrite S_INR in T. split; [lia|lra].
    - destruct n as [|n]; [cbn in L; lra|].
      destruct IH as (i & Hi & H); [lia|lra|]. exists i. split; [lia|auto].
  Qed.
  Lemma same_step i j t : INR i < t < INR i + 1 -> INR j <= t <= INR j + 1 -> i = j.
  Proof.
    intros A B. destruct (Nat.lt_trichotomy i j) as [H|[H|H]]; auto.
    - assert (INR (i + 1) <= INR j) by (apply le_INR; lia). rewrite plus_INR in H0. cbn in H0. lra.
    - assert (INR (j + 1) <= INR i) by (apply le_INR; lia). rewrite plus_INR in H0. cbn in H0. lra.
  Qed.
  Lemma region_cell q u v : region q u v -> 0 <= u <= 1 /\ 0 <= v <= 1.
  Proof. destruct q as [|[|[|q]]]; cbn; lra. Qed.
  Lemma interior_cell q u v : interior q u v -> 0 < u < 1 /\ 0 < v < 1.
  Proof. destruct q as [|[|[|q]]]; cbn; lra. Qed.

  Lemma cross_tiles : tiles (table_of nodes) elements (INR sx * hx) (INR sy * hy).
  Proof.
    pose proof hpos as [A B]. constructor.
    - intros x y X Y.
      destruct (find_step sx Hx (x / hx)) as (i & Hi & I).
      { split; [apply Rmult_le_pos; [lra|left; apply Rinv_0_lt_compat; lra]|].
        apply (Rmult_le_reg_r hx); auto. replace (x / hx * hx) with x by (field; lra). lra. }
      destruct (find_step sy Hy (y / hy)) as (j & Hj & J).
      { split; [apply Rmult_le_pos; [lra|left; apply Rinv_0_lt_compat; lra]|].
        apply (Rmult_le_reg_r hy); auto. replace (y / hy * hy) with y by (field; lra). lra. }
      set (u := x / hx - INR i). set (v := y / hy - INR j).
      assert (U : 0 <= u <= 1) by (unfold u; lra). assert (V : 0 <= v <= 1) by (unfold v; lra).
      assert (Q : exists q, (q < 4)%nat /\ region q u v).
      { destruct (Rle_lt_dec u v), (Rle_lt_dec (u + v) 1).
        - exists 3%nat. cbn. split; [lia|lra].
        - exists 2%nat. cbn. split; [lia|lra].
        - exists 0%nat. cbn. split; [lia|lra].
        - exists 1%nat. cbn. split; [lia|lra]. }
      destruct Q as (q & Hq & Q). exists (element i j q). split; [apply in_elements; eauto 10|]. apply within_region; auto.
    - intros e x y He W. apply in_elements in He. destruct He as (i & j & q & Hi & Hj & Hq & ->).
      apply within_region in W; auto. apply region_cell in W. destruct W as [U V].
      assert (X : x = (INR i + (x / hx - INR i)) * hx) by (field; lra).
      assert (Y : y = (INR j + (y / hy - INR j)) * hy) by (field; lra).
      assert (I : INR i + 1 <= INR sx) by (rewrite <- S_INR; apply le_INR; lia).
      assert (J : INR j + 1 <= INR sy) by (rewrite <- S_INR; apply le_INR; lia).
      pose proof (pos_INR i). pose proof (pos_INR j).
      revert X Y U V. generalize (x / hx - INR i) (y / hy - INR j). intros u v X Y U V. subst x y. split; split; nra.
    - intros k l e f x y Hk Hl I W. apply elements_nth in Hk, Hl.
      destruct Hk as (i & j & q & Hi & Hj & Hq & -> & ->), Hl as (i' & j' & q' & Hi' & Hj' & Hq' & -> & ->).
      apply inside_region in I; auto. apply within_region in W; auto.
      pose proof (interior_cell _ _ _ I) as [U V]. pose proof (region_cell _ _ _ W) as [U' V'].
      assert (i = i') by (apply (same_step i i' (x / hx)); lra).
      assert (j = j') by (apply (same_step j j' (y / hy)); lra). subst i' j'.
      f_equal. destruct q as [|[|[|[|]]]], q' as [|[|[|[|]]]]; try lia; cbn in I, W; lra.
  Qed.
End Elements.
