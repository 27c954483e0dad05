(* The boundary of the cross mesh and what a clamped edge of it fixes. *)
From Coq Require Import Reals List Arith ZArith Bool Sorted Lia Lra.
From Verif Require Import RVec PyModel MeshSpec FemSpec StatementSpec CrossModel CrossSpec CrossProofs CrossElementProofs.
Import ListNotations.
Local Open Scope R_scope.

Section Boundary.
  Variables sx sy : nat.
  Hypothesis Hx : (1 <= sx)%nat.
  Hypothesis Hy : (1 <= sy)%nat.
  Variables hx hy : R.

  Notation pts := (points sx sy).
  Notation nodes := (map (at_point hx hy) pts).
  Notation pos := (fun p => position p pts).
  Notation els := (elements sx sy).
  Notation el := (element sx sy).

  Definition onto (p : nat * nat) (t : (nat * nat) * (nat * nat) * (nat * nat)) : Prop :=
    let '(a, b, c) := t in p = a \/ p = b \/ p = c.

  Lemma in_element p i j q : is_point sx sy p -> (i < sx)%nat -> (j < sy)%nat ->
    (In (pos p) (el i j q) <-> onto p (triangle i j q)).
  Proof.
    intros P Hi Hj. pose proof (triangle_points sx sy Hx Hy i j q Hi Hj) as T. unfold element, onto.
    destruct (triangle i j q) as [[a b] c]. destruct T as (A & B & C).
    apply in_points in A, B, C, P; auto. cbn. split.
    - intros [E|[E|[E|[]]]]; apply position_inj in E; auto.
    - intros [->|[->| ->]]; auto.
  Qed.
  Lemma in_element_point k i j q : (i < sx)%nat -> (j < sy)%nat -> In k (el i j q) ->
    exists p, is_point sx sy p /\ k = pos p /\ onto p (triangle i j q).
  Proof.
    intros Hi Hj. pose proof (triangle_points sx sy Hx Hy i j q Hi Hj) as T. unfold element, onto.
    destruct (triangle i j q) as [[a b] c]. destruct T as (A & B & C). cbn.
    intros [<-|[<-|[<-|[]]]]; eauto 10.
  Qed.

  (* the edges of the outline, by points *)
  Inductive outer : nat * nat -> nat * nat -> Prop :=
  | outer_bottom i : (i < sx)%nat -> outer (lb i 0) (lb (S i) 0)
  | outer_right j : (j < sy)%nat -> outer (lb sx j) (lb sx (S j))
  | outer_top i : (i < sx)%nat -> outer (lb (S i) sy) (lb i sy)
  | outer_left j : (j < sy)%nat -> outer (lb 0 (S j)) (lb 0 j).

  Lemma outer_points a b : outer a b -> is_point sx sy a /\ is_point sx sy b /\ a <> b.
  Proof.
    intros [i H|j H|i H|j H]; unfold lb; (split; [|split]);
      try (left; eexists; eexists; repeat split; lia); intros E; injection E; lia.
  Qed.

  (* exactly one triangle has such an edge *)
  Lemma outer_only a b : outer a b -> exists i j q, (i < sx)%nat /\ (j < sy)%nat /\ (q < 4)%nat /\
    onto a (triangle i j q) /\ onto b (triangle i j q) /\
    forall i' j' q', (i' < sx)%nat -> (j' < sy)%nat -> (q' < 4)%nat -> onto a (triangle i' j' q') -> onto b (triangle i' j' q') ->
    i' = i /\ j' = j /\ q' = q.
  Proof.
    assert (P : forall a b c d : nat, (a, b) = (c, d) -> a = c /\ b = d) by (intros x y z w H; injection H; auto).
    intros [i H|j H|i H|j H].
    - exists i, 0%nat, 0%nat. unfold onto, triangle, lb, centre. repeat (split; [auto; lia|]).
      intros i' j' q' A B C D E. destruct q' as [|[|[|[|]]]]; try lia;
        destruct D as [D|[D|D]], E as [E|[E|E]]; apply P in D, E; lia.
    - exists (sx - 1)%nat, j, 1%nat. unfold onto, triangle, lb, centre.
      split; [lia|]. split; [lia|]. split; [lia|]. split; [left; f_equal; lia|]. split; [right; left; f_equal; lia|].
      intros i' j' q' A B C D E. destruct q' as [|[|[|[|]]]]; try lia;
        destruct D as [D|[D|D]], E as [E|[E|E]]; apply P in D, E; lia.
    - exists i, (sy - 1)%nat, 2%nat. unfold onto, triangle, lb, centre.
      split; [lia|]. split; [lia|]. split; [lia|]. split; [left; f_equal; lia|]. split; [right; left; f_equal; lia|].
      intros i' j' q' A B C D E. destruct q' as [|[|[|[|]]]]; try lia;
        destruct D as [D|[D|D]], E as [E|[E|E]]; apply P in D, E; lia.
    - exists 0%nat, j, 3%nat. unfold onto, triangle, lb, centre. repeat (split; [auto; lia|]).
      intros i' j' q' A B C D E. destruct q' as [|[|[|[|]]]]; try lia;
        destruct D as [D|[D|D]], E as [E|[E|E]]; apply P in D, E; lia.
  Qed.

  (* and no other edge has just one *)
  Lemma only_outer a b i j q : (i < sx)%nat -> (j < sy)%nat -> (q < 4)%nat -> a <> b ->
    onto a (triangle i j q) -> onto b (triangle i j q) ->
    (forall i' j' q', (i' < sx)%nat -> (j' < sy)%nat -> (q' < 4)%nat -> onto a (triangle i' j' q') -> onto b (triangle i' j' q') ->
      i' = i /\ j' = j /\ q' = q) -> outer a b \/ outer b a.
  Proof.
    intros Hi Hj Hq N A B U.
    assert (L : q = 0%nat \/ q = 1%nat \/ q = 2%nat \/ q = 3%nat) by lia.
    (* edges to the centre are shared within the cell *)
    assert (CA : forall x y, (x = a /\ y = b) \/ (x = b /\ y = a) -> x = centre i j -> False).
    { intros x y XY X. assert (Y : onto y (triangle i j q)) by (destruct XY as [[_ ->]|[_ ->]]; auto).
      assert (Ny : y <> centre i j) by (destruct XY as [[-> ->]|[-> ->]]; congruence).
      assert (G : exists q', (q' < 4)%nat /\ q' <> q /\ onto y (triangle i j q')).
      { destruct L as [->|[->|[->| ->]]]; cbn in Y |- *; destruct Y as [Y|[Y|Y]]; try contradiction.
        - exists 3%nat. split; [lia|]. split; [lia|]. cbn. auto.
        - exists 1%nat. split; [lia|]. split; [lia|]. cbn. auto.
        - exists 0%nat. split; [lia|]. split; [lia|]. cbn. auto.
        - exists 2%nat. split; [lia|]. split; [lia|]. cbn. auto.
        - exists 1%nat. split; [lia|]. split; [lia|]. cbn. auto.
        - exists 3%nat. split; [lia|]. split; [lia|]. cbn. auto.
        - exists 2%nat. split; [lia|]. split; [lia|]. cbn. auto.
        - exists 0%nat. split; [lia|]. split; [lia|]. cbn. auto. }
      destruct G as (q' & Hq' & Nq & G).
      assert (C : onto x (triangle i j q')) by (subst x; destruct q' as [|[|[|]]]; cbn; auto).
      destruct XY as [[-> ->]|[-> ->]]; destruct (U i j q') as (_ & _ & E); auto. }
    pose proof (CA a b (or_introl (conj eq_refl eq_refl))) as Ca.
    pose proof (CA b a (or_intror (conj eq_refl eq_refl))) as Cb. clear CA.
    assert (G : forall x y, ((a = x /\ b = y) \/ (a = y /\ b = x)) -> forall i' j' q', (i' < sx)%nat -> (j' < sy)%nat -> (q' < 4)%nat ->
      (x, y) = (snd (fst (triangle i' j' q')), fst (fst (triangle i' j' q'))) -> i' = i /\ j' = j).
    { intros x y XY i' j' q' H1 H2 H3 E. destruct (triangle i' j' q') as [[s t] r] eqn:T. cbn in E. injection E as -> ->.
      destruct (U i' j' q') as (E1 & E2 & _); auto; rewrite T; destruct XY as [[-> ->]|[-> ->]]; cbn; auto. }
    destruct L as [->|[->|[->| ->]]]; cbn in A, B.
    - assert (XY : (a = lb i j /\ b = lb (S i) j) \/ (a = lb (S i) j /\ b = lb i j)).
      { destruct A as [A|[A|A]], B as [B|[B|B]]; auto; try tauto; congruence. }
      destruct j as [|j].
      + destruct XY as [[-> ->]|[-> ->]]; [left|right]; constructor; auto.
      + exfalso. destruct (G _ _ XY i j 2%nat) as (_ & E); [auto|lia|lia|reflexivity|lia].
    - assert (XY : (a = lb (S i) j /\ b = lb (S i) (S j)) \/ (a = lb (S i) (S j) /\ b = lb (S i) j)).
      { destruct A as [A|[A|A]], B as [B|[B|B]]; auto; try tauto; congruence. }
      destruct (Nat.eq_dec (S i) sx) as [E|E].
      + rewrite E in XY. destruct XY as [[-> ->]|[-> ->]]; [left|right]; constructor; auto.
      + exfalso. destruct (G _ _ XY (S i) j 3%nat) as (E1 & _); [lia|auto|lia|reflexivity|lia].
    - assert (XY : (a = lb (S i) (S j) /\ b = lb i (S j)) \/ (a = lb i (S j) /\ b = lb (S i) (S j))).
      { destruct A as [A|[A|A]], B as [B|[B|B]]; auto; try tauto; congruence. }
      destruct (Nat.eq_dec (S j) sy) as [E|E].
      + rewrite E in XY. destruct XY as [[-> ->]|[-> ->]]; [left|right]; constructor; auto.
      + exfalso. destruct (G _ _ XY i (S j) 0%nat) as (_ & E1); [auto|lia|lia|reflexivity|lia].
    - assert (XY : (a = lb i (S j) /\ b = lb i j) \/ (a = lb i j /\ b = lb i (S j))).
      { destruct A as [A|[A|A]], B as [B|[B|B]]; auto; try tauto; congruence. }
      destruct i as [|i].
      + destruct XY as [[-> ->]|[-> ->]]; [left|right]; constructor; auto.
      + exfalso. destruct (G _ _ XY i j 1%nat) as (E1 & _); [lia|auto|lia|reflexivity|lia].
  Qed.

  Lemma boundary_outer f : boundary_face 3 els f <->
    exists a b, (outer a b \/ outer b a) /\ f = [pos a; pos b] /\ (pos a < pos b)%nat.
  Proof.
    split.
    - intros (S0 & L & k & e & He & I & U).
      destruct f as [|x [|y [|]]]; cbn in L; try lia.
      assert (XY : (x < y)%nat) by (inversion S0 as [|? ? _ F]; subst; inversion F; auto).
      apply elements_nth in He; auto. destruct He as (i & j & q & Hi & Hj & Hq & -> & ->).
      destruct (in_element_point x i j q Hi Hj) as (a & Pa & -> & Oa); [apply I; left; auto|].
      destruct (in_element_point y i j q Hi Hj) as (b & Pb & -> & Ob); [apply I; right; left; auto|].
      exists a, b. split; [|auto].
      apply (only_outer a b i j q); auto; [intros ->; lia|].
      intros i' j' q' Hi' Hj' Hq' A B.
      assert (E : number sy i' j' q' = number sy i j q).
      { apply (U (number sy i' j' q') (el i' j' q')); [apply elements_nth; auto; exists i', j', q'; auto|].
        intros z [<-|[<-|[]]]; apply in_element; auto. }
      apply (number_inj sx sy Hx Hy) in E; auto.
    - intros (a & b & O & -> & L).
      assert (O' : exists c d, outer c d /\ ((c = a /\ d = b) \/ (c = b /\ d = a))) by (destruct O; eauto 10).
      destruct O' as (c & d & O' & CD). destruct (outer_points c d O') as (Pc & Pd & _).
      destruct (outer_only c d O') as (i & j & q & Hi & Hj & Hq & Oc & Od & U).
      assert (I : forall i' j' q', (i' < sx)%nat -> (j' < sy)%nat ->
        (incl [pos a; pos b] (el i' j' q') <-> onto c (triangle i' j' q') /\ onto d (triangle i' j' q'))).
      { intros i' j' q' Hi' Hj'. split.
        - intros H. pose proof (H (pos a) (or_introl eq_refl)) as Ha. pose proof (H (pos b) (or_intror (or_introl eq_refl))) as Hb.
          destruct CD as [[-> ->]|[-> ->]]; apply in_element in Ha; auto; apply in_element in Hb; auto.
        - intros [C D] z [<-|[<-|[]]]; destruct CD as [[-> ->]|[-> ->]]; apply in_element; auto. }
      split; [|split].
      + repeat constructor; auto.
      + reflexivity.
      + exists (number sy i j q), (el i j q). split; [apply elements_nth; auto; exists i, j, q; auto|].
        split; [apply I; auto|]. intros k e He Ie. apply elements_nth in He; auto.
        destruct He as (i' & j' & q' & Hi' & Hj' & Hq' & -> & ->). apply I in Ie; auto.
        destruct (U i' j' q' Hi' Hj' Hq') as (-> & -> & ->); tauto.
  Qed.

  (* in coordinates *)
  Lemma outer_outline a b : outer a b -> outline sx sy hx hy (at_point hx hy a) (at_point hx hy b) \/
    outline sx sy hx hy (at_point hx hy b) (at_point hx hy a).
  Proof.
    intros [i H|j H|i H|j H]; unfold lb; rewrite !at_corner; change (INR 0) with 0; rewrite ?Rmult_0_l.
    - left. constructor. auto.
    - left. constructor. auto.
    - right. constructor. auto.
    - right. constructor. auto.
  Qed.
  Lemma outline_outer r s : outline sx sy hx hy r s -> exists a b, (outer a b \/ outer b a) /\ r = at_point hx hy a /\ s = at_point hx hy b.
  Proof.
    intros [i H|i H|j H|j H].
    - exists (lb i 0), (lb (S i) 0). split; [left; constructor; auto|]. unfold lb. rewrite !at_corner. change (INR 0) with 0. rewrite Rmult_0_l. auto.
    - exists (lb i sy), (lb (S i) sy). split; [right; constructor; auto|]. unfold lb. rewrite !at_corner. auto.
    - exists (lb 0 j), (lb 0 (S j)). split; [right; constructor; auto|]. unfold lb. rewrite !at_corner. change (INR 0) with 0. rewrite Rmult_0_l. auto.
    - exists (lb sx j), (lb sx (S j)). split; [left; constructor; auto|]. unfold lb. rewrite !at_corner. auto.
  Qed.

  Hypothesis Px : 0 < hx.
  Hypothesis Py : 0 < hy.

  Lemma at_point_inj p q : at_point hx hy p = at_point hx hy q -> p = q.
  Proof.
    destruct p as [a b], q as [c d]. unfold at_point. cbn [fst snd]. intros E. injection E as E1 E2.
    apply Rmult_eq_reg_r in E1; [|lra]. apply Rmult_eq_reg_r in E2; [|lra]. apply INR_eq in E1, E2. congruence.
  Qed.
  Lemma node_point k r : nth_error nodes k = Some r -> exists p, is_point sx sy p /\ r = at_point hx hy p /\ k = pos p.
  Proof.
    intros H. rewrite nth_error_map in H. destruct (nth_error pts k) as [p|] eqn:E; [|discriminate]. injection H as <-.
    assert (P : In p pts) by (eapply nth_error_In; eauto). exists p. split; [apply in_points; auto|]. split; [auto|].
    pose proof (position_nth p pts P). eapply (proj1 (NoDup_nth_error pts)); [apply points_nodup; auto| |congruence].
    apply nth_error_Some. congruence.
  Qed.
  Lemma point_node p : is_point sx sy p -> nth_error nodes (pos p) = Some (at_point hx hy p).
  Proof. intros P. rewrite nth_error_map, position_nth; [reflexivity|]. apply in_points; auto. Qed.
  Lemma nodes_nodup : NoDup nodes.
  Proof. apply map_nodup; [|apply points_nodup; auto]. intros x y _ _. apply at_point_inj. Qed.

  Lemma boundary_faces_of f : boundary_face 3 els f <->
    exists k l r s, nth_error nodes k = Some r /\ nth_error nodes l = Some s /\
      (outline sx sy hx hy r s \/ outline sx sy hx hy s r) /\ f = [k; l] /\ (k < l)%nat.
  Proof.
    rewrite boundary_outer. split.
    - intros (a & b & O & -> & L). exists (pos a), (pos b), (at_point hx hy a), (at_point hx hy b).
      assert (P : is_point sx sy a /\ is_point sx sy b) by (destruct O as [O|O]; apply outer_points in O; tauto).
      split; [apply point_node; tauto|]. split; [apply point_node; tauto|]. split; [|auto].
      destruct O as [O|O]; apply outer_outline in O; tauto.
    - intros (k & l & r & s & K & L & O & -> & KL).
      apply node_point in K, L. destruct K as (p & P & -> & ->), L as (q & Q & -> & ->). exists p, q. split; [|auto].
      destruct O as [O|O]; apply outline_outer in O; destruct O as (a & b & O & E1 & E2);
        apply at_point_inj in E1, E2; subst; tauto.
  Qed.

  (* ----------------------------------------------------------- a clamped edge holds everything *)

  Lemma cell_held (pin : nat -> Prop) i j : (i < sx)%nat -> (j < sy)%nat -> forall q a b, (q < 4)%nat -> a <> b ->
    is_point sx sy a -> is_point sx sy b -> onto a (triangle i j q) -> onto b (triangle i j q) ->
    held pin els (pos a) -> held pin els (pos b) ->
    held pin els (pos (centre i j)) /\ held pin els (pos (lb i j)) /\ held pin els (pos (lb (S i) j)) /\
    held pin els (pos (lb i (S j))) /\ held pin els (pos (lb (S i) (S j))).
  Proof.
    intros Hi Hj.
    assert (E : forall q, (q < 4)%nat -> In (el i j q) els) by (intros q Hq; apply in_elements; auto; exists i, j, q; auto).
    assert (PL : forall x y, (x <= S i)%nat -> (y <= S j)%nat -> is_point sx sy (lb x y)).
    { intros x y X Y. left. exists x, y. unfold lb. repeat split; lia. }
    assert (PC : is_point sx sy (centre i j)) by (right; exists i, j; auto).
    assert (G : forall q a b c, (q < 4)%nat -> a <> b -> is_point sx sy a -> is_point sx sy b -> is_point sx sy c ->
       onto a (triangle i j q) -> onto b (triangle i j q) -> onto c (triangle i j q) ->
       held pin els (pos a) -> held pin els (pos b) -> held pin els (pos c)).
    { intros q a b c Hq N Pa Pb Pc A B C Ha Hb. apply (held_by pin els (el i j q) (pos a) (pos b)); auto.
      - apply in_element; auto.
      - apply in_element; auto.
      - intros X. apply N. apply in_points in Pa, Pb; auto. eapply position_inj; eauto.
      - apply in_element; auto. }
    assert (NC : forall x y, lb x y <> centre i j) by (intros x y X; unfold lb, centre in X; injection X; lia).
    (* from a corner and the centre around the cell *)
    assert (A0 : held pin els (pos (centre i j)) -> held pin els (pos (lb i j)) <-> held pin els (pos (lb (S i) j))).
    { intros HC. split; intros H; [apply (G 0%nat (lb i j) (centre i j))|apply (G 0%nat (lb (S i) j) (centre i j))]; auto; cbn; auto. }
    assert (A1 : held pin els (pos (centre i j)) -> held pin els (pos (lb (S i) j)) <-> held pin els (pos (lb (S i) (S j)))).
    { intros HC. split; intros H; [apply (G 1%nat (lb (S i) j) (centre i j))|apply (G 1%nat (lb (S i) (S j)) (centre i j))]; auto; cbn; auto. }
    assert (A2 : held pin els (pos (centre i j)) -> held pin els (pos (lb (S i) (S j))) <-> held pin els (pos (lb i (S j)))).
    { intros HC. split; intros H; [apply (G 2%nat (lb (S i) (S j)) (centre i j))|apply (G 2%nat (lb i (S j)) (centre i j))]; auto; cbn; auto. }
    intros q a b Hq N Pa Pb Oa Ob Ha Hb.
    assert (HC : held pin els (pos (centre i j))).
    { apply (G q a b (centre i j)); auto. destruct q as [|[|[|]]]; cbn; auto. }
    assert (One : held pin els (pos (lb i j)) \/ held pin els (pos (lb (S i) j)) \/
                  held pin els (pos (lb i (S j))) \/ held pin els (pos (lb (S i) (S j)))).
    { assert (L : exists p, p <> centre i j /\ onto p (triangle i j q) /\ held pin els (pos p)).
      { destruct (pair_dec a (centre i j)) as [->|Na]; [exists b|exists a]; auto. }
      destruct L as (p & Np & Op & Hp).
      destruct q as [|[|[|[|]]]]; try lia; cbn in Op; destruct Op as [->|[->| ->]]; tauto. }
    specialize (A0 HC). specialize (A1 HC). specialize (A2 HC). tauto.
  Qed.

  Theorem cross_held (pin : nat -> Prop) a b : outer a b \/ outer b a -> pin (pos a) -> pin (pos b) ->
    forall k, (k < length nodes)%nat -> held pin els k.
  Proof.
    intros O Ka Kb.
    pose (whole i j := held pin els (pos (centre i j)) /\ held pin els (pos (lb i j)) /\ held pin els (pos (lb (S i) j)) /\
      held pin els (pos (lb i (S j))) /\ held pin els (pos (lb (S i) (S j)))).
    assert (W0 : exists i j, (i < sx)%nat /\ (j < sy)%nat /\ whole i j).
    { assert (O' : exists c d, outer c d /\ pin (pos c) /\ pin (pos d)) by (destruct O; eauto 10).
      destruct O' as (c & d & O' & Kc & Kd). destruct (outer_points c d O') as (Pc & Pd & N).
      destruct (outer_only c d O') as (i & j & q & Hi & Hj & Hq & Oc & Od & _). exists i, j. split; [auto|]. split; [auto|].
      apply (cell_held pin i j Hi Hj q c d); auto; apply held_pin; auto. }
    assert (PL : forall x y, (x <= sx)%nat -> (y <= sy)%nat -> is_point sx sy (lb x y)).
    { intros x y X Y. left. exists x, y. auto. }
    assert (N1 : forall i j, lb i j <> lb (S i) j) by (intros i j E; unfold lb in E; injection E; lia).
    assert (N2 : forall i j, lb i j <> lb i (S j)) by (intros i j E; unfold lb in E; injection E; lia).
    assert (Right : forall i j, (S i < sx)%nat -> (j < sy)%nat -> whole i j -> whole (S i) j).
    { intros i j Hi Hj (_ & _ & H1 & _ & H2). apply (cell_held pin (S i) j Hi Hj 3%nat (lb (S i) (S j)) (lb (S i) j)); auto;
        try (apply PL; lia); try (cbn; auto). }
    assert (Left : forall i j, (S i < sx)%nat -> (j < sy)%nat -> whole (S i) j -> whole i j).
    { intros i j Hi Hj (_ & H1 & _ & H2 & _). assert (Hi' : (i < sx)%nat) by lia.
      apply (cell_held pin i j Hi' Hj 1%nat (lb (S i) j) (lb (S i) (S j))); auto; try (apply PL; lia); cbn; auto. }
    assert (Up : forall i j, (i < sx)%nat -> (S j < sy)%nat -> whole i j -> whole i (S j)).
    { intros i j Hi Hj (_ & _ & _ & H1 & H2). apply (cell_held pin i (S j) Hi Hj 0%nat (lb i (S j)) (lb (S i) (S j))); auto;
        try (apply PL; lia); cbn; auto. }
    assert (Down : forall i j, (i < sx)%nat -> (S j < sy)%nat -> whole i (S j) -> whole i j).
    { intros i j Hi Hj (_ & H1 & H2 & _). assert (Hj' : (j < sy)%nat) by lia.
      apply (cell_held pin i j Hi Hj' 2%nat (lb i (S j)) (lb (S i) (S j))); auto; try (apply PL; lia); cbn; auto. }
    destruct W0 as (i0 & j0 & Hi0 & Hj0 & W).
    assert (Z1 : whole 0%nat j0). { clear - W Left Hi0 Hj0. induction i0 as [|i IH]; auto. apply IH; [lia|]. apply Left; auto. }
    assert (Z : whole 0%nat 0%nat).
    { clear - Z1 Down Hj0 Hx. induction j0 as [|j IH]; auto. apply IH; [lia|]. apply Down; auto. }
    assert (R1 : forall i, (i < sx)%nat -> whole i 0%nat).
    { induction i as [|i IH]; auto. intros Hi. apply Right; auto. apply IH. lia. }
    assert (All : forall j i, (i < sx)%nat -> (j < sy)%nat -> whole i j).
    { induction j as [|j IH]; intros i Hi Hj; [auto|]. apply Up; auto. apply IH; auto. lia. }
    intros k Hk. destruct (cross_referenced sx sy Hx Hy hx hy k) as (e & He & Ie); auto.
    apply in_elements in He; auto. destruct He as (i & j & q & Hi & Hj & Hq & ->).
    destruct (in_element_point k i j q Hi Hj Ie) as (p & _ & -> & Op).
    destruct (All j i Hi Hj) as (H1 & H2 & H3 & H4 & H5).
    destruct q as [|[|[|[|]]]]; try lia; cbn in Op; destruct Op as [->|[->| ->]]; auto.
  Qed.
End Boundary.
