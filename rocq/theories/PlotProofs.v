(* Buffered points, subplots, limits, edges. *)
From Coq Require Import Reals List Arith Bool String Lra Lia.
From Verif Require Import RVec PyModel PlotModel PlotSpec.
Import ListNotations.
Local Open Scope R_scope.
Local Open Scope list_scope.

(* ---- the buffer ---- *)

Lemma columns_ext b b' n : (forall i, (i < n)%nat -> column b i = column b' i) -> columns b n = columns b' n.
Proof. intros H. unfold columns. apply map_ext_in. intros i Hi. apply in_seq in Hi. apply H. lia. Qed.

Lemma columns_len b n : List.length (columns b n) = n.
Proof. unfold columns. rewrite map_length, seq_length. reflexivity. Qed.

Lemma columns_S b n : columns b (S n) = columns b n ++ [column b n].
Proof. unfold columns. rewrite seq_S, map_app. reflexivity. Qed.

Lemma put_all_ok t zs : forall b, (buff_size b + List.length zs <= 1100)%nat ->
  exists b', put_all t zs b = Ok b' /\ buff_size b' = (buff_size b + List.length zs)%nat /\
    columns b' (buff_size b') = columns b (buff_size b) ++ map (pair t) zs /\
    (forall i, (buff_size b' <= i)%nat -> column b' i = column b i).
Proof.
  induction zs as [| z zs IH]; intros b Hb; cbn [put_all].
  - exists b. cbn. rewrite app_nil_r. repeat split; lia.
  - cbn [List.length] in Hb. unfold put. destruct (Nat.ltb_spec (buff_size b) 1100) as [_ | X]; [| lia]. cbn [bind].
    destruct (IH (mkBuffer (fun i => if (i =? buff_size b)%nat then (t, z) else column b i) (S (buff_size b))))
      as [b' [E [S1 [C1 P1]]]]; [cbn [buff_size]; lia |].
    cbn [buff_size column] in *.
    exists b'. split; [exact E |]. split; [rewrite S1; cbn [List.length]; lia |]. split.
    + rewrite C1, columns_S. cbn [column]. rewrite Nat.eqb_refl. cbn [map].
      rewrite (columns_ext (mkBuffer (fun i => if (i =? buff_size b)%nat then (t, z) else column b i) (S (buff_size b))) b)
        by (intros i Hi; cbn [column]; destruct (Nat.eqb_spec i (buff_size b)); [lia | reflexivity]).
      rewrite <- app_assoc. reflexivity.
    + intros i Hi. rewrite (P1 i Hi). destruct (Nat.eqb_spec i (buff_size b)); [lia | reflexivity].
Qed.

Lemma put_all_err t zs : forall b, (buff_size b <= 1100)%nat -> (1100 < buff_size b + List.length zs)%nat ->
  put_all t zs b = Err IndexError.
Proof.
  induction zs as [| z zs IH]; intros b Hb Hl; cbn [List.length] in Hl; [lia |]. cbn [put_all]. unfold put.
  destruct (Nat.ltb_spec (buff_size b) 1100) as [L | L]; [| reflexivity]. cbn [bind].
  apply IH; cbn [buff_size]; lia.
Qed.

(* nothing was ever written behind the limit *)
Definition clean (b : buffer) : Prop := forall i, (1000 <= i)%nat -> (buff_size b <= i)%nat -> column b i = (0, 0).

Lemma flush_columns b : buff_size b = 1000%nat -> clean b -> columns b 1100 = columns b 1000 ++ repeat (0, 0) 100.
Proof.
  intros Hs Hc. unfold columns. change 1100%nat with (1000 + 100)%nat. rewrite seq_app, map_app. f_equal.
  cbn [Nat.add]. apply nth_ext with (d := (0, 0)) (d' := (0, 0)).
  - rewrite map_length, seq_length, repeat_length. reflexivity.
  - intros n Hn. rewrite map_length, seq_length in Hn. rewrite nth_repeat.
    rewrite (nth_indep _ (0, 0) (column b 0%nat)) by (rewrite map_length, seq_length; exact Hn).
    rewrite (map_nth (column b)), seq_nth by exact Hn. apply Hc; lia.
Qed.

Lemma limit_points_drawn data : forall label b drawn calls, (buff_size b <= 1100)%nat -> buff_size b <> 1000%nat -> clean b ->
  limit_points data label b drawn = Ok calls ->
  exists full last tail, columns b (buff_size b) ++ recorded data = List.concat full ++ last /\
    Forall (fun p => List.length p = 1000%nat) full /\ (List.length last <= 1100 /\ List.length last <> 1000)%nat /\
    calls = drawn ++ tail /\ map fst tail = padded full ++ remainder last /\
    map snd tail = match tail with [] => [] | _ :: t => label :: map (fun _ => None) t end.
Proof.
  induction data as [| [t zs] data IH]; intros label b drawn calls Hb Hz Hc E; cbn [limit_points] in E.
  - exists [], (columns b (buff_size b)). cbn [recorded flat_map List.concat app padded map]. rewrite app_nil_r.
    destruct (Nat.ltb_spec 0 (buff_size b)) as [L | L]; injection E as <-.
    + exists [(columns b (buff_size b), label)]. rewrite columns_len.
      split; [reflexivity |]. split; [constructor |]. split; [split; assumption |]. split; [reflexivity |].
      split; [| reflexivity]. cbn [map fst remainder]. destruct (columns b (buff_size b)) eqn:Ec; [| reflexivity].
      exfalso. pose proof (columns_len b (buff_size b)) as X. rewrite Ec in X. cbn in X. lia.
    + exists []. rewrite app_nil_r. replace (buff_size b) with 0%nat by lia. cbn.
      repeat split; try constructor; lia.
  - destruct (Nat.le_gt_cases (buff_size b + List.length zs) 1100) as [Hle | Hgt];
      [| rewrite (put_all_err t zs b Hb Hgt) in E; discriminate].
    destruct (put_all_ok t zs b Hle) as [b' [E' [S1 [C1 P1]]]]. rewrite E' in E. cbn [bind] in E.
    assert (Hc' : clean b'). { intros i Hi Hi'. rewrite (P1 i Hi'). apply Hc; lia. }
    assert (RC : recorded ((t, zs) :: data) = map (pair t) zs ++ recorded data) by reflexivity.
    destruct (Nat.eqb_spec (buff_size b') 1000) as [E0 | E0].
    + assert (Hc2 : clean (mkBuffer (column b') 0)) by (intros i Hi _; cbn [column]; apply Hc'; lia).
      destruct (IH None (mkBuffer (column b') 0) _ calls ltac:(cbn; lia) ltac:(cbn; lia) Hc2 E) as [full [last [tail H]]].
      destruct H as (A & B & C & D & F & G).
      cbn [buff_size] in A. unfold columns in A at 1. cbn [seq map app] in A.
      exists (columns b' 1000 :: full), last, ((columns b' 1100, label) :: tail).
      split.
      { rewrite RC, app_assoc, <- C1, E0, A. cbn [List.concat]. rewrite app_assoc. reflexivity. }
      split; [constructor; [apply columns_len | exact B] |]. split; [exact C |].
      split; [rewrite D, <- app_assoc; reflexivity |].
      split.
      { cbn [map fst padded app]. rewrite F, (flush_columns b' E0 Hc'). reflexivity. }
      cbn [map snd]. f_equal. rewrite G. destruct tail; reflexivity.
    + destruct (IH label b' drawn calls ltac:(lia) E0 Hc' E) as [full [last [tail (A & B & C & D & F & G)]]].
      exists full, last, tail. split; [rewrite RC, app_assoc, <- C1; exact A |]. split; [exact B |]. split; [exact C |]. repeat split; assumption.
Qed.

Lemma clean_empty : clean empty_buffer.
Proof. intros i _ _. reflexivity. Qed.

Lemma drawn_points data label calls : plot_limit_points data label = Ok calls ->
  exists full last, recorded data = List.concat full ++ last /\
    Forall (fun p => List.length p = 1000%nat) full /\ (List.length last <= 1100 /\ List.length last <> 1000)%nat /\
    map fst calls = padded full ++ remainder last /\
    map snd calls = match calls with [] => [] | _ :: t => label :: map (fun _ => None) t end.
Proof.
  intros E. destruct (limit_points_drawn data label empty_buffer [] calls ltac:(cbn; lia) ltac:(cbn; lia) clean_empty E)
    as [full [last [tail (A & B & C & D & F & G)]]].
  cbn [app] in D. subst tail. exists full, last. cbn in A. split; [exact A |]. split; [exact B |]. split; [exact C |]. split; assumption.
Qed.

(* without a time at which the buffer holds exactly 1000 points *)
Lemma never_flushed data : forall label b drawn, (buff_size b <= 1100)%nat ->
  (forall d1 d2, data = d1 ++ d2 -> d1 <> [] -> (buff_size b + List.length (recorded d1))%nat <> 1000%nat) ->
  limit_points data label b drawn =
    if (buff_size b + List.length (recorded data) <=? 1100)%nat
    then Ok (drawn ++ map (fun p => (p, label)) (remainder (columns b (buff_size b) ++ recorded data)))
    else Err IndexError.
Proof.
  induction data as [| [t zs] data IH]; intros label b drawn Hb Hn; cbn [limit_points].
  - cbn [recorded flat_map List.length]. rewrite app_nil_r, Nat.add_0_r, (proj2 (Nat.leb_le _ _) Hb).
    destruct (Nat.ltb_spec 0 (buff_size b)) as [L | L].
    + destruct (columns b (buff_size b)) eqn:Ec; [| reflexivity].
      exfalso. pose proof (columns_len b (buff_size b)) as X. rewrite Ec in X. cbn in X. lia.
    + replace (buff_size b) with 0%nat by lia. cbn. rewrite app_nil_r. reflexivity.
  - assert (RC : recorded ((t, zs) :: data) = map (pair t) zs ++ recorded data) by reflexivity.
    rewrite RC, app_length, map_length.
    destruct (Nat.le_gt_cases (buff_size b + List.length zs) 1100) as [Hle | Hgt].
    + destruct (put_all_ok t zs b Hle) as [b' [E' [S1 [C1 P1]]]]. rewrite E'. cbn [bind].
      destruct (Nat.eqb_spec (buff_size b') 1000) as [E0 | E0].
      { exfalso. apply (Hn [(t, zs)] data eq_refl ltac:(discriminate)). cbn [recorded flat_map fst snd].
        rewrite app_nil_r, map_length. lia. }
      rewrite (IH label b' drawn ltac:(lia)).
      * rewrite C1, S1, <- app_assoc, Nat.add_assoc. reflexivity.
      * intros d1 d2 -> Hd. rewrite S1. specialize (Hn ((t, zs) :: d1) d2 eq_refl ltac:(discriminate)).
        assert (RD : recorded ((t, zs) :: d1) = map (pair t) zs ++ recorded d1) by reflexivity.
        rewrite RD, app_length, map_length in Hn. lia.
    + rewrite (put_all_err t zs b Hb Hgt). cbn [bind].
      destruct (Nat.leb_spec (buff_size b + (List.length zs + List.length (recorded data))) 1100); [lia | reflexivity].
Qed.

Lemma skipped data label : ~ reaches 1000 data ->
  plot_limit_points data label =
    if (List.length (recorded data) <=? 1100)%nat
    then Ok (map (fun p => (p, label)) (remainder (recorded data))) else Err IndexError.
Proof.
  intros H. unfold plot_limit_points. rewrite never_flushed; [reflexivity | cbn; lia |].
  intros d1 d2 E _ L. apply H. exists d1, d2. split; [exact E | exact L].
Qed.

Lemma recorded_app d1 d2 : recorded (d1 ++ d2) = recorded d1 ++ recorded d2.
Proof. unfold recorded. apply flat_map_app. Qed.

Lemma few_points data label : (List.length (recorded data) < 1000)%nat ->
  plot_limit_points data label = Ok (map (fun p => (p, label)) (remainder (recorded data))).
Proof.
  intros H. rewrite skipped.
  - destruct (Nat.leb_spec (List.length (recorded data)) 1100); [reflexivity | lia].
  - intros [d1 [d2 [-> L]]]. rewrite recorded_app, app_length in H. lia.
Qed.

(* the same number of zeros at every time *)
Lemma steady_length k data : steady k data -> List.length (recorded data) = (k * List.length data)%nat.
Proof.
  induction 1 as [| [t zs] data Hp H IH]; [cbn; lia |]. cbn [snd] in Hp.
  assert (RC : recorded ((t, zs) :: data) = map (pair t) zs ++ recorded data) by reflexivity.
  rewrite RC, app_length, map_length, IH. cbn [List.length]. lia.
Qed.

Lemma steady_divides k q data : (0 < k)%nat -> (1000 = k * q)%nat -> steady k data ->
  forall label b drawn j, buff_size b = (k * j)%nat -> (j < q)%nat ->
  exists calls, limit_points data label b drawn = Ok calls.
Proof.
  intros Hk Hq. induction 1 as [| [t zs] data Hp H IH]; intros label b drawn j Hj Hlt; cbn [limit_points].
  - destruct (0 <? buff_size b)%nat; eexists; reflexivity.
  - cbn [snd] in Hp. assert (k * j + k <= k * q)%nat by nia.
    destruct (put_all_ok t zs b ltac:(lia)) as [b' [E' [S1 _]]]. rewrite E'. cbn [bind].
    destruct (Nat.eqb_spec (buff_size b') 1000) as [E0 | E0].
    + apply (IH None (mkBuffer (column b') 0) _ 0%nat); [cbn; lia | nia].
    + apply (IH label b' drawn (S j)); nia.
Qed.

Lemma steady_plot k data label : (0 < k)%nat -> steady k data ->
  (exists calls, plot_limit_points data label = Ok calls) <->
  (Nat.divide k 1000 \/ (k * List.length data <= 1100)%nat).
Proof.
  intros Hk HS.
  destruct (Nat.eq_dec (1000 mod k) 0) as [D | D].
  - assert (DV : Nat.divide k 1000) by (apply Nat.mod_divide; lia).
    split; [intros _; left; exact DV |]. intros _. destruct DV as [q Hq].
    apply (steady_divides k q data Hk ltac:(lia) HS label empty_buffer [] 0%nat); [cbn; lia | nia].
  - assert (ND : ~ Nat.divide k 1000) by (intros X; apply D; apply Nat.mod_divide; [lia | exact X]).
    assert (NR : ~ reaches 1000 data).
    { intros [d1 [d2 [-> L]]]. apply Forall_app in HS. destruct HS as [HS _].
      rewrite (steady_length k d1 HS) in L. apply ND. exists (List.length d1). lia. }
    rewrite (skipped data label NR), (steady_length k data HS).
    destruct (Nat.leb_spec (k * List.length data) 1100) as [L | L].
    + split; [intros _; right; exact L | intros _; eexists; reflexivity].
    + split; [intros [c X]; discriminate | intros [X | X]; [contradiction | lia]].
Qed.

(* ---- subplots ---- *)

Lemma subplots_ok rows n : forall i, (1 <= i)%nat -> (i + n <= rows * 2 + 1)%nat ->
  subplots rows 2 i n = Ok (map (fun k => (rows, 2%nat, k)) (seq i n)).
Proof.
  induction n as [| n IH]; intros i Hi Hn; [reflexivity |]. cbn [subplots]. unfold add_subplot.
  rewrite (proj2 (Nat.ltb_lt 0 rows)) by lia. rewrite (proj2 (Nat.leb_le 1 i)) by lia.
  rewrite (proj2 (Nat.leb_le i (rows * 2))) by lia. cbn [andb Nat.ltb Nat.leb bind].
  rewrite IH by lia. reflexivity.
Qed.

Lemma subplots_err rows n : forall i, (1 <= i)%nat -> (i <= rows * 2 + 1)%nat -> (rows * 2 + 1 < i + n)%nat ->
  subplots rows 2 i n = Err ValueError.
Proof.
  induction n as [| n IH]; intros i Hi Hr Hn; [lia |]. cbn [subplots]. unfold add_subplot.
  destruct (Nat.leb_spec i (rows * 2)) as [L | L].
  - rewrite (proj2 (Nat.ltb_lt 0 rows)) by lia. rewrite (proj2 (Nat.leb_le 1 i)) by lia.
    cbn [andb Nat.ltb Nat.leb bind]. rewrite IH by lia. reflexivity.
  - rewrite andb_false_r. reflexivity.
Qed.

Lemma columns_even m : plot_in_columns (2 * m) = Ok (map (fun k => (m, 2%nat, k)) (seq 1 (2 * m))).
Proof.
  unfold plot_in_columns. rewrite (Nat.mul_comm 2 m), Nat.div_mul by lia. apply subplots_ok; lia.
Qed.

Lemma columns_odd m : plot_in_columns (2 * m + 1) = Err ValueError.
Proof.
  unfold plot_in_columns. replace ((2 * m + 1) / 2)%nat with m.
  - apply subplots_err; lia.
  - apply Nat.div_unique with (r := 1%nat); lia.
Qed.

(* ---- limits ---- *)

Lemma min_from_le l : forall x y, (y = x \/ In y l) -> min_from x l <= y.
Proof.
  induction l as [| z l IH]; intros x y H; cbn [min_from].
  - destruct H as [-> | []]. lra.
  - destruct H as [-> | [-> | H]].
    + eapply Rle_trans; [apply (IH (Rmin x z) (Rmin x z)); left; reflexivity | apply Rmin_l].
    + eapply Rle_trans; [apply (IH (Rmin x y) (Rmin x y)); left; reflexivity | apply Rmin_r].
    + apply IH. right. exact H.
Qed.

Lemma max_from_ge l : forall x y, (y = x \/ In y l) -> y <= max_from x l.
Proof.
  induction l as [| z l IH]; intros x y H; cbn [max_from].
  - destruct H as [-> | []]. lra.
  - destruct H as [-> | [-> | H]].
    + eapply Rle_trans; [apply Rmax_l | apply (IH (Rmax x z) (Rmax x z)); left; reflexivity].
    + eapply Rle_trans; [apply Rmax_r | apply (IH (Rmax x y) (Rmax x y)); left; reflexivity].
    + apply IH. right. exact H.
Qed.

Lemma min_from_in l : forall x, min_from x l = x \/ In (min_from x l) l.
Proof.
  induction l as [| z l IH]; intros x; cbn [min_from]; [left; reflexivity |].
  destruct (IH (Rmin x z)) as [E | E]; [| right; right; exact E]. rewrite E.
  unfold Rmin. destruct (Rle_dec x z); [left; reflexivity | right; left; reflexivity].
Qed.

Lemma max_from_in l : forall x, max_from x l = x \/ In (max_from x l) l.
Proof.
  induction l as [| z l IH]; intros x; cbn [max_from]; [left; reflexivity |].
  destruct (IH (Rmax x z)) as [E | E]; [| right; right; exact E]. rewrite E.
  unfold Rmax. destruct (Rle_dec x z); [right; left; reflexivity | left; reflexivity].
Qed.

Lemma limit_min_spec c nodes displaced : nodes <> [] -> displaced <> [] ->
  exists a, limit_min None (col c nodes) (col c displaced) = Ok a /\
    (forall p, In p (nodes ++ displaced) -> a <= p c) /\ exists p, In p (nodes ++ displaced) /\ a = p c.
Proof.
  intros H1 H2. destruct nodes as [| p ps]; [congruence |]. destruct displaced as [| q qs]; [congruence |].
  unfold limit_min, np_min, col. cbn [map bind]. eexists. split; [reflexivity |]. split.
  - intros r Hr. rewrite <- app_comm_cons in Hr.
    assert (X : In r (p :: ps) \/ In r (q :: qs)).
    { apply in_app_or. exact Hr. }
    destruct X as [X | X].
    + eapply Rle_trans; [apply Rmin_l |]. apply min_from_le.
      destruct X as [<- | X]; [left; reflexivity | right; apply in_map_iff; exists r; split; [reflexivity | exact X]].
    + eapply Rle_trans; [apply Rmin_r |]. apply min_from_le.
      destruct X as [<- | X]; [left; reflexivity | right; apply in_map_iff; exists r; split; [reflexivity | exact X]].
  - unfold Rmin at 1. destruct (Rle_dec _ _) as [_ | _].
    + destruct (min_from_in (map (fun p0 : vec => p0 c) ps) (p c)) as [E | E].
      * exists p. split; [left; reflexivity | exact E].
      * apply in_map_iff in E. destruct E as [r [Er Hr]]. exists r. split; [right; apply in_or_app; left; exact Hr | symmetry; exact Er].
    + destruct (min_from_in (map (fun p0 : vec => p0 c) qs) (q c)) as [E | E].
      * exists q. split; [right; apply in_or_app; right; left; reflexivity | exact E].
      * apply in_map_iff in E. destruct E as [r [Er Hr]]. exists r.
        split; [right; apply in_or_app; right; right; exact Hr | symmetry; exact Er].
Qed.

Lemma limit_max_spec c nodes displaced : nodes <> [] -> displaced <> [] ->
  exists a, limit_max None (col c nodes) (col c displaced) = Ok a /\
    (forall p, In p (nodes ++ displaced) -> p c <= a) /\ exists p, In p (nodes ++ displaced) /\ a = p c.
Proof.
  intros H1 H2. destruct nodes as [| p ps]; [congruence |]. destruct displaced as [| q qs]; [congruence |].
  unfold limit_max, np_max, col. cbn [map bind]. eexists. split; [reflexivity |]. split.
  - intros r Hr.
    assert (X : In r (p :: ps) \/ In r (q :: qs)) by (apply in_app_or; exact Hr).
    destruct X as [X | X].
    + eapply Rle_trans; [| apply Rmax_l]. apply max_from_ge.
      destruct X as [<- | X]; [left; reflexivity | right; apply in_map_iff; exists r; split; [reflexivity | exact X]].
    + eapply Rle_trans; [| apply Rmax_r]. apply max_from_ge.
      destruct X as [<- | X]; [left; reflexivity | right; apply in_map_iff; exists r; split; [reflexivity | exact X]].
  - unfold Rmax at 1. destruct (Rle_dec _ _) as [_ | _].
    + destruct (max_from_in (map (fun p0 : vec => p0 c) qs) (q c)) as [E | E].
      * exists q. split; [right; apply in_or_app; right; left; reflexivity | exact E].
      * apply in_map_iff in E. destruct E as [r [Er Hr]]. exists r.
        split; [right; apply in_or_app; right; right; exact Hr | symmetry; exact Er].
    + destruct (max_from_in (map (fun p0 : vec => p0 c) ps) (p c)) as [E | E].
      * exists p. split; [left; reflexivity | exact E].
      * apply in_map_iff in E. destruct E as [r [Er Hr]]. exists r. split; [right; apply in_or_app; left; exact Hr | symmetry; exact Er].
Qed.

(* a fresh drawer: the least window around all nodes, widened by a fifth of its size on each side *)
Lemma fresh_limits nodes displaced : nodes <> [] -> displaced <> [] ->
  exists l xa xb ya yb, set_axes_limits no_limits nodes displaced
    = Ok (l, ((xa - (xb - xa) / 5, xb + (xb - xa) / 5), (ya - (yb - ya) / 5, yb + (yb - ya) / 5))) /\
    (forall p, In p (nodes ++ displaced) -> in_window ((xa, xb), (ya, yb)) p) /\
    (exists p, In p (nodes ++ displaced) /\ xa = p 0%nat) /\ (exists p, In p (nodes ++ displaced) /\ xb = p 0%nat) /\
    (exists p, In p (nodes ++ displaced) /\ ya = p 1%nat) /\ (exists p, In p (nodes ++ displaced) /\ yb = p 1%nat) /\
    xa <= xb /\ ya <= yb /\
    (forall nodes' displaced', set_axes_limits l nodes' displaced'
       = Ok (l, ((xa - (xb - xa) / 5, xb + (xb - xa) / 5), (ya - (yb - ya) / 5, yb + (yb - ya) / 5)))).
Proof.
  intros H1 H2.
  destruct (limit_min_spec 0 nodes displaced H1 H2) as [xa [E1 [A1 B1]]].
  destruct (limit_max_spec 0 nodes displaced H1 H2) as [xb [E2 [A2 B2]]].
  destruct (limit_min_spec 1 nodes displaced H1 H2) as [ya [E3 [A3 B3]]].
  destruct (limit_max_spec 1 nodes displaced H1 H2) as [yb [E4 [A4 B4]]].
  exists (mkLimits (Some xa) (Some xb) (Some ya) (Some yb)), xa, xb, ya, yb.
  assert (F : forall u v : R, (v - u) * (2 / 10) = (v - u) / 5) by (intros; field).
  split.
  { unfold set_axes_limits, no_limits. cbn [x_min x_max y_min y_max]. rewrite E1. cbn [bind]. rewrite E2. cbn [bind].
    rewrite E3. cbn [bind]. rewrite E4. cbn [bind]. rewrite !F. reflexivity. }
  split.
  { intros p Hp. unfold in_window. cbn [fst snd]. pose proof (A1 p Hp). pose proof (A2 p Hp).
    pose proof (A3 p Hp). pose proof (A4 p Hp). lra. }
  split; [exact B1 |]. split; [exact B2 |]. split; [exact B3 |]. split; [exact B4 |].
  destruct B1 as [p [Hp ->]]. destruct B3 as [q [Hq ->]].
  split; [apply A2; exact Hp |]. split; [apply A4; exact Hq |].
  intros nodes' displaced'. unfold set_axes_limits. cbn [x_min x_max y_min y_max limit_min limit_max bind].
  rewrite !F. reflexivity.
Qed.

(* ---- arrows ---- *)

Lemma dirichlet_two displaced i j rest : draw_dirichlet displaced (i :: j :: rest)
  = Ok [(displaced i 0%nat, displaced i 1%nat, 1, 0); (displaced j 0%nat, displaced j 1%nat, 1, 0)].
Proof. unfold draw_dirichlet. cbn [map nth_error]. rewrite Rplus_0_l, Rplus_0_l. reflexivity. Qed.

Lemma dirichlet_few displaced nodes : (List.length nodes < 2)%nat -> draw_dirichlet displaced nodes = Err IndexError.
Proof. intros H. destruct nodes as [| i [| j nodes]]; cbn in H; [reflexivity | reflexivity | lia]. Qed.

(* ---- edges ---- *)

Lemma same_edge_iff e f : same_edge e f = true <-> e = f \/ e = (snd f, fst f).
Proof.
  destruct e as [a b], f as [c d]. unfold same_edge. cbn [fst snd].
  rewrite orb_true_iff, !andb_true_iff, !Nat.eqb_eq. split.
  - intros [[-> ->] | [-> ->]]; [left | right]; reflexivity.
  - intros [E | E]; injection E as -> ->; [left | right]; split; reflexivity.
Qed.

Lemma has_edge_sym g i j : has_edge g i j <-> has_edge g j i.
Proof. unfold has_edge. tauto. Qed.

Lemma add_edge_has g a b i j : has_edge (add_edge g (a, b)) i j <-> has_edge g i j \/ (i = a /\ j = b) \/ (i = b /\ j = a).
Proof.
  unfold add_edge. destruct (existsb (same_edge (a, b)) g) eqn:E.
  - split; [left; assumption |]. intros [H | H]; [exact H |].
    apply existsb_exists in E. destruct E as [[c d] [Hin Hs]]. apply same_edge_iff in Hs. cbn [fst snd] in Hs.
    unfold has_edge. destruct H as [[-> ->] | [-> ->]]; destruct Hs as [Hs | Hs]; injection Hs as -> ->; tauto.
  - unfold has_edge. rewrite !in_app_iff. cbn [In]. split.
    + intros [[H | [H | []]] | [H | [H | []]]]; try tauto; injection H as -> ->; tauto.
    + intros [[H | H] | [[-> ->] | [-> ->]]]; tauto.
Qed.

Lemma add_edge_simple g a b : simple g -> simple (add_edge g (a, b)).
Proof.
  intros [H1 H2]. unfold add_edge. destruct (existsb (same_edge (a, b)) g) eqn:E; [split; assumption |].
  assert (N1 : ~ In (a, b) g).
  { intros X. rewrite <- not_true_iff_false in E. apply E. apply existsb_exists. exists (a, b). split; [exact X |].
    apply same_edge_iff. left. reflexivity. }
  assert (N2 : ~ In (b, a) g).
  { intros X. rewrite <- not_true_iff_false in E. apply E. apply existsb_exists. exists (b, a). split; [exact X |].
    apply same_edge_iff. right. reflexivity. }
  split.
  - apply NoDup_rev in H1. rewrite <- (rev_involutive (g ++ [(a, b)])). apply NoDup_rev.
    rewrite rev_app_distr. cbn. constructor; [| exact H1]. rewrite <- in_rev. exact N1.
  - intros i j Hij Hne. rewrite in_app_iff in *. cbn [In] in *. intros [X | [X | []]].
    + destruct Hij as [Hij | [Hij | []]]; [exact (H2 i j Hij Hne X) |]. injection Hij as -> ->. exact (N2 X).
    + injection X as -> ->. destruct Hij as [Hij | [Hij | []]]; [exact (N2 Hij) |].
      injection Hij as E1 E2. congruence.
Qed.

Lemma mesh_edges_spec els : Forall (fun e => List.length e = 3%nat /\ NoDup e) els ->
  forall g, simple g -> exists g', mesh_edges g els = Ok g' /\ simple g' /\
    forall i j, has_edge g' i j <-> has_edge g i j \/ joined els i j.
Proof.
  induction 1 as [| e els [Hl Hd] H IH]; intros g Hg.
  - exists g. split; [reflexivity |]. split; [exact Hg |]. intros i j. unfold joined. split; [tauto |].
    intros [X | [_ [e [[] _]]]]. exact X.
  - destruct e as [| a [| b [| c [|]]]]; cbn in Hl; try discriminate.
    cbn [mesh_edges].
    destruct (IH (add_edge (add_edge (add_edge g (a, b)) (a, c)) (b, c))) as [g' [E [S' K]]].
    { repeat apply add_edge_simple. exact Hg. }
    exists g'. split; [exact E |]. split; [exact S' |]. intros i j. rewrite K, !add_edge_has.
    inversion Hd as [| ? ? Na Hd1]; subst. inversion Hd1 as [| ? ? Nb _]; subst. cbn in Na, Nb.
    unfold joined. split.
    + intros [[[[X | X] | X] | X] | [N1 [e [He X]]]].
      * left; exact X.
      * right. destruct X as [[-> ->] | [-> ->]]; (split; [intros Q; subst; tauto |]); exists [a; b; c]; cbn; tauto.
      * right. destruct X as [[-> ->] | [-> ->]]; (split; [intros Q; subst; tauto |]); exists [a; b; c]; cbn; tauto.
      * right. destruct X as [[-> ->] | [-> ->]]; (split; [intros Q; subst; tauto |]); exists [a; b; c]; cbn; tauto.
      * right. split; [exact N1 |]. exists e. split; [right; exact He | exact X].
    + intros [X | [N1 [e [[<- | He] [Hi Hj]]]]].
      * tauto.
      * cbn in Hi, Hj.
        destruct Hi as [<- | [<- | [<- | []]]], Hj as [<- | [<- | [<- | []]]]; try congruence; tauto.
      * right. split; [exact N1 |]. exists e. tauto.
Qed.

Lemma draw_mesh_edges els : Forall (fun e => List.length e = 3%nat /\ NoDup e) els ->
  exists g, draw_mesh els = Ok g /\ simple g /\ forall i j, has_edge g i j <-> joined els i j.
Proof.
  intros H. destruct (mesh_edges_spec els H []) as [g [E [S K]]].
  { split; [constructor | intros i j []]. }
  exists g. split; [exact E |]. split; [exact S |]. intros i j. rewrite K. unfold has_edge. cbn [In]. tauto.
Qed.

Lemma draw_mesh_solid els : Exists (fun e => List.length e <> 3%nat) els -> draw_mesh els = Err ValueError.
Proof.
  unfold draw_mesh. generalize (@nil (nat * nat)). induction els as [| e els IH]; intros g H.
  - inversion H.
  - destruct e as [| a [| b [| c [|]]]]; cbn [mesh_edges]; try reflexivity.
    apply IH. inversion H as [? ? X | ? ? X]; subst; [cbn in X; congruence | exact X].
Qed.

Lemma boundary_edges_spec edges : Forall (fun e => List.length e = 2%nat) edges ->
  forall g, simple g -> exists g', boundary_edges g edges = Ok g' /\ simple g' /\
    forall i j, has_edge g' i j <-> has_edge g i j \/ In [i; j] edges \/ In [j; i] edges.
Proof.
  induction 1 as [| e edges Hl H IH]; intros g Hg.
  - exists g. split; [reflexivity |]. split; [exact Hg |]. intros i j. cbn [In]. tauto.
  - destruct e as [| a [| b [|]]]; cbn in Hl; try discriminate. cbn [boundary_edges].
    destruct (IH (add_edge g (a, b)) (add_edge_simple g a b Hg)) as [g' [E [S K]]].
    exists g'. split; [exact E |]. split; [exact S |]. intros i j. rewrite K, add_edge_has. cbn [In].
    split.
    + intros [[X | [[-> ->] | [-> ->]]] | X]; tauto.
    + intros [X | [[X | X] | [X | X]]]; try tauto; injection X as -> ->; tauto.
Qed.

Lemma draw_boundary_edges edges : Forall (fun e => List.length e = 2%nat) edges ->
  exists g, draw_boundary edges = Ok g /\ simple g /\
    forall i j, has_edge g i j <-> In [i; j] edges \/ In [j; i] edges.
Proof.
  intros H. destruct (boundary_edges_spec edges H []) as [g [E [S K]]].
  { split; [constructor | intros i j []]. }
  exists g. split; [exact E |]. split; [exact S |]. intros i j. rewrite K. unfold has_edge. cbn [In]. tauto.
Qed.

(* ---- witnesses ---- *)

(* one zero, at a half, at the times 1, ..., n *)
Definition halves (n : nat) : list (R * list R) := map (fun i => (INR i, [1 / 2])) (seq 1 n).
(* three zeros at the times 1, ..., n *)
Definition triples (n : nat) : list (R * list R) := map (fun i => (INR i, [1 / 4; 1 / 2; 3 / 4])) (seq 1 n).

Lemma halves_steady n : steady 1 (halves n).
Proof. unfold halves, steady. rewrite Forall_map. apply Forall_forall. intros i _. reflexivity. Qed.
Lemma triples_steady n : steady 3 (triples n).
Proof. unfold triples, steady. rewrite Forall_map. apply Forall_forall. intros i _. reflexivity. Qed.

Lemma halves_points n p : In p (recorded (halves n)) -> snd p = 1 / 2.
Proof.
  unfold recorded, halves. intros H. apply in_flat_map in H. destruct H as [[t zs] [Hin Hp]].
  apply in_map_iff in Hin. destruct Hin as [i [Hi _]]. injection Hi as <- <-. cbn in Hp. destruct Hp as [<- | []].
  reflexivity.
Qed.

Lemma spurious : exists calls, plot_limit_points (halves 1000) None = Ok calls /\
  In (0, 0) (List.concat (map fst calls)) /\ ~ In (0, 0) (recorded (halves 1000)).
Proof.
  pose proof (halves_steady 1000) as HS.
  destruct (proj2 (steady_plot 1 (halves 1000) None ltac:(lia) HS)) as [calls E].
  { left. exists 1000%nat. lia. }
  exists calls. split; [exact E |]. split.
  - destruct (drawn_points _ _ _ E) as [full [last (A & B & (_ & C) & D & _)]].
    pose proof (steady_length 1 _ HS) as L. unfold halves in L at 2. rewrite map_length, seq_length in L.
    rewrite A, app_length in L. rewrite D, concat_app. apply in_or_app. left.
    destruct full as [| p full]; [cbn [List.concat List.length] in L; lia |].
    cbn [padded map List.concat]. apply in_or_app. left. apply in_or_app. right. cbn. left. reflexivity.
  - intros H. apply halves_points in H. cbn [snd] in H. lra.
Qed.

Lemma overrun : plot_limit_points (triples 367) None = Err IndexError.
Proof.
  pose proof (triples_steady 367) as HS.
  assert (NR : ~ reaches 1000 (triples 367)).
  { intros [d1 [d2 [Ed L]]]. rewrite Ed in HS. apply Forall_app in HS. destruct HS as [HS _].
    rewrite (steady_length 3 d1 HS) in L. lia. }
  rewrite (skipped _ _ NR), (steady_length 3 _ HS). unfold triples. rewrite map_length, seq_length. reflexivity.
Qed.

(* a window kept from one state need not contain another *)
Lemma stale_window : exists l w w' nodes displaced displaced' p,
  set_axes_limits no_limits nodes displaced = Ok (l, w) /\
  set_axes_limits l nodes displaced' = Ok (l, w') /\ In p displaced' /\ ~ in_window w' p.
Proof.
  set (nodes := [(fun _ => 0) : vec; (fun _ => 1) : vec]).
  destruct (fresh_limits nodes nodes ltac:(discriminate) ltac:(discriminate))
    as [l [xa [xb [ya [yb (E & A & [q [Hq Eq]] & [p [Hp Ep]] & _ & _ & _ & _ & K)]]]]].
  do 3 eexists. exists nodes, nodes, [(fun _ => 5) : vec], (fun _ => 5).
  split; [exact E |]. split; [apply K |]. split; [left; reflexivity |].
  assert (xb <= 1). { subst xb. cbn in Hp. destruct Hp as [<- | [<- | [<- | [<- | []]]]]; lra. }
  assert (0 <= xa). { subst xa. cbn in Hq. destruct Hq as [<- | [<- | [<- | [<- | []]]]]; lra. }
  intros [[_ Y] _]. cbn [fst snd] in Y. lra.
Qed.
