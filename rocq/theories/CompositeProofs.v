(* Proofs about the composite contact law of examples/BartmanSzwarc_Bagirrov_Ochal_2025.py. *)
From Coq Require Import Reals List Arith Bool Lra Lia.
From Verif Require Import RVec PyModel ContactModel ContactLawProofs FemQuadProofs MmsProofs LawsModel LawsSpec.
Import ListNotations.
Local Open Scope R_scope.

(* ------------------------------------------------ one-sided derivatives *)
Lemma right_of_lim f x l : derivable_pt_lim f x l -> right_derivative f x l.
Proof.
  intros D eps He. destruct (D eps He) as [d Hd]. exists d. split; [apply cond_pos|].
  intros h h0 hd. apply Hd; [lra|]. rewrite Rabs_right by lra. exact hd.
Qed.

Lemma left_of_lim f x l : derivable_pt_lim f x l -> left_derivative f x l.
Proof.
  intros D eps He. destruct (D eps He) as [d Hd]. exists d. split; [apply cond_pos|].
  intros h h0 hd. replace ((f x - f (x - h)) / h) with ((f (x + - h) - f x) / - h).
  - apply Hd; [lra|]. rewrite Rabs_Ropp, Rabs_right by lra. exact hd.
  - replace (x + - h) with (x - h) by ring. field. lra.
Qed.

Lemma right_local f g x l r : 0 < r -> (forall y, x <= y -> y < x + r -> f y = g y) ->
  right_derivative g x l -> right_derivative f x l.
Proof.
  intros Hr E D eps He. destruct (D eps He) as (d & Hd & B). exists (Rmin d r).
  split; [apply Rmin_pos; assumption|]. intros h h0 hd.
  pose proof (Rmin_l d r). pose proof (Rmin_r d r).
  rewrite !E by lra. apply B; lra.
Qed.

Lemma left_local f g x l r : 0 < r -> (forall y, x - r < y -> y <= x -> f y = g y) ->
  left_derivative g x l -> left_derivative f x l.
Proof.
  intros Hr E D eps He. destruct (D eps He) as (d & Hd & B). exists (Rmin d r).
  split; [apply Rmin_pos; assumption|]. intros h h0 hd.
  pose proof (Rmin_l d r). pose proof (Rmin_r d r).
  rewrite !E by lra. apply B; lra.
Qed.

Lemma lim_of_sides f x l : left_derivative f x l -> right_derivative f x l -> derivable_pt_lim f x l.
Proof.
  intros A B eps He. destruct (A eps He) as (d & Hd & D). destruct (B eps He) as (e & Hde & F).
  assert (P : 0 < Rmin d e) by (apply Rmin_pos; assumption). exists (mkposreal _ P).
  intros h h0 hd. cbn in hd. pose proof (Rmin_l d e). pose proof (Rmin_r d e).
  destruct (Rlt_le_dec h 0) as [Ng | Ps].
  - rewrite Rabs_left in hd by exact Ng. specialize (D (- h) ltac:(lra) ltac:(lra)).
    replace ((f (x + h) - f x) / h) with ((f x - f (x - - h)) / - h); [exact D|].
    replace (x - - h) with (x + h) by ring. field. exact h0.
  - rewrite Rabs_right in hd by lra. apply F; lra.
Qed.

Lemma quadratic_at a b c x : derivable_pt_lim (fun y => a + b * y + c * (y * y)) x (b + 2 * c * x).
Proof.
  intros eps He. assert (Hc := Rabs_pos c).
  assert (D : 0 < eps / (Rabs c + 1)) by (apply Rdiv_lt_0_compat; lra).
  exists (mkposreal _ D). intros h h0 hd. cbn in hd.
  replace ((a + b * (x + h) + c * ((x + h) * (x + h)) - (a + b * x + c * (x * x))) / h - (b + 2 * c * x))
    with (c * h) by (field; exact h0).
  rewrite Rabs_mult. apply Rle_lt_trans with ((Rabs c + 1) * Rabs h).
  { pose proof (Rabs_pos h). nra. }
  apply (Rmult_lt_compat_l (Rabs c + 1)) in hd; [|lra].
  replace ((Rabs c + 1) * (eps / (Rabs c + 1))) with eps in hd by (field; lra). exact hd.
Qed.

Lemma quadratic_at' f x l : forall a b c, (forall y, f y = a + b * y + c * (y * y)) ->
  l = b + 2 * c * x -> derivable_pt_lim f x l.
Proof. intros a b c F ->. apply lim_ext with (2 := quadratic_at a b c x). intros. symmetry. apply F. Qed.

Lemma right_unique f x a b : right_derivative f x a -> right_derivative f x b -> a = b.
Proof.
  intros A B. destruct (Req_dec a b) as [|Ne]; [assumption|exfalso].
  assert (P : 0 < Rabs (a - b) / 2) by (pose proof (Rabs_pos_lt (a - b)); lra).
  destruct (A _ P) as (d & Hd & D). destruct (B _ P) as (e & He & F).
  pose proof (Rmin_l d e). pose proof (Rmin_r d e). assert (0 < Rmin d e) by (apply Rmin_pos; assumption).
  specialize (D (Rmin d e / 2) ltac:(lra) ltac:(lra)). specialize (F (Rmin d e / 2) ltac:(lra) ltac:(lra)).
  set (q := (f (x + Rmin d e / 2) - f x) / (Rmin d e / 2)) in *.
  pose proof (Rabs_triang (a - q) (q - b)) as T. replace (a - q + (q - b)) with (a - b) in T by ring.
  rewrite (Rabs_minus_sym a q) in T. lra.
Qed.

(* ------------------------------------------------------ composite law *)
Section Composite.
  Variable layers : list R.
  Variable alpha beta : R -> R.
  Hypothesis several : (2 <= List.length layers)%nat.
  Hypothesis grows : increasing_list layers.

  Notation l := (lay layers).
  Notation L := (L layers).
  Notation al := (alphas layers alpha).
  Notation be := (betas layers beta).
  Notation sl := (slope layers alpha beta).
  Notation co := (const layers alpha beta).
  Notation ig := (integ layers alpha beta).

  Lemma up i j : (i < j)%nat -> (j < L)%nat -> l i < l j.
  Proof. exact (grows i j). Qed.
  Lemma up_le i j : (i <= j)%nat -> (j < L)%nat -> l i <= l j.
  Proof. intros A B. destruct (Nat.eq_dec i j) as [-> |]; [lra|]. apply Rlt_le, up; lia. Qed.
  Lemma L2 : (2 <= L)%nat.
  Proof. exact several. Qed.

  Lemma locate v m : (m < L)%nat -> l 0 < v ->
    l m < v \/ exists n, (S n <= m)%nat /\ l n < v <= l (S n).
  Proof.
    intros Hm V. induction m as [|m IH]; [left; exact V|].
    destruct (IH ltac:(lia)) as [A | (n & Hn & A)].
    - destruct (Rle_lt_dec v (l (S m))) as [B | B]; [right|left; exact B]. exists m. split; [lia|]. lra.
    - right. exists n. split; [lia|exact A].
  Qed.

  (* the potential on one layer, extended to the whole line *)
  Definition piece (n : nat) (v : R) : R :=
    sum n ig + (1 / 2) * (v - l n) * (v * sl n + co n + al n).
  Definition last_piece (v : R) : R := sum (L - 1) ig + al (L - 1) * (v - l (L - 1)).

  Lemma piece_start n : piece n (l n) = sum n ig.
  Proof. unfold piece. ring. Qed.
  Lemma piece_end n : (S n < L)%nat -> piece n (l (S n)) = sum (S n) ig.
  Proof.
    intros Hn. assert (U := up n (S n) ltac:(lia) Hn). unfold piece. cbn [sum]. unfold integ, const, slope. field. lra.
  Qed.
  Lemma last_start : last_piece (l (L - 1)) = sum (L - 1) ig.
  Proof. unfold last_piece. ring. Qed.

  Lemma loop_within v n : (S n < L)%nat -> l n < v <= l (S n) ->
    forall j k, (j + k = S n)%nat -> potential_loop layers alpha beta v (seq k (L - k)) = Ok (piece n v).
  Proof.
    intros Hn V. induction j as [|j IH]; intros k Ek.
    - replace (L - k)%nat with (S (L - S k)) by lia. cbn [seq potential_loop].
      replace k with (S n) by lia. rewrite ltb_false by apply V. f_equal. unfold piece.
      replace (S n - 1)%nat with n by lia. f_equal.
      destruct n as [|n]; [reflexivity|]. cbn [Nat.ltb Nat.leb]. replace (S (S n) - 2)%nat with n by lia.
      unfold cumm. ring.
    - replace (L - k)%nat with (S (L - S k)) by lia. cbn [seq potential_loop].
      rewrite ltb_true; [apply IH; lia|]. pose proof (up_le k n ltac:(lia) ltac:(lia)). lra.
  Qed.

  Lemma loop_beyond v : l (L - 1) < v ->
    forall j k, (j + k = L)%nat -> potential_loop layers alpha beta v (seq k j) = Ok (last_piece v).
  Proof.
    intros V. induction j as [|j IH]; intros k Ek.
    - cbn [seq potential_loop]. pose proof L2. replace (L <=? 1)%nat with false by (symmetry; apply Nat.leb_gt; lia).
      unfold last_piece, cumm. replace (S (L - 2)) with (L - 1)%nat by lia. reflexivity.
    - cbn [seq potential_loop]. rewrite ltb_true; [apply IH; lia|].
      pose proof (up_le k (L - 1) ltac:(lia) ltac:(lia)). lra.
  Qed.

  (* the potential as a function into the reals *)
  Definition pot (v : R) : R :=
    match potential_normal layers alpha beta v with Ok r => r | Err _ => 0 end.

  Lemma pot_outside v : v <= l 0 -> potential_normal layers alpha beta v = Ok 0.
  Proof. intros V. unfold potential_normal. rewrite leb_true by exact V. reflexivity. Qed.
  Lemma pot_within v n : (S n < L)%nat -> l n < v <= l (S n) ->
    potential_normal layers alpha beta v = Ok (piece n v).
  Proof.
    intros Hn V. unfold potential_normal. rewrite leb_false.
    - replace L with (L - 0)%nat by lia. apply (loop_within v n Hn V (S n) 0). lia.
    - pose proof (up_le 0 n ltac:(lia) ltac:(lia)). lra.
  Qed.
  Lemma pot_beyond v : l (L - 1) < v -> potential_normal layers alpha beta v = Ok (last_piece v).
  Proof.
    intros V. unfold potential_normal. pose proof L2. rewrite leb_false.
    - apply (loop_beyond v V L 0). lia.
    - pose proof (up_le 0 (L - 1) ltac:(lia) ltac:(lia)). lra.
  Qed.

  Lemma pot_total v : potential_normal layers alpha beta v = Ok (pot v).
  Proof.
    unfold pot. pose proof L2. destruct (Rle_lt_dec v (l 0)) as [A | A].
    - rewrite (pot_outside v A). reflexivity.
    - destruct (locate v (L - 1) ltac:(lia) A) as [B | (n & Hn & B)].
      + rewrite (pot_beyond v B). reflexivity.
      + rewrite (pot_within v n ltac:(lia) B). reflexivity.
  Qed.

  (* on closed layers *)
  Lemma pot_closed_out v : v <= l 0 -> pot v = 0.
  Proof. intros V. unfold pot. rewrite (pot_outside v V). reflexivity. Qed.
  Lemma pot_at n : (n < L)%nat -> pot (l n) = sum n ig.
  Proof.
    intros Hn. destruct n as [|n].
    - rewrite pot_closed_out by lra. reflexivity.
    - unfold pot. rewrite (pot_within (l (S n)) n Hn); [apply piece_end; exact Hn|].
      pose proof (up n (S n) ltac:(lia) Hn). lra.
  Qed.
  Lemma pot_closed_in v n : (S n < L)%nat -> l n <= v <= l (S n) -> pot v = piece n v.
  Proof.
    intros Hn V. destruct (Req_dec v (l n)) as [-> | Ne].
    - rewrite piece_start. apply pot_at. lia.
    - unfold pot. rewrite (pot_within v n Hn ltac:(lra)). reflexivity.
  Qed.
  Lemma pot_closed_after v : l (L - 1) <= v -> pot v = last_piece v.
  Proof.
    intros V. pose proof L2. destruct (Req_dec v (l (L - 1))) as [-> | Ne].
    - rewrite last_start. apply pot_at. lia.
    - unfold pot. rewrite (pot_beyond v ltac:(lra)). reflexivity.
  Qed.

  Lemma piece_derivative n v : derivable_pt_lim (piece n) v (v * sl n + co n).
  Proof.
    apply quadratic_at' with (a := sum n ig - (1 / 2) * l n * (co n + al n))
      (b := (1 / 2) * (co n + al n) - (1 / 2) * l n * sl n) (c := (1 / 2) * sl n).
    - intros y. unfold piece. ring.
    - unfold const. field.
  Qed.
  Lemma last_derivative v : derivable_pt_lim last_piece v (al (L - 1)).
  Proof.
    apply quadratic_at' with (a := sum (L - 1) ig - al (L - 1) * l (L - 1)) (b := al (L - 1)) (c := 0).
    - intros y. unfold last_piece. ring.
    - ring.
  Qed.

  Lemma segment_value n v : (S n < L)%nat ->
    v * sl n + co n = alpha (l n) + (beta (l (S n)) - alpha (l n)) * ((v - l n) / (l (S n) - l n)).
  Proof.
    intros Hn. pose proof (up n (S n) ltac:(lia) Hn). unfold const, slope, alphas, betas. field. lra.
  Qed.

  Lemma zero_derivative v : derivable_pt_lim (fun _ => 0) v 0.
  Proof. apply (derivable_pt_lim_const 0). Qed.

  Lemma left_potential v t : traction_left layers alpha beta v t -> left_derivative pot v t.
  Proof.
    intros T. pose proof L2. destruct T as [A | n a b Hn Ea Eb A B | a Ea A].
    - apply left_local with (r := 1) (g := fun _ => 0); [lra| |apply left_of_lim, zero_derivative].
      intros y _ Hy. apply pot_closed_out. apply Rnot_lt_le in A. unfold lay. lra.
    - subst a b. apply Rnot_lt_le in B. fold (l n) in *. fold (l (S n)) in *.
      rewrite <- (segment_value n v Hn).
      apply left_local with (r := v - l n) (g := piece n); [lra| |apply left_of_lim, piece_derivative].
      intros y H1 H2. apply pot_closed_in; [exact Hn|lra].
    - subst a. change (List.length layers) with L in *. fold (l (L - 1)) in *.
      apply left_local with (r := v - l (L - 1)) (g := last_piece); [lra| |apply left_of_lim, last_derivative].
      intros y H1 H2. apply pot_closed_after. lra.
  Qed.

  Lemma right_potential v t : traction_right layers alpha beta v t -> right_derivative pot v t.
  Proof.
    intros T. pose proof L2. destruct T as [A | n a b Hn Ea Eb A B | a Ea A].
    - apply Rnot_le_lt in A. fold (l 0) in A.
      apply right_local with (r := l 0 - v) (g := fun _ => 0); [lra| |apply right_of_lim, zero_derivative].
      intros y H1 H2. apply pot_closed_out. lra.
    - subst a b. apply Rnot_le_lt in B. fold (l n) in *. fold (l (S n)) in *.
      rewrite <- (segment_value n v Hn).
      apply right_local with (r := l (S n) - v) (g := piece n); [lra| |apply right_of_lim, piece_derivative].
      intros y H1 H2. apply pot_closed_in; [exact Hn|lra].
    - subst a. change (List.length layers) with L in *. fold (l (L - 1)) in *.
      apply right_local with (r := 1) (g := last_piece); [lra| |apply right_of_lim, last_derivative].
      intros y H1 H2. apply pot_closed_after. lra.
  Qed.

  (* every penetration has a traction *)
  Lemma traction_left_ex v : exists t, traction_left layers alpha beta v t.
  Proof.
    pose proof L2. destruct (Rle_lt_dec v (l 0)) as [A | A].
    - exists 0. apply outside. apply Rle_not_lt. exact A.
    - destruct (locate v (L - 1) ltac:(lia) A) as [B | (n & Hn & B)].
      + eexists. apply beyond; [reflexivity|exact B].
      + eexists. apply within with (n := n); [unfold LawsModel.L in *; lia|reflexivity|reflexivity|apply B|].
        apply Rle_not_lt. apply B.
  Qed.

  Lemma traction_right_ex v : exists t, traction_right layers alpha beta v t.
  Proof.
    pose proof L2. destruct (Rlt_le_dec v (l 0)) as [A | A].
    - exists 0. apply outside. apply Rlt_not_le. exact A.
    - destruct (Rle_lt_dec (l (L - 1)) v) as [B | B].
      + eexists. apply beyond; [reflexivity|exact B].
      + assert (Q : forall m, (m < L)%nat -> v < l m -> exists n, (S n <= m)%nat /\ l n <= v < l (S n)).
        { intros m. induction m as [|m IH]; intros Hm V; [lra|].
          destruct (Rle_lt_dec (l m) v) as [C | C]; [exists m; split; [lia|lra]|].
          destruct (IH ltac:(lia) C) as (n & Hn & D). exists n. split; [lia|exact D]. }
        destruct (Q (L - 1)%nat ltac:(lia) B) as (n & Hn & D).
        eexists. apply within with (n := n); [unfold LawsModel.L in *; lia|reflexivity|reflexivity|apply D|].
        apply Rlt_not_le. apply D.
  Qed.

  (* the subderivative *)
  Lemma sub_loop v n : (S n < L)%nat -> l n < v <= l (S n) ->
    forall j k, (j + k = n)%nat -> subderivative_loop layers alpha beta v (seq k (L - 1 - k)) = Some (v * sl n + co n).
  Proof.
    intros Hn V. induction j as [|j IH]; intros k Ek.
    - replace (L - 1 - k)%nat with (S (L - 1 - S k)) by lia. cbn [seq subderivative_loop].
      replace k with n by lia. rewrite leb_true by apply V. reflexivity.
    - replace (L - 1 - k)%nat with (S (L - 1 - S k)) by lia. cbn [seq subderivative_loop].
      rewrite leb_false; [apply IH; lia|]. pose proof (up_le (S k) n ltac:(lia) ltac:(lia)). lra.
  Qed.

  Lemma subderivative_value v t : traction_left layers alpha beta v t ->
    subderivative_normal layers alpha beta v = Some t.
  Proof.
    intros T. pose proof L2. destruct T as [A | n a b Hn Ea Eb A B | a Ea A]; unfold subderivative_normal.
    - apply Rnot_lt_le in A. rewrite leb_true by exact A. reflexivity.
    - subst a b. apply Rnot_lt_le in B. fold (l n) in *. fold (l (S n)) in *.
      rewrite <- (segment_value n v Hn). rewrite leb_false.
      + rewrite ltb_false.
        * replace (L - 1)%nat with (L - 1 - 0)%nat by lia.
          apply (sub_loop v n Hn (conj A B) n 0). lia.
        * pose proof (up_le (S n) (L - 1) ltac:(unfold LawsModel.L; lia) ltac:(lia)). lra.
      + pose proof (up_le 0 n ltac:(lia) ltac:(unfold LawsModel.L; lia)). lra.
    - subst a. change (List.length layers) with L in *. fold (l (L - 1)) in *.
      pose proof (up_le 0 (L - 1) ltac:(lia) ltac:(lia)).
      rewrite leb_false by lra. rewrite ltb_true by exact A. reflexivity.
  Qed.

  (* the second part *)
  Definition gain (i : nat) : R :=
    Rmax 0 (be i - al i) + match i with 0%nat => 0 | S j => Rmax 0 (al j - be (S j)) end.
  Definition A (n : nat) : R := sum (S n) gain.

  Lemma sub2_loop v n : (S n < L)%nat -> l n <= v < l (S n) ->
    forall j k, (j + k = S n)%nat ->
    sub2derivative_loop layers alpha beta v (sum k gain) (seq k (L - k)) = A n + Rmax 0 (- sl n) * (v - l n).
  Proof.
    intros Hn V. induction j as [|j IH]; intros k Ek.
    - replace (L - k)%nat with (S (L - S k)) by lia. cbn [seq sub2derivative_loop].
      replace k with (S n) by lia. rewrite leb_false by apply V. replace (S n - 1)%nat with n by lia. reflexivity.
    - replace (L - k)%nat with (S (L - S k)) by lia. cbn [seq sub2derivative_loop].
      pose proof (up_le k n ltac:(lia) ltac:(lia)). rewrite leb_true by lra. cbv zeta.
      rewrite <- (IH (S k)) by lia. f_equal. cbn [sum]. unfold gain.
      destruct k as [|k]; cbn [Nat.ltb Nat.leb]; [ring|]. replace (S k - 1)%nat with k by lia. ring.
  Qed.

  Lemma sub2_loop_last v : l (L - 1) <= v ->
    forall j k, (j + k = L)%nat ->
    sub2derivative_loop layers alpha beta v (sum k gain) (seq k j) = A (L - 1).
  Proof.
    intros V. pose proof L2. induction j as [|j IH]; intros k Ek.
    - cbn [seq sub2derivative_loop]. unfold A. f_equal. lia.
    - cbn [seq sub2derivative_loop].
      pose proof (up_le k (L - 1) ltac:(lia) ltac:(lia)). rewrite leb_true by lra. cbv zeta.
      rewrite <- (IH (S k)) by lia. f_equal. cbn [sum]. unfold gain.
      destruct k as [|k]; cbn [Nat.ltb Nat.leb]; [ring|]. replace (S k - 1)%nat with k by lia. ring.
  Qed.

  Notation s2 := (sub2derivative_normal layers alpha beta).

  Lemma sub2_outside v : v <= l 0 -> s2 v = 0.
  Proof. intros V. unfold sub2derivative_normal. rewrite leb_true by exact V. reflexivity. Qed.
  Lemma sub2_within v n : (S n < L)%nat -> l 0 < v -> l n <= v < l (S n) ->
    s2 v = A n + Rmax 0 (- sl n) * (v - l n).
  Proof.
    intros Hn V0 V. unfold sub2derivative_normal. rewrite leb_false by exact V0.
    replace L with (L - 0)%nat by lia. change 0 with (sum 0 gain) at 1. apply (sub2_loop v n Hn V (S n) 0). lia.
  Qed.
  Lemma sub2_beyond v : l (L - 1) <= v -> s2 v = A (L - 1).
  Proof.
    intros V. pose proof L2. unfold sub2derivative_normal. pose proof (up 0 (L - 1) ltac:(lia) ltac:(lia)).
    rewrite leb_false by lra. change 0 with (sum 0 gain) at 1. apply (sub2_loop_last v V L 0). lia.
  Qed.

  Lemma A_S n : A (S n) = A n + (Rmax 0 (be (S n) - al (S n)) + Rmax 0 (al n - be (S n))).
  Proof. reflexivity. Qed.

  Lemma max0 x : 0 <= Rmax 0 x /\ x <= Rmax 0 x /\ (Rmax 0 x = 0 \/ Rmax 0 x = x).
  Proof. split; [apply Rmax_l|]. split; [apply Rmax_r|]. unfold Rmax. destruct (Rle_dec 0 x); auto. Qed.

  (* start n: the sum just behind the beginning of layer n *)
  Definition start (n : nat) : R := al n + A n.

  Lemma start_step n : A n + Rmax (al n) (be (S n)) <= start (S n).
  Proof.
    unfold start. rewrite A_S. pose proof (max0 (be (S n) - al (S n))). pose proof (max0 (al n - be (S n))).
    unfold Rmax at 1. destruct (Rle_dec (al n) (be (S n))); lra.
  Qed.

  Lemma start_up n m : (n <= m)%nat -> start n <= start m.
  Proof.
    induction 1 as [|m H IH]; [lra|]. pose proof (start_step m). pose proof (Rmax_l (al m) (be (S m))).
    unfold start in IH. unfold start in *. lra.
  Qed.

  Lemma start_0 : 0 <= start 0.
  Proof. unfold start, A. cbn [sum]. unfold gain. pose proof (max0 (be 0 - al 0)). cbn [betas] in *. lra. Qed.

  Lemma slope_gain n : (S n < L)%nat -> (be (S n) - al n) = sl n * (l (S n) - l n).
  Proof. intros Hn. pose proof (up n (S n) ltac:(lia) Hn). unfold slope. field. lra. Qed.

  (* value of the sum inside a layer *)
  Lemma total_within v n : (S n < L)%nat -> l n < v < l (S n) ->
    alpha (l n) + (beta (l (S n)) - alpha (l n)) * ((v - l n) / (l (S n) - l n)) + s2 v
    = start n + (sl n + Rmax 0 (- sl n)) * (v - l n).
  Proof.
    intros Hn V. pose proof (up_le 0 n ltac:(lia) ltac:(lia)). rewrite <- segment_value by exact Hn.
    rewrite (sub2_within v n Hn) by lra. unfold start, const. ring.
  Qed.

  Lemma total_bounds v n : (S n < L)%nat -> l n < v < l (S n) ->
    start n <= start n + (sl n + Rmax 0 (- sl n)) * (v - l n) <= start (S n).
  Proof.
    intros Hn V. pose proof (max0 (- sl n)) as M. split.
    - assert (0 <= (sl n + Rmax 0 (- sl n)) * (v - l n)) by (apply Rmult_le_pos; lra). lra.
    - apply Rle_trans with (2 := start_step n). pose proof (slope_gain n Hn) as G. unfold start.
      pose proof (Rmax_l (al n) (be (S n))). pose proof (Rmax_r (al n) (be (S n))).
      destruct M as (M1 & M2 & [M3 | M3]); rewrite M3 in *.
      + assert ((sl n + 0) * (v - l n) <= sl n * (l (S n) - l n)) by nra. lra.
      + replace ((sl n + - sl n) * (v - l n)) with 0 by ring. lra.
  Qed.

  Lemma off n v : (n < L)%nat -> ~ In v layers -> v <> l n.
  Proof. intros Hn N ->. apply N. apply nth_In. exact Hn. Qed.

  (* layer number and bounds of the sum at a point that is not an end of a layer *)
  Lemma total_place v t : ~ In v layers -> traction_left layers alpha beta v t ->
    (v < l 0 /\ t + s2 v = 0) \/
    (exists n, (S n < L)%nat /\ l n < v < l (S n) /\ t + s2 v = start n + (sl n + Rmax 0 (- sl n)) * (v - l n)) \/
    (l (L - 1) < v /\ t + s2 v = start (L - 1)).
  Proof.
    intros N T. pose proof L2. destruct T as [H0 | n a b Hn Ea Eb H1 H2 | a Ea H1].
    - left. apply Rnot_lt_le in H0. fold (l 0) in H0. pose proof (off 0 v ltac:(lia) N). split; [lra|].
      rewrite sub2_outside by exact H0. ring.
    - right. left. exists n. subst a b. apply Rnot_lt_le in H2. fold (l n) in *. fold (l (S n)) in *.
      pose proof (off (S n) v Hn N). assert (V : l n < v < l (S n)) by lra.
      split; [exact Hn|]. split; [exact V|]. apply total_within; assumption.
    - right. right. subst a. change (List.length layers) with L in *. fold (l (L - 1)) in *.
      split; [exact H1|]. rewrite sub2_beyond by lra. reflexivity.
  Qed.

  Lemma total_monotone x y tx ty : ~ In x layers -> ~ In y layers -> x <= y ->
    traction_left layers alpha beta x tx -> traction_left layers alpha beta y ty ->
    tx + s2 x <= ty + s2 y.
  Proof.
    intros Nx Ny Le Tx Ty. pose proof L2.
    destruct (total_place x tx Nx Tx) as [(X & EX) | [(n & Hn & X & EX) | (X & EX)]]; rewrite EX;
    destruct (total_place y ty Ny Ty) as [(Y & EY) | [(m & Hm & Y & EY) | (Y & EY)]]; rewrite EY.
    - lra.
    - pose proof (total_bounds y m Hm Y). pose proof (start_up 0 m ltac:(lia)). pose proof start_0. lra.
    - pose proof (start_up 0 (L - 1) ltac:(lia)). pose proof start_0. lra.
    - pose proof (up_le 0 n ltac:(lia) ltac:(lia)). lra.
    - destruct (lt_eq_lt_dec n m) as [[Lt | Eq] | Gt].
      + pose proof (total_bounds x n Hn X). pose proof (total_bounds y m Hm Y).
        pose proof (start_up (S n) m ltac:(lia)). lra.
      + subst m. pose proof (max0 (- sl n)).
        assert ((sl n + Rmax 0 (- sl n)) * (x - l n) <= (sl n + Rmax 0 (- sl n)) * (y - l n)).
        { apply Rmult_le_compat_l; lra. } lra.
      + pose proof (up_le (S m) n ltac:(lia) ltac:(lia)). lra.
    - pose proof (total_bounds x n Hn X). pose proof (start_up (S n) (L - 1) ltac:(lia)). lra.
    - pose proof (up_le 0 (L - 1) ltac:(lia) ltac:(lia)). lra.
    - pose proof (up_le (S m) (L - 1) ltac:(lia) ltac:(lia)). lra.
    - lra.
  Qed.

  (* the second part grows everywhere *)
  Lemma A_nonneg n : 0 <= A n.
  Proof.
    induction n as [|n IH].
    - unfold A. cbn [sum]. unfold gain. pose proof (max0 (be 0 - al 0)). lra.
    - rewrite A_S. pose proof (max0 (be (S n) - al (S n))). pose proof (max0 (al n - be (S n))). lra.
  Qed.
  Lemma A_up n m : (n <= m)%nat -> A n <= A m.
  Proof.
    induction 1 as [|m H IH]; [lra|]. rewrite A_S.
    pose proof (max0 (be (S m) - al (S m))). pose proof (max0 (al m - be (S m))). lra.
  Qed.
  Lemma sub2_step n v : (S n < L)%nat -> l n <= v < l (S n) ->
    A n <= A n + Rmax 0 (- sl n) * (v - l n) <= A (S n).
  Proof.
    intros Hn V. pose proof (max0 (- sl n)) as M. split.
    - assert (0 <= Rmax 0 (- sl n) * (v - l n)) by (apply Rmult_le_pos; lra). lra.
    - rewrite A_S. pose proof (slope_gain n Hn) as G. pose proof (max0 (be (S n) - al (S n))).
      pose proof (max0 (al n - be (S n))).
      destruct M as (M1 & M2 & [M3 | M3]); rewrite M3 in *; [lra|].
      assert (- sl n * (v - l n) <= - sl n * (l (S n) - l n)) by (apply Rmult_le_compat_l; lra). lra.
  Qed.

  Lemma sub2_place v : (v <= l 0 /\ s2 v = 0) \/
    (exists n, (S n < L)%nat /\ l 0 < v /\ l n <= v < l (S n) /\ s2 v = A n + Rmax 0 (- sl n) * (v - l n)) \/
    (l (L - 1) <= v /\ s2 v = A (L - 1)).
  Proof.
    pose proof L2. destruct (Rle_lt_dec v (l 0)) as [V | V]; [left; split; [exact V|apply sub2_outside; exact V]|right].
    destruct (Rle_lt_dec (l (L - 1)) v) as [B | B]; [right; split; [exact B|apply sub2_beyond; exact B]|left].
    assert (Q : forall m, (m < L)%nat -> v < l m -> exists n, (S n <= m)%nat /\ l n <= v < l (S n)).
    { intros m. induction m as [|m IH]; intros Hm W; [lra|].
      destruct (Rle_lt_dec (l m) v) as [C | C]; [exists m; split; [lia|lra]|].
      destruct (IH ltac:(lia) C) as (n & Hn & D). exists n. split; [lia|exact D]. }
    destruct (Q (L - 1)%nat ltac:(lia) B) as (n & Hn & D). exists n. split; [lia|]. split; [exact V|].
    split; [exact D|]. apply sub2_within; [lia|exact V|exact D].
  Qed.

  Lemma sub2_monotone : monotone_on (fun _ => True) s2.
  Proof.
    intros x y _ _ Le. pose proof L2.
    destruct (sub2_place x) as [(X & EX) | [(n & Hn & X0 & X & EX) | (X & EX)]]; rewrite EX;
    destruct (sub2_place y) as [(Y & EY) | [(m & Hm & Y0 & Y & EY) | (Y & EY)]]; rewrite EY.
    - lra.
    - pose proof (sub2_step m y Hm Y). pose proof (A_nonneg m). lra.
    - apply A_nonneg.
    - lra.
    - destruct (lt_eq_lt_dec n m) as [[Lt | Eq] | Gt].
      + pose proof (sub2_step n x Hn X). pose proof (sub2_step m y Hm Y). pose proof (A_up (S n) m ltac:(lia)). lra.
      + subst m. pose proof (max0 (- sl n)).
        assert (Rmax 0 (- sl n) * (x - l n) <= Rmax 0 (- sl n) * (y - l n)) by (apply Rmult_le_compat_l; lra). lra.
      + pose proof (up_le (S m) n ltac:(lia) ltac:(lia)). lra.
    - pose proof (sub2_step n x Hn X). pose proof (A_up (S n) (L - 1) ltac:(lia)). lra.
    - pose proof (up 0 (L - 1) ltac:(lia) ltac:(lia)). lra.
    - pose proof (up_le (S m) (L - 1) ltac:(lia) ltac:(lia)). lra.
    - lra.
  Qed.

  (* at the end of a layer where the traction drops, the sum is too large *)
  Lemma total_overshoot n : (S n < L)%nat -> alpha (l (S n)) < beta (l (S n)) ->
    exists y tx ty, l (S n) < y /\ traction_left layers alpha beta (l (S n)) tx /\
      traction_left layers alpha beta y ty /\ ty + s2 y < tx + s2 (l (S n)).
  Proof.
    intros Hn D. pose proof L2. pose proof (up n (S n) ltac:(lia) Hn) as U.
    pose proof (up 0 (S n) ltac:(lia) Hn) as U0.
    assert (TX : traction_left layers alpha beta (l (S n)) (beta (l (S n)))).
    { replace (beta (l (S n))) with (alpha (l n) + (beta (l (S n)) - alpha (l n)) * ((l (S n) - l n) / (l (S n) - l n)))
        by (field; lra).
      apply within with (n := n); [exact Hn|reflexivity|reflexivity|exact U|apply Rlt_irrefl]. }
    destruct (Nat.eq_dec (S n) (L - 1)) as [Eq | Ne].
    - exists (l (S n) + 1), (beta (l (S n))), (alpha (l (S n))).
      split; [lra|]. split; [exact TX|]. split.
      + apply beyond; [rewrite Eq; reflexivity|lra].
      + rewrite (sub2_beyond (l (S n))) by (rewrite Eq; lra). rewrite (sub2_beyond (l (S n) + 1)) by (rewrite Eq; lra).
        lra.
    - pose proof (up (S n) (S (S n)) ltac:(lia) ltac:(lia)) as U2.
      set (g := sl (S n) + Rmax 0 (- sl (S n))).
      assert (G : 0 <= g) by (unfold g; pose proof (max0 (- sl (S n))); lra).
      set (d := beta (l (S n)) - alpha (l (S n))) in *.
      set (h := Rmin ((l (S (S n)) - l (S n)) / 2) (d / (2 * (g + 1)))).
      assert (DP : 0 < d) by (unfold d; lra).
      assert (Hh : 0 < h). { apply Rmin_pos; [lra|apply Rdiv_lt_0_compat; lra]. }
      assert (H1 : h <= (l (S (S n)) - l (S n)) / 2) by apply Rmin_l.
      assert (H2 : g * h < d).
      { assert (h <= d / (2 * (g + 1))) by apply Rmin_r.
        assert ((g + 1) * h <= (g + 1) * (d / (2 * (g + 1)))) by (apply Rmult_le_compat_l; lra).
        replace ((g + 1) * (d / (2 * (g + 1)))) with (d / 2) in * by (field; lra). lra. }
      assert (V : l (S n) < l (S n) + h < l (S (S n))) by lra.
      exists (l (S n) + h), (beta (l (S n))), (alpha (l (S n)) + (beta (l (S (S n))) - alpha (l (S n)))
        * ((l (S n) + h - l (S n)) / (l (S (S n)) - l (S n)))).
      split; [lra|]. split; [exact TX|]. split.
      + apply within with (n := S n); [unfold LawsModel.L in *; lia|reflexivity|reflexivity|apply V|].
        apply Rle_not_lt. apply Rlt_le. apply V.
      + rewrite total_within by (lia || exact V). fold g.
        rewrite (sub2_within (l (S n)) (S n)) by (lia || lra).
        replace (l (S n) - l (S n)) with 0 by ring. replace (l (S n) + h - l (S n)) with h by ring.
        unfold start, alphas. unfold d in *. lra.
  Qed.
End Composite.

Lemma composite_empty alpha beta : make_composite_contact_law [] alpha beta = Err IndexError.
Proof. reflexivity. Qed.

Lemma composite_single x alpha beta v : x < v ->
  exists c, make_composite_contact_law [x] alpha beta = Ok c /\
    composite_potential c v = Err IndexError /\ composite_subderivative c v = Some (alpha x).
Proof.
  intros V. eexists. split; [reflexivity|]. cbn [composite_potential composite_subderivative]. split.
  - unfold potential_normal, L, lay. cbn [nth List.length seq potential_loop].
    rewrite leb_false by exact V. unfold lay. cbn [nth]. rewrite ltb_true by exact V. reflexivity.
  - unfold subderivative_normal, L, lay. cbn [nth List.length Nat.sub]. rewrite leb_false by exact V.
    rewrite ltb_true by exact V. reflexivity.
Qed.

Lemma composite_made layers alpha beta : layers <> [] ->
  make_composite_contact_law layers alpha beta = Ok
    {| composite_potential := potential_normal layers alpha beta;
       composite_subderivative := subderivative_normal layers alpha beta;
       composite_sub2derivative := sub2derivative_normal layers alpha beta |}.
Proof. destruct layers; [contradiction|reflexivity]. Qed.

(* statements in terms of the law that is made *)
Section Made.
  Variable layers : list R.
  Variable alpha beta : R -> R.
  Variable c : composite.
  Hypothesis several : (2 <= List.length layers)%nat.
  Hypothesis grows : increasing_list layers.
  Hypothesis made : make_composite_contact_law layers alpha beta = Ok c.

  Lemma made_eq : c = {| composite_potential := potential_normal layers alpha beta;
       composite_subderivative := subderivative_normal layers alpha beta;
       composite_sub2derivative := sub2derivative_normal layers alpha beta |}.
  Proof.
    rewrite composite_made in made; [injection made; congruence|]. destruct layers; [cbn in several; lia|discriminate].
  Qed.

  Lemma composite_antiderivative : exists p : R -> R,
    (forall v, composite_potential c v = Ok (p v)) /\
    (forall v, v <= nth 0 layers 0 -> p v = 0) /\
    (forall v t, traction_left layers alpha beta v t -> left_derivative p v t) /\
    (forall v t, traction_right layers alpha beta v t -> right_derivative p v t).
  Proof.
    rewrite made_eq. exists (pot layers alpha beta). cbn [composite_potential]. repeat split.
    - intros v. apply pot_total; assumption.
    - intros v V. apply pot_closed_out; assumption.
    - intros v t T. apply left_potential; assumption.
    - intros v t T. apply right_potential; assumption.
  Qed.

  Lemma composite_subderivative_left v : exists t,
    traction_left layers alpha beta v t /\ composite_subderivative c v = Some t.
  Proof.
    rewrite made_eq. destruct (traction_left_ex layers alpha beta several v) as (t & T).
    exists t. split; [exact T|]. apply subderivative_value; assumption.
  Qed.

  Lemma composite_sub2_grows :
    monotone_on (fun _ => True) (composite_sub2derivative c) /\
    forall v, v <= nth 0 layers 0 -> composite_sub2derivative c v = 0.
  Proof.
    rewrite made_eq. split; [apply sub2_monotone; assumption|]. intros v V. apply sub2_outside. exact V.
  Qed.

  Lemma composite_sum_grows x y tx ty : ~ In x layers -> ~ In y layers -> x <= y ->
    composite_subderivative c x = Some tx -> composite_subderivative c y = Some ty ->
    tx + composite_sub2derivative c x <= ty + composite_sub2derivative c y.
  Proof.
    intros Nx Ny Le Sx Sy. destruct (composite_subderivative_left x) as (tx' & Tx & Ex).
    destruct (composite_subderivative_left y) as (ty' & Ty & Ey).
    rewrite Sx in Ex. injection Ex as <-. rewrite Sy in Ey. injection Ey as <-.
    rewrite made_eq. apply total_monotone; assumption.
  Qed.

  Lemma composite_drop n : (S n < List.length layers)%nat ->
    alpha (nth (S n) layers 0) < beta (nth (S n) layers 0) ->
    exists y tx ty, nth (S n) layers 0 < y /\
      composite_subderivative c (nth (S n) layers 0) = Some tx /\ composite_subderivative c y = Some ty /\
      ty + composite_sub2derivative c y < tx + composite_sub2derivative c (nth (S n) layers 0).
  Proof.
    intros Hn D. destruct (total_overshoot layers alpha beta several grows n Hn D) as (y & tx & ty & A & B & C & F).
    exists y, tx, ty. split; [exact A|]. rewrite made_eq. cbn [composite_subderivative composite_sub2derivative].
    split; [apply subderivative_value; assumption|]. split; [apply subderivative_value; assumption|exact F].
  Qed.
End Made.
