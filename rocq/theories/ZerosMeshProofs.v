(* Products along a vertical line through a mesh. *)
From Coq Require Import Reals R_Ifp List Arith ZArith Bool Lia Lra.
From Verif Require Import PyModel RVec MeshSpec FemSpec ZerosModel ZerosSpec ZerosProofs.
Import ListNotations.
Local Open Scope R_scope.

Lemma extreme_min n f : (1 <= n)%nat -> exists m, extreme Rmin n f = Ok m /\ (exists i, (i < n)%nat /\ f i = m) /\ forall i, (i < n)%nat -> m <= f i.
Proof.
  induction n as [|n IH]; intros H; [lia|]. cbn. destruct (Nat.eq_dec n 0) as [->|N].
  - exists (f 0%nat). split; auto. split; [exists 0%nat; auto|]. intros i Hi. replace i with 0%nat by lia. lra.
  - destruct IH as (m & -> & (i & Hi & Ei) & B); [lia|]. exists (Rmin m (f n)). split; auto. split.
    + unfold Rmin. destruct (Rle_dec m (f n)); [exists i|exists n]; auto.
    + intros k K. destruct (Nat.eq_dec k n) as [->|]; [apply Rmin_r|]. eapply Rle_trans; [apply Rmin_l|]. apply B. lia.
Qed.
Lemma extreme_max n f : (1 <= n)%nat -> exists m, extreme Rmax n f = Ok m /\ (exists i, (i < n)%nat /\ f i = m) /\ forall i, (i < n)%nat -> f i <= m.
Proof.
  induction n as [|n IH]; intros H; [lia|]. cbn. destruct (Nat.eq_dec n 0) as [->|N].
  - exists (f 0%nat). split; auto. split; [exists 0%nat; auto|]. intros i Hi. replace i with 0%nat by lia. lra.
  - destruct IH as (m & -> & (i & Hi & Ei) & B); [lia|]. exists (Rmax m (f n)). split; auto. split.
    + unfold Rmax. destruct (Rle_dec m (f n)); [exists n|exists i]; auto.
    + intros k K. destruct (Nat.eq_dec k n) as [->|]; [apply Rmax_r|]. eapply Rle_trans; [|apply Rmax_l]. apply B. lia.
Qed.

Lemma plane_value nodes field e x y v : interpolates nodes field e x y v -> det_2d (corners nodes e) <> 0 ->
  plane (fun i => nodes (nth i e 0%nat)) (fun i => field (nth i e 0%nat)) x y = v.
Proof.
  intros (i & j & k & a & b & c & -> & A & B & C & S1 & X & Y & V) D. unfold plane, det_2d, corners in *. cbn [nth] in *.
  set (x0 := nodes i 0%nat) in *. set (y0 := nodes i 1%nat) in *.
  set (x1 := nodes j 0%nat) in *. set (y1 := nodes j 1%nat) in *.
  set (x2 := nodes k 0%nat) in *. set (y2 := nodes k 1%nat) in *.
  assert (D' : (x1 - x0) * (y2 - y0) - (x2 - x0) * (y1 - y0) <> 0) by (intros E; apply D; lra).
  set (det := (x1 - x0) * (y2 - y0) - (x2 - x0) * (y1 - y0)) in *.
  assert (E1 : (x - x0) * (y2 - y0) - (x2 - x0) * (y - y0) = b * det).
  { unfold det. rewrite X, Y. replace a with (1 - b - c) by lra. ring. }
  assert (E2 : (x1 - x0) * (y - y0) - (x - x0) * (y1 - y0) = c * det).
  { unfold det. rewrite X, Y. replace a with (1 - b - c) by lra. ring. }
  rewrite E1, E2. rewrite V. replace a with (1 - b - c) by lra. field. auto.
Qed.

(* the number of points follows the number of nodes *)
Lemma linspace_length a b k : length (linspace a b k) = k.
Proof. unfold linspace. destruct k as [|[|d]]; auto. rewrite map_length, seq_length. reflexivity. Qed.
Lemma linspace_ends a b d : nth_error (linspace a b (S (S d))) 0 = Some a /\ nth_error (linspace a b (S (S d))) (S d) = Some b.
Proof.
  unfold linspace. assert (P : 0 < INR (S d)) by (apply lt_0_INR; lia). split.
  - cbn [seq map nth_error]. change (INR 0) with 0. f_equal. ring.
  - rewrite nth_error_map. assert (E : nth_error (seq 0 (S (S d))) (S d) = Some (S d)).
    { rewrite (nth_error_nth' _ 0%nat) by (rewrite seq_length; lia). rewrite seq_nth by lia. reflexivity. }
    rewrite E. cbn [option_map]. f_equal. field. lra.
Qed.

Lemma linspace_nth a b k i y : nth_error (linspace a b k) i = Some y ->
  y = a + INR i * ((b - a) / INR (k - 1)).
Proof.
  intros H. unfold linspace in H. destruct k as [|[|d]].
  - destruct i; discriminate.
  - destruct i as [|i]; [|destruct i; discriminate]. injection H as <-. cbn. ring.
  - rewrite nth_error_map in H. destruct (nth_error (seq 0 (S (S d))) i) as [j|] eqn:J; [|discriminate]. injection H as <-.
    assert (I : (i < S (S d))%nat) by (rewrite <- (seq_length (S (S d)) 0); apply nth_error_Some; congruence).
    rewrite (nth_error_nth' _ 0%nat) in J by (rewrite seq_length; auto). rewrite seq_nth in J by auto. injection J as <-. reflexivity.
Qed.
Lemma samples_count a b s : 0 < s -> a <= b -> samples a b s (S (Z.to_nat (Int_part ((b - a) / s)))).
Proof.
  intros S0 AB. set (q := (b - a) / s). assert (Q : 0 <= q).
  { apply Rmult_le_pos; [lra|]. apply Rlt_le, Rinv_0_lt_compat. auto. }
  assert (Eq : b = a + q * s) by (unfold q; field; lra).
  destruct (base_Int_part q) as [A B]. intros k.
  assert (P : (0 <= Int_part q)%Z) by (assert (-1 < Int_part q)%Z by (apply lt_IZR; lra); lia).
  unfold sample. rewrite Eq. split.
  - intros K. assert (INR k <= IZR (Int_part q)) by (rewrite INR_IZR_INZ; apply IZR_le; lia). nra.
  - intros K. assert (H : INR k <= q) by nra. rewrite INR_IZR_INZ in H.
    assert (Z.of_nat k < Int_part q + 1)%Z by (apply lt_IZR; rewrite plus_IZR; lra). lia.
Qed.

Section Mesh.
  Variables (n : nat) (nodes : nat -> vec) (els : list (list nat)) (finder : R -> R -> option (list nat)).
  Hypothesis HT : triangles n nodes els.
  Hypothesis HF : finds_triangles nodes els finder.
  Hypothesis Hn : (1 <= n)%nat.

  Lemma interpolator_value field x y v : interpolator finder nodes field x y = Some v ->
    exists e, In e els /\ interpolates nodes field e x y v.
  Proof.
    unfold interpolator. destruct (finder x y) as [e|] eqn:E; [|discriminate]. intros V. injection V as V.
    destruct (proj1 HF x y e E) as [He (w & i & j & k & a & b & c & Ee & A & B & C & S1 & X & Y & W)].
    exists e. split; auto. assert (I : interpolates nodes field e x y (a * field i + b * field j + c * field k)).
    { exists i, j, k, a, b, c. repeat split; auto. }
    destruct HT as (_ & _ & HD). rewrite (plane_value _ _ _ _ _ _ I (HD e He)) in V. subst v. exact I.
  Qed.
  Lemma interpolator_covers field x y : (exists e, In e els /\ covers nodes e x y) <-> exists v, interpolator finder nodes field x y = Some v.
  Proof.
    split.
    - intros (e & He & C). unfold interpolator. destruct (finder x y) eqn:E; [eauto|]. destruct (proj2 HF x y e He C); auto.
    - intros (v & H). unfold interpolator in H. destruct (finder x y) as [e|] eqn:E; [|discriminate]. exists e. exact (proj1 HF x y e E).
  Qed.

  (* affine fields are reproduced *)
  Lemma interpolator_affine field u p q x y v : (forall i, (i < n)%nat -> field i = u + p * nodes i 0%nat + q * nodes i 1%nat) ->
    interpolator finder nodes field x y = Some v -> v = u + p * x + q * y.
  Proof.
    intros A V. destruct (interpolator_value field x y v V) as (e & He & i & j & k & a & b & c & -> & _ & _ & _ & S1 & -> & -> & ->).
    destruct HT as (HR & _). unfold in_range in HR. rewrite Forall_forall in HR. specialize (HR _ He).
    inversion HR as [|? ? Fi F1]; subst. inversion F1 as [|? ? Fj F2]; subst. inversion F2 as [|? ? Fk _]; subst.
    rewrite !A by auto. replace a with (1 - b - c) by lra. ring.
  Qed.

  Lemma step_pos : 0 < step_of n.
  Proof. unfold step_of. assert (0 < INR n) by (apply lt_0_INR; lia). apply Rinv_0_lt_compat in H. lra. Qed.

  Theorem limit_points_found brentq level obstacle field :
    finds_roots (fun y => minus (interpolator finder nodes field level y) obstacle)
      (brentq (fun y => minus (interpolator finder nodes field level y) obstacle)) ->
    exists y_min y_max k zs, lowest_node n nodes y_min /\ highest_node n nodes y_max /\
      samples y_min y_max (1 / (2 * INR n)) k /\
      (forall fuel, (k < fuel)%nat -> limit_points brentq 2 n nodes finder level obstacle field fuel = Some (Ok zs)) /\
      zeros_found (fun y => minus (interpolator finder nodes field level y) obstacle) y_min y_max (1 / (2 * INR n)) k zs /\
      forall z, In z zs -> exists e, In e els /\ interpolates nodes field e level z obstacle.
  Proof.
    intros Hr. set (f := fun y => minus (interpolator finder nodes field level y) obstacle) in *.
    destruct (extreme_min n (fun i => nodes i 1%nat) Hn) as (y_min & E1 & L).
    destruct (extreme_max n (fun i => nodes i 1%nat) Hn) as (y_max & E2 & H).
    assert (ES : 1 / (2 * INR n) = step_of n).
    { unfold step_of. field. assert (0 < INR n) by (apply lt_0_INR; lia). lra. }
    rewrite ES. destruct (samples_exist y_min y_max (step_of n) step_pos) as (k & K).
    destruct (estimate_finds brentq f y_min y_max (step_of n) k K step_pos Hr (S k) (Nat.lt_succ_diag_r k)) as (zs & E & Z).
    exists y_min, y_max, k, zs. split; [exact L|]. split; [exact H|]. split; [exact K|]. split; [|split].
    - intros fuel F. unfold limit_points. rewrite E1, E2. cbn [Nat.eqb]. fold f.
      destruct (estimate_samples brentq f y_min y_max (step_of n) k K fuel F) as [(ls & G & E')|(i & e & ls & I & G & C & R & _)].
      + destruct (estimate_samples brentq f y_min y_max (step_of n) k K (S k) (Nat.lt_succ_diag_r k)) as [(ls' & G' & E'')|(i & e & ls' & I & G' & C & R & E'')].
        * rewrite E' . rewrite E in E''. injection E'' as ->. f_equal. f_equal. f_equal.
          clear - G G'. revert ls' G'. induction G as [|i l is ls Gi G IH]; intros ls' G'; inversion G' as [|? l' ? ls'' Gi' G'']; subst; auto.
          f_equal; [|auto]. eapply gives_unique; eauto.
        * congruence.
      + exfalso. destruct (Hr (sample y_min (step_of n) i) (sample y_min (step_of n) (S i))) as (r & R' & _); auto; [|congruence].
        apply sample_lt; [apply step_pos|lia].
    - exact Z.
    - intros z Iz. pose proof (zf_zero _ _ _ _ _ _ Z z Iz) as F0. unfold f, minus in F0.
      destruct (interpolator finder nodes field level z) as [v|] eqn:V; [|discriminate]. cbn in F0. injection F0 as F0.
      destruct (interpolator_value field level z v V) as (e & He & I). exists e. split; auto.
      replace obstacle with v by lra. exact I.
  Qed.

  Lemma linspace_range a b k : a <= b -> forall y, In y (linspace a b k) -> a <= y <= b.
  Proof.
    intros AB y. unfold linspace. destruct k as [|[|d]]; cbn [In]; [tauto| |].
    - intros [<-|[]]. lra.
    - intros H. apply in_map_iff in H. destruct H as (i & <- & Hi). apply in_seq in Hi.
      assert (Pd : 0 < INR (S d)) by (apply lt_0_INR; lia).
      assert (Bi : INR i <= INR (S d)) by (apply le_INR; lia). pose proof (pos_INR i).
      assert (T : 0 <= INR i * ((b - a) / INR (S d)) <= b - a).
      { assert (Q : 0 <= (b - a) / INR (S d)) by (apply Rmult_le_pos; [lra|]; apply Rlt_le, Rinv_0_lt_compat; auto).
        split; [apply Rmult_le_pos; auto|].
        replace (b - a) with (INR (S d) * ((b - a) / INR (S d))) at 2 by (field; lra).
        apply Rmult_le_compat_r; auto. }
      lra.
  Qed.

  Theorem intersection_values level field : exists y_min y_max space values,
    lowest_node n nodes y_min /\ highest_node n nodes y_max /\
    intersection n nodes finder level field = Ok (space, values) /\
    length values = length space /\
    samples y_min y_max (1 / (2 * INR n)) (S (length space)) /\
    (forall y, In y space -> y_min <= y <= y_max) /\
    (forall i y, nth_error space i = Some y -> (i = 0%nat -> y = y_min) /\
       y = y_min + INR i * ((y_max - y_min) / INR (length space - 1))) /\
    (forall i y v, nth_error space i = Some y -> nth_error values i = Some v ->
       (forall a, v = Some a -> exists e, In e els /\ interpolates nodes field e level y a) /\
       (v = None <-> forall e, In e els -> ~ covers nodes e level y)).
  Proof.
    destruct (extreme_min n (fun i => nodes i 1%nat) Hn) as (y_min & E1 & L).
    destruct (extreme_max n (fun i => nodes i 1%nat) Hn) as (y_max & E2 & H).
    assert (Y : y_min <= y_max).
    { destruct L as [(i & Hi & <-) _]. apply H. auto. }
    unfold intersection. rewrite E1, E2. exists y_min, y_max. eexists. eexists.
    split; [exact L|]. split; [exact H|]. split; [reflexivity|]. split; [apply map_length|].
    assert (P : 0 < INR n) by (apply lt_0_INR; lia).
    split; [|split; [|split]].
    - rewrite linspace_length. replace (1 / (2 * INR n)) with (step_of n) by (unfold step_of; field; lra).
      apply samples_count; auto. apply step_pos.
    - intros y. apply linspace_range. auto.
    - intros i y A. rewrite linspace_length. apply linspace_nth in A. split; [|exact A].
      intros ->. rewrite A. cbn. ring.
    - intros i y v A B. rewrite nth_error_map, A in B. injection B as <-. split.
      + intros a V. apply interpolator_value. auto.
      + split.
        * intros V e He C. destruct (proj1 (interpolator_covers field level y)) as (a & Ea); [eauto|congruence].
        * intros N. destruct (interpolator finder nodes field level y) as [a|] eqn:V; auto. exfalso.
          destruct (proj2 (interpolator_covers field level y)) as (e & He & C); [eauto|]. exact (N e He C).
  Qed.
End Mesh.

(* ------------------------------------------------------------- cases *)

(* a root finder good for affine functions: the secant *)
Definition secant (f : R -> value) (a b : R) : result R :=
  match f a, f b with
  | Some u, Some v => Ok (a - u * (b - a) / (v - u))
  | _, _ => Err ValueError
  end.
Lemma secant_finds p q : finds_roots (fun y => Some (p + q * y)) (secant (fun y => Some (p + q * y))).
Proof.
  intros a b AB C. cbn in C. eexists. split; [reflexivity|].
  assert (Q : q <> 0) by (intros ->; lra).
  replace (p + q * b - (p + q * a)) with (q * (b - a)) by ring.
  assert (E : a - (p + q * a) * (b - a) / (q * (b - a)) = - p / q) by (field; lra). rewrite E.
  assert (Z : p + q * (- p / q) = 0) by (field; auto).
  split; [|rewrite Z; reflexivity]. set (r := - p / q) in *.
  assert (P : p = - (q * r)) by lra. rewrite P in C. clear P Z E.
  destruct (Rtotal_order q 0) as [N|[N|N]]; [|contradiction|]; destruct C as [[C1 C2]|[C1 C2]]; split; nra.
Qed.

(* a zero between the last sample and the end is missed *)
Lemma late_zero : exists zs, estimate_zeros secant (fun y => Some (- (9 / 10) + 1 * y)) 1 (2 / 5) 4 0 = Some (Ok zs) /\
  zs = [] /\ (fun y => Some (- (9 / 10) + 1 * y)) (9 / 10) = Some 0.
Proof.
  eexists. split; [|split; [reflexivity|f_equal; lra]].
  assert (N : samples 0 1 (2 / 5) 3).
  { intros k. unfold sample. split.
    - intros K. apply le_INR in K. rewrite S_INR in K. cbn in K. lra.
    - intros K. destruct (Nat.lt_ge_cases k 3); auto. apply le_INR in H. cbn in H. lra. }
  destruct (estimate_samples secant (fun y => Some (- (9 / 10) + 1 * y)) 0 1 (2 / 5) 3 N 4 ltac:(lia)) as [(ls & G & E)|(k & e & ls & K & G & C & R & E)].
  - rewrite E. f_equal. f_equal.
    assert (X : Forall2 (fun _ l => l = []) (seq 0 3) ls).
    { assert (Y : forall k l, In k (seq 0 3) -> contributes (fun y => Some (- (9 / 10) + 1 * y)) 0 (2 / 5) (secant (fun y => Some (- (9 / 10) + 1 * y))) k l -> l = []).
      { assert (V : forall i, (i < 3)%nat -> - (9 / 10) + 1 * sample 0 (2 / 5) i < 0).
        { intros i Hi. unfold sample. apply le_INR in Hi. rewrite S_INR in Hi. cbn in Hi. lra. }
        intros k l K G0. inversion G0 as [i H|i r H _|i H _]; subst; auto; apply in_seq in K; exfalso.
        - injection H as H. specialize (V k ltac:(lia)). lra.
        - cbn in H. pose proof (V i ltac:(lia)). pose proof (V (S i) ltac:(lia)). lra. }
      clear E. revert ls G Y. generalize (seq 0 3). intros s. induction s as [|k s IH]; intros ls G Y; inversion G; subst; constructor.
      + eapply Y; [left|]; eauto.
      + apply IH; auto. intros. eapply Y; [right|]; eauto. }
    clear - X. remember (seq 0 3) as s. clear Heqs. induction X as [|k l s ls -> X IH]; auto.
  - exfalso. unfold secant in R. discriminate.
Qed.

(* two zeros between neighbouring samples are missed *)
Lemma double_zero brentq : let f := fun y => Some ((y - 1 / 3) * (y - 2 / 3)) in
  estimate_zeros brentq f 1 1 3 0 = Some (Ok []) /\ f (1 / 3) = Some 0 /\ f (2 / 3) = Some 0.
Proof.
  cbv zeta. split; [|split; f_equal; lra].
  set (f := fun y => Some ((y - 1 / 3) * (y - 2 / 3))).
  assert (N : samples 0 1 1 2).
  { intros k. unfold sample. split.
    - intros K. apply le_INR in K. rewrite S_INR in K. cbn in K. lra.
    - intros K. destruct (Nat.lt_ge_cases k 2); auto. apply le_INR in H. cbn in H. lra. }
  destruct (estimate_samples brentq f 0 1 1 2 N 3 ltac:(lia)) as [(ls & G & E)|(k & e & ls & K & G & C & R & E)].
  - rewrite E. f_equal. f_equal. cbn [seq] in G. inversion G as [|? l0 ? ls' G0 G']; subst. inversion G' as [|? l1 ? ls'' G1 G'']; subst.
    inversion G''; subst.
    assert (l0 = []).
    { inversion G0 as [i H1|i r H1 _|i H1 _]; subst; auto. exfalso. injection H1 as H1. unfold sample in H1. cbn in H1. lra. }
    assert (l1 = []).
    { inversion G1 as [i H2|i r H2 _|i H2 _]; subst; auto; exfalso.
      - injection H2 as H2. unfold sample in H2. cbn in H2. lra.
      - unfold f, change, sample in H2. cbn in H2. lra. }
    subst. reflexivity.
  - exfalso. assert (k = 0)%nat by lia. subst. unfold f, change, sample in C. cbn in C. lra.
Qed.

Lemma limit_points_space brentq dimension n nodes finder level obstacle field fuel :
  dimension <> 2%nat -> (1 <= n)%nat ->
  limit_points brentq dimension n nodes finder level obstacle field fuel = Some (Err AssertionError).
Proof.
  intros D N. destruct (extreme_min n (fun i => nodes i 1%nat) N) as (a & E1 & _).
  destruct (extreme_max n (fun i => nodes i 1%nat) N) as (b & E2 & _).
  unfold limit_points. rewrite E1, E2. destruct (Nat.eqb_spec dimension 2); [contradiction|reflexivity].
Qed.
