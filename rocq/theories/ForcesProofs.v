(* Proofs about nodal loads. *)
From Coq Require Import Reals List Arith Bool Lia Lra.
From Verif Require Import Common RVec PyModel MeshSpec FemModel FemSpec FemAssemblyProofs FemFormProofs
  FemBasicProofs FemMeshProofs FemPipelineProofs ForcesModel ForcesSpec.
Import ListNotations.
Local Open Scope nat_scope.
Local Open Scope list_scope.

(* ------------------------------------------------------------ C29 *)

Lemma nth_concat_blocks {A} (zero : A) (N d : nat) (f : nat -> list A) k n :
  (forall j, j < d -> length (f j) = N) -> k < d -> n < N ->
  nth (k * N + n) (concat (map f (seq 0 d))) zero = nth n (f k) zero.
Proof.
  intros HL Hk Hn.
  assert (G : forall s, (forall j, s <= j < s + d -> length (f j) = N) -> forall k, k < d ->
     nth (k * N + n) (concat (map f (seq s d))) zero = nth n (f (s + k)) zero).
  { clear k Hk HL. induction d as [|d IH]; intros s HL k Hk; [lia|]. cbn [seq map concat].
    destruct k as [|k].
    - rewrite app_nth1 by (rewrite HL; simpl; lia). rewrite Nat.add_0_r. reflexivity.
    - rewrite app_nth2 by (rewrite HL; simpl; nia). rewrite HL by lia.
      replace (S k * N + n - N) with (k * N + n) by (simpl; lia). rewrite IH by (try lia; intros; apply HL; lia).
      f_equal. f_equal. lia. }
  rewrite (G 0); auto. intros j Hj; apply HL; lia.
Qed.

Lemma concat_blocks_length {A} (N d : nat) (f : nat -> list A) s :
  (forall j, s <= j < s + d -> length (f j) = N) -> length (concat (map f (seq s d))) = d * N.
Proof.
  revert s. induction d as [|d IH]; intros s H; [reflexivity|]. cbn [seq map concat].
  rewrite app_length, H, IH by (try lia; intros; apply H; lia). simpl. lia.
Qed.

Lemma stack_length {A} (zero : A) d rows : length (stack_column zero d rows) = d * length rows.
Proof. apply concat_blocks_length. intros. apply map_length. Qed.

Lemma stack_nth {A} (zero : A) d rows n k : n < length rows -> k < d ->
  nth (k * length rows + n) (stack_column zero d rows) zero = nth k (nth n rows []) zero.
Proof.
  intros Hn Hk. unfold stack_column.
  rewrite (nth_concat_blocks zero (length rows) d) by (auto; intros; apply map_length).
  rewrite (nth_indep _ _ (nth k [] zero)) by (rewrite map_length; auto).
  rewrite (map_nth (fun row => nth k row zero)). reflexivity.
Qed.

Lemma nth_map_seq {A} (zero : A) f n k : k < n -> nth k (map f (seq 0 n)) zero = f k.
Proof.
  intros H. rewrite (nth_indep _ _ (f 0)) by (rewrite map_length, seq_length; auto).
  rewrite map_nth, seq_nth; auto.
Qed.

Lemma map_nth_self {A} (zero : A) l : map (fun k => nth k l zero) (seq 0 (length l)) = l.
Proof.
  apply nth_ext with (d := zero) (d' := zero); rewrite map_length, seq_length; auto.
  intros k Hk. apply (nth_map_seq zero (fun k => nth k l zero)); auto.
Qed.

Lemma unstack_stack {A} (zero : A) d rows : d <> 0 -> rectangular d rows ->
  unstack zero (stack_column zero d rows) d = Ok rows.
Proof.
  intros Hd HR. unfold unstack. destruct (d =? 0) eqn:E; [apply Nat.eqb_eq in E; contradiction|].
  rewrite stack_length. rewrite (Nat.mul_comm d), Nat.mod_mul, Nat.div_mul by auto. cbn [Nat.eqb negb].
  f_equal. transitivity (map (fun n => nth n rows []) (seq 0 (length rows))).
  2:{ apply map_nth_self. }
  apply map_ext_in. intros n Hn. apply in_seq in Hn.
  assert (HL : length (nth n rows []) = d) by (apply (proj1 (Forall_forall _ _) HR); apply nth_In; lia).
  rewrite <- (map_nth_self zero (nth n rows [])) at 1. rewrite HL.
  apply map_ext_in. intros k Hk. apply in_seq in Hk. apply stack_nth; lia.
Qed.

Lemma unstack_ok {A} (zero : A) v d rows : unstack zero v d = Ok rows ->
  d <> 0 /\ length v = d * length rows /\ rectangular d rows /\
  (forall n k, n < length rows -> k < d -> nth k (nth n rows []) zero = nth (k * length rows + n) v zero).
Proof.
  unfold unstack. intros H. destruct (d =? 0) eqn:E; [discriminate|]. apply Nat.eqb_neq in E.
  destruct (length v mod d =? 0) eqn:M; [|discriminate]. apply Nat.eqb_eq in M. cbn [negb] in H.
  apply ok_inj in H. set (N := length v / d) in *.
  assert (HL : length rows = N) by (rewrite <- H, map_length, seq_length; reflexivity).
  assert (HV : length v = d * N) by (rewrite (Nat.div_mod (length v) d) by auto; rewrite M; fold N; lia).
  split; [auto|]. rewrite HL. split; [auto|]. split.
  - rewrite <- H. apply Forall_forall. intros r Hr. apply in_map_iff in Hr. destruct Hr as (n & <- & _).
    rewrite map_length, seq_length; reflexivity.
  - intros n k Hn Hk. rewrite <- H. rewrite nth_map_seq by auto. rewrite nth_map_seq by auto. reflexivity.
Qed.

Lemma stack_unstack {A} (zero : A) v d rows : unstack zero v d = Ok rows ->
  stack_column zero d rows = v.
Proof.
  intros H. destruct (unstack_ok zero v d rows H) as (Hd & HL & HR & HE).
  apply nth_ext with (d := zero) (d' := zero); rewrite stack_length; auto.
  intros a Ha. set (N := length rows) in *.
  assert (HN : N <> 0) by lia.
  pose proof (Nat.div_mod a N HN) as DM.
  pose proof (Nat.mod_upper_bound a N HN).
  assert (a / N < d) by (apply Nat.div_lt_upper_bound; lia).
  replace a with (a / N * N + a mod N) by lia.
  unfold N at 2 4. rewrite stack_nth by auto. fold N. apply HE; auto.
Qed.

Lemma unstack_total {A} (zero : A) v d : d <> 0 -> length v mod d = 0 ->
  exists rows, unstack zero v d = Ok rows.
Proof.
  intros Hd HM. unfold unstack. destruct (d =? 0) eqn:E; [apply Nat.eqb_eq in E; contradiction|].
  rewrite HM. cbn [Nat.eqb negb]. eauto.
Qed.

(* ------------------------------------------------------------ C48 *)

Section Cache.
  Context {P T V : Type}.
  Variable teq : T -> T -> bool.
  Hypothesis teq_sound : forall a b, teq a b = true -> a = b.

  Lemma evaluate_values (f : P -> T -> result V) nodes t l :
    evaluate (Some f) nodes t = Ok l <-> values f nodes t l.
  Proof.
    revert l. induction nodes as [|p nodes IH]; intros l; simpl.
    - split; intros H; [apply ok_inj in H; subst; constructor|inversion H; reflexivity].
    - split; intros H.
      + destruct (f p t) eqn:E; [|discriminate]. simpl in H.
        destruct (evaluate (Some f) nodes t) eqn:E2; [|discriminate]. simpl in H. apply ok_inj in H; subst.
        constructor; auto. apply IH; auto.
      + inversion H; subst. rewrite H2. simpl. apply IH in H4. rewrite H4. reflexivity.
  Qed.

  (* cache and timestamp belong to the source *)
  Definition coherent (fs : field_source P T V) (f : P -> T -> result V) (nodes : list P) : Prop :=
    source fs = Some f /\
    forall t, timestamp fs = Some t -> exists l, cache fs = Some l /\ values f nodes t l.

  Lemma fresh_coherent f nodes : coherent (fresh_source (Some f)) f nodes.
  Proof. split; [reflexivity|]. simpl. discriminate. Qed.

  Lemma node_source_coherent fs f nodes t : coherent fs f nodes ->
    coherent (fst (node_source teq fs nodes t)) f nodes /\
    (forall l, snd (node_source teq fs nodes t) = Ok (Some l) <-> values f nodes t l) /\
    snd (node_source teq fs nodes t) <> Ok None.
  Proof.
    intros [HS HC]. unfold node_source.
    assert (EV := evaluate_values f nodes t). rewrite HS.
    destruct (timestamp fs) as [t0|] eqn:E.
    - destruct (teq t t0) eqn:Et.
      + apply teq_sound in Et. subst t0. destruct (HC t eq_refl) as (l & Hl & Hv). simpl.
        split; [split; auto; rewrite E; auto|]. rewrite Hl. split; [|congruence].
        intros l'. apply EV in Hv. rewrite <- EV. split; intros H; congruence.
      + destruct (evaluate (Some f) nodes t) as [l|e] eqn:Ee; simpl.
        * split. { split; [reflexivity|]. simpl. intros t1 H1. exists l. split; auto.
                   replace t1 with t by congruence. apply EV; auto. }
          split; [|congruence]. intros l'. rewrite <- EV. split; intros H; congruence.
        * split; [split; auto; rewrite E; auto|]. split; [|congruence].
          intros l'. rewrite <- EV. split; intros H; congruence.
    - destruct (evaluate (Some f) nodes t) as [l|e] eqn:Ee; simpl.
      + split. { split; [reflexivity|]. simpl. intros t1 H1. exists l. split; auto.
                 replace t1 with t by congruence. apply EV; auto. }
        split; [|congruence]. intros l'. rewrite <- EV. split; intros H; congruence.
      + split; [split; auto; rewrite E; discriminate|]. split; [|congruence].
        intros l'. rewrite <- EV. split; intros H; congruence.
  Qed.

  Lemma requests_spec (f : P -> T -> result V) nodes times : forall fs, coherent fs f nodes ->
    Forall2 (fun t r => (forall l, r = Ok (Some l) <-> values f nodes t l) /\ r <> Ok None)
            times (requests teq fs nodes times).
  Proof.
    induction times as [|t times IH]; intros fs H; simpl; [constructor|].
    pose proof (node_source_coherent fs f nodes t H) as (H1 & H2 & H3).
    destruct (node_source teq fs nodes t) as [fs' r]. simpl in *. constructor; auto.
  Qed.

  Lemma fresh_requests (f : P -> T -> result V) nodes times :
    Forall2 (fun t r => (forall l, r = Ok (Some l) <-> values f nodes t l) /\ r <> Ok None)
            times (requests teq (fresh_source (Some f)) nodes times).
  Proof. apply requests_spec, fresh_coherent. Qed.

  (* whatever happened before, a request at a time other than the last one is correct *)
  Lemma new_time (fs : field_source P T V) f nodes t : timestamp fs <> Some t -> source fs = Some f ->
    (forall l, snd (node_source teq fs nodes t) = Ok (Some l) <-> values f nodes t l) /\
    snd (node_source teq fs nodes t) <> Ok None.
  Proof.
    intros HT HS. unfold node_source. rewrite HS. assert (EV := evaluate_values f nodes t).
    replace (match timestamp fs with Some t0 => teq t t0 | None => false end) with false.
    2:{ destruct (timestamp fs) as [t0|]; auto. destruct (teq t t0) eqn:E; auto.
        apply teq_sound in E. congruence. }
    destruct (evaluate (Some f) nodes t) as [l|e] eqn:Ee; simpl; (split; [|congruence]);
      intros l'; rewrite <- EV; split; intros H; congruence.
  Qed.
End Cache.

(* ------------------------------------------------------------ C28 *)

Local Open Scope R_scope.

Lemma mem_nat_in n l : mem_nat n l = true <-> In n l.
Proof.
  unfold mem_nat. rewrite existsb_exists. split.
  - intros (x & Hx & E). apply Nat.eqb_eq in E. subst; auto.
  - intros H. exists n. split; auto. apply Nat.eqb_refl.
Qed.

Definition part (d : nat) (nodes : nat -> vec) (f : list nat) : R := face_measure d nodes f / INR d.

Lemma lagrange (a b : vec) :
  sum 3 (fun c => cross a b c ^ 2)
  = inner_product 3 a a * inner_product 3 b b - inner_product 3 a b ^ 2.
Proof. unfold inner_product, cross. cbn [sum nth]. ring. Qed.

Lemma element_part_2 nodes f : length f = 2%nat ->
  element_volume_part 2 (length f) (fun k => nodes (nth k f 0%nat)) = Ok (part 2 nodes f).
Proof.
  intros L. rewrite L. unfold element_volume_part, part, face_measure, segment_length, euclidean_norm,
    inner_product, corners. cbn [Nat.eqb bind sum]. do 3 f_equal. ring.
Qed.

Lemma element_part_3 nodes f : length f = 3%nat ->
  element_volume_part 3 (length f) (fun k => nodes (nth k f 0%nat)) = Ok (part 3 nodes f).
Proof.
  intros L. rewrite L. unfold element_volume_part, part, face_measure, triangle_area, euclidean_norm.
  cbn [Nat.eqb bind]. rewrite lagrange. unfold corners. f_equal. f_equal. lra.
Qed.

Lemma surface_ok d nodes faces : d = 2%nat \/ d = 3%nat -> Forall (fun f => length f = d) faces ->
  forall acc, exists s, surface_per_node d nodes faces acc = Ok s /\
    forall n, s n = acc n + lsum faces (fun f => if mem_nat n f then part d nodes f else 0).
Proof.
  intros Hd. induction faces as [|f faces IH]; intros HF acc; cbn [surface_per_node lsum].
  - exists acc. split; [reflexivity|]. intros; ring.
  - inversion HF; subst.
    assert (E : element_volume_part (length f) (length f) (fun k => nodes (nth k f 0%nat))
                = Ok (part (length f) nodes f)).
    { destruct Hd as [Hd|Hd].
      - rewrite Hd at 1 3. apply element_part_2; auto.
      - rewrite Hd at 1 3. apply element_part_3; auto. }
    rewrite E. cbn [bind].
    destruct (IH H2 (fun n => if mem_nat n f then acc n + part (length f) nodes f else acc n)) as (s & Hs & Hv).
    exists s. split; [exact Hs|]. intros n. rewrite Hv. destruct (mem_nat n f); ring.
Qed.

Lemma sum_members N f g : NoDup f -> Forall (fun k => (k < N)%nat) f ->
  sum N (fun n => (if mem_nat n f then 1 else 0) * g n) = lsum f g.
Proof.
  induction f as [|x f IH]; intros HN HR; cbn [lsum].
  - apply sum_0. intros; simpl; ring.
  - inversion HN; subst. inversion HR; subst. rewrite <- IH by auto.
    rewrite <- (sum_delta_l N x g) by auto. rewrite <- sum_plus. apply sum_ext. intros n Hn.
    unfold delta. destruct (Nat.eqb x n) eqn:E.
    + apply Nat.eqb_eq in E. subst n.
      assert (mem_nat x f = false) as ->.
      { destruct (mem_nat x f) eqn:M; auto. apply mem_nat_in in M. contradiction. }
      assert (mem_nat x (x :: f) = true) as -> by (apply mem_nat_in; left; auto). ring.
    + assert (mem_nat n (x :: f) = mem_nat n f) as ->.
      { unfold mem_nat. cbn [existsb]. rewrite Nat.eqb_sym, E. reflexivity. }
      ring.
Qed.

Lemma measure_nonneg d nodes f : 0 <= face_measure d nodes f.
Proof.
  assert (0 <= triangle_area (corners nodes f)).
  { unfold triangle_area. cbv zeta.
    match goal with |- 0 <= sqrt ?x / 2 => pose proof (sqrt_pos x); lra end. }
  destruct d as [|[|[|d]]]; cbn [face_measure]; auto. unfold segment_length. apply sqrt_pos.
Qed.

Lemma surface_spec d N nodes faces : d = 2%nat \/ d = 3%nat -> faces_ok d N faces ->
  exists s, surface_per_node d nodes faces (fun _ => 0) = Ok s /\
    (forall n, 0 <= s n) /\
    (forall n, (forall f, In f faces -> ~ In n f) -> s n = 0) /\
    sum N s = lsum faces (face_measure d nodes) /\
    (forall g, sum N (fun n => s n * g n) = face_integral d nodes faces g).
Proof.
  intros Hd HF.
  assert (HL : Forall (fun f => length f = d) faces) by (eapply Forall_impl; [|exact HF]; simpl; tauto).
  destruct (surface_ok d nodes faces Hd HL (fun _ => 0)) as (s & Hs & Hv).
  assert (D : INR d <> 0) by (destruct Hd; subst; simpl; lra).
  assert (Dp : 0 < INR d) by (destruct Hd; subst; simpl; lra).
  assert (HG : forall g, sum N (fun n => s n * g n) = face_integral d nodes faces g).
  { intros g. unfold face_integral.
    rewrite (sum_ext N _ (fun n => lsum faces (fun f => part d nodes f * ((if mem_nat n f then 1 else 0) * g n)))).
    2:{ intros n _. rewrite Hv, Rplus_0_l, <- lsum_scal_r. apply lsum_ext. intros f _.
        destruct (mem_nat n f); ring. }
    rewrite <- lsum_sum_swap. apply lsum_ext. intros f Hf. rewrite sum_scal.
    apply (proj1 (Forall_forall _ _) HF) in Hf. destruct Hf as (_ & H1 & H2).
    rewrite sum_members by auto. unfold part. field. auto. }
  exists s. split; [exact Hs|]. split; [|split; [|split; [|exact HG]]].
  - intros n. rewrite Hv, Rplus_0_l. apply lsum_nonneg. intros f _. destruct (mem_nat n f); [|lra].
    unfold part. apply Rmult_le_pos; [apply measure_nonneg|left; apply Rinv_0_lt_compat; auto].
  - intros n Hn. rewrite Hv, Rplus_0_l. apply lsum_0. intros f Hf.
    destruct (mem_nat n f) eqn:E; auto. apply mem_nat_in in E. exfalso; eapply Hn; eauto.
  - rewrite (sum_ext N s (fun n => s n * 1)) by (intros; ring). rewrite HG. unfold face_integral.
    apply lsum_ext. intros f Hf. apply (proj1 (Forall_forall _ _) HL) in Hf.
    assert (EL : lsum f (fun _ => 1) = INR d).
    { rewrite <- Hf. clear. induction f as [|x f IH]; [reflexivity|].
      cbn [lsum]. rewrite IH. cbn [length]. rewrite S_INR. ring. }
    rewrite EL. field. auto.
Qed.

(* ------------------------------------------------------------ C27 *)

(* the off-diagonal volume matrix tested with arbitrary vectors *)
Lemma vol_work d N nodes els meas G B (F : fem d N nodes els G) (A : assembled d els meas G B) v x :
  (0 < d)%nat ->
  bilinear N N (volume_at_nodes B) v x = integral meas els (fun e =>
    (sum (S d) (fun i => v (nth i e 0%nat)) * sum (S d) (fun i => x (nth i e 0%nat))
     - sum (S d) (fun i => v (nth i e 0%nat) * x (nth i e 0%nat))) / (INR (S d) * INR d)).
Proof.
  intros Hd. destruct A as (A1 & _).
  rewrite (bilinear_ext N N _ (assembly (S d) els (loc_vol d meas))) by (intros a b _ _; auto).
  rewrite assembly_bilinear by (apply F). apply lsum_ext. intros e He.
  assert (D0 : INR d <> 0) by (apply not_0_INR; lia). pose proof (INR_pos d) as D1.
  rewrite (sum_ext (S d) _ (fun i => meas e / (INR (S d) * INR d) *
     (v (nth i e 0%nat) * sum (S d) (fun j => x (nth j e 0%nat)) - v (nth i e 0%nat) * x (nth i e 0%nat)))).
  { rewrite sum_scal, sum_minus, sum_scal_r. field; auto. }
  intros i Hi. unfold loc_vol.
  rewrite (sum_ext (S d) _ (fun j => meas e / (INR (S d) * INR d) * v (nth i e 0%nat) * x (nth j e 0%nat)
     - meas e / (INR (S d) * INR d) * v (nth i e 0%nat) * (delta i j * x (nth j e 0%nat)))).
  2:{ intros j _. field; auto. }
  rewrite sum_minus, !sum_scal, (sum_delta_l (S d) i (fun j => x (nth j e 0%nat))) by auto. ring.
Qed.
