(* Proofs about get_all_boundary_indices (C09). *)
From Coq Require Import List Arith Bool Lia Sorted.
From Verif Require Import Common PyModel DofModel DofSpec ListLemmas MeshFacesProofs.
Import ListNotations.

Definition all_pairs (i : list nat) (N dim : nat) : list (nat * nat) :=
  flat_map (fun k => combine (map (fun n => n + k * N) i) (seq 0 (length i))) (seq 0 dim).

Lemma nth_error_combine {A B} (l : list A) (l' : list B) p a b :
  nth_error (combine l l') p = Some (a, b) <-> nth_error l p = Some a /\ nth_error l' p = Some b.
Proof.
  revert l' p. induction l as [|x l IH]; intros [|y l'] [|p]; simpl; split; intros H;
    try discriminate; try (destruct H; discriminate); auto.
  - inversion H; auto.
  - destruct H as [H1 H2]. congruence.
  - now apply IH.
  - now apply IH.
Qed.

Lemma all_pairs_In i N dim dof p :
  In (dof, p) (all_pairs i N dim) <-> boundary_dof i N dim dof p.
Proof.
  unfold all_pairs, boundary_dof. rewrite in_flat_map. split.
  - intros [k [Hk H]]. apply in_seq in Hk. apply In_nth_error in H. destruct H as [q H].
    apply nth_error_combine in H. destruct H as [H1 H2]. rewrite nth_error_map in H1.
    destruct (nth_error i q) as [n|] eqn:E; [|discriminate]. simpl in H1. inversion H1.
    assert (q < length i) by (apply nth_error_Some; congruence).
    rewrite nth_error_nth' with (d := 0) in H2 by (now rewrite seq_length).
    rewrite seq_nth in H2 by assumption. inversion H2. subst. simpl.
    exists k, n. repeat split; auto; lia.
  - intros (k & n & Hk & Hp & ->). exists k. split; [apply in_seq; lia|].
    eapply nth_error_In with (n := p). apply nth_error_combine.
    assert (p < length i) by (apply nth_error_Some; congruence). split.
    + now rewrite nth_error_map, Hp.
    + rewrite nth_error_nth' with (d := 0) by (now rewrite seq_length).
      now rewrite seq_nth.
Qed.

Lemma combine_app {A B} (l1 l2 : list A) (m1 m2 : list B) :
  length l1 = length m1 -> combine (l1 ++ l2) (m1 ++ m2) = combine l1 m1 ++ combine l2 m2.
Proof.
  revert m1. induction l1 as [|x l1 IH]; intros [|y m1] H; simpl in *; try discriminate; auto.
  f_equal. apply IH. lia.
Qed.

Lemma skipn_skipn_add {A} a b (l : list A) : skipn a (skipn b l) = skipn (b + a) l.
Proof.
  revert l. induction b as [|b IH]; intros l; simpl; auto.
  destruct l; [now rewrite skipn_nil|]. apply IH.
Qed.

Lemma seq_shift_add a n k : map (fun x => x + k) (seq a n) = seq (a + k) n.
Proof. revert a. induction n as [|n IH]; intros a; simpl; auto. now rewrite IH. Qed.

(* -------------------------------------------------------------- slice case *)
Lemma all_indices_slice_pairs start stop total dim :
  start <= stop ->
  Forall matching (all_indices_slice start stop total dim) /\
  flat_map slice_pairs (all_indices_slice start stop total dim) =
  all_pairs (seq start (stop - start)) total dim.
Proof.
  intros H. unfold all_indices_slice, all_pairs. split.
  - apply Forall_forall. intros s Hs. apply in_map_iff in Hs. destruct Hs as [d [<- _]].
    simpl. lia.
  - rewrite flat_map_concat_map, flat_map_concat_map. f_equal. rewrite map_map.
    apply map_ext. intros d. simpl. rewrite seq_length, Nat.sub_0_r, seq_shift_add.
    f_equal. f_equal. lia.
Qed.

(* -------------------------------------------------------------- array case *)
Section Runs.
  Variable i : list nat.

  Definition breaks (p : nat) : bool := negb (nth p i 0 =? S (nth (p - 1) i 0)).

  (* inside a stretch without breaks the entries are consecutive *)
  Lemma run_seq b len :
    b + len <= length i -> 0 < len ->
    (forall p, b < p -> p < b + len -> breaks p = false) ->
    firstn len (skipn b i) = seq (nth b i 0) len /\ nth (b + len - 1) i 0 + 1 = nth b i 0 + len.
  Proof.
    intros Hb Hl HB.
    assert (E : forall k, k < len -> nth (b + k) i 0 = nth b i 0 + k).
    { induction k as [|k IH]; intros Hk; [rewrite !Nat.add_0_r; lia|].
      assert (B : breaks (b + S k) = false) by (apply HB; lia). unfold breaks in B.
      apply negb_false_iff, Nat.eqb_eq in B. rewrite B.
      replace (b + S k - 1) with (b + k) by lia. rewrite IH by lia. lia. }
    split.
    - apply nth_ext with (d := 0) (d' := 0).
      + rewrite seq_length, firstn_length_le; auto. rewrite skipn_length. lia.
      + intros k Hk. rewrite firstn_length_le in Hk by (rewrite skipn_length; lia).
        rewrite seq_nth by assumption.
        rewrite <- E by assumption.
        rewrite <- (firstn_skipn b i) at 2. rewrite app_nth2; rewrite firstn_length_le by lia; [|lia].
        replace (b + k - b) with k by lia.
        rewrite <- (firstn_skipn len (skipn b i)) at 2. rewrite app_nth1; auto.
        rewrite firstn_length_le; auto. rewrite skipn_length. lia.
    - replace (b + len - 1) with (b + (len - 1)) by lia. rewrite E by lia. lia.
  Qed.

  (* consecutive break points *)
  Inductive cuts : nat -> list nat -> Prop :=
  | cuts_last : forall b, b < length i ->
      (forall p, b < p -> p < length i -> breaks p = false) -> cuts b [length i]
  | cuts_cons : forall b c l, b < c -> c < length i ->
      (forall p, b < p -> p < c -> breaks p = false) -> cuts c l -> cuts b (c :: l).

  Lemma filter_cuts b len : b + S len = length i ->
    cuts b (filter breaks (seq (S b) len) ++ [length i]).
  Proof.
    intros Hb.
    assert (G : forall m a, b <= a -> a + S m = length i ->
              (forall p, b < p -> p <= a -> breaks p = false) ->
              cuts b (filter breaks (seq (S a) m) ++ [length i])).
    { clear Hb len. intros m. revert b. induction m as [|m IH]; intros b a Hba Ha HB; simpl.
      - apply cuts_last; [lia|]. intros p Hp1 Hp2. apply HB; lia.
      - destruct (breaks (S a)) eqn:E.
        + simpl. apply cuts_cons; try lia.
          * intros p H1 H2. apply HB; lia.
          * apply IH; try lia.
        + apply IH; try lia. intros p H1 H2. destruct (Nat.eq_dec p (S a)); [now subst|].
          apply HB; lia. }
    apply G; auto. intros; lia.
  Qed.

  Definition starts_of l := map (fun p => nth p i 0) (removelast l).
  Definition stops_of l := map (fun p => nth (p - 1) i 0 + 1) (tl l).

  Lemma cuts_nonempty b l : cuts b l -> l <> [].
  Proof. intros H; inversion H; discriminate. Qed.

  Lemma combine_starts b c l : l <> [] ->
    combine (starts_of (b :: c :: l)) (stops_of (b :: c :: l)) =
    (nth b i 0, nth (c - 1) i 0 + 1) :: combine (starts_of (c :: l)) (stops_of (c :: l)).
  Proof. destruct l; [congruence|]. reflexivity. Qed.

  Lemma emit_cuts shift b l : cuts b l ->
    let out := emit_runs b shift (combine (starts_of (b :: l)) (stops_of (b :: l))) in
    Forall matching out /\
    flat_map slice_pairs out =
    combine (map (fun n => n + shift) (skipn b i)) (seq b (length i - b)).
  Proof.
    intros H. induction H as [b Hb HB|b c l Hbc Hc HB Hcut IH]; cbv zeta in *.
    - destruct (run_seq b (length i - b)) as [E1 E2]; [lia|lia| intros; apply HB; lia|].
      replace (b + (length i - b) - 1) with (length i - 1) in E2 by lia.
      assert (ES : skipn b i = seq (nth b i 0) (length i - b)).
      { rewrite <- E1. rewrite firstn_all2; auto. rewrite skipn_length. lia. }
      simpl. split.
      + constructor; [|constructor]. simpl. lia.
      + rewrite app_nil_r, ES, seq_shift_add. f_equal; f_equal; lia.
    - destruct (run_seq b (c - b)) as [E1 E2]; [lia|lia| intros; apply HB; lia|].
      replace (b + (c - b) - 1) with (c - 1) in E2 by lia.
      rewrite (combine_starts b c l (cuts_nonempty _ _ Hcut)).
      cbn [emit_runs].
      replace (b + (nth (c - 1) i 0 + 1) - nth b i 0) with c by lia.
      destruct IH as [IH1 IH2]. split.
      + constructor; [simpl; lia|exact IH1].
      + cbn [flat_map]. rewrite IH2. unfold slice_pairs.
        replace (skipn b i) with (seq (nth b i 0) (c - b) ++ skipn c i).
        2:{ rewrite <- E1. rewrite <- (firstn_skipn (c - b) (skipn b i)) at 2. f_equal.
            rewrite skipn_skipn_add. f_equal. lia. }
        replace (length i - b) with ((c - b) + (length i - c)) by lia.
        rewrite seq_app, map_app, seq_shift_add.
        rewrite combine_app by (now rewrite !seq_length).
        replace (b + (c - b)) with c by lia. f_equal.
        f_equal. f_equal. lia.
  Qed.

  Lemma all_indices_array_pairs total dim : i <> [] ->
    exists out, all_indices_array i total dim = Ok out /\
      Forall matching out /\ flat_map slice_pairs out = all_pairs i total dim.
  Proof.
    intros NE.
    assert (HL : 0 < length i) by (destruct i; [congruence|simpl; lia]).
    exists (flat_map (fun d => emit_runs 0 (d * total) (combine (run_starts i) (run_stops i)))
              (seq 0 dim)).
    split; [destruct i; [congruence|reflexivity]|].
    assert (HC : cuts 0 (filter breaks (seq 1 (length i - 1)) ++ [length i])).
    { apply filter_cuts. lia. }
    split.
    - apply Forall_forall. intros s Hs0. apply in_flat_map in Hs0. destruct Hs0 as [d [_ Hd]].
      pose proof (proj1 (emit_cuts (d * total) 0 _ HC)) as F. rewrite Forall_forall in F.
      apply F. exact Hd.
    - unfold all_pairs. rewrite !flat_map_concat_map, concat_map, map_map.
      induction (seq 0 dim) as [|d l IH]; simpl; auto.
      rewrite concat_app, IH. f_equal.
      pose proof (proj2 (emit_cuts (d * total) 0 _ HC)) as F.
      rewrite Nat.sub_0_r in F. rewrite <- flat_map_concat_map. exact F.
  Qed.
End Runs.

Lemma all_pairs_NoDup i N dim :
  NoDup i -> Forall (fun n => n < N) i -> NoDup (map fst (all_pairs i N dim)).
Proof.
  intros ND HF.
  assert (E : map fst (all_pairs i N dim) =
              flat_map (fun k => map (fun n => n + k * N) i) (seq 0 dim)).
  { unfold all_pairs. rewrite !flat_map_concat_map, concat_map, map_map. f_equal.
    apply map_ext. intros k.
    assert (G : forall (l : list nat) a, map fst (combine l (seq a (length l))) = l).
    { clear. induction l; intros; simpl; auto. now rewrite IHl. }
    specialize (G (map (fun n => n + k * N) i) 0). now rewrite map_length in G. }
  rewrite E. clear E. rewrite Forall_forall in HF.
  assert (G : forall m a, NoDup (flat_map (fun k => map (fun n => n + k * N) i) (seq a m)) ).
  { induction m as [|m IH]; intros a; simpl; [constructor|].
    assert (D : forall x, In x (map (fun n => n + a * N) i) ->
                ~ In x (flat_map (fun k => map (fun n => n + k * N) i) (seq (S a) m))).
    { intros x H1 H2. apply in_map_iff in H1. destruct H1 as [n [<- Hn]].
      apply in_flat_map in H2. destruct H2 as [k [Hk H2]]. apply in_map_iff in H2.
      destruct H2 as [n' [E Hn']]. apply in_seq in Hk.
      pose proof (HF n Hn). pose proof (HF n' Hn'). nia. }
    assert (N1 : NoDup (map (fun n => n + a * N) i)).
    { apply FinFun.Injective_map_NoDup; auto. intros x y; lia. }
    revert N1 D. generalize (map (fun n => n + a * N) i). specialize (IH (S a)).
    induction l as [|x l IHl]; intros N1 D; simpl; auto.
    inversion N1; subst. constructor.
    - rewrite in_app_iff. intros [C|C]; [contradiction|]. apply (D x); simpl; auto.
    - apply IHl; auto. intros y Hy. apply D. simpl; auto. }
  apply G.
Qed.

Lemma dof_slices_array (idx : list nat) (N dim : nat) : idx <> [] ->
  exists out, all_indices_array idx N dim = Ok out /\
    Forall matching out /\
    (forall dof p, In (dof, p) (flat_map slice_pairs out) <-> boundary_dof idx N dim dof p) /\
    (NoDup idx -> Forall (fun n => n < N) idx -> NoDup (map fst (flat_map slice_pairs out))).
Proof.
  intros H. destruct (all_indices_array_pairs idx N dim H) as (out & E & M & F).
  exists out. rewrite F. split; auto. split; auto. split.
  - intros. apply all_pairs_In.
  - apply all_pairs_NoDup.
Qed.

Lemma dof_slices_slice (start stop N dim : nat) : start <= stop ->
  let out := all_indices_slice start stop N dim in
  Forall matching out /\
  (forall dof p, In (dof, p) (flat_map slice_pairs out) <->
     boundary_dof (seq start (stop - start)) N dim dof p) /\
  (stop <= N -> NoDup (map fst (flat_map slice_pairs out))).
Proof.
  intros H. cbv zeta. destruct (all_indices_slice_pairs start stop N dim H) as [M F].
  rewrite F. split; auto. split.
  - intros. apply all_pairs_In.
  - intros HN. apply all_pairs_NoDup; [apply seq_NoDup|].
    apply Forall_forall. intros n Hn. apply in_seq in Hn. lia.
Qed.
