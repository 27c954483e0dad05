(* Results kept in files: the wave runner and the surveys of methods and forces. *)
From Coq Require Import List Arith Bool Lia.
From Verif Require Import ResultsModel ResultsSpec ResultsProofs.
Import ListNotations.

Lemma save_all_at {S} (states : list S) : forall f n k, save_all f n states k = if Nat.ltb k n then f k else match nth_error states (k - n) with Some s => Some s | None => f k end.
Proof.
  induction states as [|s states IH]; intros f n k; cbn [save_all].
  - destruct (Nat.ltb k n); [reflexivity|]. destruct (k - n); reflexivity.
  - rewrite IH. unfold put. destruct (Nat.ltb k (n + 1)) eqn:E1; destruct (Nat.ltb k n) eqn:E2; destruct (Nat.eq_dec n k) as [->|N];
      repeat match goal with H : Nat.ltb _ _ = true |- _ => apply Nat.ltb_lt in H | H : Nat.ltb _ _ = false |- _ => apply Nat.ltb_ge in H end; try lia.
    + reflexivity.
    + rewrite Nat.sub_diag. reflexivity.
    + replace (k - n) with (Datatypes.S (k - (n + 1))) by lia. reflexivity.
Qed.
Lemma save_all_index {S} (states : list S) f k : save_all f 0 states k = match nth_error states k with Some s => Some s | None => f k end.
Proof. rewrite save_all_at. cbn. rewrite Nat.sub_0_r. reflexivity. Qed.

Definition called {S} (run : nat -> list S) (f f' : files nat S) : Prop := exists force steps l, wave_runner run force steps f = Good (l, f').

Lemma few_files {S} (run : nat -> list S) f : (forall n, length (run n) <= 4) -> reached (fun _ => None) (called run) f -> forall k, 4 <= k -> f k = None.
Proof.
  intros L H k K. induction H as [|f f' R IH (force & steps & l & C)]; [reflexivity|]. unfold wave_runner in C. destruct (_ || _).
  - injection C as _ <-. rewrite save_all_index. rewrite (proj2 (nth_error_None (run steps) k)) by (specialize (L steps); lia). exact IH.
  - destruct (load_all f (quarters steps)); [|discriminate]. injection C as _ <-. exact IH.
Qed.
Lemma runner_again {S} (run : nat -> list S) f force steps : (forall n, length (run n) <= 4) -> reached (fun _ => None) (called run) f -> 4 <= steps ->
  exists f', wave_runner run force steps f = Good (run steps, f') /\ forall k, f' k = match nth_error (run steps) k with Some s => Some s | None => f k end.
Proof.
  intros L R G. exists (save_all f 0 (run steps)). split; [|intros k; apply save_all_index]. unfold wave_runner, quarters. cbn [forallb]. unfold present at 4.
  rewrite (few_files run f L R steps G). rewrite !andb_false_r. cbn [negb]. rewrite orb_true_r. reflexivity.
Qed.
Lemma runner_stale {S} (run : nat -> list S) f force steps l f' : wave_runner run force steps f = Good (l, f') -> l = run steps -> f' = save_all f 0 (run steps) -> length (run steps) = 4 ->
  wave_runner run false 3 f' = Good (run steps, f').
Proof.
  intros _ _ -> L. destruct (run steps) as [|a [|b [|c [|d [|]]]]]; try discriminate L. reflexivity.
Qed.
Lemma runner_total {S} (run : nat -> list S) f force steps : exists l f', wave_runner run force steps f = Good (l, f').
Proof.
  unfold wave_runner. destruct (forallb (present f) (quarters steps)) eqn:E; [|rewrite orb_true_r; eauto]. destruct force; cbn [orb negb]; [eauto|].
  destruct (load_all_there f (quarters steps)) as (r & -> & _); [|eauto]. apply Forall_forall. intros k I. rewrite forallb_forall in E. specialize (E k I).
  unfold present in E. destruct (f k); [discriminate|discriminate E].
Qed.

Section Survey.
  Context {M F L S V : Type} (mdec : forall a b : M, {a = b} + {a <> b}) (fdec : forall a b : F, {a = b} + {a <> b})
    (kdec : forall a b : M * L, {a = b} + {a <> b}).
  Variables (label : F -> L) (solve : M -> F -> option S -> S) (loss : S -> V) (keeps : M -> bool).
  Notation loop := (survey_loop mdec fdec kdec label solve loss keeps).

  Lemma record_same (t : @table M F V) m f v : record mdec fdec t m f v m f = Some v.
  Proof. unfold record. destruct (mdec m m), (fdec f f); try contradiction. reflexivity. Qed.
  Lemma record_other (t : @table M F V) m f v m' f' : (m, f) <> (m', f') -> record mdec fdec t m f v m' f' = t m' f'.
  Proof. intros N. unfold record. destruct (mdec m m') as [->|], (fdec f f') as [->|]; try reflexivity. contradiction. Qed.

  (* the table holds the pairs done and no others *)
  Lemma loop_table todo : forall prev t d, let '(t', _) := loop todo prev t d in forall m f, (t' m f <> None <-> In (m, f) todo \/ t m f <> None).
  Proof.
    induction todo as [|(m0, f0) todo IH]; intros prev t d; cbn [survey_loop]; [intros m f; cbn; tauto|].
    match goal with |- let '(_, _) := loop todo ?p ?t0 ?d0 in _ => specialize (IH p t0 d0); destruct (loop todo p t0 d0) as (t', d') end.
    intros m f. rewrite IH. cbn [In]. destruct (mdec m0 m) as [->|N]; [destruct (fdec f0 f) as [->|N]|].
    - rewrite record_same. split; [intros _; left; left; reflexivity|intros _; right; discriminate].
    - rewrite record_other by congruence. split; [intros [A|A]; tauto|intros [[A|A]|A]; [congruence|tauto|tauto]].
    - rewrite record_other by congruence. split; [intros [A|A]; tauto|intros [[A|A]|A]; [congruence|tauto|tauto]].
  Qed.

  Definition start_of (prev : option (M * S)) (m : M) : option S :=
    match prev with Some (mtd, s) => if keeps m then if mdec mtd m then Some s else None else None | None => None end.

  Lemma loop_block m fs rest : NoDup fs -> distinct_names label fs -> forall prev t d, exists prev' t1 d1,
    loop (map (pair m) fs ++ rest) prev t d = loop rest prev' t1 d1 /\ (prev' = prev \/ exists s, prev' = Some (m, s)) /\
    (forall f s, In (f, s) (combine fs (chain (solve m) (keeps m) (start_of prev m) fs)) -> t1 m f = Some (loss s) /\ d1 (m, label f) = Some s) /\
    (forall m' f, m' <> m \/ ~ In f fs -> t1 m' f = t m' f) /\ (forall k, fst k <> m \/ ~ In (snd k) (map label fs) -> d1 k = d k).
  Proof.
    intros ND DN. revert DN. induction fs as [|f0 fs IH]; intros DN prev t d; cbn [map app survey_loop chain combine].
    - exists prev, t, d. repeat split; auto; intros; contradiction.
    - inversion ND as [|? ? N1 N2]; subst. assert (DN2 : distinct_names label fs) by (intros a b A B; apply DN; right; assumption).
      fold (start_of prev m). set (s0 := solve m f0 (start_of prev m)).
      destruct (IH N2 DN2 (Some (m, s0)) (record mdec fdec t m f0 (loss s0)) (put kdec d (m, label f0) s0)) as (p & t1 & d1 & E & P & H & H1 & H2).
      assert (LN : ~ In (label f0) (map label fs)).
      { intros I. apply in_map_iff in I. destruct I as (f1 & Q & I). apply N1. rewrite <- (DN f1 f0 (or_intror I) (or_introl eq_refl) Q). exact I. }
      exists p, t1, d1. split; [exact E|]. split; [right; destruct P as [->|P]; [eauto|exact P]|]. split; [|split].
      + intros f s [Q|Q].
        * injection Q as <- <-. rewrite H1 by (right; exact N1). rewrite H2 by (right; exact LN). rewrite record_same, put_same. auto.
        * apply H. replace (start_of (Some (m, s0)) m) with (if keeps m then Some s0 else None); [exact Q|]. unfold start_of. destruct (keeps m); [|reflexivity]. destruct (mdec m m); [reflexivity|contradiction].
      + intros m' f Q. rewrite H1; [apply record_other; intros X; injection X as <- <-; destruct Q as [Q|Q]; apply Q; cbn; auto|]. destruct Q as [Q|Q]; [left; exact Q|right; intros I; apply Q; right; exact I].
      + intros k Q. rewrite H2; [apply put_other; intros <-; cbn in Q; destruct Q as [Q|Q]; apply Q; cbn; auto|]. destruct Q as [Q|Q]; [left; exact Q|right; intros I; apply Q; right; exact I].
  Qed.

  Lemma loop_all fs : NoDup fs -> distinct_names label fs -> forall ms, NoDup ms -> forall prev t d, (forall m s, prev = Some (m, s) -> ~ In m ms) ->
    let '(t', d') := loop (list_prod ms fs) prev t d in
    (forall m f s, In m ms -> In (f, s) (combine fs (chain (solve m) (keeps m) None fs)) -> t' m f = Some (loss s) /\ d' (m, label f) = Some s) /\
    (forall m f, ~ In m ms -> t' m f = t m f) /\ (forall k, ~ In (fst k) ms -> d' k = d k).
  Proof.
    intros NF DN. induction ms as [|m ms IH]; intros NM prev t d PV; cbn [list_prod]; [cbn [survey_loop]; repeat split; auto; intros; contradiction|].
    inversion NM as [|? ? N1 N2]; subst.
    destruct (loop_block m fs (list_prod ms fs) NF DN prev t d) as (p & t1 & d1 & E & P & H & H1 & H2). change (fun y => (m, y)) with (pair (B := F) m). rewrite E.
    assert (PV' : forall m0 s, p = Some (m0, s) -> ~ In m0 ms).
    { intros m0 s Q I. destruct P as [->|(s' & ->)]; [apply (PV m0 s Q); right; exact I|]. injection Q as <- _. contradiction. }
    assert (G : start_of prev m = None).
    { unfold start_of. destruct prev as [(m0, s)|]; [|reflexivity]. destruct (keeps m); [|reflexivity]. destruct (mdec m0 m) as [->|]; [|reflexivity]. exfalso. apply (PV m s eq_refl). left. reflexivity. }
    rewrite G in H. specialize (IH N2 p t1 d1 PV'). destruct (loop (list_prod ms fs) p t1 d1) as (t', d'). destruct IH as (A & B & C). split; [|split].
    - intros m' f s [<-|I] Q; [|exact (A m' f s I Q)]. rewrite (B m f N1), (C (m, label f) N1). exact (H f s Q).
    - intros m' f N. rewrite B; [apply H1; left; intros ->; apply N; left; reflexivity|intros I; apply N; right; exact I].
    - intros k N. rewrite C; [apply H2; left; intros Q; apply N; left; symmetry; exact Q|intros I; apply N; right; exact I].
  Qed.

  Notation survey := (survey mdec fdec kdec label solve loss keeps).

  Lemma chain_length (sol : F -> option S -> S) keep : forall fs g, length (chain sol keep g fs) = length fs.
  Proof. induction fs as [|f fs IH]; intros g; cbn; [reflexivity|]. rewrite IH. reflexivity. Qed.

  Lemma survey_forced methods forces kept d : NoDup methods -> NoDup forces -> distinct_names label forces -> methods <> [] -> forces <> [] ->
    exists t d', survey true methods forces kept d = (Some t, d') /\
      (forall m f s, In m methods -> In (f, s) (combine forces (chain (solve m) (keeps m) None forces)) -> t m f = Some (loss s) /\ d' (m, label f) = Some s) /\
      (forall m f, t m f <> None <-> In m methods /\ In f forces).
  Proof.
    intros NM NF DN EM EF. unfold ResultsModel.survey, survey_todo. assert (A := loop_all forces NF DN methods NM None (fun _ _ => None) d ltac:(discriminate)).
    assert (T := loop_table (list_prod methods forces) None (fun _ _ => None) d).
    assert (W : exists p l, list_prod methods forces = p :: l).
    { destruct methods as [|m ms]; [contradiction|]. destruct forces as [|f fs]; [contradiction|]. cbn [list_prod map app]. eauto. }
    destruct W as (p & l & W). assert (IP : forall m f, In (m, f) (p :: l) <-> In m methods /\ In f forces) by (intros; rewrite <- W; apply in_prod_iff).
    rewrite W in *. destruct (loop (p :: l) None (fun _ _ => None) d) as (t, d') eqn:R. destruct A as (A & _ & _). exists t, d'. split; [reflexivity|]. split; [exact A|].
    intros m f. rewrite T, IP. tauto.
  Qed.
  (* resumed *)
  Lemma survey_resumed methods forces kept d m0 f0 : In m0 methods -> In f0 forces -> d (m0, label f0) = None ->
    exists t d', survey false methods forces kept d = (Some t, d') /\ (forall m f, t m f <> None <-> In m methods /\ In f forces /\ d (m, label f) = None).
  Proof.
    intros IM IF Z. unfold ResultsModel.survey, survey_todo. set (todo := filter _ _).
    assert (IT : forall m f, In (m, f) todo <-> In m methods /\ In f forces /\ d (m, label f) = None).
    { intros m f. unfold todo. rewrite filter_In, in_prod_iff. cbn [fst snd]. unfold present. destruct (d (m, label f)); cbn; split; intros; intuition discriminate. }
    assert (T := loop_table todo None (fun _ _ => None) d). assert (I0 : In (m0, f0) todo) by (apply IT; auto).
    clearbody todo. destruct todo as [|p todo']; [destruct I0|]. destruct (loop (p :: todo') None (fun _ _ => None) d) as (t, d'). exists t, d'. split; [reflexivity|].
    intros m f. rewrite T, IT. tauto.
  Qed.
  Lemma survey_nothing methods forces kept d : (forall m f, In m methods -> In f forces -> d (m, label f) <> None) -> survey false methods forces kept d = (kept, d).
  Proof.
    intros H. unfold ResultsModel.survey, survey_todo. destruct (filter _ _) as [|p l] eqn:E; [reflexivity|]. exfalso.
    assert (I : In p (p :: l)) by (left; reflexivity). rewrite <- E, filter_In in I. destruct p as (m, f). rewrite in_prod_iff in I. cbn [fst snd] in I. unfold present in I.
    specialize (H m f). destruct (d (m, label f)); [destruct I as (_ & X); discriminate X|]. apply H; tauto.
  Qed.
End Survey.
