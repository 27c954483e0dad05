(* The whole run of the example of 2026 (C116). *)
From Coq Require Import Arith Bool String Ascii Reals Permutation Lia Lra List.
From Verif Require Import GridModel GridSpec GridProofs.
Import ListNotations.

Lemma max_in l : forall a, (fold_left Nat.max l a = a \/ In (fold_left Nat.max l a) l) /\ a <= fold_left Nat.max l a /\ forall x, In x l -> x <= fold_left Nat.max l a.
Proof.
  induction l as [|b l IH]; intros a; [cbn; intuition lia|]. cbn [fold_left]. destruct (IH (Nat.max a b)) as (I & L & A). split; [|split; [lia|intros x [<-|X]; [lia|apply A; exact X]]].
  destruct I as [E|I]; [|right; right; exact I]. rewrite E. destruct (Nat.max_spec a b) as [[_ ->]|[_ ->]]; [right; left; reflexivity|left; reflexivity].
Qed.

Section Run.
  Context {S : Type} (force : bool) (sim : key -> S) (temps : S -> list R) (error : S -> S -> R).
  Variables (order : list key -> list key) (alphas : list string) (ihs : list nat) (grid : list (list key)) (seqs : list (list (option (list key)))) (alpha : string).
  Notation asked := (asked alphas ihs grid seqs alpha).
  Definition finest : nat := match ihs with [] => 0 | i :: r => fold_left Nat.max r i end.
  Definition requests : list key := list_prod alphas ihs ++ order (all_params grid seqs) ++ concat grid ++ concat grid ++
    flat_map seq_requests (sequences (concat seqs)) ++ ("inf"%string, finest) :: row_requests alpha ihs.

  Hypothesis set_order : forall l, Permutation (order l) l.
  Hypothesis some_size : ihs <> [].

  Lemma sequences_in s : In s (sequences (concat seqs)) <-> exists row, In row seqs /\ In (Some s) row.
  Proof.
    unfold sequences. rewrite in_flat_map. split.
    - intros ([t|] & I & H); [|destruct H]. destruct H as [->|[]]. apply in_concat in I. exact I.
    - intros (row & I & J). exists (Some s). split; [apply in_concat; exists row; tauto|left; reflexivity].
  Qed.
  Lemma params_in p : In p (all_params grid seqs) <-> In p (concat grid) \/ exists s, In s (sequences (concat seqs)) /\ In p s.
  Proof.
    unfold all_params. rewrite nodup_In, in_app_iff. apply or_iff_compat_l. rewrite in_concat. split.
    - intros (l & L & P). apply in_map_iff in L. destruct L as ([s|] & <- & L); [|destruct P]. exists s. split; [|exact P]. apply in_flat_map. exists (Some s). split; [exact L|left; reflexivity].
    - intros (s & L & P). exists s. split; [|exact P]. apply in_flat_map in L. destruct L as ([t|] & L & H); [|destruct H]. destruct H as [->|[]]. apply in_map_iff. exists (Some s). tauto.
  Qed.
  Lemma finest_in : In finest ihs /\ forall x, In x ihs -> x <= finest.
  Proof.
    unfold finest. destruct ihs as [|i r]; [congruence|]. destruct (max_in r i) as (I & L & A). split.
    - destruct I as [->|I]; [left; reflexivity|right; exact I].
    - intros x [<-|X]; [exact L|apply A; exact X].
  Qed.
  Lemma row_in p : In p (row_requests alpha ihs) <-> (fst p = "inf"%string \/ fst p = alpha) /\ In (snd p) ihs.
  Proof.
    unfold row_requests. rewrite in_flat_map. split.
    - intros (x & X & [<-|[<-|[]]]); cbn; tauto.
    - destruct p as [a n]. cbn. intros ([->| ->] & X); exists n; split; try exact X; [left|right; left]; reflexivity.
  Qed.
  Lemma requests_in p : In p requests <-> asked p.
  Proof.
    assert (O : In p (order (all_params grid seqs)) <-> In p (all_params grid seqs))
      by (split; apply Permutation_in; [|apply Permutation_sym]; apply set_order).
    assert (Q : In p (flat_map seq_requests (sequences (concat seqs))) <-> exists s, In s (sequences (concat seqs)) /\ In p s)
      by (rewrite in_flat_map; split; intros (s & I & J); exists s; split; auto using seq_in, in_seq).
    assert (S' : (exists s, In s (sequences (concat seqs)) /\ In p s) <-> exists row seq, In row seqs /\ In (Some seq) row /\ In p seq).
    { split.
      - intros (s & I & J). apply sequences_in in I. destruct I as (row & I & K). exists row, s. tauto.
      - intros (row & s & I & J & K). exists s. split; [apply sequences_in; exists row; tauto|exact K]. }
    assert (C : In p (concat grid) <-> exists row, In row grid /\ In p row) by apply in_concat.
    assert (LP : In p (list_prod alphas ihs) <-> In (fst p) alphas /\ In (snd p) ihs) by (destruct p; apply in_prod_iff).
    unfold requests, GridSpec.asked. rewrite !in_app_iff. cbn [In]. rewrite O, Q, params_in, S', C, row_in, LP. clear O Q S' C LP. destruct p as [a n]. cbn [fst snd].
    pose proof (proj1 finest_in) as FI. split.
    - intros [H|[[H|H]|[H|[H|[H|[H|H]]]]]]; try tauto. injection H as <- <-. tauto.
    - tauto.
  Qed.

  Hypothesis all_plain : forall p, asked p -> plain (fst p).
  Lemma requests_plain : Forall (fun p => plain (fst p)) requests.
  Proof. rewrite Forall_forall. intros p H. apply all_plain, requests_in, H. Qed.

  Hypothesis have_values : forall p, In p (concat grid) -> temps (sim p) <> [].
  Hypothesis few_curves : List.length (sequences (concat seqs)) <= 26.
  Hypothesis full_curves : forall s, In s (sequences (concat seqs)) -> s <> [].

  Notation good := (good force sim). Notation afters := (fold_left (after force sim)).

  Lemma plain_parts : Forall (fun p => plain (fst p)) (list_prod alphas ihs) /\ Forall (fun p => plain (fst p)) (order (all_params grid seqs)) /\
    Forall (fun p => plain (fst p)) (concat grid) /\ (forall s, In s (sequences (concat seqs)) -> Forall (fun p => plain (fst p)) s) /\ plain alpha.
  Proof.
    pose proof requests_plain as P. unfold requests in P. rewrite !Forall_app in P. destruct P as (P1 & P2 & P3 & _ & P5 & P6). repeat split; try assumption.
    - intros s I. rewrite Forall_forall in *. intros p J. apply P5, in_flat_map. exists s. split; [exact I|apply in_seq; exact J].
    - destruct ihs as [|i r] eqn:E; [congruence|]. apply (all_plain (alpha, i)). right. right. right. cbn. tauto.
  Qed.

  Lemma main_eq d : List.length (concat grid) <= 26 -> good d -> exists panels cs,
    main force true sim temps error order alphas ihs grid seqs alpha d =
      (afters requests d, Done (panels, cs, Done (map (fun ih => (ih, error (sim ("inf"%string, finest)) (sim ("inf"%string, ih)), error (sim ("inf"%string, finest)) (sim (alpha, ih)))) ihs))) /\
    List.length panels = List.length (concat grid) /\
    (forall i p, nth_error (concat grid) i = Some p -> exists lo hi, nth_error panels i = Some (alphabet i, p, temps (sim p), Some lo, Some hi) /\
      least lo (values sim temps (concat grid)) /\ greatest hi (values sim temps (concat grid))) /\
    List.length cs = List.length (sequences (concat seqs)) /\
    forall i b f, nth_error (sequences (concat seqs)) i = Some (b ++ [f]) -> nth_error cs i = Some (alphabet i, map (fun p => (p, floored error (sim f) (sim p))) b).
  Proof.
    intros FP G. destruct plain_parts as (P1 & P2 & P3 & P4 & P5). unfold main, requests. rewrite !fold_left_app.
    rewrite ensure_eq by assumption. cbn [andthen]. set (d1 := afters (list_prod alphas ihs) d).
    assert (G1 : good d1) by (apply afters_good; assumption). rewrite (made d1 (proj1 G1)).
    rewrite ensure_eq by assumption. cbn [andthen]. set (d2 := afters (order _) d1). assert (G2 : good d2) by (apply afters_good; assumption).
    unfold draw_temperature_grid. rewrite scan_eq by assumption. cbn [andthen fst snd]. set (d3 := afters (concat grid) d2). assert (G3 : good d3) by (apply afters_good; assumption).
    match goal with |- context [render _ _ _ _ _ 0 ?lo ?hi d3] => destruct (render_eq force sim temps (concat grid) 0 lo hi d3 P3 FP G3) as (panels & E & L & A) end.
    rewrite E. cbn [andthen]. set (d4 := afters (concat grid) d3). assert (G4 : good d4) by (apply afters_good; assumption).
    destruct (curves_eq force sim error (concat seqs) 0 d4) as (cs & E' & L' & A'); [intros s I; split; [apply full_curves; exact I|apply P4; exact I]|exact few_curves|exact G4|].
    rewrite E'. cbn [andthen]. set (d5 := afters (flat_map _ _) d4).
    assert (G5 : good d5). { apply afters_good; [|exact G4]. rewrite Forall_forall. intros p I. apply in_flat_map in I. destruct I as (s & I & J). specialize (P4 s I).
      rewrite Forall_forall in P4. apply P4, seq_in, J. }
    exists panels, cs. split; [|split; [exact L|split; [|split; [exact L'|exact A']]]].
    - unfold table, finest. destruct ihs as [|i r] eqn:EI; [congruence|]. rewrite loaded; [|exact plain_inf|exact G5]. cbn [andthen].
      rewrite rows_eq; [reflexivity|exact P5|apply after_good; [exact plain_inf|exact G5]].
    - intros i p I. assert (NV : values sim temps (concat grid) <> []).
      { pose proof (nth_error_In _ _ I) as J. unfold values. intros Z. destruct (temps (sim p)) as [|x l] eqn:T; [elim (have_values p J T)|].
        assert (X : In x (flat_map (fun p => temps (sim p)) (concat grid))) by (apply in_flat_map; exists p; rewrite T; split; [exact J|left; reflexivity]).
        unfold key in *. rewrite Z in X. destruct X. }
      destruct (low_of _ NV) as (lo & EL & LL). destruct (high_of _ NV) as (hi & EH & HH). exists lo, hi. split; [|split; assumption].
      rewrite (A i p I), EL, EH. reflexivity.
  Qed.

  Lemma afters_file ps : forall d p, Forall (fun p => plain (fst p)) ps -> plain (fst p) -> good d -> In p ps \/ file d (state_name p) = Some (sim p) ->
    file (afters ps d) (state_name p) = Some (sim p).
  Proof.
    induction ps as [|q ps IH]; intros d p P PP G H; [destruct H as [[]|H]; exact H|]. inversion P as [|? ? P1 P2]; subst. cbn [fold_left]. apply IH; [exact P2|exact PP|apply after_good; assumption|].
    destruct H as [[->|H]|H]; [right; apply after_file; assumption|left; exact H|right].
    unfold after. destruct (force || negb (exists_ q d)); [|exact H]. cbn [file]. destruct (string_dec _ _) as [E|]; [|exact H]. rewrite (names q p P1 PP E). reflexivity.
  Qed.

  Lemma too_many d : 26 < List.length (concat grid) -> good d ->
    exists d', main force true sim temps error order alphas ihs grid seqs alpha d = (d', Failed NoIndex).
  Proof.
    intros FP G. destruct plain_parts as (P1 & P2 & P3 & P4 & P5). unfold main.
    rewrite ensure_eq by assumption. cbn [andthen]. set (d1 := afters (list_prod alphas ihs) d).
    assert (G1 : good d1) by (apply afters_good; assumption). rewrite (made d1 (proj1 G1)).
    rewrite ensure_eq by assumption. cbn [andthen]. set (d2 := afters (order _) d1). assert (G2 : good d2) by (apply afters_good; assumption).
    unfold draw_temperature_grid. rewrite scan_eq by assumption. cbn [andthen fst snd]. set (d3 := afters (concat grid) d2). assert (G3 : good d3) by (apply afters_good; assumption).
    match goal with |- context [render _ _ _ _ _ 0 ?lo ?hi d3] => destruct (render_fails force sim temps (concat grid) 0 lo hi d3 P3 FP (Nat.le_0_l _) G3) as (d' & E) end.
    rewrite E. eexists. reflexivity.
  Qed.
End Run.

(* the directory is made too late *)
Lemma late {S} force sim temps error order a alphas i ihs grid seqs alpha (d : disk S) : there d = false -> file d (state_name (a, i)) = None ->
  main force true sim temps error order (a :: alphas) (i :: ihs) grid seqs alpha d = (mk_disk false (file d) ((a, i) :: runs d), Failed NoFile).
Proof.
  intros T F. unfold main. cbn [list_prod map app ensure_all]. unfold load_or_simulate at 1, exists_. rewrite F. rewrite orb_true_r. unfold simulate. rewrite T. reflexivity.
Qed.
(* nothing is written without a directory in the configuration *)
Lemma unwritten_ensure {S} force (sim : key -> S) ps : forall d, exists r, ensure_all force false sim ps d = (mk_disk (there d) (file d) r, Done tt).
Proof.
  induction ps as [|p ps IH]; intros d; [exists (runs d); destruct d; reflexivity|]. cbn [ensure_all]. unfold load_or_simulate. destruct (force || negb (exists_ p d)); unfold simulate; cbn [andthen].
  - destruct (IH (mk_disk (there d) (file d) (p :: runs d))) as (r & E). exists r. exact E.
  - apply IH.
Qed.
Lemma unwritten {S} force sim temps error order alphas ihs p row grid seqs alpha (d : disk S) : file d (state_name p) = None ->
  exists d', main force false sim temps error order alphas ihs ((p :: row) :: grid) seqs alpha d = (d', Failed NoFile).
Proof.
  intros F. unfold main. destruct (unwritten_ensure force sim (list_prod alphas ihs) d) as (r & ->). cbn [andthen file runs].
  match goal with |- context [ensure_all _ _ _ ?l ?d] => destruct (unwritten_ensure force sim l d) as (r' & ->) end. cbn [andthen file runs there].
  unfold draw_temperature_grid. cbn [concat app scan]. unfold load, load_or_simulate, exists_. cbn [file]. rewrite F, orb_true_r. unfold simulate. cbn [andthen file]. rewrite F.
  eexists. reflexivity.
Qed.
