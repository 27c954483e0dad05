(* The statements about the example of 2026 (C116). *)
From Coq Require Import Arith Bool String Ascii Reals Permutation Lia Lra List.
From Verif Require Import GridModel GridSpec GridProofs GridFinal.
Import ListNotations.

Section Ready.
  Context {S : Type} (force : bool) (sim : key -> S) (temps : S -> list R) (error : S -> S -> R).
  Variables (order : list key -> list key) (alphas : list string) (ihs : list nat) (grid : list (list key)) (seqs : list (list (option (list key)))) (alpha : string).
  Hypothesis RD : ready sim temps order alphas ihs grid seqs alpha.
  Hypothesis FP : List.length (concat grid) <= 26.
  Notation main := (main force true sim temps error order alphas ihs grid seqs alpha).

  Lemma main_disk d d' r : there d = true -> force = true \/ honest sim d -> main d = (d', r) -> d' = fold_left (after force sim) (requests order alphas ihs grid seqs alpha) d.
  Proof.
    intros T H E. destruct RD as (H1 & H2 & H3 & H4 & H5 & H6).
    destruct (main_eq force sim temps error order alphas ihs grid seqs alpha H1 H2 H3 H4 H5 H6 d FP (conj T H)) as (panels & cs & E' & _). rewrite E' in E. congruence.
  Qed.
  Lemma shown d : there d = true -> force = true \/ honest sim d -> exists d' panels cs finest,
    main d = (d', Done (panels, cs, Done (map (fun ih => (ih, error (sim ("inf"%string, finest)) (sim ("inf"%string, ih)), error (sim ("inf"%string, finest)) (sim (alpha, ih)))) ihs))) /\
    (In finest ihs /\ forall ih, In ih ihs -> ih <= finest) /\
    List.length panels = List.length (concat grid) /\
    (forall i p, nth_error (concat grid) i = Some p -> exists lo hi, nth_error panels i = Some (alphabet i, p, temps (sim p), Some lo, Some hi) /\
      least lo (flat_map (fun p => temps (sim p)) (concat grid)) /\ greatest hi (flat_map (fun p => temps (sim p)) (concat grid))) /\
    List.length cs = List.length (sequences (concat seqs)) /\
    forall i before final, nth_error (sequences (concat seqs)) i = Some (before ++ [final]) ->
      nth_error cs i = Some (alphabet i, map (fun p => (p, Rmax (error (sim final) (sim p)) (/ 10 ^ 16))) before).
  Proof.
    intros T H. destruct RD as (H1 & H2 & H3 & H4 & H5 & H6).
    destruct (main_eq force sim temps error order alphas ihs grid seqs alpha H1 H2 H3 H4 H5 H6 d FP (conj T H)) as (panels & cs & E' & Z).
    exists (fold_left (after force sim) (requests order alphas ihs grid seqs alpha) d), panels, cs, (finest ihs).
    split; [exact E'|]. split; [apply finest_in; exact H2|exact Z].
  Qed.
  Lemma left_behind d d' r p : there d = true -> force = true \/ honest sim d -> main d = (d', r) -> asked alphas ihs grid seqs alpha p -> file d' (state_name p) = Some (sim p).
  Proof.
    intros T H E A. rewrite (main_disk d d' r T H E). destruct RD as (H1 & H2 & H3 & _). apply afters_file.
    - apply (requests_plain sim temps error order alphas ihs grid seqs alpha H1 H2 H3).
    - apply H3. exact A.
    - exact (conj T H).
    - left. apply (requests_in sim temps error order alphas ihs grid seqs alpha H1 H2). exact A.
  Qed.
  Lemma once d d' r : force = false -> there d = true -> honest sim d -> main d = (d', r) ->
    exists new, runs d' = new ++ runs d /\ NoDup new /\ forall p, In p new <-> asked alphas ihs grid seqs alpha p /\ file d (state_name p) = None.
  Proof.
    intros F T H E. rewrite (main_disk d d' r T (or_intror H) E). destruct RD as (H1 & H2 & H3 & _).
    destruct (after_runs force sim temps error (requests order alphas ihs grid seqs alpha) F d (requests_plain sim temps error order alphas ihs grid seqs alpha H1 H2 H3)) as (new & R & N & I).
    exists new. split; [exact R|]. split; [exact N|]. intros p. rewrite I, (requests_in sim temps error order alphas ihs grid seqs alpha H1 H2). reflexivity.
  Qed.
  Lemma again d d1 r1 d2 r2 : force = false -> there d = true -> honest sim d -> main d = (d1, r1) -> main d1 = (d2, r2) -> runs d2 = runs d1.
  Proof.
    intros F T H E1 E2. pose proof RD as (H1 & H2 & H3 & _).
    assert (G : good force sim d1).
    { rewrite (main_disk d d1 r1 T (or_intror H) E1). apply afters_good; [apply (requests_plain sim temps error order alphas ihs grid seqs alpha H1 H2 H3)|]. exact (conj T (or_intror H)). }
    destruct G as (T1 & [X|HO]); [congruence|]. destruct (once d1 d2 r2 F T1 HO E2) as (new & R & _ & I). rewrite R. destruct new as [|p new]; [reflexivity|].
    destruct (proj1 (I p) (or_introl eq_refl)) as (A & N). rewrite (left_behind d d1 r1 p T (or_intror H) E1 A) in N. discriminate.
  Qed.
  Lemma seqs_length l : List.length (flat_map seq_requests l) = list_sum (map (@List.length key) l).
  Proof. induction l as [|s l IH]; [reflexivity|]. cbn [flat_map map list_sum fold_right]. rewrite app_length, seq_length, IH. reflexivity. Qed.
  Lemma rows_length a (l : list nat) : List.length (row_requests a l) = 2 * List.length l.
  Proof. induction l as [|s l IH]; [reflexivity|]. unfold row_requests in *. cbn [flat_map app List.length]. rewrite IH. lia. Qed.
  Lemma forced d d' r : force = true -> there d = true -> main d = (d', r) ->
    List.length (runs d') = List.length (runs d) + (List.length alphas * List.length ihs + List.length (all_params grid seqs) + 2 * List.length (concat grid) +
      list_sum (map (@List.length key) (sequences (concat seqs))) + 1 + 2 * List.length ihs).
  Proof.
    intros F T E. rewrite (main_disk d d' r T (or_introl F) E), (after_runs_force force sim _ F), app_length, rev_length. unfold requests. rewrite !app_length.
    cbn [List.length]. rewrite prod_length, seqs_length, rows_length. destruct RD as (H1 & _). rewrite (Permutation_length (H1 (all_params grid seqs))). lia.
  Qed.
End Ready.

Lemma many {S} force (sim : key -> S) temps error order alphas ihs grid seqs alpha d : ready sim temps order alphas ihs grid seqs alpha -> 26 < List.length (concat grid) ->
  there d = true -> force = true \/ honest sim d -> exists d', main force true sim temps error order alphas ihs grid seqs alpha d = (d', Failed NoIndex).
Proof.
  intros (H1 & H2 & H3 & H4 & H5 & H6) FP T H. apply too_many; auto. exact (conj T H).
Qed.

(* the constants of the example *)
Lemma plain_check a : forallb (fun c => negb (Ascii.eqb c "_"%char)) (list_ascii_of_string a) = true -> plain a.
Proof. intros H I. rewrite forallb_forall in H. specialize (H _ I). cbn in H. discriminate. Qed.
Lemma constants_ready : ready (fun _ => tt) (fun _ => [0%R]) (fun l => l) ALPHAS IHS TEMPERATURE_GRID CONVERGENCE_SEQUENCES "1000000".
Proof.
  split; [reflexivity|]. split; [discriminate|]. split; [|split; [discriminate|split; [vm_compute; repeat constructor|]]].
  - intros p A. assert (I : In (fst p) ALPHAS).
    { destruct A as [(I & _)|[(row & I & J)|[(row & s & I & J & K)|([-> | ->] & _)]]]; [exact I| | |vm_compute; tauto|vm_compute; tauto].
      - vm_compute in I. repeat (destruct I as [<-|I]; [vm_compute in J; repeat (destruct J as [<-|J]; [vm_compute; tauto|]); destruct J|]). destruct I.
      - vm_compute in I. repeat (destruct I as [<-|I]; [vm_compute in J; repeat (destruct J as [J|J]; [try discriminate J; injection J as <-; vm_compute in K; repeat (destruct K as [<-|K]; [vm_compute; tauto|]); destruct K|]); destruct J|]). destruct I. }
    destruct p as [a n]. cbn [fst] in *. clear A. apply plain_check. revert a I. apply Forall_forall. repeat constructor.
  - intros s I. vm_compute in I. repeat (destruct I as [<-|I]; [discriminate|]). destruct I.
Qed.
