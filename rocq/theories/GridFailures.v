(* Ways in which the example of 2026 ends early (C116). *)
From Coq Require Import Arith Bool String Ascii Reals Permutation Lia List.
From Verif Require Import GridModel GridSpec GridProofs GridFinal.
Import ListNotations.

Section Early.
  Context {S : Type} (force : bool) (sim : key -> S) (temps : S -> list R) (error : S -> S -> R).
  Variables (order : list key -> list key) (alphas : list string) (ihs : list nat) (grid : list (list key)) (seqs : list (list (option (list key)))) (alpha : string).
  Hypothesis set_order : forall l, Permutation (order l) l.
  Hypothesis all_plain : forall p, asked alphas ihs grid seqs alpha p -> plain (fst p).
  Notation good := (good force sim). Notation afters := (fold_left (after force sim)).
  Notation main := (main force true sim temps error order alphas ihs grid seqs alpha).

  Lemma parts : Forall (fun p => plain (fst p)) (list_prod alphas ihs) /\ Forall (fun p => plain (fst p)) (order (all_params grid seqs)) /\
    Forall (fun p => plain (fst p)) (concat grid) /\ (forall s, In s (sequences (concat seqs)) -> Forall (fun p => plain (fst p)) s).
  Proof.
    assert (C : forall p, In p (concat grid) -> plain (fst p)).
    { intros p I. apply all_plain. right. left. apply in_concat in I. exact I. }
    assert (Q : forall s p, In s (sequences (concat seqs)) -> In p s -> plain (fst p)).
    { intros s p I J. apply all_plain. right. right. left. apply sequences_in in I. destruct I as (row & I & K). exists row, s. tauto. }
    repeat split; [| | |intros s I]; apply Forall_forall; intros p I'.
    - destruct p as [a n]. apply all_plain. left. apply in_prod_iff in I'. exact I'.
    - apply (Permutation_in p (set_order _)) in I'. apply (params_in sim temps error) in I'. destruct I' as [I'|(s & I & J)]; [apply C; exact I'|apply (Q s); assumption].
    - apply C. exact I'.
    - apply (Q s); assumption.
  Qed.

  Lemma main_start d : good d -> exists d2, good d2 /\ main d =
    andthen (draw_temperature_grid force true sim temps grid d2) (fun panels d => andthen (curves force true sim error (concat seqs) 0 d) (fun cs d => let (d, t) := table force true sim error alpha ihs d in (d, Done (panels, cs, t)))).
  Proof.
    intros G. destruct parts as (P1 & P2 & P3 & P4). unfold GridModel.main.
    rewrite ensure_eq by assumption. cbn [andthen]. set (d1 := afters (list_prod alphas ihs) d).
    assert (G1 : good d1) by (apply afters_good; assumption). rewrite (made d1 (proj1 G1)).
    rewrite ensure_eq by assumption. cbn [andthen]. set (d2 := afters (order _) d1). exists d2. split; [apply afters_good; assumption|reflexivity].
  Qed.

  Lemma scan_fails a p b : Forall (fun p => plain (fst p)) (a ++ p :: b) -> (forall q, In q a -> temps (sim q) <> []) -> temps (sim p) = [] ->
    forall lo hi d, good d -> exists d', scan force true sim temps (a ++ p :: b) lo hi d = (d', Failed NoValue).
  Proof.
    induction a as [|q a IH]; intros P N E lo hi d G; inversion P as [|? ? P1 P2]; subst; cbn [app scan]; rewrite loaded by assumption; cbn [andthen].
    - rewrite E. eexists. reflexivity.
    - destruct (temps (sim q)) as [|t ts] eqn:Q; [elim (N q (or_introl eq_refl) Q)|]. apply IH; [exact P2|intros r I; apply N; right; exact I|exact E|apply after_good; assumption].
  Qed.
  Lemma no_values a p b d : good d -> concat grid = a ++ p :: b -> (forall q, In q a -> temps (sim q) <> []) -> temps (sim p) = [] -> exists d', main d = (d', Failed NoValue).
  Proof.
    intros G C N E. destruct (main_start d G) as (d2 & G2 & ->). destruct parts as (_ & _ & P3 & _). unfold draw_temperature_grid. unfold key in *. rewrite C in *.
    destruct (scan_fails a p b P3 N E None None d2 G2) as (d' & X). unfold key in *. rewrite X. eexists. reflexivity.
  Qed.

  Hypothesis have_values : forall p, In p (concat grid) -> temps (sim p) <> [].
  Hypothesis few : List.length (concat grid) <= 26.
  Lemma grid_done d : good d -> exists d' panels, good d' /\ draw_temperature_grid force true sim temps grid d = (d', Done panels).
  Proof.
    intros G. destruct parts as (_ & _ & P3 & _). unfold draw_temperature_grid. rewrite scan_eq by assumption. cbn [andthen fst snd].
    assert (G' : good (afters (concat grid) d)) by (apply afters_good; assumption).
    match goal with |- context [render _ _ _ _ _ 0 ?lo ?hi ?x] => destruct (render_eq force sim temps (concat grid) 0 lo hi x P3 few G') as (panels & E & _) end.
    rewrite E. eexists. exists panels. split; [|reflexivity]. apply afters_good; assumption.
  Qed.

  Lemma curves_fail a b : (forall s, In s (sequences a) -> s <> [] /\ Forall (fun p => plain (fst p)) s) ->
    forall n d, n + List.length (sequences a) <= 26 -> good d -> exists d', curves force true sim error (a ++ Some [] :: b) n d = (d', Failed NoIndex).
  Proof.
    induction a as [|[s|] a IH]; intros P n d N G; [eexists; reflexivity| |].
    - destruct (P s (or_introl eq_refl)) as (NE & PS). change (sequences (Some s :: a)) with (s :: sequences a) in *. cbn [List.length] in N. cbn [app curves].
      assert (PS' : Forall (fun p => plain (fst p)) (rev s)).
      { rewrite Forall_forall in *. intros p I. apply PS. apply in_rev. exact I. }
      destruct (rev s) as [|f r] eqn:R; [apply (f_equal (@rev key)) in R; rewrite rev_involutive in R; elim (NE R)|]. inversion PS'; subst.
      assert (PB : Forall (fun p => plain (fst p)) (rev r)) by (apply Forall_rev; assumption).
      rewrite loaded by assumption. cbn [andthen]. assert (G1 : good (after force sim d f)) by (apply after_good; assumption).
      rewrite distances_eq by assumption. cbn [andthen]. rewrite letters by lia. cbn [andthen].
      destruct (IH (fun t I => P t (or_intror I)) (Datatypes.S n) (afters (rev r) (after force sim d f))) as (d' & E); [lia|apply afters_good; assumption|]. rewrite E. eexists. reflexivity.
    - cbn [app curves]. apply IH; assumption.
  Qed.
  Lemma empty_curve a b d : good d -> concat seqs = a ++ Some [] :: b -> (forall s, In s (sequences a) -> s <> []) -> List.length (sequences a) <= 26 -> exists d', main d = (d', Failed NoIndex).
  Proof.
    intros G C N L. destruct (main_start d G) as (d2 & G2 & ->). destruct (grid_done d2 G2) as (d3 & panels & G3 & ->). cbn [andthen]. destruct parts as (_ & _ & _ & P4).
    unfold key in *. rewrite C in *.
    destruct (curves_fail a b) with (n := 0) (d := d3) as (d' & E); [|exact L|exact G3|unfold key in *; rewrite E; eexists; reflexivity].
    intros s I. split; [apply N; exact I|]. apply P4. unfold sequences in *. rewrite flat_map_app. apply in_or_app. left. exact I.
  Qed.
End Early.

Section Nothing.
  Context {S : Type} (force : bool) (sim : key -> S) (temps : S -> list R) (error : S -> S -> R).
  Lemma no_sizes order alphas grid seqs alpha d : (forall l, Permutation (order l) l) -> (forall p, asked alphas [] grid seqs alpha p -> plain (fst p)) ->
    (forall p, In p (concat grid) -> temps (sim p) <> []) -> List.length (concat grid) <= 26 -> List.length (sequences (concat seqs)) <= 26 ->
    (forall s, In s (sequences (concat seqs)) -> s <> []) -> there d = true -> force = true \/ honest sim d ->
    exists d' panels cs, main force true sim temps error order alphas [] grid seqs alpha d = (d', Done (panels, cs, Failed NoValue)).
  Proof.
    intros O P V F L N T H. destruct (main_start force sim temps error order alphas [] grid seqs alpha O P d (conj T H)) as (d2 & G2 & ->).
    destruct (grid_done force sim temps error order alphas [] grid seqs alpha O P V F d2 G2) as (d3 & panels & G3 & ->). cbn [andthen].
    destruct (parts sim temps error order alphas [] grid seqs alpha O P) as (_ & _ & _ & P4).
    destruct (curves_eq force sim error (concat seqs) 0 d3) as (cs & E & _); [intros s I; split; [apply N; exact I|apply P4; exact I]|exact L|exact G3|].
    rewrite E. cbn [andthen table]. eexists. exists panels, cs. reflexivity.
  Qed.
End Nothing.
