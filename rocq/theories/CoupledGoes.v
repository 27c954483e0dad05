(* Coupled drivers end well when the solvers keep an invariant under which they do not raise. *)
From Coq Require Import Reals List Arith ZArith Bool String Lia Lra FunctionalExtensionality.
From Verif Require Import PyModel RVec StateModel TimeModel TimeSpec StateLemmas CopyProofs TimeProofs RunProofs
  HistoryProofs SolveProofs UzawaProofs MarchProofs TimeTheorems CoupledTheorems.
Import ListNotations.
Local Open Scope R_scope.

Section Coupled.
  Context {V W I J : Type}.
  Variables (dimension nodes_count : nat) (nodes : vec).
  Variable thermal : bool.
  Variable iterate : I -> vectors -> R -> R -> result I.
  Variable second_iterate : J -> vectors -> R -> R -> result J.
  Variable update : I -> vec -> vec -> vec -> R -> R -> result I.
  Variable second_update : J -> vec -> vec -> vec -> vec -> R -> result J.
  Variable answer : I -> vec -> vec -> vec -> R -> result (nat * vec).
  Variable second_answer : J -> vec -> vec -> vec -> R -> result (nat * vec).
  Notation size := (dimension * nodes_count)%nat.
  Notation pass := (pass dimension nodes_count update second_update answer second_answer).
  Notation passes := (passes dimension nodes_count update second_update answer second_answer).
  Notation uzawa := (@uzawa V W I J dimension nodes_count update second_update answer second_answer).
  Notation coupled_step := (@coupled_step V W I J dimension nodes_count nodes update second_update answer second_answer).
  Notation coupled_steps := (@coupled_steps V W I J dimension nodes_count nodes update second_update answer second_answer).
  Notation coupled_outputs := (@coupled_outputs V W I J dimension nodes_count nodes update second_update answer second_answer).
  Notation coupled_solve := (@coupled_solve V W I J dimension nodes_count nodes thermal iterate second_iterate update
    second_update answer second_answer).

  Variables (good : I -> Prop) (good2 : J -> Prop) (dt dt2 : R).
  Hypothesis U1 : forall i u v y t, good i -> exists i', update i u v y dt t = Ok i' /\ good i' /\
    forall g v1 u1, exists x, answer i' g v1 u1 dt = Ok (size, x).
  Hypothesis U2 : forall j u v t p, good2 j -> exists j', second_update j u v t p dt2 = Ok j' /\ good2 j' /\
    forall g v2 u2, exists y, second_answer j' g v2 u2 dt2 = Ok (nodes_count, y).
  Hypothesis I1 : forall i x t, good i -> exists i', iterate i x dt t = Ok i' /\ good i'.
  Hypothesis I2 : forall j x t, good2 j -> exists j', second_iterate j x dt2 t = Ok j' /\ good2 j'.

  Lemma pass_goes u v t p (s1 : stepper I) (s2 : stepper J) v1 u1 v2 u2 l : time_step s1 = dt -> time_step s2 = dt2 ->
    good (l_one l) -> good2 (l_two l) ->
    exists l', pass u v t p s1 s2 v1 u1 v2 u2 l = Ok l' /\ good (l_one l') /\ good2 (l_two l').
  Proof.
    intros T1 T2 G1 G2. unfold TimeModel.pass. rewrite T1, T2.
    destruct (U1 (l_one l) u v (l_y l) (current_time s1) G1) as (i & -> & G1' & A). cbn [bind].
    destruct (A (l_x l) v1 u1) as (x & ->). cbn [bind]. unfold TimeModel.size. rewrite Nat.eqb_refl.
    destruct (U2 (l_two l) (fun k => u k + dt * x k) x t p G2) as (j & -> & G2' & B). cbn [bind].
    destruct (B (l_y l) v2 u2) as (y & ->). cbn [bind]. rewrite Nat.eqb_refl. eexists. split; [reflexivity|]. split; assumption.
  Qed.

  Lemma passes_goes fuel : forall u v t p (s1 : stepper I) (s2 : stepper J) v1 u1 v2 u2 l, time_step s1 = dt -> time_step s2 = dt2 ->
    good (l_one l) -> good2 (l_two l) ->
    match passes fuel u v t p s1 s2 v1 u1 v2 u2 l with
    | None => True | Some (Err _) => False | Some (Ok l') => good (l_one l') /\ good2 (l_two l')
    end.
  Proof.
    induction fuel as [|fuel IH]; intros u v t p s1 s2 v1 u1 v2 u2 l T1 T2 G1 G2; cbn [TimeModel.passes];
      (destruct (again l); [|auto]); [exact Logic.I|].
    destruct (pass_goes u v t p s1 s2 v1 u1 v2 u2 l T1 T2 G1 G2) as (l' & -> & G1' & G2'). apply IH; assumption.
  Qed.

  Definition sound (w : @pair V W I J) : Prop :=
    time_step (p_one w) = dt /\ time_step (p_two w) = dt2 /\ good (inner (p_one w)) /\ good2 (inner (p_two w)) /\ products (p_st w) = [].

  Lemma uzawa_goes x y w : sound w -> exists w' c, uzawa x y w = Some (w', Ok c) /\ sound w'.
  Proof.
    intros (T1 & T2 & G1 & G2 & P). pose proof (uzawa_some dimension nodes_count update second_update answer second_answer x y w) as N.
    unfold TimeModel.uzawa in *.
    match type of N with context [TimeModel.passes _ _ _ _ _ _ 10 ?u ?v ?t ?p ?s1 ?s2 ?v1 ?u1 ?v2 ?u2 ?l] =>
      pose proof (passes_goes 10 u v t p s1 s2 v1 u1 v2 u2 l T1 T2 G1 G2) as OK;
      destruct (passes 10 u v t p s1 s2 v1 u1 v2 u2 l) as [[l'|e]|] end; [|destruct OK|contradiction].
    unfold alloc. do 2 eexists. split; [reflexivity|]. destruct OK. repeat split; assumption.
  Qed.

  Lemma step_goes n x y w : n <> 0%nat -> sound w -> exists w' c, coupled_step n x y w = Some (w', Ok c) /\ sound w'.
  Proof.
    intros N S. unfold TimeModel.coupled_step. destruct (Nat.eqb_spec n 0) as [C|_]; [contradiction|].
    match goal with |- context [TimeModel.uzawa _ _ _ _ _ _ ?a ?b ?c] =>
      destruct (uzawa_goes a b c) as (w1 & [cx cy] & -> & (T1 & T2 & G1 & G2 & P)); [exact S|] end.
    unfold TimeModel.size, set_velocity. rewrite Nat.eqb_refl. cbn [products].
    rewrite P. cbn [update_products]. do 2 eexists. split; [reflexivity|].
    split; [exact T1|]. split; [exact T2|]. split; [exact G1|]. split; [exact G2|]. cbn [p_st]. unfold set_extra. cbn [extra].
    destruct (extra (p_st w1)); reflexivity.
  Qed.

  Lemma steps_goes n : forall n_steps x y w, n_steps <> 0%nat -> sound w -> exists w' c, coupled_steps n_steps n x y w = Some (w', Ok c) /\ sound w'.
  Proof.
    induction n as [|n IH]; intros n_steps x y w N S; cbn [TimeModel.coupled_steps]; [eauto|].
    destruct (step_goes n_steps x y w N S) as (w1 & [x1 y1] & -> & S1). apply IH; assumption.
  Qed.

  Lemma outputs_goes ns : forall n_steps x y w, n_steps <> 0%nat -> sound w -> exists w' l, coupled_outputs n_steps ns x y w = Some (w', Ok l).
  Proof.
    induction ns as [|n ns IH]; intros n_steps x y w N S; cbn [TimeModel.coupled_outputs]; [eauto|].
    destruct (steps_goes n n_steps x y w N S) as (w1 & [x1 y1] & -> & S1).
    destruct (copy nodes (p_mem w1) (p_st w1)) as [m s].
    destruct (IH n_steps x1 y1 (mkPair m (p_st w1) (p_one w1) (p_two w1)) N S1) as (w2 & l & ->). eauto.
  Qed.

  Theorem coupled_goes : Nat.modulo size 2 = 0%nat ->
    forall n u0 v0 e0 out m s1 s2, n <> 0%nat -> time_step s1 = dt -> time_step s2 = dt2 -> good (inner s1) -> good2 (inner s2) ->
    exists w' l, coupled_solve n u0 v0 e0 out m s1 s2 = Some (w', Ok l).
  Proof.
    intros EV n u0 v0 e0 out m s1 s2 N T1 T2 G1 G2. unfold TimeModel.coupled_solve. rewrite new_state_eq. cbn [extra].
    unfold TimeModel.size. rewrite EV, Nat.eqb_refl, T1, T2.
    destruct thermal; cbn [new_extra]; unfold alloc; cbv beta iota zeta.
    all: match goal with |- context [iterate ?a ?b ?c ?d] => destruct (I1 a b d G1) as (i & -> & G1') end.
    all: match goal with |- context [second_iterate ?a ?b ?c ?d] => destruct (I2 a b d G2) as (j & -> & G2') end.
    all: apply outputs_goes; [exact N|]; repeat split; assumption.
  Qed.
End Coupled.
