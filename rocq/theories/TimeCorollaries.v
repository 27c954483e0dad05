(* Bookkeeping of whole runs, read off the histories. *)
From Coq Require Import Reals List Arith ZArith Bool String Lia Lra FunctionalExtensionality.
From Verif Require Import PyModel RVec StateModel TimeModel TimeSpec StateLemmas CopyProofs TimeProofs RunProofs
  HistoryProofs SolveProofs MarchProofs TimeTheorems.
Import ListNotations.
Local Open Scope R_scope.

Lemma non_decreasing_in : forall l a q, non_decreasing a l -> In q l -> (q <= last l a)%Z.
Proof.
  induction l as [|x l IH]; intros a q H I; [destruct I|]. destruct H as [H0 H].
  assert (L : last (x :: l) a = last l x).
  { clear. revert x a. induction l as [|y l IH]; intros x a; [reflexivity|].
    change (last (x :: y :: l) a) with (last (y :: l) a). rewrite IH, (IH y x). reflexivity. }
  rewrite L. destruct I as [<-|I]; [|apply IH; assumption].
  clear - H. revert x H. induction l as [|y l IH]; intros x H; [cbn; lia|]. destruct H as [H0 H].
  assert (L : last (y :: l) x = last l y).
  { clear. revert x y. induction l as [|z l IH]; intros x y; [reflexivity|].
    change (last (y :: z :: l) x) with (last (z :: l) x). rewrite IH, (IH y z). reflexivity. }
  rewrite L. specialize (IH _ H). lia.
Qed.

Lemma last_default : forall (l : list Z) a b, l <> [] -> last l a = last l b.
Proof.
  induction l as [|x l IH]; intros a b N; [contradiction|]. destruct l as [|y l]; [reflexivity|].
  change (last (y :: l) a = last (y :: l) b). apply IH. discriminate.
Qed.

Lemma requested_last : forall n out k q, non_decreasing 0 (requested n out) -> nth_error (requested n out) k = Some q ->
  (Z.to_nat q <= last_step n out)%nat.
Proof.
  intros n out k q H N. apply nth_error_In in N. unfold last_step. pose proof (non_decreasing_in _ _ _ H N). lia.
Qed.

Section Runs.
  Context {V W I : Type}.
  Variables (dimension nodes_count : nat) (nodes : vec).
  Variable iterate : I -> vectors -> R -> R -> result I.
  Variable answer : I -> vec -> vec -> vec -> R -> result (nat * vec).
  Notation size := (dimension * nodes_count)%nat.
  Notation driver := (driver V I).
  Notation dynamic_solve := (@dynamic_solve V W I dimension nodes_count nodes iterate answer).
  Notation relaxation_solve := (@relaxation_solve V W I dimension nodes_count nodes iterate answer).
  Notation wave_solve := (@wave_solve V W I dimension nodes_count nodes iterate answer).
  Notation velocity_answer := (@velocity_answer V W I dimension nodes_count nodes iterate answer).
  Notation displacement_answer := (@displacement_answer V W I dimension nodes_count nodes iterate answer).

  (* a prefix of a history is a history *)
  Lemma velocity_prefix : forall b t p dt t0 s0 n k inner u v, (k <= n)%nat ->
    velocity_history iterate answer size b t p dt t0 s0 n inner u v ->
    velocity_history iterate answer size b t p dt t0 s0 k inner u v.
  Proof. intros b t p dt t0 s0 n k inner u v L H j J. apply H. lia. Qed.

  Lemma displacement_prefix : forall v t p dt t0 s0 n k inner b u, (k <= n)%nat ->
    displacement_history iterate answer size v t p dt t0 s0 n inner b u ->
    displacement_history iterate answer size v t p dt t0 s0 k inner b u.
  Proof. intros v t p dt t0 s0 n k inner b u L H j J. apply H. lia. Qed.

  (* what a state must show after q steps of size dt from u0, with velocities v *)
  Definition velocity_books (dt : R) (u0 : vec) (v : nat -> vec) (q : nat) (w : view) : Prop :=
    view_time w = INR q * dt /\
    view_velocity w = v q /\
    (forall i, view_displacement w i = u0 i + dt * sum q (fun k => v (S k) i)) /\
    (q <> O -> forall i, view_displaced w i = nodes i + view_displacement w i).

  Definition displacement_books (dt : R) (b0 : vec) (u : nat -> vec) (q : nat) (w : view) : Prop :=
    view_time w = INR q * dt /\
    view_displacement w = u q /\
    (forall i, view_absement w i = b0 i + dt * sum q (fun k => u (S k) i)) /\
    (q <> O -> forall i, view_displaced w i = nodes i + view_displacement w i).

  Lemma velocity_answer_books : forall d d' i u0 v0 n out l, non_decreasing 0 (requested n out) ->
    velocity_answer d d' i 0 u0 v0 n out l ->
    exists inner v, inner O = i /\ v O = v0 /\
      (forall k, (k < last_step n out)%nat -> answer (inner k) (v k) (v k)
         (fun c => u0 c + dt_of d * sum k (fun k => v (S k) c)) (dt_of d) = Ok (size, v (S k))) /\
      (forall j q s, nth_error (requested n out) j = Some q -> nth_error l j = Some s ->
         velocity_books (dt_of d) u0 v (Z.to_nat q) (look (d_mem d') s)) /\
      held_vec d' v_vector = v (last_step n out) /\
      (forall c, held_vec d' u_vector c = u0 c + dt_of d * sum (last_step n out) (fun k => v (S k) c)) /\
      current_time (d_sv d') = INR (last_step n out) * dt_of d.
  Proof.
    intros d d' i u0 v0 n out l ND (inner & u & v & I0 & U0 & V0 & H & _ & S & HU & HV & _ & HT).
    assert (D : forall k, (k <= last_step n out)%nat -> forall c, u k c = u0 c + dt_of d * sum k (fun k => v (Datatypes.S k) c)).
    { intros k L c. rewrite <- U0. eapply displacement_sum. eapply velocity_prefix; [exact L|exact H]. }
    exists inner, v. split; [exact I0|split; [exact V0|split; [|split; [|split; [exact HV|split]]]]].
    - intros k L. destruct (H k L) as (A & _ & _). rewrite <- A. f_equal. extensionality c. symmetry. apply D. lia.
    - intros j q s Hq Hs. specialize (S _ _ _ Hq Hs). pose proof (requested_last _ _ _ _ ND Hq) as L.
      rewrite S. unfold velocity_books, velocity_view. specialize (D _ L). destruct (Z.to_nat q) as [|k].
      + cbn [view_time view_velocity view_displacement view_displaced INR]. split; [lra|split; [reflexivity|split; [exact D|congruence]]].
      + cbn [view_time view_velocity view_displacement view_displaced]. unfold instant. split; [lra|split; [reflexivity|split; [exact D|reflexivity]]].
    - intros c. rewrite HU. apply D. lia.
    - rewrite HT. unfold instant. lra.
  Qed.

  Theorem dynamic_books : forall n u0 v0 out given d d' l, fit d -> in_stock (d_mem d) given ->
    non_decreasing 0 (requested n out) -> current_time (d_sv d) = 0 ->
    dynamic_solve n u0 v0 out given d = (d', Ok l) ->
    exists inner v, v O = v0 /\
      (forall k, (k < last_step n out)%nat -> answer (inner k) (v k) (v k)
         (fun c => u0 c + dt_of d * sum k (fun k => v (S k) c)) (dt_of d) = Ok (size, v (S k))) /\
      (forall j q s, nth_error (requested n out) j = Some q -> nth_error l j = Some s ->
         velocity_books (dt_of d) u0 v (Z.to_nat q) (look (d_mem d') s)) /\
      held_vec d' v_vector = v (last_step n out) /\
      (forall c, held_vec d' u_vector c = u0 c + dt_of d * sum (last_step n out) (fun k => v (S k) c)) /\
      current_time (d_sv d') = INR (last_step n out) * dt_of d.
  Proof.
    intros n u0 v0 out given d d' l F G ND C H.
    destruct (dynamic_answers _ _ _ _ _ _ _ _ _ _ _ _ _ F G ND H) as (i & _ & A). rewrite C in A.
    destruct (velocity_answer_books _ _ _ _ _ _ _ _ ND A) as (inner & v & _ & B). exists inner, v. exact B.
  Qed.

  Theorem wave_books : forall n u0 v0 out given d d' s l, fit d -> in_stock (d_mem d) given ->
    non_decreasing 0 (requested n out) ->
    wave_solve n u0 v0 None out given d = (d', s, Ok l) ->
    exists inner v, v O = v0 /\
      (forall k, (k < last_step n out)%nat -> answer (inner k) (v k) (v k)
         (fun c => u0 c + dt_of d * sum k (fun k => v (S k) c)) (dt_of d) = Ok (size, v (S k))) /\
      (forall j q s, nth_error (requested n out) j = Some q -> nth_error l j = Some s ->
         velocity_books (dt_of d) u0 v (Z.to_nat q) (look (d_mem d') s)) /\
      held_vec d' v_vector = v (last_step n out) /\
      (forall c, held_vec d' u_vector c = u0 c + dt_of d * sum (last_step n out) (fun k => v (S k) c)) /\
      current_time (d_sv d') = INR (last_step n out) * dt_of d.
  Proof.
    intros n u0 v0 out given d d' s l F G ND H.
    destruct (wave_answers _ _ _ _ _ _ _ _ _ _ _ _ _ _ F G ND H) as (i & _ & A).
    destruct (velocity_answer_books _ _ _ _ _ _ _ _ ND A) as (inner & v & _ & B). exists inner, v. exact B.
  Qed.

  Theorem relaxation_books : forall n b0 u0 out given d d' l, fit d -> in_stock (d_mem d) given ->
    non_decreasing 0 (requested n out) -> current_time (d_sv d) = 0 ->
    relaxation_solve n b0 u0 out given d = (d', Ok l) ->
    exists inner u, u O = u0 /\
      (forall k, (k < last_step n out)%nat ->
         answer (inner k) (u k) (held_vec d v_vector) (u k) (dt_of d) = Ok (size, u (S k))) /\
      (forall j q s, nth_error (requested n out) j = Some q -> nth_error l j = Some s ->
         displacement_books (dt_of d) b0 u (Z.to_nat q) (look (d_mem d') s)) /\
      held_vec d' u_vector = u (last_step n out) /\
      (forall c, held_vec d' b_vector c = b0 c + dt_of d * sum (last_step n out) (fun k => u (S k) c)) /\
      current_time (d_sv d') = INR (last_step n out) * dt_of d.
  Proof.
    intros n b0 u0 out given d d' l F G ND C H.
    destruct (relaxation_answers _ _ _ _ _ _ _ _ _ _ _ _ _ F G ND H) as (i & _ & A).
    destruct A as (inner & b & u & _ & B0 & U0 & A & _ & S & HB & HU & _ & HT). rewrite C in *.
    assert (D : forall k, (k <= last_step n out)%nat -> forall c, b k c = b0 c + dt_of d * sum k (fun k => u (Datatypes.S k) c)).
    { intros k L c. rewrite <- B0. eapply absement_sum. eapply displacement_prefix; [exact L|exact A]. }
    exists inner, u. split; [exact U0|split; [|split; [|split; [exact HU|split]]]].
    - intros k L. apply (A k L).
    - intros j q s Hq Hs. specialize (S _ _ _ Hq Hs). pose proof (requested_last _ _ _ _ ND Hq) as L.
      rewrite S. unfold displacement_books, displacement_view. specialize (D _ L). destruct (Z.to_nat q) as [|k].
      + cbn [view_time view_absement view_displacement view_displaced INR]. split; [lra|split; [reflexivity|split; [exact D|congruence]]].
      + cbn [view_time view_absement view_displacement view_displaced]. unfold instant. split; [lra|split; [reflexivity|split; [exact D|reflexivity]]].
    - intros c. rewrite HB. apply D. lia.
    - rewrite HT. unfold instant. lra.
  Qed.

  (* runs with solvers that never raise *)
  Section Never.
    Variable it : I -> vectors -> R -> R -> I.
    Variable an : I -> vec -> vec -> vec -> R -> vec.
    Hypothesis It : forall i x dt t, iterate i x dt t = Ok (it i x dt t).
    Hypothesis An : forall i g v u dt, answer i g v u dt = Ok (size, an i g v u dt).

    Fixpoint made (b t p : vec) (dt t0 s0 : R) (i : I) (u0 v0 : vec) (k : nat) : I * vec * vec :=
      match k with
      | O => (i, u0, v0)
      | S k => let '(i, u, v) := made b t p dt t0 s0 i u0 v0 k in
               let v' := an i v v u dt in
               let u' := fun c => u c + (dt + behind t0 s0 k) * v' c in
               (it i (mkVectors b u' v' t p) dt (instant t0 dt (S k)), u', v')
      end.

    Lemma history_made : forall b t p dt t0 s0 i u0 v0 n,
      velocity_history iterate answer size b t p dt t0 s0 n
        (fun k => fst (fst (made b t p dt t0 s0 i u0 v0 k))) (fun k => snd (fst (made b t p dt t0 s0 i u0 v0 k)))
        (fun k => snd (made b t p dt t0 s0 i u0 v0 k)).
    Proof.
      intros b t p dt t0 s0 i u0 v0 n k _. cbn [made].
      destruct (made b t p dt t0 s0 i u0 v0 k) as [[j u] v]. cbn [fst snd].
      rewrite An, It. auto.
    Qed.

    Theorem dynamic_never : forall n u0 v0 out d, fit d -> non_decreasing 0 (requested n out) -> n <> 0%nat ->
      exists d' l, dynamic_solve n u0 v0 out [] d = (d', Ok l).
    Proof.
      intros n u0 v0 out d F ND NZ. eapply dynamic_total; [exact F|exact ND|exact NZ|unfold first_iterate; apply It| | | |apply history_made];
        reflexivity.
    Qed.
  End Never.
End Runs.

(* which time the loads of a coupled step belong to *)
Section CoupledLoads.
  Context {I J : Type}.
  Variables (size nodes_count : nat).
  Variable update : I -> vec -> vec -> vec -> R -> R -> result I.
  Variable second_update : J -> vec -> vec -> vec -> vec -> R -> result J.
  Variable answer : I -> vec -> vec -> vec -> R -> result (nat * vec).
  Variable second_answer : J -> vec -> vec -> vec -> R -> result (nat * vec).

  Theorem coupled_load_time : forall (stamp : I -> R) dt dt2 t0 s0 n h,
    (forall i u v y dt t i', update i u v y dt t = Ok i' -> stamp i' = t) ->
    coupled_history size nodes_count update second_update answer second_answer dt dt2 t0 s0 n h ->
    forall k, (k < n)%nat -> exists i g,
      stamp i = instant t0 dt (S k) /\
      answer i g (one_v (h k)) (one_u (h k)) dt = Ok (size, one_v (h (S k))) /\
      one_u (h (S k)) = (fun c => one_u (h k) c + dt * one_v (h (S k)) c).
  Proof.
    intros stamp dt dt2 t0 s0 n h ST H k L.
    destruct (H k L) as (m & i & j & x & y & (_ & _ & _ & _ & A) & ((L5 & _) & _) & E).
    destruct m as [|m]; [lia|]. destruct (A m) as (A1 & A2 & _ & _); [lia|].
    exists (i (S m)), (x m). split; [apply (ST _ _ _ _ _ _ _ A1)|].
    rewrite E. cbn [one_v one_u]. split; [exact A2|reflexivity].
  Qed.

  (* the fixed point loop of one time step *)
  Theorem coupled_loop : forall dt dt2 t0 s0 n h,
    coupled_history size nodes_count update second_update answer second_answer dt dt2 t0 s0 n h ->
    forall k, (k < n)%nat -> exists m i j x y,
      alternation size nodes_count update second_update answer second_answer (h k) dt dt2 (instant t0 dt (S k)) m i j x y /\
      (5 <= m <= 10)%nat /\
      (forall q, (5 <= q < m)%nat -> 1 / 1000 < change size nodes_count x y (q - 1)) /\
      (m = 10%nat \/ change size nodes_count x y (m - 1) <= 1 / 1000) /\
      one_v (h (S k)) = x m /\ guess_y (h (S k)) = y m /\
      one_u (h (S k)) = (fun c => one_u (h k) c + dt * x m c) /\
      two_u (h (S k)) = (fun c => one_u (h k) c + dt2 * x m c).
  Proof.
    intros dt dt2 t0 s0 n h H k L.
    destruct (H k L) as (m & i & j & x & y & A & (B1 & B2 & B3) & E).
    exists m, i, j, x, y. rewrite E. cbn [one_v guess_y one_u two_u]. auto 10.
  Qed.
End CoupledLoads.
