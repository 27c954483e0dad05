(* Concrete drivers: one node in the plane. *)
From Coq Require Import Reals List Arith ZArith Bool String Lia Lra FunctionalExtensionality.
From Verif Require Import PyModel RVec StateModel TimeModel TimeSpec StateLemmas CopyProofs TimeProofs RunProofs
  HistoryProofs SolveProofs UzawaProofs MarchProofs TimeTheorems TimeCorollaries CoupledTheorems CoupledTotal ResumeProofs StateProofs.
Import ListNotations.
Local Open Scope R_scope.

(* the solver keeps the time it was last told; its answer depends on it and on both arrays *)
Definition keep : R -> vectors -> R -> R -> result R := fun _ _ _ t => Ok t.
Definition reply : R -> vec -> vec -> vec -> R -> result (nat * vec) :=
  fun i _ v u dt => Ok (2%nat, fun c => i + v c + u c).
(* always one *)
Definition ones : R -> vec -> vec -> vec -> R -> result (nat * vec) := fun _ _ _ _ _ => Ok (2%nat, fun _ => 1).

Definition place : vec := fun c => INR c.
Definition blank : store R := mkStore (repeat (fun _ => 0) 5) [].
Definition solver1 : stepper R := mkStepper 0 0 1 2 3 4 0 1.
Definition driver1 : driver R R := mkDriver blank solver1 0 1.
Definition at_rest : driver R R := mkDriver blank (mkStepper 0 0 1 2 3 4 0 0) 0 1.

Lemma driver1_fit : fit driver1.
Proof.
  split; unfold solver_refs; cbn; [repeat (apply NoDup_cons; [cbn [In]; lia|]); apply NoDup_nil|repeat (apply Forall_cons; [cbn; lia|]); apply Forall_nil].
Qed.

Lemma at_rest_fit : fit at_rest.
Proof.
  split; unfold solver_refs; cbn; [repeat (apply NoDup_cons; [cbn [In]; lia|]); apply NoDup_nil|repeat (apply Forall_cons; [cbn; lia|]); apply Forall_nil].
Qed.

Lemma keep_forgets : forgets keep.
Proof. intros i x dt t i' H y dt' t'. reflexivity. Qed.

Notation dynamic1 := (@dynamic_solve R unit R 2 1 place keep).
Notation relaxation1 := (@relaxation_solve R unit R 2 1 place keep).
Notation wave1 := (@wave_solve R unit R 2 1 place keep).
Notation static1 := (@static_solve R unit R 2 1 place keep).

Definition is_ok {A} (r : result A) : bool := match r with Ok _ => true | Err _ => false end.
Definition from_ok {A} (r : result (list A)) : list A := match r with Ok l => l | Err _ => [] end.
Definition nothing : state unit := mkState 0 0 0 0 Plain 0 [] None None.

Lemma ok2 : forall A B (r : A * result B), is_ok (snd r) = true -> exists d l, r = (d, Ok l).
Proof. intros A B [d [l|e]] H; [eauto|discriminate]. Qed.
Lemma ok3 : forall A B C (r : A * B * result C), is_ok (snd r) = true -> exists d s l, r = (d, s, Ok l).
Proof. intros A B C [[d s] [l|e]] H; [eauto|discriminate]. Qed.
Lemma ok2_list : forall A B (r : A * result (list B)), is_ok (snd r) = true -> r = (fst r, Ok (from_ok (snd r))).
Proof. intros A B [d [l|e]] H; [reflexivity|discriminate]. Qed.
Lemma ok3_list : forall A B C (r : A * B * result (list C)), is_ok (snd r) = true ->
  r = (fst (fst r), snd (fst r), Ok (from_ok (snd r))).
Proof. intros A B C [[d s] [l|e]] H; [reflexivity|discriminate]. Qed.

Lemma dynamic1_ok : exists d l, dynamic1 reply 3 (fun _ => 1) (fun _ => 2) [0; 2; 2; 3]%Z [] driver1 = (d, Ok l).
Proof. apply ok2. vm_compute. reflexivity. Qed.
Lemma relaxation1_ok : exists d l, relaxation1 reply 3 (fun _ => 1) (fun _ => 2) [0; 2; 2; 3]%Z [] driver1 = (d, Ok l).
Proof. apply ok2. vm_compute. reflexivity. Qed.
Lemma wave1_ok : exists d s l, wave1 reply 3 (fun _ => 1) (fun _ => 2) None [0; 2; 2; 3]%Z [] driver1 = (d, s, Ok l).
Proof. apply ok3. vm_compute. reflexivity. Qed.
Lemma static1_ok : exists d s, static1 reply (fun _ => 1) [] at_rest = (d, Ok s).
Proof. apply ok2. vm_compute. reflexivity. Qed.

(* a product recording the first displacement *)
Definition recorder : product R := mkProduct "recorder"%string (Some (fun v => Ok (view_displacement v 0%nat))) [].
Definition stocked : driver R R := mkDriver (mkStore (repeat (fun _ => 0) 5) [recorder]) solver1 0 1.

Lemma stocked_fit : fit stocked.
Proof. exact driver1_fit. Qed.
Lemma stocked_in : in_stock (d_mem stocked) [0%nat].
Proof. constructor; [cbn; lia|constructor]. Qed.
Lemma dynamic_stocked_ok : exists d l, dynamic1 reply 3 (fun _ => 1) (fun _ => 2) [1; 3]%Z [0%nat] stocked = (d, Ok l).
Proof. apply ok2. vm_compute. reflexivity. Qed.

Definition first_view (m : store R) (l : list (state unit)) : view := look m (nth 0 l nothing).
Ltac numbers := vm_compute; lra.

(* a second call of solve() *)
Lemma dynamic_again : exists d1 l1 d2 l2,
  dynamic1 ones 1 (fun _ => 0) (fun _ => 0) [] [] driver1 = (d1, Ok l1) /\
  dynamic1 ones 1 (fun _ => 0) (fun _ => 0) [] [] d1 = (d2, Ok l2) /\
  view_displacement (first_view (d_mem d1) l1) 0%nat = 1 /\ view_displacement (first_view (d_mem d2) l2) 0%nat = 2.
Proof.
  pose (a := dynamic1 ones 1 (fun _ => 0) (fun _ => 0) [] [] driver1).
  pose (b := dynamic1 ones 1 (fun _ => 0) (fun _ => 0) [] [] (fst a)).
  exists (fst a), (from_ok (snd a)), (fst b), (from_ok (snd b)).
  split; [apply ok2_list; vm_compute; reflexivity|]. split; [apply ok2_list; vm_compute; reflexivity|].
  split; numbers.
Qed.

Lemma relaxation_again : exists d1 l1 d2 l2,
  relaxation1 ones 1 (fun _ => 0) (fun _ => 0) [] [] driver1 = (d1, Ok l1) /\
  relaxation1 ones 1 (fun _ => 0) (fun _ => 0) [] [] d1 = (d2, Ok l2) /\
  view_absement (first_view (d_mem d1) l1) 0%nat = 1 /\ view_absement (first_view (d_mem d2) l2) 0%nat = 2.
Proof.
  pose (a := relaxation1 ones 1 (fun _ => 0) (fun _ => 0) [] [] driver1).
  pose (b := relaxation1 ones 1 (fun _ => 0) (fun _ => 0) [] [] (fst a)).
  exists (fst a), (from_ok (snd a)), (fst b), (from_ok (snd b)).
  split; [apply ok2_list; vm_compute; reflexivity|]. split; [apply ok2_list; vm_compute; reflexivity|].
  split; numbers.
Qed.

(* outputs asked for in decreasing order *)
Lemma decreasing_outputs : exists d l,
  dynamic1 ones 3 (fun _ => 0) (fun _ => 0) [3; 1]%Z [] driver1 = (d, Ok l) /\
  exists s, nth_error l 1 = Some s /\ time s = 3 /\ view_displacement (look (d_mem d) s) 0%nat = 3.
Proof.
  pose (a := dynamic1 ones 3 (fun _ => 0) (fun _ => 0) [3; 1]%Z [] driver1).
  exists (fst a), (from_ok (snd a)).
  split; [apply ok2_list; vm_compute; reflexivity|].
  exists (nth 1 (from_ok (snd a)) nothing). split; [apply nth_error_nth'; vm_compute; lia|]. split; numbers.
Qed.

(* an output at step 0 *)
Lemma first_output : exists d l,
  dynamic1 ones 1 (fun _ => 1) (fun _ => 0) [0]%Z [] driver1 = (d, Ok l) /\
  exists s, nth_error l 0 = Some s /\
  view_displacement (look (d_mem d) s) 0%nat = 1 /\ view_displaced (look (d_mem d) s) 0%nat = 0.
Proof.
  pose (a := dynamic1 ones 1 (fun _ => 1) (fun _ => 0) [0]%Z [] driver1).
  exists (fst a), (from_ok (snd a)).
  split; [apply ok2_list; vm_compute; reflexivity|].
  exists (nth 0 (from_ok (snd a)) nothing). split; [apply nth_error_nth'; vm_compute; lia|]. split; numbers.
Qed.

(* resuming: with products, and what happens to the state resumed from *)
Lemma resume_products : exists d1 s1 l s d2 s2,
  wave1 ones 1 (fun _ => 0) (fun _ => 0) None [] [0%nat] stocked = (d1, s1, Ok l) /\ nth_error l 0 = Some s /\
  wave1 ones 1 (fun _ => 0) (fun _ => 0) (Some s) [] [] d1 = (d2, s2, Err NotImplemented).
Proof.
  pose (a := wave1 ones 1 (fun _ => 0) (fun _ => 0) None [] [0%nat] stocked).
  pose (s := nth 0 (from_ok (snd a)) nothing).
  pose (b := wave1 ones 1 (fun _ => 0) (fun _ => 0) (Some s) [] [] (fst (fst a))).
  exists (fst (fst a)), (snd (fst a)), (from_ok (snd a)), s, (fst (fst b)), (snd (fst b)).
  split; [apply ok3_list; vm_compute; reflexivity|].
  split; [apply nth_error_nth'; vm_compute; lia|].
  assert (E : forall A B C (r : A * B * result C) e, snd r = Err e -> r = (fst (fst r), snd (fst r), Err e)).
  { intros A B C [[x y] z] e H. cbn in *. congruence. }
  apply E. vm_compute. reflexivity.
Qed.

Lemma uninterrupted_products : exists d s l,
  wave1 ones 2 (fun _ => 0) (fun _ => 0) None [] [0%nat] stocked = (d, s, Ok l).
Proof. apply ok3. vm_compute. reflexivity. Qed.

Lemma resume_changes : exists d1 s1 l1 s d2 s2 l,
  wave1 ones 1 (fun _ => 0) (fun _ => 0) None [] [] driver1 = (d1, s1, Ok l1) /\ nth_error l1 0 = Some s /\
  wave1 ones 1 (fun _ => 0) (fun _ => 0) (Some s) [] [] d1 = (d2, s2, Ok l) /\
  view_displacement (look (d_mem d1) s) 0%nat = 1 /\ view_displacement (look (d_mem d2) s) 0%nat = 2.
Proof.
  pose (a := wave1 ones 1 (fun _ => 0) (fun _ => 0) None [] [] driver1).
  pose (s := nth 0 (from_ok (snd a)) nothing).
  pose (b := wave1 ones 1 (fun _ => 0) (fun _ => 0) (Some s) [] [] (fst (fst a))).
  exists (fst (fst a)), (snd (fst a)), (from_ok (snd a)), s, (fst (fst b)), (snd (fst b)), (from_ok (snd b)).
  split; [apply ok3_list; vm_compute; reflexivity|].
  split; [apply nth_error_nth'; vm_compute; lia|].
  split; [apply ok3_list; vm_compute; reflexivity|].
  split; numbers.
Qed.

(* stress *)
Definition pull (v : view) : R := view_displacement v 0%nat.
Definition stressed : state R := mkState 0 1 2 3 Plain 0 [] (Some pull) None.
Definition few : store R := mkStore (repeat (fun _ => 0) 4 ++ [fun _ => 1]) [].

Lemma stress_stale : exists s1 m s2,
  stress few stressed = (s1, Some (pull (look few stressed))) /\
  set_displacement 2 1 place few s1 2 4 1 false = (m, s2, Ok tt) /\
  snd (stress m s2) <> Some (pull (look m s2)).
Proof.
  do 3 eexists. split; [reflexivity|]. split; [reflexivity|].
  cbn. intro H. injection H as H. lra.
Qed.

(* coupled drivers *)
Definition keep_update : R -> vec -> vec -> vec -> R -> R -> result R := fun _ _ _ _ _ t => Ok t.
Definition keep_second : R -> vec -> vec -> vec -> vec -> R -> result R := fun j _ _ _ _ _ => Ok j.
Definition second_reply : R -> vec -> vec -> vec -> R -> result (nat * vec) := fun _ g v u _ => Ok (1%nat, fun c => g c / 2 + v c).
Definition blank2 : store R := mkStore (repeat (fun _ => 0) 10) [].
Definition solver2 : stepper R := mkStepper 0 5 6 7 8 9 0 1.
Notation coupled1 b := (@coupled_solve R unit R R 2 1 place b keep keep keep_update keep_second reply second_reply).

Lemma pair_apart : apart_solvers blank2 solver1 solver2.
Proof.
  split; unfold solver_refs; cbn; [repeat (apply NoDup_cons; [cbn [In]; lia|]); apply NoDup_nil|repeat (apply Forall_cons; [cbn; lia|]); apply Forall_nil].
Qed.

Lemma coupled1_ok : forall b n u0 v0 e0 out m s1 s2, n <> 0%nat ->
  exists w l, coupled1 b n u0 v0 e0 out m s1 s2 = Some (w, Ok l).
Proof.
  intros b n u0 v0 e0 out m s1 s2 N. apply coupled_total; [|intros; eexists; reflexivity|intros; eexists; reflexivity|reflexivity|exact N].
  repeat split; intros; eexists; reflexivity.
Qed.

Lemma coupled_again : forall b, exists w1 l1 w2 l2,
  coupled1 b 1 (fun _ => 0) (fun _ => 0) (fun _ => 0) [] blank2 solver1 solver2 = Some (w1, Ok l1) /\
  coupled1 b 1 (fun _ => 0) (fun _ => 0) (fun _ => 0) [] (p_mem w1) (p_one w1) (p_two w1) = Some (w2, Ok l2) /\
  map time l1 <> map time l2.
Proof.
  intros b.
  destruct (coupled1_ok b 1 (fun _ => 0) (fun _ => 0) (fun _ => 0) [] blank2 solver1 solver2 ltac:(lia)) as (w1 & l1 & E1).
  destruct (coupled1_ok b 1 (fun _ => 0) (fun _ => 0) (fun _ => 0) [] (p_mem w1) (p_one w1) (p_two w1) ltac:(lia)) as (w2 & l2 & E2).
  exists w1, l1, w2, l2. split; [exact E1|split; [exact E2|]].
  assert (ND : non_decreasing 0 (requested 1 [])) by (cbn; lia).
  pose proof (coupled_answers _ _ _ _ _ _ _ _ _ _ _ _ _ _ _ _ _ _ _ _ pair_apart ND E1) as (_ & _ & _ & _ & _ & _ & _ & Len & _).
  destruct (coupled_times _ _ _ _ _ _ _ _ _ _ _ _ _ _ _ _ _ _ _ _ ND E1) as (C1 & D & T1).
  destruct (coupled_times _ _ _ _ _ _ _ _ _ _ _ _ _ _ _ _ _ _ _ _ ND E2) as (C2 & _ & T2).
  destruct l1 as [|s1 [|? ?]]; try discriminate Len.
  intro H. destruct l2 as [|s2 [|? ?]]; try discriminate H. cbn [map] in H. injection H as H.
  specialize (T1 0%nat 1%Z s1 eq_refl eq_refl). specialize (T2 0%nat 1%Z s2 eq_refl eq_refl).
  change (last_step 1 []) with 1%nat in C1. change (Z.to_nat 1) with 1%nat in T1, T2.
  rewrite T1, T2, C1, D in H. unfold instant, solver1 in H. cbn [INR current_time time_step] in H. lra.
Qed.
