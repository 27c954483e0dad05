(* Proofs about the states of posed problems. *)
From Coq Require Import Reals List Arith ZArith Bool String Lia Lra.
From Verif Require Import Common PyModel RVec MeshModel MeshBuildModel NormalsModel StatementModel StateModel StateLemmas CopyProofs TimeModel TimeSpec TimeProofs RunProofs
  HistoryProofs SolveProofs MarchProofs TimeTheorems MethodModel SchurModel OptimisationModel ProblemModel ProblemStateSpec
  ProblemContactModel ProblemContactTheorems.
Import ListNotations.
Local Open Scope R_scope.

Lemma start_moved bt u : moved (m_nodes (bt_mesh bt)) u (fun i => start_positions bt i + u i).
Proof.
  intros n p H. assert (L : (n < List.length (m_nodes (bt_mesh bt)))%nat) by (apply nth_error_Some; congruence).
  unfold start_positions, coord2. set (N := List.length (m_nodes (bt_mesh bt))) in *.
  rewrite (Nat.div_small n), (Nat.mod_small n) by exact L.
  replace (N + n)%nat with (n + 1 * N)%nat by lia.
  rewrite Nat.div_add, Nat.mod_add, (Nat.div_small n), (Nat.mod_small n) by lia.
  rewrite (nth_error_nth _ _ zero2 H). cbn. split; reflexivity.
Qed.

Lemma start_still bt : moved (m_nodes (bt_mesh bt)) (fun _ => 0) (start_positions bt).
Proof. intros n p H. destruct (start_moved bt (fun _ => 0) n p H) as [A B]. cbv beta in A, B. lra. Qed.

Lemma new_unused {V I} (make : vectors -> R -> result I) dt (m0 m1 : store V) s :
  new_solver make dt m0 = (m1, Ok s) -> unused dt (mkDriver m1 s 0 1).
Proof.
  intros H. pose proof (new_fresh _ _ _ _ _ H) as ((F & T & D & _) & _).
  split; [exact T|]. split; [exact D|]. split; [reflexivity|]. split; [reflexivity|]. split; [|split; [exact (proj1 F)|intros r IR; exact (proj1 (Forall_forall _ _) (proj2 F) r IR)]].
  unfold new_solver in H.
  repeat match type of H with context [let '(_, _) := alloc ?mm ?x in _] => unfold alloc at 1 in H; cbv beta iota in H end.
  match type of H with context [make ?xx ?dd] => destruct (make xx dd); [|discriminate] end.
  injection H as <- <-. intros r IR i. cbn [d_mem d_sv] in IR |- *.
  unfold arrays in IR. cbn [b_vector u_vector v_vector t_vector p_vector] in IR.
  repeat (destruct IR as [<-|IR]; [unfold load, room; cbn [cells]; rewrite ?app_length; cbn [List.length];
    repeat (rewrite app_nth1 by (rewrite ?app_length; cbn [List.length]; lia));
    rewrite app_nth2 by (rewrite ?app_length; cbn [List.length]; lia);
    rewrite ?app_length; cbn [List.length]; rewrite ?Nat.sub_diag; reflexivity|]).
  contradiction.
Qed.

Lemma step_unused {V} pb bt k (m0 : store V) d : step_solver pb bt k m0 = Ok d -> unused (time_step_of pb) d.
Proof.
  unfold step_solver. destruct (new_solver _ _ _) as [m1 [s|e]] eqn:E; [|discriminate].
  injection 1 as <-. exact (new_unused _ _ _ _ _ E).
Qed.
Lemma schur_unused {V} pb bt k inv (m0 : store V) d : schur_step_solver pb bt k inv m0 = Ok d -> unused (time_step_of pb) d.
Proof.
  unfold schur_step_solver. destruct (new_solver _ _ _) as [m1 [s|e]] eqn:E; [|discriminate].
  injection 1 as <-. exact (new_unused _ _ _ _ _ E).
Qed.

Lemma step_time {V} pb bt k (m0 : store V) d : step_solver pb bt k m0 = Ok d ->
  (forall dt, pr_time_step pb = Some dt -> unused dt d) /\ (pr_time_step pb = None -> unused 0 d).
Proof.
  intros H. pose proof (step_unused _ _ _ _ _ H) as U. unfold time_step_of in U.
  split; [intros dt E|intros E]; rewrite E in U; exact U.
Qed.
Lemma schur_time {V} pb bt k inv (m0 : store V) d : schur_step_solver pb bt k inv m0 = Ok d ->
  (forall dt, pr_time_step pb = Some dt -> unused dt d) /\ (pr_time_step pb = None -> unused 0 d).
Proof.
  intros H. pose proof (schur_unused _ _ _ _ _ _ H) as U. unfold time_step_of in U.
  split; [intros dt E|intros E]; rewrite E in U; exact U.
Qed.

Lemma unused_fit {V I} dt (d : driver V I) : unused dt d -> fit d.
Proof. intros (_ & _ & _ & _ & _ & ND & L). split; [exact ND|]. apply Forall_forall. exact L. Qed.

Section Shown.
  Context {V W I : Type}.
  Variables (bt : built) (iterate : I -> vectors -> R -> R -> result I) (answer : I -> vec -> vec -> vec -> R -> result (nat * vec)).
  Let b := bt_body bt.
  Let nodes := m_nodes (bt_mesh bt).

  Lemma velocity_shows dt u0 (u v : nat -> vec) q : u O = u0 ->
    shows nodes dt u0 q (velocity_view (start_positions bt) (fun _ => 0) dt 0 0 u v q).
  Proof.
    intros U0. destruct q as [|q]; cbn [velocity_view shows view_time view_displacement view_displaced].
    - split; [cbn; lra|]. split; [exact U0|]. apply start_still.
    - split; [cbn [view_time]; unfold instant; lra|]. apply start_moved.
  Qed.
  Lemma displacement_shows dt u0 (b' u : nat -> vec) q v : u O = u0 ->
    shows nodes dt u0 q (displacement_view (start_positions bt) v dt 0 0 b' u q).
  Proof.
    intros U0. destruct q as [|q]; cbn [displacement_view shows view_time view_displacement view_displaced].
    - split; [cbn; lra|]. split; [exact U0|]. apply start_still.
    - split; [cbn [view_time]; unfold instant; lra|]. apply start_moved.
  Qed.

  Lemma dynamic_shows dt n u0 v0 out given (d d' : driver V I) (l : list (state W)) :
    unused dt d -> in_stock (d_mem d) given -> non_decreasing 0 (requested n out) ->
    dynamic_solve (b_dimension b) (b_count b) (start_positions bt) iterate answer n u0 v0 out given d = (d', Ok l) ->
    shows_all nodes dt u0 n out (d_mem d') l.
  Proof.
    intros UN G ND H. pose proof (unused_fit _ _ UN) as F. destruct UN as (T & D & _).
    destruct (dynamic_answers _ _ _ _ _ _ _ _ _ _ _ _ _ F G ND H) as (i & _ & (inn & u & v & _ & U0 & _ & _ & LE & LK & _)).
    split; [exact LE|]. intros j q s Q S. rewrite (LK j q s Q S), T. unfold dt_of. rewrite D.
    exact (velocity_shows dt u0 u v _ U0).
  Qed.

  Lemma relaxation_shows dt n b0 u0 out given (d d' : driver V I) (l : list (state W)) :
    unused dt d -> in_stock (d_mem d) given -> non_decreasing 0 (requested n out) ->
    relaxation_solve (b_dimension b) (b_count b) (start_positions bt) iterate answer n b0 u0 out given d = (d', Ok l) ->
    shows_all nodes dt u0 n out (d_mem d') l.
  Proof.
    intros UN G ND H. pose proof (unused_fit _ _ UN) as F. destruct UN as (T & D & _).
    destruct (relaxation_answers _ _ _ _ _ _ _ _ _ _ _ _ _ F G ND H) as (i & _ & (inn & bb & u & _ & _ & U0 & _ & LE & LK & _)).
    split; [exact LE|]. intros j q s Q S. rewrite (LK j q s Q S), T. unfold dt_of. rewrite D.
    exact (displacement_shows dt u0 bb u _ _ U0).
  Qed.

  Lemma wave_timed dt n u0 v0 out given (d d' : driver V I) s0 (l : list (state W)) :
    unused dt d -> in_stock (d_mem d) given -> non_decreasing 0 (requested n out) ->
    wave_solve (b_dimension b) (b_count b) (start_positions bt) iterate answer n u0 v0 None out given d = (d', s0, Ok l) ->
    timed_all dt n out (d_mem d') l.
  Proof.
    intros UN G ND H. pose proof (unused_fit _ _ UN) as F. destruct UN as (T & D & _).
    destruct (wave_answers _ _ _ _ _ _ _ _ _ _ _ _ _ _ F G ND H) as (i & _ & (inn & u & v & _ & U0 & _ & _ & LE & LK & _)).
    split; [exact LE|]. intros j q s Q S. rewrite (LK j q s Q S). unfold dt_of. rewrite D.
    exact (proj1 (velocity_shows dt u0 u v _ U0)).
  Qed.

  Lemma static_shows dt u0 given (d d' : driver V I) (s : state W) :
    unused dt d -> in_stock (d_mem d) given ->
    static_solve (b_dimension b) (b_count b) (start_positions bt) iterate answer u0 given d = (d', Ok s) ->
    shows nodes dt u0 1 (look (d_mem d') s).
  Proof.
    intros UN G H. pose proof (unused_fit _ _ UN) as F. destruct UN as (T & D & _).
    destruct (static_course _ _ _ _ _ _ _ _ _ _ F G H) as (_ & _ & C & _).
    destruct (iterate _ _ _ _) as [i|e]; [|discriminate].
    destruct C as (h & NX & -> & _).
    cbn [nexts] in NX. unfold next, displacement_start in NX. cbn in NX.
    destruct (answer _ _ _ _ _) as [[len x]|e]; [|discriminate].
    destruct (_ =? _)%nat; [|discriminate]. destruct (iterate _ _ _ _) as [i2|e]; [|discriminate].
    injection NX as <-. unfold flow_view, shows. cbn [view_time view_displacement view_displaced f_b f_u f_x f_v f_time].
    rewrite T. unfold dt_of. rewrite D. split; [change (INR 1) with 1; lra|]. apply start_moved.
  Qed.
End Shown.

(* a state asked for before the first step does not show the initial displacement *)
Lemma start_behind nodes dt u0 p w : nth_error nodes 0 = Some p -> u0 0%nat <> 0 ->
  shows nodes dt u0 0 w -> ~ moved nodes (view_displacement w) (view_displaced w).
Proof.
  intros H NZ (_ & U & M) Q. destruct (M 0%nat p H) as [A _]. destruct (Q 0%nat p H) as [B _]. rewrite U in B. lra.
Qed.
