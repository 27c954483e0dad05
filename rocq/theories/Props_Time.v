(* Marching in time: C40-C45, C60. *)
From Coq Require Import Reals List Arith ZArith Bool String Lia Lra.
From Verif Require Import PyModel RVec StateModel TimeModel TimeSpec StateLemmas CopyProofs RunProofs SolveProofs MarchProofs
  TimeTheorems TimeCorollaries ResumeProofs CoupledTheorems CoupledTotal PoissonProofs TimeWitness.
Import ListNotations.
Local Open Scope R_scope.

(* In all of this [iterate] and [answer] are any step solver, raising or not; V: values recorded by
   products; W: values of constitutive laws; [fit d]: the five arrays of the step solver are five
   different arrays; [given]: products that exist. *)

(* ------------------------------------------------------------------ C40 *)

(* a driver whose clock is at 0: after q steps the time is q * dt, the displacement the initial one
   plus dt times the sum of the velocities answered, the displaced nodes are nodes plus
   displacement (if q is not 0), and the arrays of the solver are those of the last step *)
Theorem C40_dynamic : forall V W I dimension nodes_count nodes iterate answer n u0 v0 out given (d d' : driver V I) (l : list (state W)),
  fit d -> in_stock (d_mem d) given -> non_decreasing 0 (requested n out) -> current_time (d_sv d) = 0 ->
  dynamic_solve dimension nodes_count nodes iterate answer n u0 v0 out given d = (d', Ok l) ->
  exists inner v, v O = v0 /\
    (forall k, (k < last_step n out)%nat -> answer (inner k) (v k) (v k)
       (fun c => u0 c + dt_of d * sum k (fun k => v (S k) c)) (dt_of d) = Ok ((dimension * nodes_count)%nat, v (S k))) /\
    (forall j q s, nth_error (requested n out) j = Some q -> nth_error l j = Some s ->
       velocity_books nodes (dt_of d) u0 v (Z.to_nat q) (look (d_mem d') s)) /\
    held_vec d' v_vector = v (last_step n out) /\
    (forall c, held_vec d' u_vector c = u0 c + dt_of d * sum (last_step n out) (fun k => v (S k) c)) /\
    current_time (d_sv d') = INR (last_step n out) * dt_of d.
Proof. exact @dynamic_books. Qed.
Print Assumptions C40_dynamic.

Theorem C40_wave : forall V W I dimension nodes_count nodes iterate answer n u0 v0 out given (d d' : driver V I) (s : state W) l,
  fit d -> in_stock (d_mem d) given -> non_decreasing 0 (requested n out) ->
  wave_solve dimension nodes_count nodes iterate answer n u0 v0 None out given d = (d', s, Ok l) ->
  exists inner v, v O = v0 /\
    (forall k, (k < last_step n out)%nat -> answer (inner k) (v k) (v k)
       (fun c => u0 c + dt_of d * sum k (fun k => v (S k) c)) (dt_of d) = Ok ((dimension * nodes_count)%nat, v (S k))) /\
    (forall j q s, nth_error (requested n out) j = Some q -> nth_error l j = Some s ->
       velocity_books nodes (dt_of d) u0 v (Z.to_nat q) (look (d_mem d') s)) /\
    held_vec d' v_vector = v (last_step n out) /\
    (forall c, held_vec d' u_vector c = u0 c + dt_of d * sum (last_step n out) (fun k => v (S k) c)) /\
    current_time (d_sv d') = INR (last_step n out) * dt_of d.
Proof. exact @wave_books. Qed.
Print Assumptions C40_wave.

Theorem C40_relaxation : forall V W I dimension nodes_count nodes iterate answer n b0 u0 out given (d d' : driver V I) (l : list (state W)),
  fit d -> in_stock (d_mem d) given -> non_decreasing 0 (requested n out) -> current_time (d_sv d) = 0 ->
  relaxation_solve dimension nodes_count nodes iterate answer n b0 u0 out given d = (d', Ok l) ->
  exists inner u, u O = u0 /\
    (forall k, (k < last_step n out)%nat ->
       answer (inner k) (u k) (held_vec d v_vector) (u k) (dt_of d) = Ok ((dimension * nodes_count)%nat, u (S k))) /\
    (forall j q s, nth_error (requested n out) j = Some q -> nth_error l j = Some s ->
       displacement_books nodes (dt_of d) b0 u (Z.to_nat q) (look (d_mem d') s)) /\
    held_vec d' u_vector = u (last_step n out) /\
    (forall c, held_vec d' b_vector c = b0 c + dt_of d * sum (last_step n out) (fun k => u (S k) c)) /\
    current_time (d_sv d') = INR (last_step n out) * dt_of d.
Proof. exact @relaxation_books. Qed.
Print Assumptions C40_relaxation.

(* the Poisson driver: iterate() sees a temperature of zero and the other arrays as they are; the solver it leaves is asked, with the
   temperature zero as its guess; the answer is the temperature of the state returned, whatever its length *)
Theorem C40_poisson : forall V W I nodes iterate answer (d d' : driver V I) (r : result (state W)),
  fit d ->
  poisson_solve nodes iterate answer d = (d', r) ->
  match iterate (inner (d_sv d)) (mkVectors (held_vec d b_vector) (held_vec d u_vector) (held_vec d v_vector) (fun _ => 0) (held_vec d p_vector))
          (dt_of d) (current_time (d_sv d)) with
  | Err e => r = Err e
  | Ok i =>
      inner (d_sv d') = i /\
      match answer i (fun _ => 0) (held_vec d v_vector) (held_vec d u_vector) (dt_of d) with
      | Err e => r = Err e
      | Ok (_, x) => exists (s : state W) cell, r = Ok s /\ extra s = Thermal cell /\ load (d_mem d') cell = x /\
          look (d_mem d') s = mkView (fun _ => 0) (fun _ => 0) nodes (fun _ => 0) 0 /\ TimeTheorems.apart d' s
      end
  end.
Proof. intros V W I nodes iterate answer d d' r F H. exact (proj1 (proj2 (proj2 (poisson_course nodes iterate answer d d' r F H)))). Qed.
Print Assumptions C40_poisson.
Example C40_poisson_example : exists d s, fit driver1 /\ @poisson_solve R unit R place keep reply driver1 = (d, Ok s).
Proof. destruct (ok2 _ _ (@poisson_solve R unit R place keep reply driver1)) as (d & s & E); [vm_compute; reflexivity|]. exists d, s. split; [exact driver1_fit|exact E]. Qed.

(* solve() does not fail by itself *)
Theorem C40_dynamic_ends : forall V W I dimension nodes_count nodes iterate answer it an,
  (forall i x dt t, iterate i x dt t = Ok (it i x dt t)) ->
  (forall i g v u dt, answer i g v u dt = Ok ((dimension * nodes_count)%nat, an i g v u dt)) ->
  forall n u0 v0 out (d : driver V I), fit d -> non_decreasing 0 (requested n out) -> n <> 0%nat ->
  exists d' (l : list (state W)), dynamic_solve dimension nodes_count nodes iterate answer n u0 v0 out [] d = (d', Ok l).
Proof. exact @dynamic_never. Qed.
Print Assumptions C40_dynamic_ends.

Example C40_dynamic_example : exists d' l,
  fit stocked /\ in_stock (d_mem stocked) [0%nat] /\ non_decreasing 0 (requested 3 [1; 3]%Z) /\ current_time (d_sv stocked) = 0 /\
  dynamic1 reply 3 (fun _ => 1) (fun _ => 2) [1; 3]%Z [0%nat] stocked = (d', Ok l).
Proof.
  destruct dynamic_stocked_ok as (d' & l & H). exists d', l.
  split; [exact stocked_fit|split; [exact stocked_in|split; [cbn; lia|split; [reflexivity|exact H]]]].
Qed.
Example C40_wave_example : exists d' s l,
  fit driver1 /\ non_decreasing 0 (requested 3 [0; 2; 2; 3]%Z) /\
  wave1 reply 3 (fun _ => 1) (fun _ => 2) None [0; 2; 2; 3]%Z [] driver1 = (d', s, Ok l).
Proof.
  destruct wave1_ok as (d' & s & l & H). exists d', s, l. split; [exact driver1_fit|split; [cbn; lia|exact H]].
Qed.
Example C40_relaxation_example : exists d' l,
  fit driver1 /\ non_decreasing 0 (requested 3 [0; 2; 2; 3]%Z) /\ current_time (d_sv driver1) = 0 /\
  relaxation1 reply 3 (fun _ => 1) (fun _ => 2) [0; 2; 2; 3]%Z [] driver1 = (d', Ok l).
Proof.
  destruct relaxation1_ok as (d' & l & H). exists d', l. split; [exact driver1_fit|split; [cbn; lia|split; [reflexivity|exact H]]].
Qed.

(* a state put out before the first step: its displaced nodes are not nodes plus displacement *)
Theorem C40_first_output_refuted : exists d l,
  dynamic1 ones 1 (fun _ => 1) (fun _ => 0) [0]%Z [] driver1 = (d, Ok l) /\
  exists s, nth_error l 0 = Some s /\
  view_displacement (look (d_mem d) s) 0%nat = 1 /\ view_displaced (look (d_mem d) s) 0%nat = place 0%nat + 0.
Proof.
  destruct first_output as (d & l & E & s & N & A & B). exists d, l. split; [exact E|]. exists s. split; [exact N|]. split; [exact A|].
  rewrite B. unfold place. cbn [INR]. lra.
Qed.
Print Assumptions C40_first_output_refuted.

(* ------------------------------------------------------------------ C41 *)

(* [velocity_answer]: the j-th state returned shows what there is after the j-th number of steps
   requested, in one history of fields that ends at the last number requested *)
Theorem C41_dynamic : forall V W I dimension nodes_count nodes iterate answer n u0 v0 out given (d d' : driver V I) (l : list (state W)),
  fit d -> in_stock (d_mem d) given -> non_decreasing 0 (requested n out) ->
  dynamic_solve dimension nodes_count nodes iterate answer n u0 v0 out given d = (d', Ok l) ->
  exists i, first_iterate iterate d (current_time (d_sv d)) u0 v0 = Ok i /\
            velocity_answer dimension nodes_count nodes iterate answer d d' i (current_time (d_sv d)) u0 v0 n out l.
Proof. exact @dynamic_answers. Qed.
Print Assumptions C41_dynamic.

Theorem C41_wave : forall V W I dimension nodes_count nodes iterate answer n u0 v0 out given (d d' : driver V I) (s : state W) l,
  fit d -> in_stock (d_mem d) given -> non_decreasing 0 (requested n out) ->
  wave_solve dimension nodes_count nodes iterate answer n u0 v0 None out given d = (d', s, Ok l) ->
  exists i, first_iterate iterate d 0 u0 v0 = Ok i /\
            velocity_answer dimension nodes_count nodes iterate answer d d' i 0 u0 v0 n out l.
Proof. exact @wave_answers. Qed.
Print Assumptions C41_wave.

Theorem C41_relaxation : forall V W I dimension nodes_count nodes iterate answer n b0 u0 out given (d d' : driver V I) (l : list (state W)),
  fit d -> in_stock (d_mem d) given -> non_decreasing 0 (requested n out) ->
  relaxation_solve dimension nodes_count nodes iterate answer n b0 u0 out given d = (d', Ok l) ->
  exists i,
    iterate (inner (d_sv d)) (mkVectors b0 u0 (held_vec d v_vector) (held_vec d t_vector) (held_vec d p_vector))
      (dt_of d) (current_time (d_sv d)) = Ok i /\
    displacement_answer dimension nodes_count nodes iterate answer d d' i b0 u0 n out l.
Proof. exact @relaxation_answers. Qed.
Print Assumptions C41_relaxation.

Theorem C41_coupled : forall V W I J dimension nodes_count nodes thermal iterate second_iterate update second_update answer second_answer
    n u0 v0 e0 out (m : store V) (s1 : stepper I) (s2 : stepper J) (w' : @pair V W I J) l,
  apart_solvers m s1 s2 -> non_decreasing 0 (requested n out) ->
  coupled_solve dimension nodes_count nodes thermal iterate second_iterate update second_update answer second_answer
    n u0 v0 e0 out m s1 s2 = Some (w', Ok l) ->
  exists i j h,
    iterate (inner s1) (first_vectors thermal m s1 u0 v0 e0) (time_step s1) (current_time s1) = Ok i /\
    second_iterate (inner s2) (first_vectors thermal m s2 u0 v0 e0) (time_step s2) (current_time s2) = Ok j /\
    h O = first_fields dimension nodes_count thermal m s1 i j u0 v0 e0 /\
    coupled_history (dimension * nodes_count) nodes_count update second_update answer second_answer
      (time_step s1) (time_step s2) (current_time s1) 0 (last_step n out) h /\
    List.length l = List.length (requested n out) /\
    forall k q s, nth_error (requested n out) k = Some q -> nth_error l k = Some s ->
      (look (p_mem w') s, map (load (p_mem w')) (extra_refs (extra s)))
      = coupled_view nodes (time_step s1) (current_time s1) 0 h (Z.to_nat q) /\ products s = [].
Proof. exact @coupled_answers. Qed.
Print Assumptions C41_coupled.

Example C41_single : forall n, requested n [] = [Z.of_nat n] /\ last_step n [] = n.
Proof. intro n. split; [reflexivity|]. unfold last_step; cbn. apply Nat2Z.id. Qed.
Example C41_coupled_example : forall b, exists w l,
  apart_solvers blank2 solver1 solver2 /\ non_decreasing 0 (requested 3 [1; 3]%Z) /\
  coupled1 b 3 (fun _ => 1) (fun c => INR c) (fun _ => 2) [1; 3]%Z blank2 solver1 solver2 = Some (w, Ok l).
Proof.
  intro b. destruct (coupled1_ok b 3 (fun _ => 1) (fun c => INR c) (fun _ => 2) [1; 3]%Z blank2 solver1 solver2 ltac:(lia)) as (w & l & E).
  exists w, l. split; [exact pair_apart|split; [cbn; lia|exact E]].
Qed.

(* (3, 1): the second state returned is the one after 3 steps once more *)
Theorem C41_decreasing_refuted : exists d l,
  dynamic1 ones 3 (fun _ => 0) (fun _ => 0) [3; 1]%Z [] driver1 = (d, Ok l) /\
  exists s, nth_error l 1 = Some s /\ time s = 3 /\ view_displacement (look (d_mem d) s) 0%nat = 3.
Proof. exact decreasing_outputs. Qed.
Print Assumptions C41_decreasing_refuted.

(* ------------------------------------------------------------------ C42 *)

(* resuming from any of the states returned: outputs, arrays, clock and solver are those of a run
   not interrupted, whose outputs are asked for q steps later; so are errors *)
Theorem C42_resumed : forall V W I dimension nodes_count nodes iterate answer n u0 v0 out (d d1 : driver V I) (s1 : state W) l j q s
    n2 x y out2 d2 s2 r2 n3 d3 s3 r3,
  forgets iterate -> fit d ->
  non_decreasing 0 (requested n out) -> non_decreasing 0 (requested n2 out2) -> n2 <> 0%nat -> n3 <> 0%nat ->
  wave_solve dimension nodes_count nodes iterate answer n u0 v0 None out [] d = (d1, s1, Ok l) ->
  nth_error (requested n out) j = Some q -> nth_error l j = Some s ->
  wave_solve (W := W) dimension nodes_count nodes iterate answer n2 x y (Some s) out2 [] d1 = (d2, s2, r2) ->
  wave_solve (W := W) dimension nodes_count nodes iterate answer n3 u0 v0 None (shifted q (requested n2 out2)) [] d = (d3, s3, r3) ->
  match r2, r3 with
  | Ok l2, Ok l3 => map (look (d_mem d2)) l2 = map (look (d_mem d3)) l3 /\
      held_vec d2 u_vector = held_vec d3 u_vector /\ held_vec d2 v_vector = held_vec d3 v_vector /\
      current_time (d_sv d2) = current_time (d_sv d3) /\ inner (d_sv d2) = inner (d_sv d3)
  | Err e2, Err e3 => e2 = e3
  | _, _ => False
  end.
Proof. exact @wave_resumes. Qed.
Print Assumptions C42_resumed.

Example C42_example : exists d1 s1 l q s,
  forgets keep /\ fit driver1 /\ non_decreasing 0 (requested 3 [0; 2; 2; 3]%Z) /\ non_decreasing 0 (requested 4 []) /\
  wave1 reply 3 (fun _ => 1) (fun _ => 2) None [0; 2; 2; 3]%Z [] driver1 = (d1, s1, Ok l) /\
  nth_error (requested 3 [0; 2; 2; 3]%Z) 1 = Some q /\ nth_error l 1 = Some s.
Proof.
  destruct wave1_ok as (d1 & s1 & l & E). exists d1, s1, l, 2%Z.
  destruct (nth_error l 1) as [s|] eqn:N.
  - exists s. split; [exact keep_forgets|split; [exact driver1_fit|split; [cbn; lia|split; [cbn; lia|auto]]]].
  - exfalso. assert (G : in_stock (d_mem driver1) []) by constructor.
    assert (ND : non_decreasing 0 (requested 3 [0; 2; 2; 3]%Z)) by (cbn; lia).
    destruct (wave_answers _ _ _ _ _ _ _ _ _ _ _ _ _ _ driver1_fit G ND E) as (i & _ & ? & ? & ? & _ & _ & _ & _ & L & _).
    apply nth_error_None in N. cbn in L. lia.
Qed.

(* with products the returned state cannot be resumed from: its products are of the base class *)
Theorem C42_products_refuted : exists d1 s1 l s d2 s2,
  wave1 ones 1 (fun _ => 0) (fun _ => 0) None [] [0%nat] stocked = (d1, s1, Ok l) /\ nth_error l 0 = Some s /\
  wave1 ones 1 (fun _ => 0) (fun _ => 0) (Some s) [] [] d1 = (d2, s2, Err NotImplemented) /\
  exists d s l, wave1 ones 2 (fun _ => 0) (fun _ => 0) None [] [0%nat] stocked = (d, s, Ok l).
Proof.
  destruct resume_products as (d1 & s1 & l & s & d2 & s2 & A & B & C).
  exists d1, s1, l, s, d2, s2. split; [exact A|split; [exact B|split; [exact C|exact uninterrupted_products]]].
Qed.
Print Assumptions C42_products_refuted.

(* ------------------------------------------------------------------ C43 *)

Theorem C43_wave : forall V W I dimension nodes_count nodes iterate answer n u0 v0 out (d d1 : driver V I) (s1 : state W) l
    n2 u2 v2 out2 d2 s2 r2 d3 s3 r3,
  forgets iterate -> fit d -> n2 <> 0%nat ->
  wave_solve dimension nodes_count nodes iterate answer n u0 v0 None out [] d = (d1, s1, Ok l) ->
  wave_solve (W := W) dimension nodes_count nodes iterate answer n2 u2 v2 None out2 [] d = (d2, s2, r2) ->
  wave_solve (W := W) dimension nodes_count nodes iterate answer n2 u2 v2 None out2 [] d1 = (d3, s3, r3) ->
  match r2, r3 with
  | Ok l2, Ok l3 => map (look (d_mem d2)) l2 = map (look (d_mem d3)) l3
  | Err x, Err y => x = y
  | _, _ => False
  end.
Proof. exact @wave_repeats. Qed.
Print Assumptions C43_wave.

Theorem C43_static : forall V W I dimension nodes_count nodes iterate answer u0 (d d1 : driver V I) (s1 : state W) u2 d2 r2 d3 r3,
  forgets iterate -> fit d ->
  dt_of d = 0 -> current_time (d_sv d) = 0 -> held_vec d b_vector = (fun _ => 0) -> d_to_do d <> 0%nat ->
  static_solve dimension nodes_count nodes iterate answer u0 [] d = (d1, Ok s1) ->
  static_solve (W := W) dimension nodes_count nodes iterate answer u2 [] d = (d2, r2) ->
  static_solve (W := W) dimension nodes_count nodes iterate answer u2 [] d1 = (d3, r3) ->
  match r2, r3 with
  | Ok a, Ok b => look (d_mem d2) a = look (d_mem d3) b
  | Err x, Err y => x = y
  | _, _ => False
  end.
Proof. exact @static_repeats. Qed.
Print Assumptions C43_static.

Example C43_static_example : exists d s, forgets keep /\ fit at_rest /\ dt_of at_rest = 0 /\ current_time (d_sv at_rest) = 0 /\
  held_vec at_rest b_vector = (fun _ => 0) /\ d_to_do at_rest <> 0%nat /\ static1 reply (fun _ => 1) [] at_rest = (d, Ok s).
Proof.
  destruct static1_ok as (d & s & E). exists d, s.
  split; [exact keep_forgets|split; [exact at_rest_fit|split; [reflexivity|split; [reflexivity|split; [reflexivity|split; [discriminate|exact E]]]]]].
Qed.

Theorem C43_poisson : forall V W I nodes iterate answer (d d1 : driver V I) (s1 : state W) d2 r2,
  forgets iterate -> fit d ->
  poisson_solve nodes iterate answer d = (d1, Ok s1) ->
  poisson_solve nodes iterate answer d1 = (d2, r2) ->
  exists (s2 : state W) c1 c2, r2 = Ok s2 /\ extra s1 = Thermal c1 /\ extra s2 = Thermal c2 /\ load (d_mem d2) c2 = load (d_mem d1) c1 /\
    look (d_mem d2) s2 = look (d_mem d1) s1 /\ load (d_mem d2) c1 = load (d_mem d1) c1.
Proof. exact @poisson_repeats. Qed.
Print Assumptions C43_poisson.

(* the others: the clock is not put back, so the first step of the second call is 2 dt long *)
Theorem C43_dynamic_refuted : forgets keep /\ fit driver1 /\ exists d1 l1 d2 l2,
  dynamic1 ones 1 (fun _ => 0) (fun _ => 0) [] [] driver1 = (d1, Ok l1) /\
  dynamic1 ones 1 (fun _ => 0) (fun _ => 0) [] [] d1 = (d2, Ok l2) /\
  view_displacement (first_view (d_mem d1) l1) 0%nat = 1 /\ view_displacement (first_view (d_mem d2) l2) 0%nat = 2.
Proof. exact (conj keep_forgets (conj driver1_fit dynamic_again)). Qed.
Print Assumptions C43_dynamic_refuted.

Theorem C43_relaxation_refuted : forgets keep /\ fit driver1 /\ exists d1 l1 d2 l2,
  relaxation1 ones 1 (fun _ => 0) (fun _ => 0) [] [] driver1 = (d1, Ok l1) /\
  relaxation1 ones 1 (fun _ => 0) (fun _ => 0) [] [] d1 = (d2, Ok l2) /\
  view_absement (first_view (d_mem d1) l1) 0%nat = 1 /\ view_absement (first_view (d_mem d2) l2) 0%nat = 2.
Proof. exact (conj keep_forgets (conj driver1_fit relaxation_again)). Qed.
Print Assumptions C43_relaxation_refuted.

Theorem C43_coupled_refuted : forall thermal, exists w1 l1 w2 l2,
  coupled1 thermal 1 (fun _ => 0) (fun _ => 0) (fun _ => 0) [] blank2 solver1 solver2 = Some (w1, Ok l1) /\
  coupled1 thermal 1 (fun _ => 0) (fun _ => 0) (fun _ => 0) [] (p_mem w1) (p_one w1) (p_two w1) = Some (w2, Ok l2) /\
  map time l1 <> map time l2.
Proof. exact coupled_again. Qed.
Print Assumptions C43_coupled_refuted.

(* the times of the states of a coupled solve(), for every pair of solvers, also used ones *)
Theorem C43_coupled_times : forall V W I J dimension nodes_count nodes thermal iterate second_iterate update second_update answer second_answer
    n u0 v0 e0 out (m : store V) (s1 : stepper I) (s2 : stepper J) (w' : @pair V W I J) l,
  non_decreasing 0 (requested n out) ->
  coupled_solve dimension nodes_count nodes thermal iterate second_iterate update second_update answer second_answer
    n u0 v0 e0 out m s1 s2 = Some (w', Ok l) ->
  current_time (p_one w') = instant (current_time s1) (time_step s1) (last_step n out) /\
  time_step (p_one w') = time_step s1 /\
  forall k q s, nth_error (requested n out) k = Some q -> nth_error l k = Some s ->
    time s = match Z.to_nat q with O => 0 | q => instant (current_time s1) (time_step s1) q end.
Proof. exact @coupled_times. Qed.
Print Assumptions C43_coupled_times.

(* ------------------------------------------------------------------ C44 *)

(* whatever solve() is called later on the same driver, with whatever outcome *)
Theorem C44_snapshots : forall V W I dimension nodes_count nodes iterate answer (s : state W) (d d' : driver V I),
  calls (W := W) dimension nodes_count nodes iterate answer (product_refs s) d d' -> fit d -> apart d s ->
  shown (d_mem d') s = shown (d_mem d) s.
Proof. exact @snapshots. Qed.
Print Assumptions C44_snapshots.

(* the states returned are such *)
Theorem C44_dynamic : forall V W I dimension nodes_count nodes iterate answer n u0 v0 out given (d d' : driver V I) (l : list (state W)),
  fit d -> in_stock (d_mem d) given ->
  dynamic_solve dimension nodes_count nodes iterate answer n u0 v0 out given d = (d', Ok l) -> fit d' /\ Forall (apart d') l.
Proof. exact @dynamic_apart. Qed.
Print Assumptions C44_dynamic.

Theorem C44_relaxation : forall V W I dimension nodes_count nodes iterate answer n b0 u0 out given (d d' : driver V I) (l : list (state W)),
  fit d -> in_stock (d_mem d) given ->
  relaxation_solve dimension nodes_count nodes iterate answer n b0 u0 out given d = (d', Ok l) -> fit d' /\ Forall (apart d') l.
Proof. exact @relaxation_apart. Qed.
Print Assumptions C44_relaxation.

Theorem C44_wave : forall V W I dimension nodes_count nodes iterate answer n u0 v0 out given (d d' : driver V I) (s0 : state W) l,
  fit d -> in_stock (d_mem d) given ->
  wave_solve dimension nodes_count nodes iterate answer n u0 v0 None out given d = (d', s0, Ok l) -> fit d' /\ Forall (apart d') l.
Proof. exact @wave_apart. Qed.
Print Assumptions C44_wave.

(* the Poisson driver *)
Theorem C44_poisson : forall V W I nodes iterate answer (d d' : driver V I) (s : state W),
  fit d -> poisson_solve nodes iterate answer d = (d', Ok s) -> fit d' /\ TimeTheorems.apart d' s.
Proof. exact @poisson_apart. Qed.
Print Assumptions C44_poisson.

Theorem C44_poisson_snapshot : forall V W I nodes iterate answer (d d' : driver V I) (r : result (state W)) (s : state W),
  fit d -> poisson_solve nodes iterate answer d = (d', r) -> TimeTheorems.apart d s ->
  shown (d_mem d') s = shown (d_mem d) s /\ TimeTheorems.apart d' s.
Proof. exact @poisson_snapshot. Qed.
Print Assumptions C44_poisson_snapshot.

(* nor are they changed by the rest of the solve() that makes them *)
Theorem C44_within : forall V W I dimension nodes_count nodes iterate answer c given ns1 ns2 (w w1 w2 : world V W I) l r,
  ready given w ->
  outputs dimension nodes_count nodes iterate answer c given ns1 w = (w1, Ok l) ->
  outputs dimension nodes_count nodes iterate answer c given ns2 w1 = (w2, r) ->
  Forall (fun s => shown (mem w2) s = shown (mem w1) s) l.
Proof. exact @outputs_snapshots. Qed.
Print Assumptions C44_within.

Example C44_example : exists d1 l1 d2,
  dynamic1 reply 3 (fun _ => 1) (fun _ => 2) [1; 3]%Z [0%nat] stocked = (d1, Ok l1) /\
  fit d1 /\ Forall (apart d1) l1 /\
  Forall (fun s => calls (W := unit) 2 1 place keep reply (product_refs s) d1 d2) l1 /\ (l1 <> []) /\ d2 <> d1.
Proof.
  destruct dynamic_stocked_ok as (d1 & l1 & E). exists d1, l1.
  destruct (dynamic_apart _ _ _ _ _ _ _ _ _ _ _ _ _ stocked_fit stocked_in E) as [F A].
  destruct (wave1 reply 1 (fun _ => 0) (fun _ => 0) None [] [] d1) as [[d2 s2] r2] eqn:E2.
  exists d2. split; [exact E|split; [exact F|split; [exact A|split; [|split]]]].
  - apply Forall_forall. intros s _. eapply wave_call; [constructor|intros k []|exact E2|apply no_call].
  - intro C. assert (ND : non_decreasing 0 (requested 3 [1; 3]%Z)) by (cbn; lia).
    destruct (dynamic_answers _ _ _ _ _ _ _ _ _ _ _ _ _ stocked_fit stocked_in ND E) as (i & _ & ? & ? & ? & _ & _ & _ & _ & L & _).
    rewrite C in L. discriminate L.
  - intro C. apply (f_equal (fun d => d_to_do d)) in C. clear - C E E2.
    apply (f_equal (fun r => d_to_do (fst (fst r)))) in E2. apply (f_equal (fun r => d_to_do (fst r))) in E. cbn [fst] in E, E2.
    rewrite <- E2 in C. rewrite <- E in C. revert C. vm_compute. discriminate.
Qed.

(* resuming from a state does change it *)
Theorem C44_resumed_refuted : exists d1 s1 l1 s d2 s2 l,
  wave1 ones 1 (fun _ => 0) (fun _ => 0) None [] [] driver1 = (d1, s1, Ok l1) /\ nth_error l1 0 = Some s /\
  wave1 ones 1 (fun _ => 0) (fun _ => 0) (Some s) [] [] d1 = (d2, s2, Ok l) /\
  view_displacement (look (d_mem d1) s) 0%nat = 1 /\ view_displacement (look (d_mem d2) s) 0%nat = 2.
Proof. exact resume_changes. Qed.
Print Assumptions C44_resumed_refuted.

(* ------------------------------------------------------------------ C45 *)

(* every solve() of a coupled driver ends *)
Theorem C45_ends : forall V W I J dimension nodes_count nodes thermal iterate second_iterate update second_update answer second_answer
    n u0 v0 e0 out (m : store V) (s1 : stepper I) (s2 : stepper J),
  coupled_solve (W := W) dimension nodes_count nodes thermal iterate second_iterate update second_update answer second_answer
    n u0 v0 e0 out m s1 s2 <> None.
Proof. exact @coupled_ends. Qed.
Print Assumptions C45_ends.

(* each of its steps makes 5 to 10 passes, goes on after the fifth only if the last change was more
   than 1/1000, stops before the tenth only if it was not, and leaves old displacement + dt * velocity *)
Theorem C45_loop : forall I J size nodes_count update second_update answer second_answer dt dt2 t0 s0 n (h : nat -> @fields I J),
  coupled_history size nodes_count update second_update answer second_answer dt dt2 t0 s0 n h ->
  forall k, (k < n)%nat -> exists m i j x y,
    alternation size nodes_count update second_update answer second_answer (h k) dt dt2 (instant t0 dt (S k)) m i j x y /\
    (5 <= m <= 10)%nat /\
    (forall q, (5 <= q < m)%nat -> 1 / 1000 < change size nodes_count x y (q - 1)) /\
    (m = 10%nat \/ change size nodes_count x y (m - 1) <= 1 / 1000) /\
    one_v (h (S k)) = x m /\ guess_y (h (S k)) = y m /\
    one_u (h (S k)) = (fun c => one_u (h k) c + dt * x m c) /\
    two_u (h (S k)) = (fun c => one_u (h k) c + dt2 * x m c).
Proof. exact @coupled_loop. Qed.
Print Assumptions C45_loop.

(* with solvers that never raise it ends well *)
Theorem C45_total : forall V W I J dimension nodes_count nodes thermal iterate second_iterate update second_update answer second_answer,
  never_raises dimension nodes_count update second_update answer second_answer ->
  (forall i x dt t, exists i', iterate i x dt t = Ok i') -> (forall j x dt t, exists j', second_iterate j x dt t = Ok j') ->
  Nat.modulo (dimension * nodes_count) 2 = 0%nat ->
  forall n u0 v0 e0 out (m : store V) (s1 : stepper I) (s2 : stepper J), n <> 0%nat ->
  exists (w' : @pair V W I J) l,
    coupled_solve dimension nodes_count nodes thermal iterate second_iterate update second_update answer second_answer
      n u0 v0 e0 out m s1 s2 = Some (w', Ok l).
Proof. exact @coupled_total. Qed.
Print Assumptions C45_total.

Example C45_example : exists h : nat -> fields, coupled_history 2 1 keep_update keep_second reply second_reply 1 1 0 0 3 h.
Proof.
  destruct (C41_coupled_example true) as (w & l & A & N & E).
  destruct (coupled_answers _ _ _ _ _ _ _ _ _ _ _ _ _ _ _ _ _ _ _ _ A N E) as (i & j & h & _ & _ & _ & H & _).
  exists h. exact H.
Qed.

(* ------------------------------------------------------------------ C60 *)

(* [stamp]: the time iterate() was told; the velocity of step k + 1 is answered by a solver told
   time k * dt *)
Theorem C60_velocity_driven : forall I dimension nodes_count iterate answer (stamp : I -> R) b t p dt t0 s0 n inner u v,
  (forall i x dt t i', iterate i x dt t = Ok i' -> stamp i' = t) -> stamp (inner O) = t0 ->
  velocity_history iterate answer (dimension * nodes_count) b t p dt t0 s0 n inner u v ->
  forall k, (k < n)%nat -> stamp (inner k) = instant t0 dt k /\
    answer (inner k) (v k) (v k) (u k) dt = Ok ((dimension * nodes_count)%nat, v (S k)).
Proof. exact @load_time. Qed.
Print Assumptions C60_velocity_driven.

(* that of the coupled solvers by one told time (k + 1) * dt *)
Theorem C60_coupled : forall I J size nodes_count update second_update answer second_answer (stamp : I -> R) dt dt2 t0 s0 n (h : nat -> @fields I J),
  (forall i u v y dt t i', update i u v y dt t = Ok i' -> stamp i' = t) ->
  coupled_history size nodes_count update second_update answer second_answer dt dt2 t0 s0 n h ->
  forall k, (k < n)%nat -> exists i g,
    stamp i = instant t0 dt (S k) /\
    answer i g (one_v (h k)) (one_u (h k)) dt = Ok (size, one_v (h (S k))) /\
    one_u (h (S k)) = (fun c => one_u (h k) c + dt * one_v (h (S k)) c).
Proof. exact @coupled_load_time. Qed.
Print Assumptions C60_coupled.

Example C60_example : (forall i x dt t i', keep i x dt t = Ok i' -> i' = t) /\
  (forall i u v y dt t i', keep_update i u v y dt t = Ok i' -> i' = t) /\
  exists inner u v, inner O = 0 /\ velocity_history keep reply (2 * 1) (fun _ => 0) (fun _ => 0) (fun _ => 0) 1 0 0 3 inner u v.
Proof.
  split; [intros i x dt t i' H; unfold keep in H; congruence|]. split; [intros i u v y dt t i' H; unfold keep_update in H; congruence|].
  do 3 eexists. split; [|apply (history_made 2 1 keep reply (fun _ _ _ t => t) (fun i _ v u _ c => i + v c + u c)
    (fun _ _ _ _ => eq_refl) (fun _ _ _ _ _ => eq_refl) _ _ _ 1 0 0 0 (fun _ => 1) (fun _ => 2) 3)].
  reflexivity.
Qed.
