(* The Schur complement solver: C16-C19, C78. *)
From Coq Require Import Reals List Arith ZArith Bool String Lia Lra.
From Verif Require Import Common PyModel RVec LinAlg DofModel DirichletModel DirichletSpec DirichletProofs
  StatementModel StatementSpec StatementValueProofs StatementExamples
  ContactModel ContactSpec SchurModel SchurSpec SchurProofs SchurMinProofs SchurStepProofs SchurWitness.
Import ListNotations.
Local Open Scope R_scope.

(* ------------------------------------------------------------------ C16 *)

(* x: d components of nc contact and nf free nodes.  x solves the system iff its contact part
   solves the reduced system and its free part is the complement *)
Theorem C16_reduced_solution : forall inv d nc nf A b s x xc xf, inverts inv -> d <> 0%nat ->
  init inv d nc (nc + nf) (mkSized (d * (nc + nf)) (d * (nc + nf)) A) ((d * (nc + nf))%nat, b) = Ok s ->
  parts d nc nf x xc xf ->
  (solves (d * (nc + nf)) A b x <->
   solves (d * nc) (data (node_relations s)) (snd (node_forces s)) xc /\
   exists r, complement_free_nodes s ((d * nc)%nat, xc) = Ok ((d * nf)%nat, r) /\ veq (d * nf) xf r).
Proof.
  exact (fun inv d nc nf A b s x xc xf Hi Hd H => reduced_solution d nc nf A b s x xc xf (init_reduces inv d nc nf Hi Hd A b s H)).
Qed.
Print Assumptions C16_reduced_solution.

(* the initialisation succeeds whenever the block of the free dofs is positive definite *)
Theorem C16_initialises : forall inv d nc nf A b F, inverts inv -> d <> 0%nat ->
  free_block d nc nf A F -> pos_def (d * nf) F ->
  exists s, init inv d nc (nc + nf) (mkSized (d * (nc + nf)) (d * (nc + nf)) A) ((d * (nc + nf))%nat, b) = Ok s.
Proof.
  exact (fun inv d nc nf A b F Hi Hd HF HP => init_ok inv d nc nf Hi Hd A b F HF (pos_def_inverse _ _ HP)).
Qed.
Print Assumptions C16_initialises.

Example C16_contract : exists inv, inverts inv.
Proof. exact inverter. Qed.
Example C16_example : forall inv b, inverts inv -> exists s x xc xf,
  init inv 2 2 5 (mkSized 10 10 stiff) (10%nat, b) = Ok s /\ parts 2 2 3 x xc xf /\ solves 10 stiff b x.
Proof.
  intros inv b HI. destruct (stiff_state inv 2 2 3 b HI ltac:(lia)) as (s & E).
  destruct (pos_def_solvable 10 stiff b (stiff_pos_def 10)) as (x & Hx).
  exists s, x, (contact_part_of 2 3 x), (free_part_of 2 3 x). split; [exact E|]. split; [apply parts_of|exact Hx].
Qed.

(* ------------------------------------------------------------------ C17 *)

(* the energy of the full system is the energy of the reduced one, plus a constant, plus the
   energy of the difference of the free part and the complement *)
Theorem C17_energy : forall inv d nc nf A b s F, inverts inv -> d <> 0%nat ->
  init inv d nc (nc + nf) (mkSized (d * (nc + nf)) (d * (nc + nf)) A) ((d * (nc + nf))%nat, b) = Ok s ->
  symmetric (d * (nc + nf)) A -> free_block d nc nf A F ->
  exists c, forall x xc xf r, parts d nc nf x xc xf -> complement_free_nodes s ((d * nc)%nat, xc) = Ok ((d * nf)%nat, r) ->
    quadratic (d * (nc + nf)) A b x
    = quadratic (d * nc) (data (node_relations s)) (snd (node_forces s)) xc + c
      + / 2 * qform (d * nf) F (fun i => xf i - r i).
Proof.
  exact (fun inv d nc nf A b s F Hi Hd H => reduced_energy d nc nf A b s F Hd (init_reduces inv d nc nf Hi Hd A b s H)).
Qed.
Print Assumptions C17_energy.

(* for every contact cost on faces of contact nodes: x minimises the full cost iff its contact
   part minimises the reduced cost and its free part is the complement *)
Theorem C17_minimisers : forall inv d nc nf A b s F jn hn jt ht din nodes width normals old u faces dt x xc xf,
  inverts inv -> d <> 0%nat ->
  init inv d nc (nc + nf) (mkSized (d * (nc + nf)) (d * (nc + nf)) A) ((d * (nc + nf))%nat, b) = Ok s ->
  symmetric (d * (nc + nf)) A -> free_block d nc nf A F -> pos_def (d * nf) F ->
  (forall e a, In e faces -> In a e -> (a < nc)%nat) ->
  parts d nc nf x xc xf ->
  (minimises (fun y => cost_functional jn hn jt ht din d nodes width normals
       (mkSized (d * (nc + nf)) (d * (nc + nf)) A) ((d * (nc + nf))%nat, b) ((d * (nc + nf))%nat, y) old u faces dt) x <->
   minimises (fun y => cost_functional jn hn jt ht din d nodes width normals
       (node_relations s) (node_forces s) ((d * nc)%nat, y) old u faces dt) xc /\
   exists r, complement_free_nodes s ((d * nc)%nat, xc) = Ok ((d * nf)%nat, r) /\ veq (d * nf) xf r).
Proof.
  exact (fun inv d nc nf A b s F jn hn jt ht din nodes width normals old u faces dt x xc xf Hi Hd H HS HF HP Hf HX =>
    reduced_minimiser d nc nf Hd jn hn jt ht din nodes width normals old u faces dt Hf A F b s
      (init_reduces inv d nc nf Hi Hd A b s H) HS HF HP x xc xf HX).
Qed.
Print Assumptions C17_minimisers.

(* data meeting the hypotheses, with a contact face *)
Example C17_example : forall inv b, inverts inv -> exists s,
  init inv 2 2 5 (mkSized 10 10 stiff) (10%nat, b) = Ok s /\ symmetric 10 stiff /\
  free_block 2 2 3 stiff (fun r q => stiff r q) /\ pos_def 6 (fun r q => stiff r q) /\
  (forall e a, In e [[0; 1]%nat] -> In a e -> (a < 2)%nat) /\ stiff 0%nat 2%nat = 1.
Proof.
  intros inv b HI. destruct (stiff_state inv 2 2 3 b HI ltac:(lia)) as (s & E). exists s.
  split; [exact E|]. split; [apply stiff_symmetric|]. split; [apply stiff_free|]. split; [apply stiff_pos_def|].
  split; [|reflexivity]. intros e a [<-|[]] [<-|[<-|[]]]; lia.
Qed.

(* ------------------------------------------------------------------ C18 *)

(* one or two components: merging gives the vector with these parts *)
Theorem C18_merge : forall d nc nf xc xf, d = 1%nat \/ d = 2%nat ->
  exists x, merge d false ((d * nc)%nat, xc) ((d * nf)%nat, xf) = Ok ((d * (nc + nf))%nat, x) /\ parts d nc nf x xc xf.
Proof. exact merge_layout. Qed.
Print Assumptions C18_merge.

Theorem C18_truncate : forall d nc nf x, d = 1%nat \/ d = 2%nat ->
  exists xc, truncate_free_nodes d nc false ((d * (nc + nf))%nat, x) = Ok ((d * nc)%nat, xc) /\ contact_of d nc nf x xc.
Proof. exact truncate_layout. Qed.
Print Assumptions C18_truncate.

(* taking a vector apart and merging gives it back *)
Theorem C18_round_trip : forall d nc nf x xc xf, d = 1%nat \/ d = 2%nat -> parts d nc nf x xc xf ->
  exists y, merge d false ((d * nc)%nat, xc) ((d * nf)%nat, xf) = Ok ((d * (nc + nf))%nat, y) /\ veq (d * (nc + nf)) y x.
Proof. exact merge_truncate. Qed.
Print Assumptions C18_round_trip.

Example C18_example : parts 2 2 1 (fun i => INR (S i))
    (fun i => nth i [1; 2; 4; 5] 0) (fun i => nth i [3; 6] 0) /\
  exists y, merge 2 false (4%nat, fun i => nth i [1; 2; 4; 5] 0) (2%nat, fun i => nth i [3; 6] 0) = Ok (6%nat, y) /\
    y 2%nat = 3 /\ y 3%nat = 4.
Proof.
  split.
  - split; intros k i Hk Hi; destruct k as [|[|k]]; try lia; destruct i as [|[|i]]; try lia; simpl; lra.
  - eexists. split; [reflexivity|]. split; reflexivity.
Qed.

(* in space the layouts do not fit: truncation keeps one component only, merging concatenates,
   and with any optimiser that returns as many numbers as it gets the solver raises ValueError *)
Theorem C18_space_refuted : forall inv nc nf A b s optimise guess, inverts inv -> (0 < nc)%nat ->
  init inv 3 nc (nc + nf) (mkSized (3 * (nc + nf)) (3 * (nc + nf)) A) ((3 * (nc + nf))%nat, b) = Ok s ->
  (forall x, fst (optimise x) = fst x) ->
  solve_impl 3 nc false optimise s guess = Err ValueError.
Proof. exact (fun inv nc nf A b s o g Hi Hc => solve_space inv 3 nc nf A b s o g Hi (le_n 3) Hc). Qed.
Print Assumptions C18_space_refuted.

Theorem C18_space_truncate_refuted : forall nc nf x,
  truncate_free_nodes 3 nc false ((3 * (nc + nf))%nat, x) = Ok (nc, x).
Proof. exact (fun nc nf x => truncate_space 3 nc nf x (le_n 3)). Qed.
Print Assumptions C18_space_truncate_refuted.

Theorem C18_space_merge_refuted : forall nc nf, (0 < nc)%nat -> (0 < nf)%nat ->
  exists xc xf x, merge 3 false ((3 * nc)%nat, xc) ((3 * nf)%nat, xf) = Ok ((3 * (nc + nf))%nat, x) /\
    ~ parts 3 nc nf x xc xf.
Proof. exact (fun nc nf => merge_space 3 nc nf (le_n 3)). Qed.
Print Assumptions C18_space_merge_refuted.

Example C18_space_example : forall inv b, inverts inv -> exists s,
  init inv 3 2 5 (mkSized 15 15 stiff) (15%nat, b) = Ok s.
Proof. exact (fun inv b HI => stiff_state inv 3 2 3 b HI ltac:(lia)). Qed.

(* ------------------------------------------------------------------ C19 *)

(* with the same matrix, any number of iterations gives the state a new solver would have *)
Theorem C19_same_matrix : forall inv d nc nf A bs b s, inverts inv -> d <> 0%nat ->
  init inv d nc (nc + nf) (mkSized (d * (nc + nf)) (d * (nc + nf)) A) ((d * (nc + nf))%nat, b) = Ok s ->
  iterates d nc nf s bs
  = init inv d nc (nc + nf) (mkSized (d * (nc + nf)) (d * (nc + nf)) A) ((d * (nc + nf))%nat, last bs b).
Proof. exact (fun inv d nc nf A bs b s Hi Hd => iterates_init inv Hi d nc nf Hd A bs b s). Qed.
Print Assumptions C19_same_matrix.

(* every statement but the relaxation one: after an update with other loads, displacements and
   velocities the reduced system is that of the updated statement *)
Theorem C19_statements : forall (Fs : Type) (integrate : Fs -> R -> Fs * result (nat * vec)) b inv k nc nf
    p0 p1 var0 var1 conds w0 w0' l0 r0 w1 w1' l1 r1 s0 s1 x xc xf,
  let d := dimension_in k (b_dimension b) in let N := (nc + nf)%nat in
  inverts inv -> k <> QuasistaticRelaxation -> d <> 0%nat -> unknowns b k = (d * N)%nat ->
  same_operators p0 p1 ->
  b_conditions b d (dirichlet_cond_name k) = Ok conds -> well_shaped (d * N) conds ->
  reads integrate b var0 p0 k w0 -> update integrate b k var0 w0 = (w0', Ok (l0, r0)) ->
  reads integrate b var1 p1 k w1 -> update integrate b k var1 w1 = (w1', Ok (l1, r1)) ->
  init inv d nc N (shown_matrix (hp w0') (sm_data l0)) (shown_vector (hp w0') r0) = Ok s0 ->
  iterate d nc N s0 (shown_vector (hp w1') r1) = Ok s1 ->
  parts d nc nf x xc xf ->
  (solves (d * N) (data (shown_matrix (hp w1') (sm_data l1))) (snd (shown_vector (hp w1') r1)) x <->
   solves (d * nc) (data (node_relations s1)) (snd (node_forces s1)) xc /\
   exists r, complement_free_nodes s1 ((d * nc)%nat, xc) = Ok ((d * nf)%nat, r) /\ veq (d * nf) xf r).
Proof.
  exact (fun Fs integrate b inv k nc nf p0 p1 v0 v1 conds w0 w0' l0 r0 w1 w1' l1 r1 s0 s1 x xc xf Hi Hk Hd Hn =>
    statement_iterate integrate b inv Hi k nc nf Hk Hd Hn p0 p1 v0 v1 conds w0 w0' l0 r0 w1 w1' l1 r1 s0 s1 x xc xf).
Qed.
Print Assumptions C19_statements.

Example C19_example : forall inv, inverts inv -> exists w' l r s0 s1,
  reads constant_source (laid_out_body (tiny 1) []) (laid_out_variables (tiny 1)) (tiny 1) DynamicVelocity (laid_out (tiny 1) DynamicVelocity) /\
  update constant_source (laid_out_body (tiny 1) []) DynamicVelocity (laid_out_variables (tiny 1)) (laid_out (tiny 1) DynamicVelocity)
    = (w', Ok (l, r)) /\
  init inv 2 1 2 (shown_matrix (hp w') (sm_data l)) (shown_vector (hp w') r) = Ok s0 /\
  iterate 2 1 2 s0 (shown_vector (hp w') r) = Ok s1.
Proof. exact dynamic_case. Qed.

(* false for a relaxation that depends on time: one solver step after time 0, whatever
   solution of the reduced system is found, the merged vector does not solve the system *)
Theorem C19_ageing_refuted : forall inv, inverts inv ->
  exists w1 l0 r0 w2 l1 r1 s0 s1,
    update constant_source ageing QuasistaticRelaxation (at_time 0) new_world = (w1, Ok (l0, r0)) /\
    init inv 2 1 2 (shown_matrix (hp w1) (sm_data l0)) (shown_vector (hp w1) r0) = Ok s0 /\
    update constant_source ageing QuasistaticRelaxation (at_time 1) w1 = (w2, Ok (l1, r1)) /\
    iterate 2 1 2 s0 (shown_vector (hp w2) r1) = Ok s1 /\
    forall x xc xf r, parts 2 1 1 x xc xf ->
      solves 2 (data (node_relations s1)) (snd (node_forces s1)) xc ->
      complement_free_nodes s1 (2%nat, xc) = Ok (2%nat, r) -> veq 2 xf r ->
      ~ solves 4 (data (shown_matrix (hp w2) (sm_data l1))) (snd (shown_vector (hp w2) r1)) x.
Proof. exact stale_matrices. Qed.
Print Assumptions C19_ageing_refuted.

(* ------------------------------------------------------------------ C78 *)

(* one or two components: with an exact minimiser of the reduced cost, started at the contact
   part of the initial guess, the solver returns a minimiser of the full cost *)
Theorem C78_exact : forall inv d nc nf A b s F jn hn jt ht din nodes width normals old u faces dt optimise x0,
  inverts inv -> d = 1%nat \/ d = 2%nat ->
  init inv d nc (nc + nf) (mkSized (d * (nc + nf)) (d * (nc + nf)) A) ((d * (nc + nf))%nat, b) = Ok s ->
  symmetric (d * (nc + nf)) A -> free_block d nc nf A F -> pos_def (d * nf) F ->
  (forall e a, In e faces -> In a e -> (a < nc)%nat) ->
  (forall g, contact_of d nc nf x0 g ->
     exists xc, optimise ((d * nc)%nat, g) = ((d * nc)%nat, xc) /\
       minimises (fun y => cost_functional jn hn jt ht din d nodes width normals
         (node_relations s) (node_forces s) ((d * nc)%nat, y) old u faces dt) xc) ->
  exists x, solve_impl d nc false optimise s ((d * (nc + nf))%nat, x0) = Ok ((d * (nc + nf))%nat, x) /\
    minimises (fun y => cost_functional jn hn jt ht din d nodes width normals
       (mkSized (d * (nc + nf)) (d * (nc + nf)) A) ((d * (nc + nf))%nat, b) ((d * (nc + nf))%nat, y) old u faces dt) x.
Proof. exact exact_solver. Qed.
Print Assumptions C78_exact.

Example C78_example : forall inv b law nodes width normals old u dt, inverts inv ->
  exists s optimise, init inv 2 2 5 (mkSized 10 10 stiff) (10%nat, b) = Ok s /\
    forall g : vec, exists xc, optimise (4%nat, g) = (4%nat, xc) /\
      minimises (fun y => loss law 2 2 nodes width normals (node_relations s) (node_forces s) (4%nat, y) old u [] dt) xc.
Proof.
  intros inv b law nodes width normals old u dt HI. destruct (stiff_state inv 2 2 3 b HI ltac:(lia)) as (s & E).
  destruct (exact_case 2 2 3 b s law 2 nodes width normals old u dt ltac:(lia) (init_reduces inv 2 2 3 HI ltac:(lia) _ _ _ E)) as (xc & H).
  exists s, (fun _ : arr => (4%nat, xc)). split; [exact E|]. intros g. exists xc. split; [reflexivity|exact H].
Qed.

(* one unknown per node and a vector of twice the length (wave problems): the first half of
   the result consists of the optimiser's answer and its complement, the second is zero *)
Theorem C78_driving : forall inv nc nf A b s optimise x0 xc, inverts inv ->
  init inv 1 nc (nc + nf) (mkSized (1 * (nc + nf)) (1 * (nc + nf)) A) ((1 * (nc + nf))%nat, b) = Ok s ->
  (forall g, veq nc g x0 -> optimise (nc, g) = (nc, xc)) ->
  exists x xf, solve_impl 1 nc true optimise s ((2 * (nc + nf))%nat, x0) = Ok ((2 * (nc + nf))%nat, x) /\
    complement_free_nodes s (nc, xc) = Ok (nf, xf) /\ parts 1 nc nf x xc xf /\
    forall i, (i < nc + nf)%nat -> x (nc + nf + i)%nat = 0.
Proof.
  exact (fun inv nc nf A b s o x0 xc Hi H => solve_driving nc nf A b s o x0 xc (init_reduces inv 1 nc nf Hi (Nat.neq_succ_0 0) A b s H)).
Qed.
Print Assumptions C78_driving.

Example C78_driving_example : forall inv b, inverts inv -> exists s,
  init inv 1 2 5 (mkSized 5 5 stiff) (5%nat, b) = Ok s /\
  forall g : vec, veq 2 g (fun _ => 7) -> (fun a : arr => (fst a, fun _ : nat => 3)) (2%nat, g) = (2%nat, fun _ => 3).
Proof.
  intros inv b HI. destruct (stiff_state inv 1 2 3 b HI ltac:(lia)) as (s & E). exists s. split; [exact E|]. reflexivity.
Qed.

(* with an interior law the loss cannot be evaluated: it multiplies the mass matrix of all
   nodes by the response of the contact nodes *)
Theorem C78_interior_refuted : forall inv nc nf law A b s M x u dt, inverts inv -> (0 < nf)%nat ->
  init inv 1 nc (nc + nf) (mkSized (1 * (nc + nf)) (1 * (nc + nf)) A) ((1 * (nc + nf))%nat, b) = Ok s ->
  interior_loss law (node_relations s) (node_forces s) (nc, x) u (mkSized (nc + nf) (nc + nf) M) dt = Err ValueError.
Proof.
  exact (fun inv nc nf law A b s M x u dt Hi Hf H => interior_mismatch nc nf law A b s M x u dt (init_reduces inv 1 nc nf Hi (Nat.neq_succ_0 0) A b s H) Hf).
Qed.
Print Assumptions C78_interior_refuted.
