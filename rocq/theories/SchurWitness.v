(* Energy identity for a solver state, and the concrete cases of the Schur theorems. *)
From Coq Require Import Reals List Arith ZArith Bool String Lia Lra ClassicalEpsilon.
From Verif Require Import Common PyModel RVec LinAlg DofModel DofSpec DirichletModel DirichletSpec DirichletProofs
  StatementModel StatementSpec StatementProofs StatementValueProofs StatementExamples
  ContactModel ContactSpec ContactWitness SchurModel SchurSpec SchurProofs SchurMinProofs SchurStepProofs.
Import ListNotations.
Local Open Scope R_scope.

Theorem reduced_energy d nc nf A b s F : (d <> 0)%nat ->
  reduces d nc nf A b s -> symmetric (d * (nc + nf)) A -> free_block d nc nf A F ->
  exists c, forall x xc xf r, parts d nc nf x xc xf -> complement_free_nodes s ((d * nc)%nat, xc) = Ok ((d * nf)%nat, r) ->
    quadratic (d * (nc + nf)) A b x
    = quadratic (d * nc) (data (node_relations s)) (snd (node_forces s)) xc + c
      + / 2 * qform (d * nf) F (fun i => xf i - r i).
Proof.
  intros Hd HR HS HF. assert (HR' := HR). destruct HR' as (B & bc & bf & HB & Hb & E1 & E2 & E3 & E4 & E5 & E6).
  exists (- / 2 * dot (d * nf) bf (mv (d * nf) B bf)). intros x xc xf r HX HC.
  assert (HC' : complement_free_nodes s (d * nc, xc)%nat = Ok ((d * nf)%nat, complement d nc nf A B bf xc)).
  { unfold complement_free_nodes. rewrite E2, E4, E6. unfold sized_mv at 1. cbn [rows cols data fst snd].
    rewrite Nat.eqb_refl. cbn [bind fst snd]. unfold broadcast. cbn [fst snd]. rewrite Nat.eqb_refl. cbn [bind].
    unfold sized_mv. cbn [rows cols data fst snd]. rewrite Nat.eqb_refl. reflexivity. }
  rewrite HC' in HC. injection HC as <-. rewrite E1, E5. cbn [data snd].
  rewrite (schur_energy d nc nf A b B bc bf HB Hb HS x xc xf HX).
  rewrite (qform_meq (d * nf) F _ _ (free_block_ff d nc nf A F HF)). ring.
Qed.

(* the contract of numpy.linalg.inv can be met *)
Lemma inverter : exists inv, inverts inv.
Proof.
  exists (fun n A => match excluded_middle_informative (exists B, is_inverse n A B) with
    | Specif.left H => Ok (proj1_sig (constructive_indefinite_description _ H)) | Specif.right _ => Err ValueError end).
  intros n A. destruct (excluded_middle_informative _) as [H|H].
  - split; [|intros _; eexists; reflexivity]. intros B E. injection E as <-.
    destruct (constructive_indefinite_description _ H) as [B HB]. exact HB.
  - split; [discriminate|]. intros E. contradiction.
Qed.

(* a coupled positive definite matrix *)
Definition stiff : mat := fun i j => if (i =? j)%nat then 3 else 1.
Lemma stiff_symmetric n : symmetric n stiff.
Proof. intros i j _ _. unfold stiff. rewrite Nat.eqb_sym. reflexivity. Qed.
Lemma stiff_form n x : qform n stiff x = 2 * dot n x x + sum n x * sum n x.
Proof.
  unfold qform, dot, mv. rewrite (sum_ext n _ (fun i => 2 * (x i * x i) + x i * sum n x)).
  - rewrite sum_plus, sum_scal, sum_scal_r. reflexivity.
  - intros i Hi. rewrite (sum_ext n _ (fun j => delta i j * (2 * x j) + x j)).
    + rewrite sum_plus, sum_delta_l by auto. ring.
    + intros j _. unfold stiff, delta. destruct (i =? j)%nat; ring.
Qed.
Lemma stiff_pos_def n : pos_def n stiff.
Proof.
  intros x (i & Hi & Hx). rewrite stiff_form.
  assert (0 < dot n x x).
  { unfold dot. apply (sum_pos n _ i); auto; [intros; nra|].
    assert (x i < 0 \/ 0 < x i) as [H|H] by lra; nra. }
  nra.
Qed.
Lemma stiff_free d nc nf : free_block d nc nf stiff (fun r q => stiff r q).
Proof.
  intros k i l j Hk Hi Hl Hj. unfold stiff.
  destruct (Nat.eqb_spec (k * nf + i) (l * nf + j)) as [E|E];
  destruct (Nat.eqb_spec (k * (nc + nf) + nc + i) (l * (nc + nf) + nc + j)) as [G|G]; try reflexivity; exfalso.
  - pose proof (f_equal (fun z => (z / nf)%nat) E) as K. cbv beta in K. rewrite !div_block in K by auto. subst l. lia.
  - rewrite <- !Nat.add_assoc in G. pose proof (f_equal (fun z => (z / (nc + nf))%nat) G) as K. cbv beta in K.
    rewrite !div_block in K by lia.
    subst l. lia.
Qed.

(* a solver state for it *)
Lemma stiff_state inv d nc nf b : inverts inv -> d <> 0%nat ->
  exists s, init inv d nc (nc + nf) (mkSized (d * (nc + nf)) (d * (nc + nf)) stiff) ((d * (nc + nf))%nat, b) = Ok s.
Proof.
  intros HI Hd. apply (init_ok inv d nc nf HI Hd stiff b (fun r q => stiff r q)); [apply stiff_free|].
  apply pos_def_inverse. apply stiff_pos_def.
Qed.

(* --------------------------------------- a relaxation growing in time *)

Definition ageing : body :=
  mkBody 2 2 (fun _ _ => Ok [])
    (mkOps (mkSmat (2, 2)%nat (mkMref 0 4 4)) (Some (mkSmat (2, 2)%nat (mkMref 0 4 4))) None None None None None None)
    (Some (fun t => match t with Some t => Ok (fun _ _ _ => t) | None => Err TypeError end))
    (fun tn => Ok (fun i j => delta i j * tn 0%nat 0%nat 0%nat)).
Definition new_world : world (nat * vec) :=
  mkWorld (mkHeap [delta] [fun _ => 0]) (4%nat, fun _ => 1) (2%nat, fun _ => 0) None None.
Definition at_time (t : R) : variables :=
  mkVariables (Some (mkVref 0 4)) None None None None (Some 1) (Some t).
Definition aged (t : R) : physics :=
  mkPhysics 2 4 delta delta delta (fun i j => delta i j * t) delta delta delta delta delta
    (fun _ => 1) (fun _ => 0) (fun _ => 0) (fun _ => 0) (fun _ => 0) (fun _ => 0) (fun _ => 0) 1.

Lemma ageing_entrywise : entrywise ageing.
Proof.
  intros t1 t2 H. unfold tensor_neq in H. cbn [existsb] in H.
  destruct (Req_EM_T (t1 0%nat 0%nat 0%nat) (t2 0%nat 0%nat 0%nat)) as [E|E]; [|discriminate H].
  cbn. rewrite E. reflexivity.
Qed.

Lemma ageing_reads t w : relax_ok ageing w -> w_force w = (4%nat, fun _ => 1) ->
  hext (hp new_world) (hp w) -> reads constant_source ageing (at_time t) (aged t) QuasistaticRelaxation w.
Proof.
  intros HR HF HX. split; [split; reflexivity|]. split; [reflexivity|]. split; [split; [reflexivity|cbn; lra]|].
  split; [apply ageing_entrywise|]. split; [exact HR|]. split.
  - exists t. eexists. eexists. split; [reflexivity|]. split; [exact (f_equal (fun f => snd (constant_source f t)) HF)|].
    split; [reflexivity|]. split; reflexivity.
  - split.
    + apply (has_vec_ext (hp new_world)); auto. eexists. split; [reflexivity|]. repeat split; simpl; lia.
    + apply (has_op_ext (hp new_world)); auto. eexists. split; [reflexivity|]. repeat split; simpl; lia.
Qed.

Lemma no_shape n : well_shaped n [].
Proof. intros sl c s []. Qed.

Theorem stale_matrices inv : inverts inv ->
  exists w1 l0 r0 w2 l1 r1 s0 s1,
    update constant_source ageing QuasistaticRelaxation (at_time 0) new_world = (w1, Ok (l0, r0)) /\
    init inv 2 1 2 (shown_matrix (hp w1) (sm_data l0)) (shown_vector (hp w1) r0) = Ok s0 /\
    update constant_source ageing QuasistaticRelaxation (at_time 1) w1 = (w2, Ok (l1, r1)) /\
    iterate 2 1 2 s0 (shown_vector (hp w2) r1) = Ok s1 /\
    forall x xc xf r, parts 2 1 1 x xc xf ->
      solves 2 (data (node_relations s1)) (snd (node_forces s1)) xc ->
      complement_free_nodes s1 (2%nat, xc) = Ok (2%nat, r) -> veq 2 xf r ->
      ~ solves 4 (data (shown_matrix (hp w2) (sm_data l1))) (snd (shown_vector (hp w2) r1)) x.
Proof.
  intros HI.
  assert (R0 : reads constant_source ageing (at_time 0) (aged 0) QuasistaticRelaxation new_world).
  { apply ageing_reads; [intros tn; discriminate|reflexivity|]. apply hext_refl. }
  destruct (update_value constant_source ageing (at_time 0) (aged 0) QuasistaticRelaxation new_world [] R0 eq_refl (no_shape _))
    as (w1 & [l0 r0] & U0 & X0 & F0 & _ & K0 & (_ & M1 & M2 & M3) & (_ & V1 & V2)).
  cbn [fst snd] in *.
  assert (R1 : reads constant_source ageing (at_time 1) (aged 1) QuasistaticRelaxation w1).
  { apply ageing_reads; [apply K0; intros tn; discriminate|exact F0|exact X0]. }
  destruct (update_value constant_source ageing (at_time 1) (aged 1) QuasistaticRelaxation w1 [] R1 eq_refl (no_shape _))
    as (w2 & [l1 r1] & U1 & _ & _ & _ & _ & (_ & M4 & M5 & M6) & (_ & V3 & V4)).
  cbn [fst snd] in *.
  change (unknowns ageing QuasistaticRelaxation) with 4%nat in *.
  assert (E0 : meq 4 4 (load_m (hp w1) (sm_data l0)) delta).
  { intros i j Hi Hj. rewrite M3 by auto. cbn. unfold delta. destruct (i =? j)%nat; ring. }
  assert (E1 : meq 4 4 (load_m (hp w2) (sm_data l1)) (fun i j => 2 * delta i j)).
  { intros i j Hi Hj. rewrite M6 by auto. cbn. unfold delta. destruct (i =? j)%nat; ring. }
  assert (G1 : veq 4 (load_v (hp w2) r1) (fun _ => 1)).
  { intros i Hi. rewrite V4 by auto. unfold final, apply_dirichlet. cbn [fold_left rhs rvec].
    rewrite (mv_rest 4). 2:{ intros; reflexivity. } cbn. ring. }
  assert (HF : free_block 2 1 1 (load_m (hp w1) (sm_data l0)) (fun r q => delta r q)).
  { intros k i l j Hk Hi Hl Hj. rewrite E0 by lia. unfold delta.
    destruct (Nat.eqb_spec (k * 1 + i) (l * 1 + j)); destruct (Nat.eqb_spec (k * (1 + 1) + 1 + i) (l * (1 + 1) + 1 + j)); try reflexivity; lia. }
  assert (HB : exists B, is_inverse (2 * 1) (fun r q => delta r q) B).
  { exists delta. intros i j Hi Hj. rewrite !sum_delta_l by auto. auto. }
  destruct (init_ok inv 2 1 1 HI ltac:(lia) (load_m (hp w1) (sm_data l0)) (load_v (hp w1) r0) _ HF HB) as (s0 & I0).
  pose proof (init_reduces inv 2 1 1 HI ltac:(lia) _ _ _ I0) as H0.
  destruct (iterate_reduces 2 1 1 ltac:(lia) _ _ (load_v (hp w2) r1) s0 H0) as (s1 & I1 & H1).
  exists w1, l0, r0, w2, l1, r1, s0, s1. split; [exact U0|]. split.
  { unfold shown_matrix, shown_vector. rewrite M1, M2, V1. exact I0. }
  split; [exact U1|]. split. { unfold shown_vector. rewrite V3. exact I1. }
  intros x xc xf r HX Hc Hr Hf Hs. unfold shown_matrix, shown_vector in Hs. cbn [data snd] in Hs.
  assert (S1 : solves 4 (load_m (hp w1) (sm_data l0)) (load_v (hp w2) r1) x).
  { apply (reduced_solution 2 1 1 _ _ s1 x xc xf H1 HX). split; [exact Hc|]. exists r. split; assumption. }
  apply (solves_meq 4 _ _ _ _ x E0 G1) in S1. apply (solves_meq 4 _ _ _ _ x E1 G1) in Hs.
  specialize (S1 0%nat ltac:(lia)). specialize (Hs 0%nat ltac:(lia)). unfold mv in S1, Hs.
  rewrite (sum_delta_l 4 0 x) in S1 by lia.
  rewrite (sum_ext 4 _ (fun j => delta 0 j * (2 * x j))) in Hs by (intros; ring).
  rewrite (sum_delta_l 4 0 (fun j => 2 * x j)) in Hs by lia. lra.
Qed.

(* ------------------------------------------------- a solver that works *)

(* the contact part of the solution of the full system minimises the reduced cost *)
Lemma exact_case d nc nf b s law din nodes width normals old u dt : d <> 0%nat ->
  reduces d nc nf stiff b s ->
  exists xc, minimises (fun x => loss law din d nodes width normals (node_relations s) (node_forces s)
    ((d * nc)%nat, x) old u [] dt) xc.
Proof.
  intros Hd HR. destruct (pos_def_solvable (d * (nc + nf)) stiff b (stiff_pos_def _)) as (x & Hx).
  pose proof (parts_of d nc nf x) as HX. exists (contact_part_of nc nf x).
  apply (reduced_minimiser d nc nf Hd (Function (potential_normal_direction law)) (Function (normal_bound law))
    (Function (potential_tangential_direction law)) (Function (tangential_bound law)) din nodes width normals old u [] dt (fun e a H _ => match H with end)
    stiff (fun r q => stiff r q) b s HR (stiff_symmetric _) (stiff_free d nc nf) (stiff_pos_def _) x _ _ HX).
  apply (minimiser_no_faces law din d nodes width normals (d * (nc + nf)) stiff b old u dt x (stiff_symmetric _)).
  - apply pos_def_semidef. apply stiff_pos_def.
  - exact Hx.
Qed.

Theorem exact_solver : forall inv d nc nf A b s F jn hn jt ht din nodes width normals old u faces dt optimise x0,
  inverts inv -> d = 1%nat \/ d = 2%nat ->
  init inv d nc (nc + nf) (mkSized (d * (nc + nf)) (d * (nc + nf)) A) ((d * (nc + nf))%nat, b) = Ok s ->
  symmetric (d * (nc + nf)) A -> free_block d nc nf A F -> pos_def (d * nf) F ->
  (forall e a, In e faces -> In a e -> (a < nc)%nat) ->
  (forall g, contact_of d nc nf x0 g ->
     exists xc, optimise ((d * nc)%nat, g) = ((d * nc)%nat, xc) /\
       minimises (fun y => cost_functional jn hn jt ht din d nodes width normals
         (node_relations s) (node_forces s) ((d * nc)%nat, y) old u faces dt) xc) ->
  exists x, solve_impl d nc false optimise s ((d * (nc + nf))%nat, x0) = Ok ((d * (nc + nf))%nat, x) /\
    minimises (fun y => cost_functional jn hn jt ht din d nodes width normals
       (mkSized (d * (nc + nf)) (d * (nc + nf)) A) ((d * (nc + nf))%nat, b) ((d * (nc + nf))%nat, y) old u faces dt) x.
Proof.
  intros inv d nc nf A b s F jn hn jt ht din nodes width normals old u faces dt optimise x0 Hi Hd H HS HF HP Hf HO.
  assert (Hd0 : d <> 0%nat) by lia.
  exact (solve_exact d nc nf Hd jn hn jt ht din nodes width normals old u faces dt Hf A F b s
    (init_reduces inv d nc nf Hi Hd0 A b s H) HS HF HP optimise x0 HO).
Qed.

(* a dynamic problem with two nodes, one of them in contact *)
Lemma dynamic_case : forall inv, inverts inv -> exists w' l r s0 s1,
  reads constant_source (laid_out_body (tiny 1) []) (laid_out_variables (tiny 1)) (tiny 1) DynamicVelocity (laid_out (tiny 1) DynamicVelocity) /\
  update constant_source (laid_out_body (tiny 1) []) DynamicVelocity (laid_out_variables (tiny 1)) (laid_out (tiny 1) DynamicVelocity)
    = (w', Ok (l, r)) /\
  init inv 2 1 2 (shown_matrix (hp w') (sm_data l)) (shown_vector (hp w') r) = Ok s0 /\
  iterate 2 1 2 s0 (shown_vector (hp w') r) = Ok s1.
Proof.
  intros inv HI.
  assert (R0 := laid_out_reads (tiny 1) [] DynamicVelocity eq_refl ltac:(cbn; lra)).
  destruct (update_value constant_source _ _ (tiny 1) DynamicVelocity _ [] R0 eq_refl (no_shape _))
    as (w1 & [l0 r0] & U0 & X0 & F0 & _ & K0 & (_ & M1 & M2 & M3) & (_ & V1 & V2)).
  cbn [fst snd] in *. change (unknowns _ DynamicVelocity) with 4%nat in *.
  set (A := load_m (hp w1) (sm_data l0)) in *.
  assert (HA : forall i j, (i < 4)%nat -> (j < 4)%nat -> A i j = if (i =? j)%nat then 5 else 1).
  { intros i j Hi Hj. rewrite M3 by auto. cbn. unfold delta. destruct (i =? j)%nat; lra. }
  assert (HP : pos_def (2 * 1) (fun r q => A (r * 2 + 1)%nat (q * 2 + 1)%nat)).
  { intros x (i & Hi & Hx). rewrite qform_double. simpl. rewrite !HA by lia. simpl.
    assert (x 0%nat <> 0 \/ x 1%nat <> 0) as [E|E] by (destruct i as [|[|i]]; [left|right|exfalso; lia]; exact Hx).
    - pose proof (Rsqr_pos_lt (x 0%nat) E) as G. unfold Rsqr in G. pose proof (Rle_0_sqr (x 0%nat + x 1%nat)) as G2. pose proof (Rle_0_sqr (x 1%nat)) as G3. unfold Rsqr in G2, G3. lra.
    - pose proof (Rsqr_pos_lt (x 1%nat) E) as G. unfold Rsqr in G. pose proof (Rle_0_sqr (x 0%nat + x 1%nat)) as G2. pose proof (Rle_0_sqr (x 0%nat)) as G3. unfold Rsqr in G2, G3. lra. }
  assert (HF : free_block 2 1 1 A (fun r q => A (r * 2 + 1)%nat (q * 2 + 1)%nat)).
  { intros k i l j Hk Hi Hl Hj. replace i with 0%nat by lia. replace j with 0%nat by lia. f_equal; lia. }
  destruct (init_ok inv 2 1 1 HI ltac:(lia) A (load_v (hp w1) r0) _ HF (pos_def_inverse _ _ HP)) as (s0 & I0).
  destruct (iterate_reduces 2 1 1 ltac:(lia) _ _ (load_v (hp w1) r0) s0 (init_reduces inv 2 1 1 HI ltac:(lia) _ _ _ I0)) as (s1 & I1 & _).
  exists w1, l0, r0, s0, s1. split; [exact R0|]. split; [exact U0|]. unfold shown_matrix, shown_vector. rewrite M1, M2, V1.
  split; [exact I0|exact I1].
Qed.
