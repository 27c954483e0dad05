(* Proofs about the contact laws of the examples. *)
From Coq Require Import Reals List Arith Bool Lra Lia.
From Verif Require Import RVec PyModel ContactModel ContactLawProofs FemQuadProofs MmsProofs
  LawsModel LawsSpec CompositeProofs.
Import ListNotations.
Local Open Scope R_scope.

(* ---------------------------------------------------------------- MMLV99 *)
Lemma constants : k0 = 12000000 /\ k10 = 4000000 /\ k11 = 4000 /\ k20 = 2000000 /\ k21 = 2000 /\
  5 / 10 * mm = 1 / 2000 /\ 1 * mm = 1 / 1000 /\ 2 * mm = 1 / 500.
Proof. unfold k0, k10, k11, k20, k21, surface, kN, mm. repeat split; field. Qed.

(* the potential and the two parts of the force as functions of the penetration u = - var_nu *)
Definition mp (u : R) : R :=
  if Rle_dec u 0 then 0
  else if Rlt_dec u (1 / 2000) then 12000000 * (u * u)
  else if Rlt_dec u (1 / 1000) then 4000000 * (u * u) + 4000 * u
  else if Rlt_dec u (1 / 500) then 2000000 * (u * u) + 2000 * u + 4
  else 16.
Definition ms (u : R) : R :=
  if Rle_dec u 0 then 0
  else if Rlt_dec u (1 / 2000) then 24000000 * u
  else if Rlt_dec u (1 / 1000) then 8000000 * u + 4000
  else if Rlt_dec u (1 / 500) then 4000000 * u + 2000
  else 0.
Definition m2 (u : R) : R :=
  if Rle_dec u (1 / 2000) then 0
  else if Rlt_dec u (1 / 1000) then 4000
  else if Rlt_dec u (1 / 500) then 10000
  else 20000.

Lemma mp_eq u : mmlv_potential (- u) = mp u.
Proof.
  destruct constants as (A & B & C & D & E & F & G & I). unfold mmlv_potential, mp. rewrite Ropp_involutive.
  cbv zeta. unfold leb, ltb. rewrite A, B, C, D, E, F, G, I.
  destruct (Rle_dec u 0); [reflexivity|]. destruct (Rlt_dec u (1 / 2000)); [reflexivity|].
  destruct (Rlt_dec u (1 / 1000)); [reflexivity|]. destruct (Rlt_dec u (1 / 500)); reflexivity.
Qed.
Lemma ms_eq u : mmlv_subderivative (- u) = ms u.
Proof.
  destruct constants as (A & B & C & D & E & F & G & I). unfold mmlv_subderivative, ms. rewrite Ropp_involutive.
  cbv zeta. unfold leb, ltb. rewrite A, B, C, D, E, F, G, I.
  destruct (Rle_dec u 0); [reflexivity|]. destruct (Rlt_dec u (1 / 2000)); [ring|].
  destruct (Rlt_dec u (1 / 1000)); [ring|]. destruct (Rlt_dec u (1 / 500)); ring.
Qed.
Lemma m2_eq u : mmlv_sub2derivative (- u) = m2 u.
Proof.
  destruct constants as (A & B & C & D & E & F & G & I). unfold mmlv_sub2derivative, m2. rewrite Ropp_involutive.
  cbv zeta. unfold leb, ltb. rewrite A, B, C, D, E, F, G, I.
  destruct (Rle_dec u (1 / 2000)); [reflexivity|].
  destruct (Rlt_dec u (1 / 1000)); [field|]. destruct (Rlt_dec u (1 / 500)); field.
Qed.

(* the branches hold on closed intervals *)
Lemma mp_0 u : u <= 0 -> mp u = 0.
Proof. intros. unfold mp. destruct (Rle_dec u 0); [reflexivity|lra]. Qed.
Lemma mp_1 u : 0 <= u <= 1 / 2000 -> mp u = 12000000 * (u * u).
Proof.
  intros. unfold mp. destruct (Rle_dec u 0); [replace u with 0 by lra; ring|].
  destruct (Rlt_dec u (1 / 2000)); [reflexivity|]. destruct (Rlt_dec u (1 / 1000)); [|lra].
  replace u with (1 / 2000) by lra. field.
Qed.
Lemma mp_2 u : 1 / 2000 <= u <= 1 / 1000 -> mp u = 4000000 * (u * u) + 4000 * u.
Proof.
  intros. unfold mp. destruct (Rle_dec u 0); [lra|]. destruct (Rlt_dec u (1 / 2000)); [lra|].
  destruct (Rlt_dec u (1 / 1000)); [reflexivity|]. destruct (Rlt_dec u (1 / 500)); [|lra].
  replace u with (1 / 1000) by lra. field.
Qed.
Lemma mp_3 u : 1 / 1000 <= u <= 1 / 500 -> mp u = 2000000 * (u * u) + 2000 * u + 4.
Proof.
  intros. unfold mp. destruct (Rle_dec u 0); [lra|]. destruct (Rlt_dec u (1 / 2000)); [lra|].
  destruct (Rlt_dec u (1 / 1000)); [lra|]. destruct (Rlt_dec u (1 / 500)); [reflexivity|].
  replace u with (1 / 500) by lra. field.
Qed.
Lemma mp_4 u : 1 / 500 <= u -> mp u = 16.
Proof.
  intros. unfold mp. destruct (Rle_dec u 0); [lra|]. destruct (Rlt_dec u (1 / 2000)); [lra|].
  destruct (Rlt_dec u (1 / 1000)); [lra|]. destruct (Rlt_dec u (1 / 500)); [lra|reflexivity].
Qed.

Lemma ms_right u : right_derivative mp u (ms u).
Proof.
  unfold ms. destruct (Rle_dec u 0) as [A | A].
  - destruct (Req_dec u 0) as [-> | Ne].
    + apply right_local with (r := 1 / 2000) (g := fun y => 12000000 * (y * y)); [lra| |].
      * intros y H1 H2. apply mp_1. lra.
      * apply right_of_lim, quadratic_at' with (a := 0) (b := 0) (c := 12000000); [intros; ring|ring].
    + apply right_local with (r := - u) (g := fun _ => 0); [lra| |apply right_of_lim, zero_derivative].
      intros y H1 H2. apply mp_0. lra.
  - destruct (Rlt_dec u (1 / 2000)) as [B | B].
    { apply right_local with (r := 1 / 2000 - u) (g := fun y => 12000000 * (y * y)); [lra| |].
      * intros y H1 H2. apply mp_1. lra.
      * apply right_of_lim, quadratic_at' with (a := 0) (b := 0) (c := 12000000); [intros; ring|ring]. }
    destruct (Rlt_dec u (1 / 1000)) as [C | C].
    { apply right_local with (r := 1 / 1000 - u) (g := fun y => 4000000 * (y * y) + 4000 * y); [lra| |].
      * intros y H1 H2. apply mp_2. lra.
      * apply right_of_lim, quadratic_at' with (a := 0) (b := 4000) (c := 4000000); [intros; ring|ring]. }
    destruct (Rlt_dec u (1 / 500)) as [D | D].
    { apply right_local with (r := 1 / 500 - u) (g := fun y => 2000000 * (y * y) + 2000 * y + 4); [lra| |].
      * intros y H1 H2. apply mp_3. lra.
      * apply right_of_lim, quadratic_at' with (a := 4) (b := 2000) (c := 2000000); [intros; ring|ring]. }
    apply right_local with (r := 1) (g := fun _ => 16); [lra| |].
    + intros y H1 H2. apply mp_4. lra.
    + apply right_of_lim, derivable_pt_lim_const.
Qed.

(* left derivatives; equal to the subderivative but for the three ends *)
Lemma ms_left u : left_derivative mp u
  (if Req_EM_T u (1 / 2000) then 12000 else if Req_EM_T u (1 / 1000) then 12000
   else if Req_EM_T u (1 / 500) then 10000 else ms u).
Proof.
  destruct (Rle_lt_dec u 0) as [A | A].
  { destruct (Req_EM_T u (1 / 2000)); [lra|]. destruct (Req_EM_T u (1 / 1000)); [lra|].
    destruct (Req_EM_T u (1 / 500)); [lra|]. unfold ms. destruct (Rle_dec u 0); [|lra].
    apply left_local with (r := 1) (g := fun _ => 0); [lra| |apply left_of_lim, zero_derivative].
    intros y H1 H2. apply mp_0. lra. }
  destruct (Rle_lt_dec u (1 / 2000)) as [B | B].
  { apply left_local with (r := u) (g := fun y => 12000000 * (y * y)); [lra| |].
    - intros y H1 H2. apply mp_1. lra.
    - apply left_of_lim, quadratic_at' with (a := 0) (b := 0) (c := 12000000); [intros; ring|].
      destruct (Req_EM_T u (1 / 2000)) as [E1|E1]; [rewrite E1; field|].
      destruct (Req_EM_T u (1 / 1000)); [lra|]. destruct (Req_EM_T u (1 / 500)); [lra|].
      unfold ms. destruct (Rle_dec u 0); [lra|]. destruct (Rlt_dec u (1 / 2000)); [ring|lra]. }
  destruct (Req_EM_T u (1 / 2000)) as [E1|E1]; [lra|].
  destruct (Rle_lt_dec u (1 / 1000)) as [C | C].
  { apply left_local with (r := u - 1 / 2000) (g := fun y => 4000000 * (y * y) + 4000 * y); [lra| |].
    - intros y H1 H2. apply mp_2. lra.
    - apply left_of_lim, quadratic_at' with (a := 0) (b := 4000) (c := 4000000); [intros; ring|].
      destruct (Req_EM_T u (1 / 1000)) as [E2|E2]; [rewrite E2; field|]. destruct (Req_EM_T u (1 / 500)); [lra|].
      unfold ms. destruct (Rle_dec u 0); [lra|]. destruct (Rlt_dec u (1 / 2000)); [lra|].
      destruct (Rlt_dec u (1 / 1000)); [ring|lra]. }
  destruct (Req_EM_T u (1 / 1000)) as [E2|E2]; [lra|].
  destruct (Rle_lt_dec u (1 / 500)) as [D | D].
  { apply left_local with (r := u - 1 / 1000) (g := fun y => 2000000 * (y * y) + 2000 * y + 4); [lra| |].
    - intros y H1 H2. apply mp_3. lra.
    - apply left_of_lim, quadratic_at' with (a := 4) (b := 2000) (c := 2000000); [intros; ring|].
      destruct (Req_EM_T u (1 / 500)) as [E3|E3]; [rewrite E3; field|].
      unfold ms. destruct (Rle_dec u 0); [lra|]. destruct (Rlt_dec u (1 / 2000)); [lra|].
      destruct (Rlt_dec u (1 / 1000)); [lra|]. destruct (Rlt_dec u (1 / 500)); [ring|lra]. }
  destruct (Req_EM_T u (1 / 500)) as [E3|E3]; [lra|].
  unfold ms. destruct (Rle_dec u 0); [lra|]. destruct (Rlt_dec u (1 / 2000)); [lra|].
  destruct (Rlt_dec u (1 / 1000)); [lra|]. destruct (Rlt_dec u (1 / 500)); [lra|].
  apply left_local with (r := u - 1 / 500) (g := fun _ => 16); [lra| |].
  - intros y H1 H2. apply mp_4. lra.
  - apply left_of_lim, derivable_pt_lim_const.
Qed.

Lemma right_ext f g x l : (forall y, f y = g y) -> right_derivative f x l -> right_derivative g x l.
Proof. intros E. apply right_local with (r := 1); [lra|]. intros y _ _. symmetry. apply E. Qed.
Lemma left_ext f g x l : (forall y, f y = g y) -> left_derivative f x l -> left_derivative g x l.
Proof. intros E. apply left_local with (r := 1); [lra|]. intros y _ _. symmetry. apply E. Qed.

Lemma mmlv_right u : right_derivative (fun u => mmlv_potential (- u)) u (mmlv_subderivative (- u)).
Proof. rewrite ms_eq. apply right_ext with (2 := ms_right u). intros y. symmetry. apply mp_eq. Qed.

Lemma mmlv_corners :
  left_derivative (fun u => mmlv_potential (- u)) (1 / 2000) 12000 /\ mmlv_subderivative (- (1 / 2000)) = 8000 /\
  left_derivative (fun u => mmlv_potential (- u)) (1 / 1000) 12000 /\ mmlv_subderivative (- (1 / 1000)) = 6000 /\
  left_derivative (fun u => mmlv_potential (- u)) (1 / 500) 10000 /\ mmlv_subderivative (- (1 / 500)) = 0.
Proof.
  assert (X : forall u l, left_derivative mp u l -> left_derivative (fun u => mmlv_potential (- u)) u l).
  { intros u l. apply left_ext. intros y. symmetry. apply mp_eq. }
  assert (P1 := ms_left (1 / 2000)). assert (P2 := ms_left (1 / 1000)). assert (P3 := ms_left (1 / 500)).
  destruct (Req_EM_T (1 / 2000) (1 / 2000)) as [_|]; [|lra].
  destruct (Req_EM_T (1 / 1000) (1 / 2000)) as [|_]; [lra|]. destruct (Req_EM_T (1 / 1000) (1 / 1000)) as [_|]; [|lra].
  destruct (Req_EM_T (1 / 500) (1 / 2000)) as [|_]; [lra|]. destruct (Req_EM_T (1 / 500) (1 / 1000)) as [|_]; [lra|].
  destruct (Req_EM_T (1 / 500) (1 / 500)) as [_|]; [|lra].
  rewrite !ms_eq. unfold ms. repeat split; auto.
  - destruct (Rle_dec (1 / 2000) 0); [lra|]. destruct (Rlt_dec (1 / 2000) (1 / 2000)); [lra|].
    destruct (Rlt_dec (1 / 2000) (1 / 1000)); [field|lra].
  - destruct (Rle_dec (1 / 1000) 0); [lra|]. destruct (Rlt_dec (1 / 1000) (1 / 2000)); [lra|].
    destruct (Rlt_dec (1 / 1000) (1 / 1000)); [lra|]. destruct (Rlt_dec (1 / 1000) (1 / 500)); [field|lra].
  - destruct (Rle_dec (1 / 500) 0); [lra|]. destruct (Rlt_dec (1 / 500) (1 / 2000)); [lra|].
    destruct (Rlt_dec (1 / 500) (1 / 1000)); [lra|]. destruct (Rlt_dec (1 / 500) (1 / 500)); [lra|reflexivity].
Qed.

Definition corner (u : R) : Prop := u = 1 / 2000 \/ u = 1 / 1000 \/ u = 1 / 500.

Lemma mmlv_derivative v : ~ corner (- v) ->
  derivable_pt_lim mmlv_potential v (- mmlv_subderivative v).
Proof.
  intros N. assert (Hm : derivable_pt_lim mp (- v) (ms (- v))).
  { apply lim_of_sides; [|apply ms_right]. assert (P := ms_left (- v)). unfold corner in N.
    destruct (Req_EM_T (- v) (1 / 2000)); [exfalso; auto|]. destruct (Req_EM_T (- v) (1 / 1000)); [exfalso; auto|].
    destruct (Req_EM_T (- v) (1 / 500)); [exfalso; auto|]. exact P. }
  replace (- mmlv_subderivative v) with (ms (- v) * - 1) by (rewrite <- ms_eq, Ropp_involutive; ring).
  apply lim_ext with (f := fun y => mp (- y)). { intros y. rewrite <- mp_eq, Ropp_involutive. reflexivity. }
  apply (derivable_pt_lim_comp (fun y => - y) mp v (- 1) (ms (- v))); [|exact Hm].
  apply (derivable_pt_lim_opp id v 1). apply derivable_pt_lim_id.
Qed.

Lemma mmlv_sign : exists v l, derivable_pt_lim mmlv_potential v l /\ l < 0 < mmlv_subderivative v.
Proof.
  exists (- (1 / 4000)), (- mmlv_subderivative (- (1 / 4000))). split.
  - apply mmlv_derivative. unfold corner. lra.
  - rewrite ms_eq. unfold ms. destruct (Rle_dec (1 / 4000) 0); [lra|].
    destruct (Rlt_dec (1 / 4000) (1 / 2000)); lra.
Qed.

Lemma mmlv_sum_monotone : monotone_on (fun u => u <> 1 / 2000)
  (fun u => mmlv_subderivative (- u) + mmlv_sub2derivative (- u)).
Proof.
  intros x y Nx Ny Le. rewrite !ms_eq, !m2_eq. unfold ms, m2.
  destruct (Rle_dec x 0), (Rle_dec y 0), (Rlt_dec x (1 / 2000)), (Rlt_dec y (1 / 2000)),
    (Rle_dec x (1 / 2000)), (Rle_dec y (1 / 2000)), (Rlt_dec x (1 / 1000)), (Rlt_dec y (1 / 1000)),
    (Rlt_dec x (1 / 500)), (Rlt_dec y (1 / 500)); lra.
Qed.

Lemma mmlv_dip : exists u, u < 1 / 2000 /\
  mmlv_subderivative (- (1 / 2000)) + mmlv_sub2derivative (- (1 / 2000))
  < mmlv_subderivative (- u) + mmlv_sub2derivative (- u).
Proof.
  exists (1 / 2500). split; [lra|]. rewrite !ms_eq, !m2_eq. unfold ms, m2.
  destruct (Rle_dec (1 / 2000) 0); [lra|]. destruct (Rlt_dec (1 / 2000) (1 / 2000)); [lra|].
  destruct (Rlt_dec (1 / 2000) (1 / 1000)); [|lra]. destruct (Rle_dec (1 / 2000) (1 / 2000)); [|lra].
  destruct (Rle_dec (1 / 2500) 0); [lra|]. destruct (Rlt_dec (1 / 2500) (1 / 2000)); [|lra].
  destruct (Rle_dec (1 / 2500) (1 / 2000)); lra.
Qed.

(* ---------------------------------------------------- tangential direction *)
Lemma sum_squares_nonneg d (x : vec) : 0 <= sum d (fun i => x i * x i).
Proof. induction d as [|d IH]; cbn [sum]; [lra|]. nra. Qed.

Lemma sum_line d (x w : vec) h :
  sum d (fun i => (x i + h * w i) * (x i + h * w i))
  = sum d (fun i => x i * x i) + 2 * sum d (fun i => x i * w i) * h + sum d (fun i => w i * w i) * (h * h).
Proof. induction d as [|d IH]; cbn [sum]; [ring|]. rewrite IH. ring. Qed.

Lemma norm_line d (x w : vec) : 0 < norm d x ->
  derivable_pt_lim (fun h => norm d (fun i => x i + h * w i)) 0 (scalar d x w / norm d x).
Proof.
  intros P. unfold norm in *. set (q := sum d (fun i => x i * x i)) in *.
  assert (Q : 0 < q). { destruct (Rle_lt_dec q 0) as [Z|]; [|assumption]. rewrite sqrt_neg_0 in P by exact Z. lra. }
  apply lim_ext with (f := comp sqrt (fun h => q + 2 * scalar d x w * h + sum d (fun i => w i * w i) * (h * h))).
  { intros h. unfold comp. rewrite sum_line. reflexivity. }
  replace (scalar d x w / sqrt q) with (/ (2 * sqrt (q + 2 * scalar d x w * 0 + sum d (fun i => w i * w i) * (0 * 0)))
    * (2 * scalar d x w)).
  - apply derivable_pt_lim_comp; [apply quadratic_at_0|]. apply derivable_pt_lim_sqrt. lra.
  - replace (q + 2 * scalar d x w * 0 + sum d (fun i => w i * w i) * (0 * 0)) with q by ring. field. lra.
Qed.

Lemma scalar_scaled d tau w c : scalar d (fun i => tau i * c) w = c * scalar d tau w.
Proof. unfold scalar. induction d as [|d IH]; cbn [sum]; [ring|]. rewrite IH. ring. Qed.

Lemma log_gradient d tau w : 0 < norm d tau ->
  derivable_pt_lim (fun h => log_potential d (fun i => tau i + h * w i)) 0 (scalar d (mmlv_tangential d tau) w).
Proof.
  intros P. pose proof (norm_line d tau w P) as D.
  assert (S : sum d (fun i => tau i * tau i) = norm d tau * norm d tau).
  { unfold norm. symmetry. apply sqrt_sqrt. apply sum_squares_nonneg. }
  assert (V : scalar d (mmlv_tangential d tau) w = / (norm d tau + 1) * (scalar d tau w / norm d tau + 0)).
  { unfold mmlv_tangential. fold (norm d tau). rewrite S.
    destruct (Req_EM_T (norm d tau + norm d tau * norm d tau) 0) as [Z | _].
    { assert (0 < norm d tau * norm d tau) by (apply Rmult_lt_0_compat; exact P). lra. }
    set (c := 1 / (norm d tau + norm d tau * norm d tau)).
    pose proof (scalar_scaled d tau w c) as X.
    rewrite X. unfold c. assert (0 < norm d tau * norm d tau) by (apply Rmult_lt_0_compat; exact P).
    field. repeat split; lra. }
  rewrite V. unfold log_potential.
  apply lim_ext with (f := comp ln (plus_fct (fun h => norm d (fun i => tau i + h * w i)) (fct_cte 1))).
  { intros h. reflexivity. }
  apply derivable_pt_lim_comp.
  - apply derivable_pt_lim_plus; [exact D|apply derivable_pt_lim_const].
  - unfold plus_fct, fct_cte.
    assert (N0 : norm d (fun i => tau i + 0 * w i) = norm d tau).
    { unfold norm. f_equal. rewrite sum_line. ring. }
    rewrite N0. apply derivable_pt_lim_ln. lra.
Qed.

Lemma log_at_rest d tau i : norm d tau = 0 -> mmlv_tangential d tau i = 0.
Proof.
  intros Z. unfold mmlv_tangential.
  assert (S : sum d (fun i => tau i * tau i) = norm d tau * norm d tau).
  { unfold norm. symmetry. apply sqrt_sqrt. apply sum_squares_nonneg. }
  fold (norm d tau). rewrite S, Z. destruct (Req_EM_T (0 + 0 * 0) 0); lra.
Qed.

Lemma squares_scaled d (tau : vec) c : sum d (fun i => tau i * c * (tau i * c)) = c * c * sum d (fun i => tau i * tau i).
Proof. induction d as [|d IH]; cbn [sum]; [ring|]. rewrite IH. ring. Qed.

(* the friction force never exceeds one and tends to one at rest *)
Lemma log_length d tau : 0 < norm d tau ->
  norm d (mmlv_tangential d tau) = 1 / (1 + norm d tau).
Proof.
  intros P. assert (S : sum d (fun i => tau i * tau i) = norm d tau * norm d tau).
  { unfold norm. symmetry. apply sqrt_sqrt. apply sum_squares_nonneg. }
  unfold mmlv_tangential. fold (norm d tau). rewrite S.
  destruct (Req_EM_T (norm d tau + norm d tau * norm d tau) 0) as [Z | _].
    { assert (0 < norm d tau * norm d tau) by (apply Rmult_lt_0_compat; exact P). lra. }
  set (c := 1 / (norm d tau + norm d tau * norm d tau)).
  assert (C : 0 <= c). { unfold c. apply Rlt_le, Rdiv_lt_0_compat; [lra|].
    assert (0 < norm d tau * norm d tau) by (apply Rmult_lt_0_compat; exact P). lra. }
  unfold norm at 1. replace (sum d (fun i => tau i * c * (tau i * c))) with (c * c * sum d (fun i => tau i * tau i)).
  - rewrite sqrt_mult; [|nra|apply sum_squares_nonneg]. rewrite sqrt_square by exact C. fold (norm d tau).
    unfold c. assert (0 < norm d tau * norm d tau) by (apply Rmult_lt_0_compat; exact P). field. repeat split; lra.
  - symmetry. apply squares_scaled.
Qed.

(* ------------------------------------------------------------------ Tarzia *)
Lemma shifted_log r : 5 <= r -> derivable_pt_lim (fun y => 2 * ln (y - 5 + 1)) r (2 * (1 / (r - 5 + 1))).
Proof.
  intros H. apply (derivable_pt_lim_scal (fun y => ln (y - 5 + 1)) 2).
  replace (1 / (r - 5 + 1)) with (/ (r - 5 + 1) * 1) by (field; lra).
  apply (derivable_pt_lim_comp (fun y => y - 5 + 1) ln r 1 (/ (r - 5 + 1))).
  - apply quadratic_at' with (a := - 4) (b := 1) (c := 0); [intros; ring|ring].
  - apply derivable_pt_lim_ln. lra.
Qed.

Lemma tarzia_left s r : r <= 5 -> left_derivative (tarzia_potential s) r (2 * (r - 5) * s).
Proof.
  intros H. apply left_local with (r := 1) (g := fun y => (y - 5) * (y - 5) * s); [lra| |].
  - intros y _ Hy. unfold tarzia_potential, B_COEF, ltb. destruct (Rlt_dec y 5); [reflexivity|].
    replace y with 5 by lra. replace (5 - 5 + 1) with 1 by ring. rewrite ln_1. ring.
  - apply left_of_lim, quadratic_at' with (a := 25 * s) (b := - 10 * s) (c := s); [intros; ring|ring].
Qed.

Lemma tarzia_right s r : 5 <= r -> right_derivative (tarzia_potential s) r (2 * (1 / (r - 5 + 1)) * s).
Proof.
  intros H. apply right_local with (r := 1) (g := fun y => s * (2 * ln (y - 5 + 1))); [lra| |].
  - intros y Hy _. unfold tarzia_potential, B_COEF, ltb. destruct (Rlt_dec y 5); [lra|]. ring.
  - apply right_of_lim. replace (2 * (1 / (r - 5 + 1)) * s) with (s * (2 * (1 / (r - 5 + 1)))) by ring.
    apply (derivable_pt_lim_scal (fun y => 2 * ln (y - 5 + 1))). apply shifted_log. exact H.
Qed.

Lemma tarzia_twice s r : r <> 5 -> derivable_pt_lim (tarzia_potential s) r (2 * tarzia_subderivative s r).
Proof.
  intros Ne. unfold tarzia_subderivative, B_COEF, ltb. destruct (Rlt_dec r 5) as [A | A].
  - apply lim_of_sides.
    + replace (2 * ((r - 5) * s)) with (2 * (r - 5) * s) by ring. apply tarzia_left. lra.
    + apply right_local with (r := 5 - r) (g := fun y => (y - 5) * (y - 5) * s); [lra| |].
      * intros y _ Hy. unfold tarzia_potential, B_COEF, ltb. destruct (Rlt_dec y 5); [reflexivity|lra].
      * apply right_of_lim, quadratic_at' with (a := 25 * s) (b := - 10 * s) (c := s); [intros; ring|ring].
  - apply lim_of_sides.
    + apply left_local with (r := r - 5) (g := fun y => s * (2 * ln (y - 5 + 1))); [lra| |].
      * intros y Hy _. unfold tarzia_potential, B_COEF, ltb. destruct (Rlt_dec y 5); [lra|]. ring.
      * apply left_of_lim. replace (2 * (1 / (r - 5 + 1) * s)) with (s * (2 * (1 / (r - 5 + 1)))) by ring.
        apply (derivable_pt_lim_scal (fun y => 2 * ln (y - 5 + 1))). apply shifted_log. lra.
    + replace (2 * (1 / (r - 5 + 1) * s)) with (2 * (1 / (r - 5 + 1)) * s) by ring. apply tarzia_right. lra.
Qed.

Lemma tarzia_half s r l : s <> 0 -> r <> 5 -> derivable_pt_lim (tarzia_potential s) r l ->
  l <> tarzia_subderivative s r.
Proof.
  intros Hs Hr D E. pose proof (uniqueness_limite _ _ _ _ D (tarzia_twice s r Hr)) as U. subst l.
  assert (Z : tarzia_subderivative s r = 0) by lra. unfold tarzia_subderivative, B_COEF, ltb in Z.
  apply Rmult_integral in Z. destruct Z as [Z | Z]; [|contradiction]. destruct (Rlt_dec r 5); [lra|].
  assert (0 < 1 / (r - 5 + 1)) by (apply Rdiv_lt_0_compat; lra). lra.
Qed.

(* ------------------------------------------------------- bounded, Lipschitz *)
Lemma lipschitz_of_order k f : 0 <= k -> (forall x y, x <= y -> - k * (y - x) <= f y - f x <= k * (y - x)) ->
  lipschitz k f.
Proof.
  intros K F x y. destruct (Rle_lt_dec x y) as [A | A].
  - specialize (F x y A). rewrite (Rabs_minus_sym x y), (Rabs_right (y - x)) by lra. apply Rabs_le. lra.
  - specialize (F y x ltac:(lra)). rewrite (Rabs_right (x - y)) by lra. apply Rabs_le. lra.
Qed.

Lemma jo2019_normal : (forall v, 0 <= jo2019_potential v <= 1 / 10) /\
  monotone_on (fun _ => True) jo2019_potential /\ lipschitz 2 jo2019_potential.
Proof.
  assert (F : forall x y, x <= y -> 0 <= jo2019_potential y - jo2019_potential x <= 2 * (y - x)).
  { intros x y A. unfold jo2019_potential, leb, ltb.
    destruct (Rle_dec x 0), (Rle_dec y 0), (Rlt_dec x (1 / 10)), (Rlt_dec y (1 / 10)); nra. }
  split; [|split].
  - intros v. unfold jo2019_potential, leb, ltb. destruct (Rle_dec v 0); [lra|]. destruct (Rlt_dec v (1 / 10)); nra.
  - intros x y _ _ A. specialize (F x y A). lra.
  - apply lipschitz_of_order; [lra|]. intros x y A. specialize (F x y A). lra.
Qed.

Lemma jo2019_friction : (forall v, 0 <= jo2019_bound v <= 8 / 10) /\
  monotone_on (fun _ => True) jo2019_bound /\ lipschitz 8 jo2019_bound.
Proof.
  assert (F : forall x y, x <= y -> 0 <= jo2019_bound y - jo2019_bound x <= 8 * (y - x)).
  { intros x y A. unfold jo2019_bound, ltb.
    destruct (Rlt_dec x 0), (Rlt_dec y 0), (Rlt_dec x (1 / 10)), (Rlt_dec y (1 / 10)); lra. }
  split; [|split].
  - intros v. unfold jo2019_bound, ltb. destruct (Rlt_dec v 0); [lra|]. destruct (Rlt_dec v (1 / 10)); lra.
  - intros x y _ _ A. specialize (F x y A). lra.
  - apply lipschitz_of_order; [lra|]. intros x y A. specialize (F x y A). lra.
Qed.

Lemma job2023_normal k limit : 0 <= k -> 0 <= limit ->
  (forall v, 0 <= job2023_potential k limit v <= k * limit) /\
  monotone_on (fun _ => True) (job2023_potential k limit) /\ lipschitz k (job2023_potential k limit).
Proof.
  intros K Lm. assert (F : forall x y, x <= y -> 0 <= job2023_potential k limit y - job2023_potential k limit x <= k * (y - x)).
  { intros x y A. unfold job2023_potential, leb, ltb.
    destruct (Rle_dec x 0), (Rle_dec y 0), (Rlt_dec x limit), (Rlt_dec y limit); nra. }
  split; [|split].
  - intros v. unfold job2023_potential, leb, ltb. destruct (Rle_dec v 0); [nra|]. destruct (Rlt_dec v limit); nra.
  - intros x y _ _ A. specialize (F x y A). lra.
  - apply lipschitz_of_order; [lra|]. intros x y A. specialize (F x y A). nra.
Qed.

Lemma job2023_friction n : 0 <= n ->
  (forall v, 0 <= job2023_bound n v <= n / 10) /\
  monotone_on (fun _ => True) (job2023_bound n) /\ lipschitz n (job2023_bound n).
Proof.
  intros K. assert (E : forall v, job2023_bound n v = job2023_potential n (1 / 10) v) by reflexivity.
  destruct (job2023_normal n (1 / 10) K ltac:(lra)) as (A & B & C). split; [|split].
  - intros v. rewrite E. specialize (A v). lra.
  - exact B.
  - exact C.
Qed.

Lemma exp_drop s t : 0 <= t -> t <= s -> 0 <= exp (- t) - exp (- s) <= s - t.
Proof.
  intros T S. split.
  - destruct (Req_dec s t) as [-> |]; [lra|]. assert (exp (- s) < exp (- t)) by (apply exp_increasing; lra). lra.
  - assert (A : exp (- t) <= 1).
    { rewrite <- exp_0. destruct (Req_dec t 0) as [-> |]; [rewrite Ropp_0; lra|]. apply Rlt_le, exp_increasing. lra. }
    assert (B : 1 + - (s - t) <= exp (- (s - t))).
    { destruct (Req_dec (s - t) 0) as [Z | Z]; [rewrite Z, Ropp_0, exp_0; lra|].
      apply Rlt_le. apply exp_ineq1. lra. }
    replace (- s) with (- t + - (s - t)) by ring. rewrite exp_plus.
    pose proof (exp_pos (- t)). assert (exp (- t) * (1 - exp (- (s - t))) <= 1 * (s - t)); [|lra].
    destruct (Rle_lt_dec (1 - exp (- (s - t))) 0) as [N | N].
    + assert (exp (- t) * (1 - exp (- (s - t))) <= 0) by nra. lra.
    + apply Rmult_le_compat; lra.
Qed.

Lemma job2023_tangential_growth d x y : norm d x <= norm d y ->
  7 / 10 * (norm d y - norm d x) <= job2023_tangential d y - job2023_tangential d x <= norm d y - norm d x.
Proof.
  intros A. unfold job2023_tangential. fold (norm d x). fold (norm d y).
  pose proof (exp_drop (norm d y) (norm d x) (sqrt_pos _) A). cbv zeta. lra.
Qed.

(* ------------------------------------------------------------------- BOST23 *)
Lemma exp_opp_lim v : derivable_pt_lim (fun y => exp (- y)) v (- exp (- v)).
Proof.
  replace (- exp (- v)) with (exp (- v) * - 1) by ring.
  apply (derivable_pt_lim_comp (fun y => - y) exp v (- 1) (exp (- v))).
  - apply (derivable_pt_lim_opp id v 1). apply derivable_pt_lim_id.
  - apply derivable_pt_lim_exp.
Qed.

Definition b1 (v : R) : R := (1 / 10 + exp (- (1 / 10))) / (2 * (1 / 10)) * (v * v).
Definition b2 (v : R) : R := 1 / 10 * v - exp (- v) + ((1 / 10 + 2) * exp (- (1 / 10)) - 1 / 10 * (1 / 10)) / 2.

Lemma bost_0 g v : v <= 0 -> bost_potential g v = 0.
Proof. intros H. unfold bost_potential, GAP. cbv zeta. rewrite leb_true by lra. ring. Qed.
Lemma bost_1 g v : 0 <= v <= 1 / 10 -> bost_potential g v = g * b1 v.
Proof.
  intros H. unfold bost_potential, GAP. cbv zeta. rewrite Rminus_0_r. unfold leb, ltb.
  destruct (Rle_dec v 0); [replace v with 0 by lra; unfold b1; ring|].
  destruct (Rlt_dec v (1 / 10)); [reflexivity|]. replace v with (1 / 10) by lra. unfold b1. field.
Qed.
Lemma bost_2 g v : 1 / 10 <= v -> bost_potential g v = g * b2 v.
Proof.
  intros H. unfold bost_potential, GAP. cbv zeta. rewrite Rminus_0_r. unfold leb, ltb.
  destruct (Rle_dec v 0); [lra|]. destruct (Rlt_dec v (1 / 10)); [lra|reflexivity].
Qed.

Lemma b1_lim g v : derivable_pt_lim (fun y => g * b1 y) v (g * ((1 / 10 + exp (- (1 / 10))) * (10 * v))).
Proof.
  apply (derivable_pt_lim_scal b1). apply quadratic_at' with (a := 0) (b := 0)
    (c := (1 / 10 + exp (- (1 / 10))) / (2 * (1 / 10))); [intros; unfold b1; ring|field].
Qed.
Lemma b2_lim g v : derivable_pt_lim (fun y => g * b2 y) v (g * (1 / 10 + exp (- v))).
Proof.
  apply (derivable_pt_lim_scal b2). unfold b2.
  set (c := ((1 / 10 + 2) * exp (- (1 / 10)) - 1 / 10 * (1 / 10)) / 2).
  apply lim_ext with (f := minus_fct (fun y => c + 1 / 10 * y + 0 * (y * y)) (fun y => exp (- y))).
  { intros y. unfold minus_fct. ring. }
  replace (1 / 10 + exp (- v)) with (1 / 10 + 2 * 0 * v - - exp (- v)) by ring.
  apply derivable_pt_lim_minus; [apply quadratic_at|apply exp_opp_lim].
Qed.

Lemma bost_derivative g :
  (forall v, v <= 0 -> derivable_pt_lim (bost_potential g) v 0) /\
  (forall v, 0 <= v <= 1 / 10 ->
     derivable_pt_lim (bost_potential g) v (g * ((1 / 10 + exp (- (1 / 10))) * (10 * v)))) /\
  (forall v, 1 / 10 <= v -> derivable_pt_lim (bost_potential g) v (g * (1 / 10 + exp (- v)))).
Proof.
  assert (A0 : left_derivative (bost_potential g) 0 0).
  { apply left_local with (r := 1) (g := fun _ => 0); [lra| |apply left_of_lim, zero_derivative].
    intros y _ Hy. apply bost_0. exact Hy. }
  assert (R0 : forall v, 0 <= v < 1 / 10 ->
    right_derivative (bost_potential g) v (g * ((1 / 10 + exp (- (1 / 10))) * (10 * v)))).
  { intros v V. apply right_local with (r := 1 / 10 - v) (g := fun y => g * b1 y); [lra| |apply right_of_lim, b1_lim].
    intros y H1 H2. apply bost_1. lra. }
  assert (L1 : forall v, 0 < v <= 1 / 10 ->
    left_derivative (bost_potential g) v (g * ((1 / 10 + exp (- (1 / 10))) * (10 * v)))).
  { intros v V. apply left_local with (r := v) (g := fun y => g * b1 y); [lra| |apply left_of_lim, b1_lim].
    intros y H1 H2. apply bost_1. lra. }
  assert (R1 : forall v, 1 / 10 <= v -> right_derivative (bost_potential g) v (g * (1 / 10 + exp (- v)))).
  { intros v V. apply right_local with (r := 1) (g := fun y => g * b2 y); [lra| |apply right_of_lim, b2_lim].
    intros y H1 H2. apply bost_2. lra. }
  assert (Z : derivable_pt_lim (bost_potential g) 0 0).
  { apply lim_of_sides; [exact A0|]. replace 0 with (g * ((1 / 10 + exp (- (1 / 10))) * (10 * 0))) at 2 by ring.
    apply R0. lra. }
  assert (B : derivable_pt_lim (bost_potential g) (1 / 10) (g * (1 / 10 + exp (- (1 / 10))))).
  { apply lim_of_sides; [|apply R1; lra].
    replace (g * (1 / 10 + exp (- (1 / 10)))) with (g * ((1 / 10 + exp (- (1 / 10))) * (10 * (1 / 10)))) by field.
    apply L1. lra. }
  split; [|split].
  - intros v V. destruct (Req_dec v 0) as [-> | Ne]; [exact Z|]. apply lim_of_sides.
    + apply left_local with (r := 1) (g := fun _ => 0); [lra| |apply left_of_lim, zero_derivative].
      intros y _ Hy. apply bost_0. lra.
    + apply right_local with (r := - v) (g := fun _ => 0); [lra| |apply right_of_lim, zero_derivative].
      intros y _ Hy. apply bost_0. lra.
  - intros v V. destruct (Req_dec v 0) as [-> | N0].
    { replace (g * ((1 / 10 + exp (- (1 / 10))) * (10 * 0))) with 0 by ring. exact Z. }
    destruct (Req_dec v (1 / 10)) as [-> | N1].
    { replace (g * ((1 / 10 + exp (- (1 / 10))) * (10 * (1 / 10)))) with (g * (1 / 10 + exp (- (1 / 10)))) by field.
      exact B. }
    apply lim_of_sides; [apply L1; lra|apply R0; lra].
  - intros v V. destruct (Req_dec v (1 / 10)) as [-> | N1]; [exact B|]. apply lim_of_sides; [|apply R1; lra].
    apply left_local with (r := v - 1 / 10) (g := fun y => g * b2 y); [lra| |apply left_of_lim, b2_lim].
    intros y H1 H2. apply bost_2. lra.
Qed.

(* the force falls beyond 1/10: the potential is not convex *)
Lemma bost_not_convex g : 0 < g -> exists v w lv lw, v < w /\ derivable_pt_lim (bost_potential g) v lv /\
  derivable_pt_lim (bost_potential g) w lw /\ lw < lv.
Proof.
  intros G. destruct (bost_derivative g) as (_ & _ & D).
  exists 1, 2, (g * (1 / 10 + exp (- (1)))), (g * (1 / 10 + exp (- (2)))).
  split; [lra|]. split; [apply D; lra|]. split; [apply D; lra|].
  assert (exp (- (2)) < exp (- (1))) by (apply exp_increasing; lra). nra.
Qed.

(* but the force is bounded *)
Lemma bost_bounded g v l : 0 <= g -> derivable_pt_lim (bost_potential g) v l -> 0 <= l <= g * (11 / 10).
Proof.
  intros G D. destruct (bost_derivative g) as (A & B & C).
  assert (E1 : 0 < exp (- (1 / 10)) <= 1).
  { split; [apply exp_pos|]. assert (Q : exp (- (1 / 10)) < exp 0) by (apply exp_increasing; lra).
    rewrite exp_0 in Q. lra. }
  destruct (Rle_lt_dec v 0) as [V0 | V0].
  - rewrite (uniqueness_limite _ _ _ _ D (A v V0)). nra.
  - destruct (Rle_lt_dec v (1 / 10)) as [V1 | V1].
    + rewrite (uniqueness_limite _ _ _ _ D (B v ltac:(lra))).
      assert (0 <= (1 / 10 + exp (- (1 / 10))) * (10 * v) <= 11 / 10).
      { split; [apply Rmult_le_pos; lra|]. apply Rle_trans with (11 / 10 * 1); [apply Rmult_le_compat; lra|lra]. }
      split; [apply Rmult_le_pos; lra|apply Rmult_le_compat_l; lra].
    + rewrite (uniqueness_limite _ _ _ _ D (C v ltac:(lra))).
      assert (exp (- v) < exp (- (1 / 10))) by (apply exp_increasing; lra). pose proof (exp_pos (- v)).
      split; [apply Rmult_le_pos; lra|apply Rmult_le_compat_l; lra].
Qed.
