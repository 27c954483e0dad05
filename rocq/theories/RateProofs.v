(* Proofs about the convergence table (C115). *)
From Coq Require Import Reals List Arith Bool Lia Lra Psatz.
From Verif Require Import RVec PyModel MeshSpec FemSpec FemQuadProofs RateModel RateSpec.
Import ListNotations.
Local Open Scope R_scope.

(* what one element adds *)
Definition weight (nodes : nat -> vec) (e : list nat) : R := element_area nodes e / 12.
Definition form (u v : nat -> R) (e : list nat) : R :=
  let a := at_corners u e in let b := at_corners v e in
  a 0%nat * b 0%nat + a 1%nat * b 1%nat + a 2%nat * b 2%nat + (a 0%nat + a 1%nat + a 2%nat) * (b 0%nat + b 1%nat + b 2%nat).
Definition total (nodes : nat -> vec) (els : list (list nat)) (u v : nat -> R) : R := lsum els (fun e => weight nodes e * form u v e).

Lemma add_squares_total N nodes w : forall els q, in_range N els -> Forall (fun e => List.length e = 3%nat) els ->
  add_squares N nodes w els q = Ok (q + total nodes els w w).
Proof.
  induction els as [|e els IH]; intros q R L; [cbn; unfold total; cbn; f_equal; lra|]. inversion R as [|? ? R1 R2]; subst. inversion L as [|? ? L1 L2]; subst.
  destruct e as [|i [|j [|k [|x e]]]]; try discriminate L1. cbn [add_squares].
  inversion R1 as [|? ? A1 T1]; subst. inversion T1 as [|? ? A2 T2]; subst. inversion T2 as [|? ? A3 T3]; subst.
  apply Nat.ltb_lt in A1, A2, A3. rewrite A1, A2, A3. cbn [andb]. rewrite (IH _ R2 L2). f_equal. unfold total. cbn [lsum]. rewrite <- Rplus_assoc. f_equal. f_equal.
  unfold weight, form, at_corners, element_area, area, det_2d, corners. cbn [nth].
  replace ((nodes k 0%nat - nodes i 0%nat) * (nodes j 1%nat - nodes i 1%nat)) with ((nodes j 1%nat - nodes i 1%nat) * (nodes k 0%nat - nodes i 0%nat)) by ring. field.
Qed.

Lemma weight_nonneg nodes e : 0 <= weight nodes e.
Proof. unfold weight, element_area, area. assert (H := Rabs_pos (det_2d (corners nodes e))). lra. Qed.
Lemma form_nonneg w e : 0 <= form w w e.
Proof.
  unfold form. cbv zeta. generalize (at_corners w e 0%nat) (at_corners w e 1%nat) (at_corners w e 2%nat). intros a b c.
  assert (A := Rle_0_sqr a). assert (B := Rle_0_sqr b). assert (C := Rle_0_sqr c). assert (S := Rle_0_sqr (a + b + c)). unfold Rsqr in *. lra.
Qed.
Lemma total_nonneg nodes els w : 0 <= total nodes els w w.
Proof. apply lsum_nonneg. intros e _. apply Rmult_le_pos; [apply weight_nonneg|apply form_nonneg]. Qed.

Definition difference (ref : nat -> R) (linear : nat -> option R) (near : nat -> R) : nat -> R := fun i => ref i - interpolated linear near i.

Lemma error_total N nodes els ref linear near : in_range N els -> Forall (fun e => List.length e = 3%nat) els -> els <> [] ->
  temperature_error N nodes els ref linear near = Ok (sqrt (total nodes els (difference ref linear near) (difference ref linear near))).
Proof.
  intros R L NE. unfold temperature_error. destruct els as [|e els]; [congruence|]. rewrite (add_squares_total N nodes _ (e :: els) 0 R L). cbn [bind]. rewrite Rplus_0_l.
  fold (difference ref linear near). rewrite Rmax_left by apply total_nonneg. reflexivity.
Qed.

Lemma total_integral nodes els w : square_integral nodes els w (total nodes els w w).
Proof.
  exists (fun e => mean_product 2 (at_corners w e) (at_corners w e) / 2). split; [intros e _; apply triangle_product|].
  unfold total. apply lsum_ext. intros e _. unfold weight, form, mean_product. cbn [sum INR]. field.
Qed.
Lemma error_value N nodes els ref linear near : in_range N els -> Forall (fun e => List.length e = 3%nat) els -> els <> [] ->
  exists Q, square_integral nodes els (fun i => ref i - match linear i with Some v => v | None => near i end) Q /\ temperature_error N nodes els ref linear near = Ok (sqrt Q).
Proof. intros R L NE. eexists. split; [apply total_integral|]. exact (error_total N nodes els ref linear near R L NE). Qed.

Lemma total_zero nodes els w : (forall e, In e els -> det_2d (corners nodes e) <> 0) -> Forall (fun e => List.length e = 3%nat) els ->
  total nodes els w w = 0 <-> forall e n, In e els -> In n e -> w n = 0.
Proof.
  intros D L. rewrite Forall_forall in L. split.
  - intros T e n E I. assert (Z : weight nodes e * form w w e = 0) by (apply (lsum_nonneg_0 els (fun e => weight nodes e * form w w e)); [intros x _; apply Rmult_le_pos; [apply weight_nonneg|apply form_nonneg]|exact T|exact E]).
    assert (W : weight nodes e <> 0). { unfold weight, element_area, area. assert (A := Rabs_pos_lt _ (D e E)). lra. }
    apply Rmult_integral in Z. destruct Z as [Z|Z]; [contradiction|]. specialize (L e E). destruct e as [|i [|j [|k [|x e]]]]; try discriminate L.
    unfold form, at_corners in Z. cbn [nth] in Z. assert (A1' := Rle_0_sqr (w i)). assert (A2' := Rle_0_sqr (w j)). assert (A3' := Rle_0_sqr (w k)). assert (S := Rle_0_sqr (w i + w j + w k)). unfold Rsqr in *.
    assert (A1 : w i = 0) by (apply Rsqr_0_uniq; unfold Rsqr; lra). assert (A2 : w j = 0) by (apply Rsqr_0_uniq; unfold Rsqr; lra). assert (A3 : w k = 0) by (apply Rsqr_0_uniq; unfold Rsqr; lra).
    destruct I as [<-|[<-|[<-|[]]]]; assumption.
  - intros H. apply lsum_0. intros e E. specialize (L e E). destruct e as [|i [|j [|k [|x e]]]]; try discriminate L.
    unfold form, at_corners. cbn [nth]. rewrite (H _ i E), (H _ j E), (H _ k E) by (cbn; auto). ring.
Qed.

Lemma total_add nodes els u v t : total nodes els (fun i => u i + t * v i) (fun i => u i + t * v i) = total nodes els u u + t * (2 * total nodes els u v) + t * t * total nodes els v v.
Proof.
  unfold total. induction els as [|e els IH]; cbn [lsum]; [ring|]. rewrite IH. unfold form, at_corners. ring.
Qed.
Lemma total_schwarz nodes els u v : total nodes els u v * total nodes els u v <= total nodes els u u * total nodes els v v.
Proof.
  assert (P : forall t, 0 <= total nodes els u u + t * (2 * total nodes els u v) + t * t * total nodes els v v) by (intros t; rewrite <- total_add; apply total_nonneg).
  set (a := total nodes els u u) in *. set (b := total nodes els u v) in *. assert (C0 := total_nonneg nodes els v). set (c := total nodes els v v) in *. clearbody a b c.
  destruct (Req_dec c 0) as [->|NC].
  - destruct (Req_dec b 0) as [->|NB]; [lra|]. exfalso. specialize (P (- (a + 1) / (2 * b))). replace (a + - (a + 1) / (2 * b) * (2 * b) + _) with (-1) in P by (field; exact NB). lra.
  - specialize (P (- b / c)). replace (a + - b / c * (2 * b) + - b / c * (- b / c) * c) with ((a * c - b * b) / c) in P by (field; exact NC).
    assert (0 < c) by lra. assert (0 <= (a * c - b * b) / c * c) by nra. replace ((a * c - b * b) / c * c) with (a * c - b * b) in H0 by (field; exact NC). lra.
Qed.
Lemma total_triangle nodes els u v : sqrt (total nodes els (fun i => u i + v i) (fun i => u i + v i)) <= sqrt (total nodes els u u) + sqrt (total nodes els v v).
Proof.
  assert (E : total nodes els (fun i => u i + v i) (fun i => u i + v i) = total nodes els u u + 2 * total nodes els u v + total nodes els v v).
  { transitivity (total nodes els (fun i => u i + 1 * v i) (fun i => u i + 1 * v i)); [|rewrite total_add; ring]. unfold total. apply lsum_ext. intros e _. unfold form, at_corners. ring. }
  assert (A := total_nonneg nodes els u). assert (C := total_nonneg nodes els v). assert (S := total_schwarz nodes els u v).
  assert (SA := sqrt_pos (total nodes els u u)). assert (SC := sqrt_pos (total nodes els v v)).
  rewrite <- (sqrt_square (sqrt (total nodes els u u) + sqrt (total nodes els v v))) by lra. apply sqrt_le_1_alt. rewrite E.
  assert (QA := sqrt_sqrt _ A). assert (QC := sqrt_sqrt _ C). set (x := sqrt (total nodes els u u)) in *. set (y := sqrt (total nodes els v v)) in *. set (b := total nodes els u v) in *.
  assert (b <= x * y). { rewrite <- QA, <- QC in S. assert (0 <= x * y) by nra. destruct (Rle_or_lt b (x * y)); [assumption|]. exfalso. nra. }
  nra.
Qed.

Lemma error_zero N nodes els ref linear near : triangles N nodes els -> els <> [] ->
  temperature_error N nodes els ref linear near = Ok 0 <-> forall e n, In e els -> In n e -> match linear n with Some v => v | None => near n end = ref n.
Proof.
  intros (R & L & D) NE. rewrite (error_total N nodes els ref linear near R L NE). assert (Z := total_zero nodes els (difference ref linear near) D L). assert (P := total_nonneg nodes els (difference ref linear near)). split.
  - intros E e n IE I. injection E as E. apply sqrt_eq_0 in E; [|exact P]. assert (W := proj1 Z E e n IE I). unfold difference, interpolated in W. lra.
  - intros H. f_equal. rewrite (proj2 Z); [apply sqrt_0|]. intros e n IE I. unfold difference, interpolated. rewrite (H e n IE I). ring.
Qed.

Lemma error_triangle N nodes els (u x v : nat -> R) near : in_range N els -> Forall (fun e => List.length e = 3%nat) els -> els <> [] ->
  exists a b c, temperature_error N nodes els u (fun i => Some (v i)) near = Ok a /\ temperature_error N nodes els u (fun i => Some (x i)) near = Ok b /\
    temperature_error N nodes els x (fun i => Some (v i)) near = Ok c /\ a <= b + c.
Proof.
  intros R L NE. do 3 eexists. split; [apply error_total; assumption|]. split; [apply error_total; assumption|]. split; [apply error_total; assumption|].
  eapply Rle_trans; [|apply total_triangle]. right. f_equal. unfold total. apply lsum_ext. intros e _. unfold form, at_corners, difference, interpolated. ring.
Qed.

Lemma error_scales N nodes els ref linear near c r : in_range N els -> Forall (fun e => List.length e = 3%nat) els -> els <> [] ->
  temperature_error N nodes els ref linear near = Ok r ->
  temperature_error N nodes els (fun i => c * ref i) (fun i => match linear i with Some v => Some (c * v) | None => None end) (fun i => c * near i) = Ok (Rabs c * r).
Proof.
  intros R L NE E. rewrite (error_total N nodes els ref linear near R L NE) in E. injection E as <-. rewrite error_total by assumption. f_equal.
  rewrite <- (sqrt_Rsqr_abs c), <- sqrt_mult_alt by apply Rle_0_sqr. f_equal. unfold total. rewrite <- lsum_scal. apply lsum_ext. intros e _.
  assert (D : forall i, difference (fun i => c * ref i) (fun i => match linear i with Some v => Some (c * v) | None => None end) (fun i => c * near i) i = c * difference ref linear near i)
    by (intros i; unfold difference, interpolated; destruct (linear i); ring).
  unfold form, at_corners. rewrite !D. unfold Rsqr. ring.
Qed.

(* rates *)
Lemma ln_ratio a b : 0 < a -> 0 < b -> ln (a / b) = ln a - ln b.
Proof. intros A B. unfold Rdiv. rewrite ln_mult, ln_Rinv by (try apply Rinv_0_lt_compat; assumption). ring. Qed.
Lemma ln_ratio_0 a b : 0 < a -> 0 < b -> a <> b -> ln (a / b) <> 0.
Proof. intros A B N E. rewrite ln_ratio in E by assumption. apply N. apply ln_inv; lra. Qed.

Lemma rate_meaning h h' e e' r : 0 < h -> 0 < h' -> h <> h' ->
  rate_of (h, e) (h', e') = Rate r <-> 0 < e /\ 0 < e' /\ e' = e * Rpower (h' / h) r.
Proof.
  intros H H' N. unfold rate_of. assert (Z := ln_ratio_0 h h' H H' N). assert (LH := ln_ratio h h' H H'). assert (LH' := ln_ratio h' h H' H). split.
  - destruct (Rlt_dec 0 e) as [E|]; [|discriminate]. destruct (Rlt_dec 0 e') as [E'|]; [|discriminate]. destruct (Req_EM_T _ 0); [contradiction|]. intros Q. injection Q as <-.
    split; [exact E|]. split; [exact E'|]. unfold Rpower. rewrite LH', (ln_ratio e e' E E'), LH. rewrite LH in Z.
    replace ((ln e - ln e') / (ln h - ln h') * (ln h' - ln h)) with (ln e' + - ln e) by (field; exact Z). rewrite exp_plus, exp_Ropp, !exp_ln by assumption. field. lra.
  - intros (E & E' & Q). destruct (Rlt_dec 0 e); [|contradiction]. destruct (Rlt_dec 0 e'); [|contradiction]. destruct (Req_EM_T _ 0); [contradiction|]. f_equal.
    assert (L : ln e' = ln e + r * (ln h' - ln h)). { rewrite Q, ln_mult by (try apply exp_pos; assumption). unfold Rpower. rewrite ln_exp, LH'. reflexivity. }
    rewrite (ln_ratio e e' E E'), L. rewrite LH in *. field. exact Z.
Qed.

Lemma rates_order C p : 0 < C -> forall l q, order C p (q :: l) -> rates_after q l = repeat (Rate p) (List.length l).
Proof.
  intros C0. induction l as [|(h', e') l IH]; intros (h, e) O; [reflexivity|]. destruct O as (H & E & LT & O). cbn [rates_after List.length repeat]. f_equal; [|apply IH; exact O].
  destruct O as (H' & E' & _). assert (LT' := LT _ (or_introl eq_refl)). cbn [fst] in LT'. apply rate_meaning; [exact H|exact H'|lra|].
  assert (P := exp_pos (p * ln h)). assert (P' := exp_pos (p * ln h')). fold (Rpower h p) in P. fold (Rpower h' p) in P'. rewrite E, E'. split; [nra|]. split; [nra|].
  unfold Rpower. rewrite (ln_ratio h' h H' H). replace (p * (ln h' - ln h)) with (p * ln h' + - (p * ln h)) by ring. rewrite exp_plus, exp_Ropp. field. apply Rgt_not_eq, exp_pos.
Qed.
Lemma rates_all C p l : 0 < C -> l <> [] -> order C p l -> compute_rates l = Dash :: repeat (Rate p) (List.length l - 1).
Proof. intros C0 NE O. destruct l as [|q l]; [congruence|]. cbn [compute_rates List.length]. rewrite (rates_order C p C0 l q O). do 2 f_equal. lia. Qed.

Lemma rate_dash h h' e e' : e <= 0 \/ e' <= 0 -> rate_of (h, e) (h', e') = Dash.
Proof. intros D. unfold rate_of. destruct (Rlt_dec 0 e); [|reflexivity]. destruct (Rlt_dec 0 e'); [lra|reflexivity]. Qed.
