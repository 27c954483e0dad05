(* Definiteness of the scalar and elastic operators on fields vanishing at enough nodes. *)
From Coq Require Import Reals List Arith Lia Lra.
From Verif Require Import Common PyModel RVec MeshSpec FemModel FemSpec FemGeomProofs FemAssemblyProofs
  FemFormProofs FemPipelineProofs FemFinalProofs StatementSpec.
Import ListNotations.
Local Open Scope R_scope.

Lemma in_combine_seq {A} (l : list A) e : In e l -> exists k, In (k, e) (combine (seq 0 (length l)) l).
Proof.
  generalize 0%nat. induction l as [|a l IH]; intros s [].
  - subst. exists s. left. reflexivity.
  - destruct (IH (S s) H) as [k Hk]. exists k. right. exact Hk.
Qed.

Lemma mesh_integral_zero meas density els f : positive_density density ->
  (forall e, In e els -> 0 < meas e) -> (forall e, In e els -> 0 <= f e) ->
  mesh_integral meas density els f <= 0 -> forall e, In e els -> f e = 0.
Proof.
  intros HD HM Hf H e He.
  assert (P : forall c, 0 < c -> c * f e = 0 -> f e = 0).
  { intros c Hc E. apply Rmult_integral in E. destruct E; [lra|auto]. }
  destruct density as [rho|]; simpl in HD, H.
  - destruct (in_combine_seq els e He) as [k Hk].
    assert (NN : forall q, In q (combine (seq 0 (length els)) els) -> 0 <= rho (fst q) * (meas (snd q) * f (snd q))).
    { intros [j e'] Hq. apply in_combine_r in Hq. simpl. apply Rmult_le_pos; [left; auto|].
      apply Rmult_le_pos; [left|]; auto. }
    assert (Z : rho k * (meas e * f e) = 0).
    { apply (lsum_nonneg_0 _ _ NN) with (x := (k, e)); auto.
      apply Rle_antisym; [exact H|apply lsum_nonneg; auto]. }
    apply (P (rho k * meas e)); [apply Rmult_lt_0_compat; auto|lra].
  - assert (NN : forall q, In q els -> 0 <= meas q * f q).
    { intros q Hq. apply Rmult_le_pos; [left|]; auto. }
    apply (P (meas e)); auto.
    apply (lsum_nonneg_0 _ _ NN) with (x := e); auto.
    apply Rle_antisym; [exact H|apply lsum_nonneg; auto].
Qed.

(* two corners of an element *)
Lemma gradient_corners d nodes (e : list nat) f g i j : length e = S d ->
  affine_gradient d (corners nodes e) (fun k => f (nth k e 0%nat)) g -> In i e -> In j e ->
  sum d (fun c => g c * (nodes i c - nodes j c)) = f i - f j.
Proof.
  intros HL HG Hi Hj.
  destruct (In_nth _ _ 0%nat Hi) as (a & Ha & <-), (In_nth _ _ 0%nat Hj) as (b & Hb & <-).
  exact (HG a b ltac:(lia) ltac:(lia)).
Qed.

Lemma zero_gradient d nodes els f g : Forall (fun e => length e = S d) els ->
  field_gradient d nodes els f g -> (forall e k, In e els -> (k < d)%nat -> g e k = 0) ->
  forall pin : nat -> Prop, (forall i, pin i -> f i = 0) -> forall i, tied pin els i -> f i = 0.
Proof.
  intros HL HG H0 pin HP i Hi. induction Hi as [i Hi|e i k He Hi Hk _ IH]; auto.
  assert (L : length e = S d) by (rewrite Forall_forall in HL; auto).
  pose proof (gradient_corners d nodes e f (g e) k i L (HG e He) Hk Hi) as E.
  rewrite sum_0 in E; [lra|]. intros c Hc. rewrite H0; auto. ring.
Qed.

Lemma square_sum d (g : vec) : sum d (fun k => g k * g k) <= 0 -> forall k, (k < d)%nat -> g k = 0.
Proof.
  intros H k Hk.
  assert (E : g k * g k = 0).
  { apply (sum_nonneg_0 d (fun k => g k * g k)); auto; [intros; nra|].
    apply Rle_antisym; auto. apply sum_nonneg. intros; nra. }
  nra.
Qed.

Lemma sum_square_nonneg d (g : vec) : 0 <= sum d (fun k => g k * g k).
Proof. apply sum_nonneg. intros; nra. Qed.

(* a scalar form bounded below by the gradient *)
Lemma scalar_definite d N nodes els meas density (dens : (list nat -> vec) -> list nat -> R) K c :
  (forall e, In e els -> 0 < meas e) -> Forall (fun e => length e = S d) els ->
  positive_density density -> 0 < c ->
  (forall x, exists g, field_gradient d nodes els x g) ->
  (forall x g, field_gradient d nodes els x g ->
    bilinear N N K x x = mesh_integral meas density els (dens g)) ->
  (forall g e, c * sum d (fun k => g e k * g e k) <= dens g e) ->
  forall pin : nat -> Prop, (forall i, (i < N)%nat -> tied pin els i) ->
  forall x, (forall i, pin i -> x i = 0) -> (exists i, (i < N)%nat /\ x i <> 0) -> 0 < qform N K x.
Proof.
  intros HM HL HD Hc HE HF HB pin HT x HP (i & Hi & Hx).
  destruct (Rlt_le_dec 0 (qform N K x)) as [|H]; auto. exfalso. apply Hx.
  destruct (HE x) as [g Hg].
  unfold qform in H. rewrite <- bilinear_dot, (HF x g Hg) in H.
  assert (NN : forall e, In e els -> 0 <= dens g e).
  { intros e _. apply Rle_trans with (2 := HB g e). apply Rmult_le_pos; [lra|apply sum_square_nonneg]. }
  pose proof (mesh_integral_zero meas density els _ HD HM NN H) as Z.
  apply (zero_gradient d nodes els x g HL Hg) with (pin := pin); auto.
  intros e k He Hk. apply (square_sum d (g e)); auto.
  pose proof (HB g e) as B. rewrite (Z e He) in B.
  pose proof (sum_square_nonneg d (g e)). nra.
Qed.

Lemma poisson2_definite N nodes els p density ops c K : triangles N nodes els ->
  reinitialize_matrices N nodes els p density = Ok ops -> membrane p = Some c ->
  poisson_operator ops = Some K -> positive_density density -> c <> 0 ->
  forall pin : nat -> Prop, (forall i, (i < N)%nat -> tied pin els i) ->
  forall x, (forall i, pin i -> x i = 0) -> (exists i, (i < N)%nat /\ x i <> 0) -> 0 < qform N K x.
Proof.
  intros HT HO Hm HK HD Hc.
  assert (ND : nonneg_density density).
  { destruct density; simpl in *; auto. intros k. left. auto. }
  destruct (poisson2_all N nodes els p density ops c K HT HO Hm HK ND) as (HF & _).
  apply (scalar_definite 2 N nodes els (element_area nodes) density
    (fun g e => c ^ 2 * sum 2 (fun k => g e k * g e k)) K (c ^ 2)); auto.
  - intros e He. apply area_pos. apply (proj2 (proj2 HT)); auto.
  - apply HT.
  - assert (0 < c ^ 2) by (simpl; rewrite Rmult_1_r; destruct (Rtotal_order c 0) as [|[|]]; nra). auto.
  - intros x. exact (gradient2_ex N nodes els x HT).
  - intros; lra.
Qed.

Lemma poisson3_definite N nodes els p density ops c K : tetrahedra N nodes els ->
  reinitialize_matrices N nodes els p density = Ok ops -> membrane p = Some c ->
  poisson_operator ops = Some K -> c <> 0 ->
  forall pin : nat -> Prop, (forall i, (i < N)%nat -> tied pin els i) ->
  forall x, (forall i, pin i -> x i = 0) -> (exists i, (i < N)%nat /\ x i <> 0) -> 0 < qform N K x.
Proof.
  intros HT HO Hm HK Hc.
  destruct (poisson3_all N nodes els p density ops c K HT HO Hm HK) as (HF & _).
  apply (scalar_definite 3 N nodes els (element_volume nodes) None
    (fun g e => c ^ 2 * sum 3 (fun k => g e k * g e k)) K (c ^ 2)); auto.
  - intros e He. apply volume_pos. apply (proj2 (proj2 HT)); auto.
  - apply HT.
  - exact I.
  - assert (0 < c ^ 2) by (simpl; rewrite Rmult_1_r; destruct (Rtotal_order c 0) as [|[|]]; nra). auto.
  - intros x. exact (gradient3_ex N nodes els x HT).
  - intros x g Hg. exact (HF x x g g Hg Hg).
  - intros; lra.
Qed.

Lemma permittivity2_definite N nodes els p density ops pz pm K c : triangles N nodes els ->
  reinitialize_matrices N nodes els p density = Ok ops -> piezo p = Some (pz, pm) ->
  permittivity ops = Some K -> positive_density density -> 0 < c ->
  (forall v, c * sum 2 (fun k => v k * v k) <= sum 2 (fun k => sum 2 (fun l => pm k l * (v k * v l)))) ->
  forall pin : nat -> Prop, (forall i, (i < N)%nat -> tied pin els i) ->
  forall x, (forall i, pin i -> x i = 0) -> (exists i, (i < N)%nat /\ x i <> 0) -> 0 < qform N K x.
Proof.
  intros HT HO Hm HK HD Hc HB.
  destruct (permittivity2_all N nodes els p density ops pz pm K HT HO Hm HK) as (HF & _).
  apply (scalar_definite 2 N nodes els (element_area nodes) density
    (fun g e => sum 2 (fun k => sum 2 (fun l => pm k l * (g e k * g e l)))) K c); auto.
  - intros e He. apply area_pos. apply (proj2 (proj2 HT)); auto.
  - apply HT.
  - intros x. exact (gradient2_ex N nodes els x HT).
Qed.

(* Korn: plane elasticity with enough fixed nodes *)
Lemma different_corners nodes (e : list nat) i j : length e = 3%nat -> det_2d (corners nodes e) <> 0 ->
  In i e -> In j e -> i <> j -> nodes i 0%nat <> nodes j 0%nat \/ nodes i 1%nat <> nodes j 1%nat.
Proof.
  intros HL HD Hi Hj Hij.
  destruct (Req_dec (nodes i 0%nat) (nodes j 0%nat)) as [E0|]; [|auto].
  destruct (Req_dec (nodes i 1%nat) (nodes j 1%nat)) as [E1|]; [|auto].
  exfalso. apply HD.
  destruct e as [|a [|b [|c [|? ?]]]]; try discriminate. unfold det_2d, corners. cbn [nth].
  destruct Hi as [<-|[<-|[<-|[]]]], Hj as [<-|[<-|[<-|[]]]]; try congruence; rewrite ?E0, ?E1; ring.
Qed.

Lemma elastic_definite N nodes els density mu lambda E : triangles N nodes els ->
  positive_density density -> 0 < mu -> 0 <= lambda ->
  (forall v u G H, vector_gradient 2 N nodes els v G -> vector_gradient 2 N nodes els u H ->
     bilinear (2 * N) (2 * N) E v u = mesh_integral (element_area nodes) density els (fun e =>
       elastic_density 2 mu lambda (fun c => G c e) (fun c => H c e))) ->
  forall pin : nat -> Prop, (forall i, (i < N)%nat -> held pin els i) ->
  forall x, (forall i, pin i -> x i = 0 /\ x (N + i)%nat = 0) ->
    (exists i, (i < 2 * N)%nat /\ x i <> 0) -> 0 < qform (2 * N) E x.
Proof.
  intros HT HD Hmu Hla HF pin Hheld x HP (i & Hi & Hx).
  destruct (Rlt_le_dec 0 (qform (2 * N) E x)) as [|H]; auto. exfalso. apply Hx.
  destruct (gradients2_ex N nodes els x HT) as [G HG].
  unfold qform in H. rewrite <- bilinear_dot, (HF x x G G HG HG) in H.
  set (dens := fun e => elastic_density 2 mu lambda (fun c => G c e) (fun c => G c e)) in *.
  assert (D : forall e, dens e =
    2 * mu * (Rsqr (G 0%nat e 0%nat) + Rsqr (G 1%nat e 1%nat) + Rsqr (G 0%nat e 1%nat + G 1%nat e 0%nat) / 2)
    + lambda * Rsqr (G 0%nat e 0%nat + G 1%nat e 1%nat)).
  { intros e. unfold dens, elastic_density, strain, divergence, Rsqr. cbn [sum]. field. }
  assert (Q : forall e, 0 <= Rsqr (G 0%nat e 0%nat) /\ 0 <= Rsqr (G 1%nat e 1%nat) /\
     0 <= Rsqr (G 0%nat e 1%nat + G 1%nat e 0%nat) /\ 0 <= Rsqr (G 0%nat e 0%nat + G 1%nat e 1%nat)).
  { intros e. repeat split; apply Rle_0_sqr. }
  assert (NN : forall e, In e els -> 0 <= dens e).
  { intros e _. rewrite D. destruct (Q e) as (q1 & q2 & q3 & q4).
    apply Rplus_le_le_0_compat; apply Rmult_le_pos; lra. }
  assert (AP : forall e, In e els -> 0 < element_area nodes e).
  { intros e He. apply area_pos. apply (proj2 (proj2 HT)); auto. }
  pose proof (mesh_integral_zero _ _ _ _ HD AP NN H) as Z.
  assert (ZG : forall e, In e els -> G 0%nat e 0%nat = 0 /\ G 1%nat e 1%nat = 0 /\ G 0%nat e 1%nat = - G 1%nat e 0%nat).
  { intros e He. pose proof (Z e He) as Ze. rewrite D in Ze. destruct (Q e) as (q1 & q2 & q3 & q4).
    assert (0 <= lambda * Rsqr (G 0%nat e 0%nat + G 1%nat e 1%nat)) by (apply Rmult_le_pos; auto).
    assert (S0 : Rsqr (G 0%nat e 0%nat) + Rsqr (G 1%nat e 1%nat) + Rsqr (G 0%nat e 1%nat + G 1%nat e 0%nat) / 2 <= 0) by nra.
    split; [|split].
    - apply Rsqr_0_uniq. lra.
    - apply Rsqr_0_uniq. lra.
    - assert (G 0%nat e 1%nat + G 1%nat e 0%nat = 0) by (apply Rsqr_0_uniq; lra). lra. }
  assert (all : forall i, held pin els i -> x i = 0 /\ x (N + i)%nat = 0).
  { intros a Ha. induction Ha as [a Ha|e a b k He Ia Ib Hab Ik _ [A0 A1] _ [B0 B1]]; auto.
    destruct (ZG e He) as (g00 & g11 & g01).
    destruct HT as (_ & HL & HN). rewrite Forall_forall in HL.
    pose proof (gradient_corners 2 nodes e _ (G 0%nat e) a b (HL e He) (HG 0%nat ltac:(lia) e He) Ia Ib) as E0.
    pose proof (gradient_corners 2 nodes e _ (G 1%nat e) a b (HL e He) (HG 1%nat ltac:(lia) e He) Ia Ib) as E1.
    pose proof (gradient_corners 2 nodes e _ (G 0%nat e) k a (HL e He) (HG 0%nat ltac:(lia) e He) Ik Ia) as K0.
    pose proof (gradient_corners 2 nodes e _ (G 1%nat e) k a (HL e He) (HG 1%nat ltac:(lia) e He) Ik Ia) as K1.
    unfold component in E0, E1, K0, K1. cbn [sum] in E0, E1, K0, K1.
    rewrite !(Nat.mul_1_l N) in E1, K1. change (0 * N)%nat with 0%nat in E0, K0.
    rewrite !Nat.add_0_l in E0, K0.
    rewrite g00, g01 in E0. rewrite g11 in E1. rewrite g00, g01 in K0. rewrite g11 in K1.
    rewrite A0, B0 in E0. rewrite A1, B1 in E1. rewrite A0 in K0. rewrite A1 in K1.
    assert (W : G 1%nat e 0%nat = 0).
    { destruct (different_corners nodes e a b (HL e He) (HN e He) Ia Ib Hab) as [N0|N1].
      - apply (Rmult_eq_reg_r (nodes a 0%nat - nodes b 0%nat)); lra.
      - apply (Rmult_eq_reg_r (nodes a 1%nat - nodes b 1%nat)); lra. }
    rewrite W in K0, K1. lra. }
  destruct (Nat.lt_ge_cases i N) as [L|L].
  - apply all; auto.
  - replace i with (N + (i - N))%nat by lia. apply all. apply Hheld. lia.
Qed.
