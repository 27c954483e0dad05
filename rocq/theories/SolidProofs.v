(* Definiteness of the elastic operators of solids. *)
From Coq Require Import Reals List Arith Bool Lia Lra.
From Verif Require Import Common PyModel RVec LinAlg MeshSpec DirichletModel DirichletSpec FemModel FemSpec FemGeomProofs FemAssemblyProofs
  FemFormProofs FemPipelineProofs FemFinalProofs FemBuildProofs FemKornProofs StatementModel StatementSpec StatementValueProofs StatementLawProofs StatementEnergyProofs
  StatementMeshProofs SolidSpec.
Import ListNotations.
Local Open Scope R_scope.

(* the energy of the operator of the code as a sum of squares *)
Definition squares3 (mu la : R) (G : nat -> vec) : R :=
  (mu + la) * (Rsqr (G 0%nat 0%nat) + Rsqr (G 1%nat 1%nat) + Rsqr (G 2%nat 2%nat))
  + mu * Rsqr (G 0%nat 0%nat + G 1%nat 1%nat + G 2%nat 2%nat)
  + la * (Rsqr (G 0%nat 1%nat + G 1%nat 0%nat) + Rsqr (G 0%nat 2%nat + G 2%nat 0%nat) + Rsqr (G 1%nat 2%nat + G 2%nat 1%nat))
  + (mu - la) * (Rsqr (G 0%nat 1%nat) + Rsqr (G 1%nat 0%nat) + Rsqr (G 2%nat 0%nat)).

Lemma squares3_is mu la G : elastic_density 3 mu la G G + (mu - la) * defect_3d G G = squares3 mu la G.
Proof. unfold squares3, elastic_density, defect_3d, strain, divergence, Rsqr. cbn [sum Nat.eqb]. field. Qed.

Lemma squares3_nonneg mu la G : 0 <= la <= mu -> 0 <= squares3 mu la G.
Proof.
  intros H. unfold squares3.
  repeat apply Rplus_le_le_0_compat; apply Rmult_le_pos; try lra; repeat apply Rplus_le_le_0_compat; apply Rle_0_sqr.
Qed.

Lemma squares3_zero mu la G : 0 < la <= mu -> squares3 mu la G = 0 ->
  G 0%nat 0%nat = 0 /\ G 1%nat 1%nat = 0 /\ G 2%nat 2%nat = 0 /\
  G 0%nat 1%nat = - G 1%nat 0%nat /\ G 0%nat 2%nat = - G 2%nat 0%nat /\ G 1%nat 2%nat = - G 2%nat 1%nat.
Proof.
  intros H Z. unfold squares3 in Z.
  pose proof (Rle_0_sqr (G 0%nat 0%nat)). pose proof (Rle_0_sqr (G 1%nat 1%nat)). pose proof (Rle_0_sqr (G 2%nat 2%nat)).
  pose proof (Rle_0_sqr (G 0%nat 1%nat + G 1%nat 0%nat)). pose proof (Rle_0_sqr (G 0%nat 2%nat + G 2%nat 0%nat)).
  pose proof (Rle_0_sqr (G 1%nat 2%nat + G 2%nat 1%nat)).
  set (A := Rsqr (G 0%nat 0%nat) + Rsqr (G 1%nat 1%nat) + Rsqr (G 2%nat 2%nat)) in Z.
  set (B := Rsqr (G 0%nat 1%nat + G 1%nat 0%nat) + Rsqr (G 0%nat 2%nat + G 2%nat 0%nat) + Rsqr (G 1%nat 2%nat + G 2%nat 1%nat)) in Z.
  assert (0 <= A) by (unfold A; lra). assert (0 <= B) by (unfold B; lra).
  assert (0 <= mu * Rsqr (G 0%nat 0%nat + G 1%nat 1%nat + G 2%nat 2%nat)) by (apply Rmult_le_pos; [lra|apply Rle_0_sqr]).
  assert (0 <= (mu - la) * (Rsqr (G 0%nat 1%nat) + Rsqr (G 1%nat 0%nat) + Rsqr (G 2%nat 0%nat))).
  { apply Rmult_le_pos; [lra|]. repeat apply Rplus_le_le_0_compat; apply Rle_0_sqr. }
  assert (PA : 0 <= (mu + la) * A) by (apply Rmult_le_pos; lra). assert (PB : 0 <= la * B) by (apply Rmult_le_pos; lra).
  assert (A0 : A = 0). { destruct (Rmult_integral (mu + la) A) as [E|E]; lra. }
  assert (B0 : B = 0). { destruct (Rmult_integral la B) as [E|E]; lra. }
  unfold A in A0. unfold B in B0.
  assert (S : forall x, Rsqr x = 0 -> x = 0) by (intros x; apply Rsqr_0_uniq).
  split; [apply S; lra|]. split; [apply S; lra|]. split; [apply S; lra|].
  assert (G 0%nat 1%nat + G 1%nat 0%nat = 0) by (apply S; lra). assert (G 0%nat 2%nat + G 2%nat 0%nat = 0) by (apply S; lra).
  assert (G 1%nat 2%nat + G 2%nat 1%nat = 0) by (apply S; lra). lra.
Qed.

(* a rotation that fixes two edges of a tetrahedron at one of its corners *)
Lemma no_rotation (a b c : vec) w0 w1 w2 :
  a 0%nat * (b 1%nat * c 2%nat - b 2%nat * c 1%nat) - a 1%nat * (b 0%nat * c 2%nat - b 2%nat * c 0%nat)
  + a 2%nat * (b 0%nat * c 1%nat - b 1%nat * c 0%nat) <> 0 ->
  w1 * a 2%nat - w2 * a 1%nat = 0 -> w2 * a 0%nat - w0 * a 2%nat = 0 -> w0 * a 1%nat - w1 * a 0%nat = 0 ->
  w1 * b 2%nat - w2 * b 1%nat = 0 -> w2 * b 0%nat - w0 * b 2%nat = 0 -> w0 * b 1%nat - w1 * b 0%nat = 0 ->
  w0 = 0 /\ w1 = 0 /\ w2 = 0.
Proof.
  set (D := _ - _ + _). intros HD A0 A1 A2 B0 B1 B2.
  assert (E0 : w0 * D = 0).
  { transitivity (c 0%nat * ((w0 * a 1%nat - w1 * a 0%nat) * b 2%nat + (w2 * a 0%nat - w0 * a 2%nat) * b 1%nat + a 0%nat * (w1 * b 2%nat - w2 * b 1%nat))
      + c 1%nat * (- (w2 * a 0%nat - w0 * a 2%nat) * b 0%nat + a 0%nat * (w2 * b 0%nat - w0 * b 2%nat)) + c 2%nat * (a 0%nat * (w0 * b 1%nat - w1 * b 0%nat) - (w0 * a 1%nat - w1 * a 0%nat) * b 0%nat)); [unfold D; ring|].
    rewrite ?A0, ?A1, ?A2, ?B0, ?B1, ?B2; ring. }
  assert (E1 : w1 * D = 0).
  { transitivity (c 1%nat * ((w1 * a 2%nat - w2 * a 1%nat) * b 0%nat + (w0 * a 1%nat - w1 * a 0%nat) * b 2%nat + a 1%nat * (w2 * b 0%nat - w0 * b 2%nat))
      + c 2%nat * (- (w0 * a 1%nat - w1 * a 0%nat) * b 1%nat + a 1%nat * (w0 * b 1%nat - w1 * b 0%nat)) + c 0%nat * (a 1%nat * (w1 * b 2%nat - w2 * b 1%nat) - (w1 * a 2%nat - w2 * a 1%nat) * b 1%nat)); [unfold D; ring|].
    rewrite ?A0, ?A1, ?A2, ?B0, ?B1, ?B2; ring. }
  assert (E2 : w2 * D = 0).
  { transitivity (c 2%nat * ((w2 * a 0%nat - w0 * a 2%nat) * b 1%nat + (w1 * a 2%nat - w2 * a 1%nat) * b 0%nat + a 2%nat * (w0 * b 1%nat - w1 * b 0%nat))
      + c 0%nat * (- (w1 * a 2%nat - w2 * a 1%nat) * b 2%nat + a 2%nat * (w1 * b 2%nat - w2 * b 1%nat)) + c 1%nat * (a 2%nat * (w2 * b 0%nat - w0 * b 2%nat) - (w2 * a 0%nat - w0 * a 2%nat) * b 2%nat)); [unfold D; ring|].
    rewrite ?A0, ?A1, ?A2, ?B0, ?B1, ?B2; ring. }
  repeat split; [destruct (Rmult_integral _ _ E0)|destruct (Rmult_integral _ _ E1)|destruct (Rmult_integral _ _ E2)]; auto; contradiction.
Qed.

Lemma fourth_corner nodes (e : list nat) i j k : List.length e = 4%nat -> det_3d (corners nodes e) <> 0 ->
  In i e -> In j e -> In k e -> i <> j -> i <> k -> j <> k ->
  exists l, In l e /\
  let a c := nodes j c - nodes i c in let b c := nodes k c - nodes i c in let c c := nodes l c - nodes i c in
  a 0%nat * (b 1%nat * c 2%nat - b 2%nat * c 1%nat) - a 1%nat * (b 0%nat * c 2%nat - b 2%nat * c 0%nat)
  + a 2%nat * (b 0%nat * c 1%nat - b 1%nat * c 0%nat) <> 0.
Proof.
  intros HL HD Hi Hj Hk N1 N2 N3.
  destruct e as [|p [|q [|r [|s [|? ?]]]]]; try discriminate.
  unfold det_3d, corners in HD. cbn [nth] in HD.
  destruct Hi as [<-|[<-|[<-|[<-|[]]]]], Hj as [<-|[<-|[<-|[<-|[]]]]], Hk as [<-|[<-|[<-|[<-|[]]]]]; try congruence;
    first [exists p; split; [cbn; tauto|]; cbv zeta; intros Z; apply HD; lra
          |exists q; split; [cbn; tauto|]; cbv zeta; intros Z; apply HD; lra
          |exists r; split; [cbn; tauto|]; cbv zeta; intros Z; apply HD; lra
          |exists s; split; [cbn; tauto|]; cbv zeta; intros Z; apply HD; lra].
Qed.

Section Korn.
  Variables (N : nat) (nodes : nat -> vec) (els : list (list nat)) (mu la : R) (E : mat).
  Hypothesis HT : tetrahedra N nodes els.
  Hypothesis HF : forall v u G H, vector_gradient 3 N nodes els v G -> vector_gradient 3 N nodes els u H ->
    bilinear (3 * N) (3 * N) E v u
    = integral (element_volume nodes) els (fun e => elastic_density 3 mu la (fun c => G c e) (fun c => H c e))
      + (mu - la) * integral (element_volume nodes) els (fun e => defect_3d (fun c => G c e) (fun c => H c e)).

  Lemma energy3 x G : vector_gradient 3 N nodes els x G ->
    qform (3 * N) E x = integral (element_volume nodes) els (fun e => squares3 mu la (fun c => G c e)).
  Proof.
    intros HG. unfold qform. rewrite <- bilinear_dot, (HF x x G G HG HG). unfold integral.
    rewrite <- lsum_scal, <- lsum_plus. apply lsum_ext. intros e _. rewrite <- squares3_is. ring.
  Qed.

  Lemma semidef3 : 0 <= la <= mu -> pos_semidef (3 * N) E.
  Proof.
    intros H x. destruct (gradients3_ex N nodes els x HT) as [G HG]. rewrite (energy3 x G HG).
    apply lsum_nonneg. intros e _. apply Rmult_le_pos; [apply volume_nonneg|]. apply squares3_nonneg; exact H.
  Qed.

  Lemma definite3 : 0 < la <= mu -> forall pin : nat -> Prop, (forall i, (i < N)%nat -> fastened pin els i) ->
    forall x, (forall i, pin i -> forall c, (c < 3)%nat -> x (c * N + i)%nat = 0) ->
    (exists i, (i < 3 * N)%nat /\ x i <> 0) -> 0 < qform (3 * N) E x.
  Proof.
    intros HM pin Hheld x HP (i & Hi & Hx).
    destruct (Rlt_le_dec 0 (qform (3 * N) E x)) as [|H]; auto. exfalso. apply Hx.
    destruct (gradients3_ex N nodes els x HT) as [G HG]. rewrite (energy3 x G HG) in H.
    assert (AP : forall e, In e els -> 0 < element_volume nodes e).
    { intros e He. apply volume_pos. apply (proj2 (proj2 HT)); auto. }
    assert (NN : forall e, In e els -> 0 <= squares3 mu la (fun c => G c e)) by (intros e _; apply squares3_nonneg; lra).
    pose proof (mesh_integral_zero (element_volume nodes) None els _ I AP NN H) as Z.
    assert (all : forall i, fastened pin els i -> forall c, (c < 3)%nat -> x (c * N + i)%nat = 0).
    { intros a Ha. induction Ha as [a Ha|e a b c l He Ia Ib Ic D1 D2 D3 Il _ A _ B _ C]; auto.
      destruct (squares3_zero mu la _ HM (Z e He)) as (g00 & g11 & g22 & g01 & g02 & g12). cbv beta in g00, g11, g22, g01, g02, g12.
      destruct HT as (_ & HL & HN). rewrite Forall_forall in HL. specialize (HL e He). specialize (HN e He).
      destruct (fourth_corner nodes e a b c HL HN Ia Ib Ic D1 D2 D3) as (f & If & ND). cbv zeta in ND.
      assert (GC : forall c0 p q, (c0 < 3)%nat -> In p e -> In q e ->
        sum 3 (fun m => G c0 e m * (nodes p m - nodes q m)) = x (c0 * N + p)%nat - x (c0 * N + q)%nat).
      { intros c0 p q H0 Hp Hq. exact (gradient_corners 3 nodes e _ (G c0 e) p q HL (HG c0 H0 e He) Hp Hq). }
      pose proof (GC 0%nat b a ltac:(lia) Ib Ia) as P0. pose proof (GC 1%nat b a ltac:(lia) Ib Ia) as P1. pose proof (GC 2%nat b a ltac:(lia) Ib Ia) as P2.
      pose proof (GC 0%nat c a ltac:(lia) Ic Ia) as Q0. pose proof (GC 1%nat c a ltac:(lia) Ic Ia) as Q1. pose proof (GC 2%nat c a ltac:(lia) Ic Ia) as Q2.
      cbn [sum] in P0, P1, P2, Q0, Q1, Q2.
      rewrite (A 0%nat ltac:(lia)), (B 0%nat ltac:(lia)) in P0. rewrite (A 1%nat ltac:(lia)), (B 1%nat ltac:(lia)) in P1. rewrite (A 2%nat ltac:(lia)), (B 2%nat ltac:(lia)) in P2.
      rewrite (A 0%nat ltac:(lia)), (C 0%nat ltac:(lia)) in Q0. rewrite (A 1%nat ltac:(lia)), (C 1%nat ltac:(lia)) in Q1. rewrite (A 2%nat ltac:(lia)), (C 2%nat ltac:(lia)) in Q2.
      rewrite g00, g01, g02 in P0, Q0. rewrite g11, g12 in P1, Q1. rewrite g22 in P2, Q2.
      destruct (no_rotation (fun m => nodes b m - nodes a m) (fun m => nodes c m - nodes a m) (fun m => nodes f m - nodes a m)
        (G 2%nat e 1%nat) (- G 2%nat e 0%nat) (G 1%nat e 0%nat) ND) as (W0 & W1 & W2); try lra.
      intros c0 H0. pose proof (GC c0 l a H0 Il Ia) as K. rewrite (A c0 H0) in K. cbn [sum] in K.
      assert (G 2%nat e 0%nat = 0) as V1 by lra.
      destruct c0 as [|[|[|c0]]]; [| | |lia]; rewrite ?g00, ?g01, ?g02, ?g11, ?g12, ?g22, ?W0, ?V1, ?W2 in K; lra. }
    assert (DM : exists c n, (c < 3)%nat /\ (n < N)%nat /\ i = (c * N + n)%nat).
    { destruct (Nat.lt_ge_cases i N); [exists 0%nat, i; lia|]. destruct (Nat.lt_ge_cases i (2 * N)); [exists 1%nat, (i - N)%nat; lia|].
      exists 2%nat, (i - 2 * N)%nat. lia. }
    destruct DM as (c & n & Hc & Hn & ->). apply all; auto.
  Qed.

  (* without the second modulus the planes z = const slide without resistance *)
  Lemma sliding_free h u : la = 0 -> sliding N nodes h u -> qform (3 * N) E u = 0.
  Proof.
    intros L S. assert (HG : vector_gradient 3 N nodes els u (fun c _ k => if ((c =? 0) && (k =? 2))%nat then 1 else 0)).
    { intros c Hc e He i j Hi Hj. destruct HT as (HR & HL & _). rewrite Forall_forall in HL. specialize (HL e He).
      assert (R : forall k, (k <= 3)%nat -> (nth k e 0%nat < N)%nat).
      { intros k Hk. unfold in_range in HR. rewrite Forall_forall in HR. specialize (HR e He). rewrite Forall_forall in HR. apply HR. apply nth_In. lia. }
      destruct (S _ (R i Hi)) as (I0 & I1 & I2). destruct (S _ (R j Hj)) as (J0 & J1 & J2).
      unfold corners, component. destruct c as [|[|[|c]]]; [| | |lia]; cbn [sum Nat.eqb andb];
        [change (0 * N)%nat with 0%nat; rewrite !Nat.add_0_l, I0, J0|rewrite !Nat.mul_1_l, I1, J1|rewrite I2, J2]; ring. }
    rewrite (energy3 u _ HG). apply lsum_0. intros e _. subst la. unfold squares3, Rsqr. cbn [Nat.eqb andb]. ring.
  Qed.
End Korn.

Section Statements.
  Variables (N : nat) (nodes : nat -> vec) (els : list (list nat)) (mp : properties)
    (density : option (nat -> R)) (ops : operators) (p : physics) (conds : list condition).
  Hypothesis HT : tetrahedra N nodes els.
  Hypothesis HO : reinitialize_matrices N nodes els mp density = Ok ops.
  Hypothesis Hn : ph_n p = (3 * N)%nat.

  Lemma elastic3_form mu la K : elastic mp = Some (mu, la) -> elasticity ops = Some K ->
    forall v u G H, vector_gradient 3 N nodes els v G -> vector_gradient 3 N nodes els u H ->
    bilinear (3 * N) (3 * N) K v u
    = integral (element_volume nodes) els (fun e => elastic_density 3 mu la (fun c => G c e) (fun c => H c e))
      + (mu - la) * integral (element_volume nodes) els (fun e => defect_3d (fun c => G c e) (fun c => H c e)).
  Proof. intros HE E. exact (proj1 (elasticity3_all N nodes els HT mu la K (elasticity3_is N nodes els mp density ops HT HO mu la K HE E))). Qed.
  Lemma viscous3_form mu la K : viscous mp = Some (mu, la) -> viscosity ops = Some K ->
    forall v u G H, vector_gradient 3 N nodes els v G -> vector_gradient 3 N nodes els u H ->
    bilinear (3 * N) (3 * N) K v u
    = integral (element_volume nodes) els (fun e => elastic_density 3 mu la (fun c => G c e) (fun c => H c e))
      + (mu - la) * integral (element_volume nodes) els (fun e => defect_3d (fun c => G c e) (fun c => H c e)).
  Proof. intros HE E. exact (proj1 (elasticity3_all N nodes els HT mu la K (viscosity3_is N nodes els mp density ops HT HO mu la K HE E))). Qed.

  Lemma free3 mu la K : (forall v u G H, vector_gradient 3 N nodes els v G -> vector_gradient 3 N nodes els u H ->
    bilinear (3 * N) (3 * N) K v u
    = integral (element_volume nodes) els (fun e => elastic_density 3 mu la (fun c => G c e) (fun c => H c e))
      + (mu - la) * integral (element_volume nodes) els (fun e => defect_3d (fun c => G c e) (fun c => H c e))) ->
    0 < la <= mu -> (forall i, (i < N)%nat -> fastened (clamped3 N conds) els i) -> definite_free (3 * N) conds K.
  Proof.
    intros HF HM HH x H0 Hx. apply (definite3 N nodes els mu la K HT HF HM (clamped3 N conds) HH); auto.
    intros i Hi c Hc. destruct (Hi c Hc) as [v Hv]. eapply H0; eauto.
  Qed.

  Lemma static_3d mu la : (forall i, (i < N)%nat -> fastened (clamped3 N conds) els i) ->
    elastic mp = Some (mu, la) -> 0 < la <= mu ->
    elasticity ops = Some (stiffness p) -> stable_kind p conds StaticDisplacement.
  Proof.
    intros HH HE HM E. simpl. rewrite Hn. exact (free3 mu la _ (elastic3_form mu la _ HE E) HM HH).
  Qed.

  Lemma quasistatic_3d k th ze mu la : quasistatic_kind k ->
    (forall i, (i < N)%nat -> fastened (clamped3 N conds) els i) ->
    viscous mp = Some (th, ze) -> 0 < ze <= th -> elastic mp = Some (mu, la) -> 0 <= la <= mu ->
    viscosity ops = Some (damping p) -> elasticity ops = Some (stiffness p) -> stable_kind p conds k.
  Proof.
    intros Hk HH HV HM HE HM' C E.
    assert (G : definite_free (ph_n p) conds (damping p) /\ pos_semidef (ph_n p) (stiffness p)).
    { rewrite Hn. split.
      - exact (free3 th ze _ (viscous3_form th ze _ HV C) HM HH).
      - exact (semidef3 N nodes els mu la _ HT (elastic3_form mu la _ HE E) HM'). }
    destruct k; simpl in Hk; try contradiction; exact G.
  Qed.

  Lemma dynamic_3d k th ze mu la : dynamic_kind k ->
    (forall i, (i < N)%nat -> referenced els i) -> 0 < mass_density mp ->
    viscous mp = Some (th, ze) -> 0 <= ze <= th -> elastic mp = Some (mu, la) -> 0 <= la <= mu ->
    mass p = acceleration_operator ops -> viscosity ops = Some (damping p) ->
    elasticity ops = Some (stiffness p) -> stable_kind p conds k.
  Proof.
    intros Hk HR Hm HV HM HE HM' M C E.
    assert (G : definite_free (ph_n p) conds (mass p) /\ pos_semidef (ph_n p) (damping p) /\
      pos_semidef (ph_n p) (stiffness p)).
    { rewrite Hn, M. split; [|split].
      - apply pos_def_free. apply (mass_block_3d N nodes els mp density ops HT HO HR Hm).
      - exact (semidef3 N nodes els th ze _ HT (viscous3_form th ze _ HV C) HM).
      - exact (semidef3 N nodes els mu la _ HT (elastic3_form mu la _ HE E) HM'). }
    destruct k; simpl in Hk; try contradiction; exact G.
  Qed.

  Lemma sliding_3d mu h K u : elastic mp = Some (mu, 0) -> elasticity ops = Some K -> sliding N nodes h u -> qform (3 * N) K u = 0.
  Proof. intros HE E S. exact (sliding_free N nodes els mu 0 K HT (elastic3_form mu 0 K HE E) h u eq_refl S). Qed.
End Statements.
