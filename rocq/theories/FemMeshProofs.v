(* Properties of the assembled matrices on a whole mesh. *)
From Coq Require Import Reals List Arith ZArith String Bool Lia Lra Permutation.
From Verif Require Import RVec PyModel MeshModel MeshBuildModel MeshSpec MeshBuildProofs ListLemmas
  NormalsProofs
  FemModel FemSpec FemGeomProofs FemAssemblyProofs FemFormProofs FemBasicProofs FemOperatorProofs.
Import ListNotations.
Local Open Scope list_scope.
Local Open Scope R_scope.

Record fem (d N : nat) (nodes : nat -> vec) (els : list (list nat))
    (G : list nat -> nat -> vec) : Prop := mkFem {
  fm_range : in_range N els;
  fm_len : Forall (fun e => List.length e = S d) els;
  fm_R0 : forall e k, In e els -> (k < d)%nat -> sum (S d) (fun i => G e i k) = 0;
  fm_R1 : forall e k c, In e els -> (k < d)%nat -> (c < d)%nat ->
    sum (S d) (fun i => G e i k * corners nodes e i c) = delta k c;
  fm_G : forall e m, In e els -> (m <= d)%nat ->
    affine_gradient d (corners nodes e) (delta m) (G e m)
}.

Lemma triangles_fem N nodes els : triangles N nodes els -> fem 2 N nodes els (grads2 nodes).
Proof.
  intros (HR & HL & HD). constructor; auto; unfold grads2; intros.
  - apply grad2_sum; auto.
  - apply grad2_coord; auto.
  - apply grad2_basis; auto.
Qed.

Lemma tetrahedra_fem N nodes els : tetrahedra N nodes els -> fem 3 N nodes els (grads3 nodes).
Proof.
  intros (HR & HL & HD). constructor; auto; unfold grads3; intros.
  - apply grad3_sum; auto.
  - apply grad3_coord; auto.
  - apply grad3_basis; auto.
Qed.

Section Mesh.
  Variables (d N : nat) (nodes : nat -> vec) (els : list (list nat)).
  Variables (meas : list nat -> R) (G : list nat -> nat -> vec) (B : basic).
  Hypothesis F : fem d N nodes els G.
  Hypothesis A : assembled d els meas G B.

  Let HR := fm_range _ _ _ _ _ F.
  Let HL := fm_len _ _ _ _ _ F.
  Let R0 := fm_R0 _ _ _ _ _ F.
  Let R1 := fm_R1 _ _ _ _ _ F.
  Let HG := fm_G _ _ _ _ _ F.

  (* any family of basis gradients is the one used *)
  Lemma basis_is g : (forall e i, In e els -> (i <= d)%nat ->
      affine_gradient d (corners nodes e) (delta i) (g e i)) ->
    forall e i k, In e els -> (i <= d)%nat -> (k < d)%nat -> g e i k = G e i k.
  Proof.
    intros Hg e i k He Hi Hk.
    apply (gradient_unique d (corners nodes e) (G e) (fun k0 H => R0 e k0 He H)
             (fun k0 c0 H H' => R1 e k0 c0 He H H') (delta i)); auto.
  Qed.

  Lemma entries g : (forall e i, In e els -> (i <= d)%nat ->
      affine_gradient d (corners nodes e) (delta i) (g e i)) ->
    (forall a b, volume_at_nodes B a b = assembly (S d) els (fun e i j =>
        meas e * ((1 - delta i j) / (INR (S d) * INR d))) a b) /\
    (forall a b, U B a b = assembly (S d) els (fun e i j =>
        meas e * ((1 + delta i j) / (INR (S d) * INR (S (S d))))) a b) /\
    (forall k a b, (k < d)%nat -> V B k a b = assembly (S d) els (fun e i j =>
        meas e * (g e j k / INR (S d))) a b) /\
    (forall k l a b, (k < d)%nat -> (l < d)%nat -> W B k l a b = assembly (S d) els (fun e i j =>
        meas e * (g e i k * g e j l)) a b) /\
    element_initial_volume B = map meas els.
  Proof.
    intros Hg. pose proof (basis_is g Hg) as E. destruct A as (A1 & A2 & A3 & A4 & A5).
    repeat split; auto.
    - intros a b. rewrite A1. destruct d as [|d'].
      + apply assembly_ext. intros e i j _ Hi Hj. unfold loc_vol, delta.
        replace i with 0%nat by lia. replace j with 0%nat by lia. simpl. unfold Rdiv. ring.
      + apply assembly_ext. intros e i j _ _ _. unfold loc_vol. field. split; apply not_0_INR; lia.
    - intros k a b Hk. rewrite A3 by auto. apply assembly_ext. intros e i j He Hi Hj.
      unfold loc_grad. rewrite E by (auto; lia). field. apply not_0_INR; lia.
    - intros k l a b Hk Hl. rewrite A4 by auto. apply assembly_ext. intros e i j He Hi Hj.
      unfold loc_stiff. rewrite !E by (auto; lia). reflexivity.
  Qed.

  Lemma W_stiffness : stiffness_of d N nodes els (integral meas els) (W B).
  Proof.
    intros k l y x gy gx Hk Hl Hy Hx. destruct A as (_ & _ & _ & A4 & _).
    rewrite (bilinear_ext N N _ (assembly (S d) els (loc_stiff meas G k l)))
      by (intros a b _ _; auto).
    apply (stiff_form d N nodes els meas G HR HL R0 R1); auto.
  Qed.

  Lemma V_form k y x gx : (k < d)%nat -> field_gradient d nodes els x gx ->
    bilinear N N (V B k) y x = integral meas els (fun e => mean_value d e y * gx e k).
  Proof.
    intros Hk Hx. destruct A as (_ & _ & A3 & _ & _).
    rewrite (bilinear_ext N N _ (assembly (S d) els (loc_grad d meas G k)))
      by (intros a b _ _; auto).
    apply (grad_form d N nodes els meas G HR HL R0 R1); auto.
  Qed.

  Lemma U_form y x : bilinear N N (U B) y x = integral meas els (fun e =>
    mean_product d (fun k => y (nth k e 0%nat)) (fun k => x (nth k e 0%nat))).
  Proof.
    destruct A as (_ & A2 & _).
    rewrite (bilinear_ext N N _ (assembly (S d) els (loc_mass d meas))) by (intros a b _ _; auto).
    apply mass_form; auto.
  Qed.

  Lemma vol_form x : (0 < d)%nat ->
    bilinear N N (volume_at_nodes B) (fun _ => 1) x = integral meas els (fun e => mean_value d e x).
  Proof.
    intros Hd. destruct A as (A1 & _).
    rewrite (bilinear_ext N N _ (assembly (S d) els (loc_vol d meas))) by (intros a b _ _; auto).
    apply vol_total; auto.
  Qed.

  Lemma gradient_ex x : exists g, field_gradient d nodes els x g.
  Proof. apply (field_gradient_exists d nodes els G HG). Qed.

  Lemma vector_gradient_ex u : exists H, vector_gradient d N nodes els u H.
  Proof.
    exists (fun c e k => sum (S d) (fun m => component N u c (nth m e 0%nat) * G e m k)).
    intros c Hc e He. apply gradient_exists. intros m Hm. apply HG; auto.
  Qed.

  Lemma W_transpose k l a b : (k < d)%nat -> (l < d)%nat -> W B k l a b = W B l k b a.
  Proof.
    intros Hk Hl. destruct A as (_ & _ & _ & A4 & _). rewrite !A4 by auto. apply stiff_transpose.
  Qed.

  Lemma W_row k l a : (k < d)%nat -> (l < d)%nat -> (a < N)%nat -> sum N (W B k l a) = 0.
  Proof.
    intros Hk Hl Ha. transitivity (mv N (W B k l) (fun _ => 1) a).
    { apply sum_ext. intros; ring. }
    rewrite <- (bilinear_row N) by auto.
    destruct A as (_ & _ & _ & A4 & _).
    rewrite (bilinear_ext N N _ (assembly (S d) els (loc_stiff meas G k l)))
      by (intros ? ? _ _; auto).
    apply (stiff_const_r d N nodes els meas G HR HL R0 R1 HG); auto.
  Qed.

  Lemma V_row k a : (k < d)%nat -> (a < N)%nat -> sum N (V B k a) = 0.
  Proof.
    intros Hk Ha. transitivity (mv N (V B k) (fun _ => 1) a).
    { apply sum_ext. intros; ring. }
    rewrite <- (bilinear_row N) by auto.
    rewrite (V_form k _ _ (fun _ _ => 0) Hk (field_gradient_const d nodes els 1)).
    apply lsum_0. intros; ring.
  Qed.

  Lemma U_symmetric : symmetric N (U B).
  Proof.
    intros a b Ha Hb. destruct A as (_ & A2 & _). rewrite !A2. apply mass_symmetric with (n := N); auto.
  Qed.

  Lemma U_total : sum N (fun a => sum N (fun b => U B a b)) = lsum els meas.
  Proof.
    rewrite <- bilinear_ones. destruct A as (_ & A2 & _).
    rewrite (bilinear_ext N N _ (assembly (S d) els (loc_mass d meas))) by (intros a b _ _; auto).
    apply mass_total; auto.
  Qed.

  Lemma vol_sum : (0 < d)%nat -> sum N (fun a => sum N (fun b => volume_at_nodes B a b)) = lsum els meas.
  Proof.
    intros Hd. rewrite <- bilinear_ones, vol_form by auto. apply lsum_ext. intros e _.
    unfold mean_value. rewrite sum_const. field. apply not_0_INR; lia.
  Qed.

  Lemma U_pos_def : (forall e, In e els -> 0 < meas e) ->
    (forall i, (i < N)%nat -> referenced els i) -> pos_def N (U B).
  Proof.
    intros HM HRef x Hx. destruct A as (_ & A2 & _).
    rewrite (qform_meq N _ (assembly (S d) els (loc_mass d meas))) by (intros ? ? _ _; auto).
    apply mass_pos_def; auto.
  Qed.
End Mesh.

(* ------------------------------------------------- consequences for operators *)

Lemma bilinear_symmetric n A : (forall y x, bilinear n n A y x = bilinear n n A x y) -> symmetric n A.
Proof.
  intros H i j Hi Hj. rewrite <- (bilinear_entry n n A i j), <- (bilinear_entry n n A j i) by auto.
  apply H.
Qed.

Section Elasticity.
  Variables (N : nat) (nodes : nat -> vec) (els : list (list nat)).
  Variable I : (list nat -> R) -> R.
  Variable W : nat -> nat -> mat.
  Hypothesis HI : integral_like els I.
  Hypothesis HR : in_range N els.

  Section Two.
    Variable mu lambda : R.
    Hypothesis HW : stiffness_of 2 N nodes els I W.
    Hypothesis HL : Forall (fun e => List.length e = 3%nat) els.
    Hypothesis Hex : forall u, exists H, vector_gradient 2 N nodes els u H.

    Lemma elasticity2_symmetric : symmetric (2 * N) (constitutive2 N W mu lambda).
    Proof.
      apply bilinear_symmetric. intros y x. destruct (Hex y) as [G HG], (Hex x) as [H HH].
      rewrite !(elasticity2_form 2 N nodes els I W HI HW mu lambda y x G H eq_refl HG HH).
      rewrite !(elasticity2_form 2 N nodes els I W HI HW mu lambda x y H G eq_refl HH HG).
      apply (proj1 HI). intros e _. apply elastic_density_sym.
    Qed.

    Lemma elasticity2_rigid b S u : antisymmetric 2 S -> rigid_motion 2 N nodes b S u ->
      veq (2 * N) (mv (2 * N) (constitutive2 N W mu lambda) u) (fun _ => 0).
    Proof.
      intros HS Hu a Ha. rewrite <- (bilinear_row (2 * N)) by auto.
      destruct (Hex (delta a)) as [G HG].
      pose proof (rigid_gradient 2 N nodes els b S u HR HL Hu) as HH.
      rewrite (elasticity2_form 2 N nodes els I W HI HW mu lambda _ _ G _ eq_refl HG HH).
      apply (I_zero els I HI). intros e _. apply rigid_density; auto.
    Qed.

    Lemma elasticity2_psd : 0 <= mu -> 0 <= lambda ->
      (forall f, (forall e, In e els -> 0 <= f e) -> 0 <= I f) ->
      pos_semidef (2 * N) (constitutive2 N W mu lambda).
    Proof.
      intros Hm Hl HP u. destruct (Hex u) as [G HG]. unfold qform. rewrite <- bilinear_dot.
      rewrite (elasticity2_form 2 N nodes els I W HI HW mu lambda u u G G eq_refl HG HG).
      apply HP. intros e _. apply elastic_density_nonneg; auto.
    Qed.
  End Two.

  Section Three.
    Variable mu lambda : R.
    Hypothesis HW : stiffness_of 3 N nodes els I W.
    Hypothesis HL : Forall (fun e => List.length e = 4%nat) els.
    Hypothesis Hex : forall u, exists H, vector_gradient 3 N nodes els u H.

    Lemma elasticity3_symmetric : symmetric (3 * N) (constitutive3 N W mu lambda).
    Proof.
      apply bilinear_symmetric. intros y x. destruct (Hex y) as [G HG], (Hex x) as [H HH].
      rewrite !(elasticity3_form 3 N nodes els I W HI HW mu lambda y x G H eq_refl HG HH).
      rewrite !(elasticity3_form 3 N nodes els I W HI HW mu lambda x y H G eq_refl HH HG).
      f_equal; [|f_equal]; apply (proj1 HI); intros e _.
      - apply elastic_density_sym.
      - apply defect_3d_sym.
    Qed.

    Lemma elasticity3_rigid b S u : mu = lambda ->
      antisymmetric 3 S -> rigid_motion 3 N nodes b S u ->
      veq (3 * N) (mv (3 * N) (constitutive3 N W mu lambda) u) (fun _ => 0).
    Proof.
      intros Hml HS Hu a Ha. rewrite <- (bilinear_row (3 * N)) by auto.
      destruct (Hex (delta a)) as [G HG].
      pose proof (rigid_gradient 3 N nodes els b S u HR HL Hu) as HH.
      rewrite (elasticity3_form 3 N nodes els I W HI HW mu lambda _ _ G _ eq_refl HG HH).
      rewrite (I_zero els I HI (fun e => elastic_density 3 mu lambda (fun c => G c e) (fun c => S c)))
        by (intros e _; apply rigid_density; auto).
      rewrite Hml. ring.
    Qed.

    (* rotation about the third axis *)
    Definition rotation_z : mat := fun c k =>
      nth k (nth c [[0; -1; 0]; [1; 0; 0]; [0; 0; 0]] []) 0.

    Lemma rotation_z_energy b u : rigid_motion 3 N nodes b rotation_z u ->
      qform (3 * N) (constitutive3 N W mu lambda) u = 2 * (mu - lambda) * I (fun _ => 1).
    Proof.
      intros Hu. unfold qform. rewrite <- bilinear_dot.
      pose proof (rigid_gradient 3 N nodes els b rotation_z u HR HL Hu) as HH.
      rewrite (elasticity3_form 3 N nodes els I W HI HW mu lambda _ _ _ _ eq_refl HH HH).
      rewrite (I_zero els I HI (fun e => elastic_density 3 mu lambda (fun c => rotation_z c)
                                          (fun c => rotation_z c))).
      2:{ intros e _. apply rigid_density. intros k l Hk Hl.
          destruct k as [|[|[|k]]]; [| | |lia]; (destruct l as [|[|[|l]]]; [| | |lia]);
            cbn; ring. }
      rewrite (proj1 HI (fun e => defect_3d (fun c => rotation_z c) (fun c => rotation_z c))
                 (fun e => 2 * 1)).
      - rewrite (proj2 (proj2 HI) 2 (fun _ => 1)). ring.
      - intros e _. unfold defect_3d. cbn. ring.
    Qed.
  End Three.
End Elasticity.

(* ------------------------------------------------------------ density weights *)

Lemma combine_map_snd {A} (l : list A) s : map snd (combine (seq s (List.length l)) l) = l.
Proof. revert s. induction l as [|x l IH]; intros s; simpl; [reflexivity|]. now rewrite IH. Qed.

Lemma combine_seq_in {A} (l : list A) s p : In p (combine (seq s (List.length l)) l) ->
  nth_error l (fst p - s) = Some (snd p) /\ (s <= fst p)%nat.
Proof.
  revert s. induction l as [|x l IH]; intros s H; simpl in H; [destruct H|].
  destruct H as [<-|H]; simpl.
  - rewrite Nat.sub_diag. auto.
  - apply IH in H. destruct H as [H L]. destruct p as [a b]; simpl in *.
    replace (a - s)%nat with (S (a - S s)) by lia. simpl. split; auto; lia.
Qed.

Lemma weighted_like meas rho els : integral_like els (weighted_integral meas rho els).
Proof.
  split; [|split]; unfold weighted_integral.
  - intros f g H. apply lsum_ext. intros p Hp. apply combine_seq_in in Hp.
    destruct Hp as [Hp _]. apply nth_error_In in Hp. rewrite H; auto.
  - intros f g. rewrite <- lsum_plus. apply lsum_ext. intros; ring.
  - intros c f. rewrite <- lsum_scal. apply lsum_ext. intros; ring.
Qed.

Lemma local_stiffness2_eq x k l i j : (k < 2)%nat -> (l < 2)%nat -> (i < 3)%nat -> (j < 3)%nat ->
  local_stiffness2 x k l i j = area x * (grad2 x i k * grad2 x j l).
Proof.
  intros Hk Hl Hi Hj. unfold local_stiffness2. pose proof (volume2_any x i Hi) as E.
  unfold grad2. destruct (integral_parts2 x i), (integral_parts2 x j). cbn [fst snd] in *.
  now rewrite E.
Qed.

Lemma density_entry nodes els rho k l a b : Forall (fun e => List.length e = 3%nat) els ->
  (k < 2)%nat -> (l < 2)%nat ->
  w_with_density els rho (local_stiffness_table nodes els) k l a b
  = lsum (combine (seq 0 (List.length els)) els) (fun p => rho (fst p) *
      sum 3 (fun i => sum 3 (fun j => delta (nth i (snd p) 0%nat) a * delta (nth j (snd p) 0%nat) b *
        (element_area nodes (snd p) * (grads2 nodes (snd p) i k * grads2 nodes (snd p) j l))))).
Proof.
  intros HL Hk Hl. unfold w_with_density.
  rewrite (fold_add_in (fun M : nat -> nat -> mat => M k l a b) _ (fun p => rho (fst p) *
      sum 3 (fun i => sum 3 (fun j => delta (nth i (snd p) 0%nat) a * delta (nth j (snd p) 0%nat) b *
        (element_area nodes (snd p) * (grads2 nodes (snd p) i k * grads2 nodes (snd p) j l))))));
    [ring|].
  intros M [idx e] Hp. apply combine_seq_in in Hp. cbn [fst snd] in *. destruct Hp as [Hp _].
  rewrite Nat.sub_0_r in Hp.
  assert (Le : List.length e = 3%nat).
  { rewrite Forall_forall in HL. apply HL. apply nth_error_In in Hp; auto. }
  rewrite Le.
  rewrite (fold_add_in (fun M : nat -> nat -> mat => M k l a b) _ (fun i => rho idx *
     sum 3 (fun j => delta (nth i e 0%nat) a * delta (nth j e 0%nat) b *
        (element_area nodes e * (grads2 nodes e i k * grads2 nodes e j l))))).
  { rewrite lsum_seq, sum_scal. reflexivity. }
  clear M. intros M i Hi. apply in_seq in Hi.
  rewrite (fold_add_in (fun M : nat -> nat -> mat => M k l a b) _ (fun j => rho idx *
     (delta (nth i e 0%nat) a * delta (nth j e 0%nat) b *
        (element_area nodes e * (grads2 nodes e i k * grads2 nodes e j l))))).
  { rewrite lsum_seq, sum_scal. reflexivity. }
  clear M. intros M j Hj. apply in_seq in Hj. unfold local_stiffness_table.
  rewrite (nth_error_nth els idx [] Hp).
  rewrite local_stiffness2_eq by lia. unfold delta.
  rewrite (Nat.eqb_sym (nth i e 0%nat)), (Nat.eqb_sym (nth j e 0%nat)).
  unfold grads2, element_area. change (element_nodes nodes e) with (corners nodes e).
  destruct (a =? nth i e 0)%nat, (b =? nth j e 0)%nat; simpl; ring.
Qed.

Lemma density_stiffness N nodes els rho : triangles N nodes els ->
  stiffness_of 2 N nodes els (weighted_integral (element_area nodes) rho els)
    (w_with_density els rho (local_stiffness_table nodes els)).
Proof.
  intros HT k l y x gy gx Hk Hl Hy Hx. pose proof (triangles_fem _ _ _ HT) as F.
  destruct HT as (HR & HL & HD). unfold weighted_integral.
  rewrite (bilinear_ext N N _ (fun a b =>
     lsum (combine (seq 0 (List.length els)) els) (fun p =>
       assembly 3 [snd p] (fun e i j => rho (fst p) *
         (element_area nodes e * (grads2 nodes e i k * grads2 nodes e j l))) a b))).
  2:{ intros a b _ _. rewrite density_entry by auto. apply lsum_ext. intros p _.
      unfold assembly. cbn [lsum]. rewrite Rplus_0_r, <- sum_scal. apply sum_ext. intros i _.
      rewrite <- sum_scal. apply sum_ext. intros j _. ring. }
  transitivity (lsum (combine (seq 0 (List.length els)) els) (fun p =>
     bilinear N N (assembly 3 [snd p] (fun e i j => rho (fst p) *
         (element_area nodes e * (grads2 nodes e i k * grads2 nodes e j l)))) y x)).
  { unfold bilinear. rewrite lsum_sum_swap. apply sum_ext. intros a _.
    rewrite lsum_sum_swap. apply sum_ext. intros b _.
    rewrite Rmult_assoc, (Rmult_comm (lsum _ _)), <- Rmult_assoc, <- lsum_scal.
    apply lsum_ext. intros; ring. }
  apply lsum_ext. intros p Hp. apply combine_seq_in in Hp. destruct Hp as [Hp _].
  apply nth_error_In in Hp. destruct p as [idx e]; cbn [fst snd] in *.
  assert (HR1 : in_range N [e]).
  { unfold in_range in *. rewrite Forall_forall in HR. constructor; auto. }
  assert (HL1 : Forall (fun e => List.length e = 3%nat) [e]).
  { rewrite Forall_forall in HL. constructor; auto. }
  assert (Hin : forall e0, In e0 [e] -> In e0 els) by (intros e0 [<-|[]]; auto).
  pose proof (stiff_form 2 N nodes [e] (fun e => rho idx * element_area nodes e) (grads2 nodes) HR1 HL1
    (fun e0 k0 H => fm_R0 _ _ _ _ _ F e0 k0 (Hin e0 H))
    (fun e0 k0 c0 H => fm_R1 _ _ _ _ _ F e0 k0 c0 (Hin e0 H)) k l y x gy gx Hk Hl
    (fun e0 H => Hy e0 (Hin e0 H)) (fun e0 H => Hx e0 (Hin e0 H))) as Q.
  unfold integral in Q. cbn [lsum] in Q.
  rewrite (bilinear_ext N N _ (assembly 3 [e] (loc_stiff (fun e => rho idx * element_area nodes e)
     (grads2 nodes) k l))).
  - rewrite Q. ring.
  - intros a b _ _. apply assembly_ext. intros. unfold loc_stiff. ring.
Qed.
