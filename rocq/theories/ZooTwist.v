(* A displacement of the clamped cube whose energy is negative once the second modulus is large. *)
From Coq Require Import Reals List Arith ZArith Bool String Permutation Lia Lra.
From Verif Require Import Common PyModel RVec LinAlg MeshModel MeshBuildModel MeshSpec MeshTotalProofs DirichletModel DirichletSpec
  FemModel FemSpec FemGeomProofs FemBasicProofs FemMeshProofs FemFormProofs FemPipelineProofs FemBuildProofs FemKornProofs
  CrossModel CrossSpec CrossBuiltProofs SolidSpec SolidProofs ZooModel ZooSpec ZooCheck ZooProofs ZooBuilt.
Import ListNotations.
Local Open Scope string_scope.
Local Open Scope list_scope.
Local Open Scope R_scope.

(* ------------------------------------------------------------- renumbering leaves energies as they are *)

Lemma gradient_one N nodes e x g h : tetrahedra N nodes [e] ->
  affine_gradient 3 (corners nodes e) (fun k => x (nth k e 0%nat)) g ->
  affine_gradient 3 (corners nodes e) (fun k => x (nth k e 0%nat)) h -> forall k, (k < 3)%nat -> g k = h k.
Proof.
  intros HT Hg Hh k Hk. destruct (tetrahedra_fem N nodes [e] HT) as [A B C D _].
  apply (gradient_unique 3 (corners nodes e) (grads3 nodes e)) with (f := fun j => x (nth j e 0%nat)); auto.
  - intros j Hj. apply C; [left; auto|auto].
  - intros j c Hj Hc. apply D; [left; auto|auto|auto].
Qed.

Section Renumbered.
  Variables (M N : nat) (raw final : nat -> vec) (els els' : list (list nat)) (phi : vec -> vec) (x x' : vec) (G G' : nat -> list nat -> vec).
  Hypothesis HP : Forall2 (fun e e' => Permutation (map raw e) (map final e')) els els'.
  Hypothesis HT : tetrahedra M raw els.
  Hypothesis HT' : tetrahedra N final els'.
  Hypothesis Hx : forall c i, (c < 3)%nat -> (i < M)%nat -> x (c * M + i)%nat = phi (raw i) c.
  Hypothesis Hx' : forall c i, (c < 3)%nat -> (i < N)%nat -> x' (c * N + i)%nat = phi (final i) c.
  Hypothesis HG : vector_gradient 3 M raw els x G.
  Hypothesis HG' : vector_gradient 3 N final els' x' G'.

  Lemma same_gradient e e' c k : In e els -> In e' els' -> Permutation (map raw e) (map final e') -> (c < 3)%nat -> (k < 3)%nat ->
    G' c e' k = G c e k.
  Proof.
    intros He He' P Hc Hk. destruct HT as (R & L & D). destruct HT' as (R' & L' & D').
    unfold in_range in R, R'. rewrite Forall_forall in R, R', L, L'.
    specialize (R e He). specialize (R' e' He'). rewrite Forall_forall in R, R'.
    apply (gradient_one M raw e (component M x c)); auto.
    - split; [|split].
      + repeat constructor. apply Forall_forall. auto.
      + repeat constructor. auto.
      + intros a [<-|[]]. auto.
    - intros i j Hi Hj.
      assert (Q : forall i, (i <= 3)%nat -> exists n, In n e' /\ final n = raw (nth i e 0%nat)).
      { intros a Ha. assert (In (raw (nth a e 0%nat)) (map final e')).
        { apply (Permutation_in _ P). apply in_map. apply nth_In. rewrite L by auto. lia. }
        apply in_map_iff in H. destruct H as (n & E & I). eauto. }
      destruct (Q i Hi) as (a & Ia & Ea). destruct (Q j Hj) as (b & Ib & Eb).
      pose proof (gradient_corners 3 final e' (component N x' c) (G' c e') a b (L' e' He') (HG' c Hc e' He') Ia Ib) as K.
      rewrite Ea, Eb in K. unfold corners. rewrite K. unfold component. rewrite !Hx', !Hx, Ea, Eb; auto; apply R; apply nth_In; rewrite L by auto; lia.
    - exact (HG c Hc e He).
  Qed.

  Lemma same_volume e e' : In e els -> Permutation (map raw e) (map final e') -> element_volume final e' = element_volume raw e.
  Proof.
    intros He P. destruct HT as (_ & L & _). rewrite Forall_forall in L. unfold element_volume, volume.
    destruct (det3_corners raw final e e' (L e He) P) as [-> | ->]; [reflexivity|rewrite Rabs_Ropp; reflexivity].
  Qed.

  Lemma same_energy mu la :
    integral (element_volume final) els' (fun e => squares3 mu la (fun c => G' c e))
    = integral (element_volume raw) els (fun e => squares3 mu la (fun c => G c e)).
  Proof.
    assert (X : forall l l', Forall2 (fun e e' => Permutation (map raw e) (map final e')) l l' ->
      (forall e, In e l -> In e els) -> (forall e, In e l' -> In e els') ->
      integral (element_volume final) l' (fun e => squares3 mu la (fun c => G' c e))
      = integral (element_volume raw) l (fun e => squares3 mu la (fun c => G c e))).
    { intros l l' F. induction F as [|e e' l l' P F IH]; intros I I'; [reflexivity|].
      unfold integral in *. cbn [lsum]. rewrite IH by (intros; auto using in_cons).
      rewrite (same_volume e e') by (auto; apply I; left; auto). unfold squares3.
      rewrite !(same_gradient e e') by (try lia; auto; (apply I || apply I'); left; auto). reflexivity. }
    apply X; auto.
  Qed.
End Renumbered.

(* ------------------------------------------------------------- the table *)

(* displacements at the nodes and their gradients, in integers *)
Definition twistZ (t : list (list Z)) (c i : nat) : Z :=
  if (0 <? entry t i 2)%Z then
    match c with 0%nat => entry t i 1 - 1 | 1%nat => 1 - entry t i 0 | _ => 0 end%Z
  else 0%Z.
Definition slope (t : list (list Z)) (u : nat -> Z) (e : list nat) (k : nat) : Z :=
  (let p j m := entry t (nth j e 0%nat) m - entry t (nth 0 e 0%nat) m in
   let f j := u (nth j e 0%nat) - u (nth 0 e 0%nat) in
   let m := match k with 0%nat => (1%nat, 2%nat) | 1%nat => (2%nat, 0%nat) | _ => (0%nat, 1%nat) end in
   let cof a b := p a (fst m) * p b (snd m) - p a (snd m) * p b (fst m) in
   (2 * (f 1%nat * cof 2%nat 3%nat + f 2%nat * cof 3%nat 1%nat + f 3%nat * cof 1%nat 2%nat)) / det_of t e)%Z.
Definition slope_ok (t : list (list Z)) (u : nat -> Z) (e : list nat) : bool :=
  allb (fun i => allb (fun j =>
    (slope t u e 0 * (entry t i 0 - entry t j 0) + slope t u e 1 * (entry t i 1 - entry t j 1)
     + slope t u e 2 * (entry t i 2 - entry t j 2) =? 2 * (u i - u j))%Z) e) e.
Definition sq (z : Z) : Z := (z * z)%Z.
Definition first_part (t : list (list Z)) (e : list nat) : Z :=
  (let g c k := slope t (twistZ t c) e k in
   Z.abs (det_of t e) * (sq (g 0%nat 0%nat) + sq (g 1%nat 1%nat) + sq (g 2%nat 2%nat) + sq (g 0%nat 0%nat + g 1%nat 1%nat + g 2%nat 2%nat)
   + sq (g 0%nat 1%nat) + sq (g 1%nat 0%nat) + sq (g 2%nat 0%nat)))%Z.
Definition second_part (t : list (list Z)) (e : list nat) : Z :=
  (let g c k := slope t (twistZ t c) e k in
   Z.abs (det_of t e) * (sq (g 0%nat 0%nat) + sq (g 1%nat 1%nat) + sq (g 2%nat 2%nat)
   + sq (g 0%nat 1%nat + g 1%nat 0%nat) + sq (g 0%nat 2%nat + g 2%nat 0%nat) + sq (g 1%nat 2%nat + g 2%nat 1%nat)
   - sq (g 0%nat 1%nat) - sq (g 1%nat 0%nat) - sq (g 2%nat 0%nat)))%Z.
Definition sumZ (f : list nat -> Z) (l : list (list nat)) : Z := fold_right (fun e z => (f e + z)%Z) 0%Z l.

Lemma cube_slopes : allb (fun e => allb (fun c => slope_ok cube_table (twistZ cube_table c) e) [0; 1; 2]%nat) cube_elements = true.
Proof. vm_cast_no_check (eq_refl true). Qed.
Lemma cube_first : sumZ (first_part cube_table) cube_elements = 288%Z.
Proof. vm_cast_no_check (eq_refl 288%Z). Qed.
Lemma cube_second : sumZ (second_part cube_table) cube_elements = (-176)%Z.
Proof. vm_cast_no_check (eq_refl (-176)%Z). Qed.

(* ------------------------------------------------------------- on the cube *)

Definition twist (q : vec) : vec := fun c =>
  if Rlt_dec 0 (q 2%nat) then match c with 0%nat => 2 * q 1%nat - 1 | 1%nat => 1 - 2 * q 0%nat | _ => 0 end else 0.

Lemma twist_entry q i c : (forall k, (k < 3)%nat -> q k = IZR (entry cube_table i k) / 2) -> twist q c = IZR (twistZ cube_table c i).
Proof.
  intros H. unfold twist, twistZ. rewrite !H by lia.
  destruct (Rlt_dec 0 (IZR (entry cube_table i 2) / 2)) as [P|P]; destruct (0 <? entry cube_table i 2)%Z eqn:E.
  - destruct c as [|[|c]]; [rewrite minus_IZR; lra|rewrite minus_IZR; lra|reflexivity].
  - apply Z.ltb_ge in E. apply IZR_le in E. lra.
  - apply Z.ltb_lt in E. apply IZR_lt in E. lra.
  - reflexivity.
Qed.

Definition cube_gradient (c : nat) (e : list nat) (k : nat) : R := IZR (slope cube_table (twistZ cube_table c) e k).

Lemma integral_parts mu la :
  integral (fun e => IZR (Z.abs (det_of cube_table e)) / 48) cube_elements (fun e => squares3 mu la (fun c => cube_gradient c e))
  = 6 * mu - 11 / 3 * la.
Proof.
  assert (X : forall l, integral (fun e => IZR (Z.abs (det_of cube_table e)) / 48) l (fun e => squares3 mu la (fun c => cube_gradient c e))
    = (mu * IZR (sumZ (first_part cube_table) l) + la * IZR (sumZ (second_part cube_table) l)) / 48).
  { induction l as [|e l IH]; [unfold integral; cbn; field|]. unfold integral in *. cbn [lsum]. rewrite IH. clear IH.
    cbn [sumZ fold_right]. fold (sumZ (first_part cube_table) l). fold (sumZ (second_part cube_table) l).
    rewrite !plus_IZR. unfold first_part, second_part, squares3, cube_gradient, sq, Rsqr.
    rewrite !mult_IZR, ?minus_IZR, ?plus_IZR, ?mult_IZR, ?plus_IZR. field. }
  rewrite X, cube_first, cube_second. field.
Qed.

Section Twist.
  Variables (pos : option (list R)) (v : vec).
  Hypothesis HP : placed_by cube_nodes pos v.
  Variables (d : @Description (list R) vec) (m : @MeshData (list R) vec) (ic id : list R -> bool) (f : list (list R) -> vec) (conds : list condition).
  Hypothesis HC : dict_get (indicators d) "contact" = Some ic.
  Hypothesis HD : dict_get (indicators d) "dirichlet" = Some id.
  Hypothesis Hf : dict_get (MeshBuildModel.conditions d) "dirichlet" = Some f.
  Hypothesis HB : solid_mesh cube pos d = Ok m.
  Hypothesis HM : mesh_conditions m 3 "dirichlet" = Ok conds.
  (* the condition holds at the bottom only *)
  Hypothesis HI : forall r, In r (m_nodes m) -> id r = true -> nth 2 r 0 = v 2%nat.

  Let N := List.length (m_nodes m).
  Let twisted : vec := fun i => twist (fun k => table_of (m_nodes m) (i mod N) k - v k) (i / N)%nat.

  Lemma twisted_at c i : (c < 3)%nat -> (i < N)%nat -> twisted (c * N + i)%nat = twist (fun k => table_of (m_nodes m) i k - v k) c.
  Proof.
    intros Hc Hi. unfold twisted. rewrite (Nat.add_comm (c * N) i).
    rewrite Nat.mod_add, Nat.div_add, Nat.mod_small, Nat.div_small by lia. reflexivity.
  Qed.

  Lemma cube_nonempty : cube_elements <> [].
  Proof. discriminate. Qed.

  Lemma twisted_bottom dof w : prescribed conds dof w -> twisted dof = 0.
  Proof.
    intros Hp.
    destruct (built_from cube_nodes cube_elements (cube_solid _ _ cube_is_grid) cube_nonempty pos v HP d m HB) as (nodes' & M & HB' & HR & _).
    destruct (built_prescribed mean_row3 [0; 0; 0] nodes' cube_elements d m 4%nat ic id f HR (solid_shape _ _ (cube_solid _ _ cube_is_grid)) HC HD Hf HB'
      conds dof w HM Hp) as (c & n & r & Hc & Hn & -> & Er & Ir).
    fold N in Hn |- *. rewrite twisted_at by auto. unfold twist.
    assert (E : table_of (m_nodes m) n 2%nat - v 2%nat = 0).
    { unfold table_of. rewrite (nth_error_nth _ _ _ Er). rewrite (HI r); [lra|eapply nth_error_In; eauto|exact Ir]. }
    rewrite E. destruct (Rlt_dec 0 0); [lra|reflexivity].
  Qed.

  Lemma twisted_energy mu la E :
    (forall a b G H, vector_gradient 3 N (table_of (m_nodes m)) (m_elements m) a G -> vector_gradient 3 N (table_of (m_nodes m)) (m_elements m) b H ->
      bilinear (3 * N) (3 * N) E a b
      = integral (element_volume (table_of (m_nodes m))) (m_elements m) (fun e => elastic_density 3 mu la (fun c => G c e) (fun c => H c e))
        + (mu - la) * integral (element_volume (table_of (m_nodes m))) (m_elements m) (fun e => defect_3d (fun c => G c e) (fun c => H c e))) ->
    qform (3 * N) E twisted = 6 * mu - 11 / 3 * la.
  Proof.
    intros HF. pose proof (cube_solid _ _ cube_is_grid) as SG.
    destruct (built_solid cube_nodes cube_elements SG cube_nonempty pos v HP d m ic id HC HD HB) as (_ & HT & _). fold N in HT.
    destruct (gradients3_ex N _ _ twisted HT) as [G' HG']. rewrite (energy3 N _ _ mu la E HF twisted G' HG').
    destruct (built_from cube_nodes cube_elements SG cube_nonempty pos v HP d m HB) as (nodes' & M & HB' & HR & HN).
    rewrite table_row3 in HN.
    pose proof (built_corners mean_row3 [0; 0; 0] nodes' cube_elements d m 2%nat ic id row_coord HR (solid_shape _ _ SG) HC HD HB') as BC.
    rewrite !table_row3 in BC.
    set (n0 := List.length nodes') in *.
    assert (L : n0 = 27%nat) by (unfold n0; rewrite (moved_by_length _ _ _ M); reflexivity).
    assert (EN : forall i c, (i < n0)%nat -> (c < 3)%nat -> table_of nodes' i c - v c = IZR (entry cube_table i c) / 2).
    { intros i c Hi Hc. rewrite (moved_by_table v cube_nodes nodes' M) by (auto; rewrite <- (moved_by_length _ _ _ M); auto).
      unfold cube_nodes. rewrite entry_over. lra. }
    pose (x := fun i => twist (fun k => table_of nodes' (i mod n0) k - v k) (i / n0)%nat).
    assert (Ax : forall c i, (c < 3)%nat -> (i < n0)%nat -> x (c * n0 + i)%nat = twist (fun k => table_of nodes' i k - v k) c).
    { intros c i Hc Hi. unfold x. rewrite (Nat.add_comm (c * n0) i).
      rewrite Nat.mod_add, Nat.div_add, Nat.mod_small, Nat.div_small by lia. reflexivity. }
    assert (HT0 : tetrahedra n0 (table_of nodes') cube_elements).
    { split; [exact HR|]. split; [|exact HN]. pose proof (solid_shape _ _ SG) as S. unfold simplices in S.
      rewrite Forall_forall in *. intros e He. apply S; auto. }
    assert (HG : vector_gradient 3 n0 (table_of nodes') cube_elements x cube_gradient).
    { intros c Hc e He i j Hi Hj. destruct (solid_element _ _ SG e He) as [Le Fe].
      assert (F : forall k, (k <= 3)%nat -> In (nth k e 0%nat) e /\ (nth k e 0%nat < n0)%nat).
      { intros k Hk. assert (In (nth k e 0%nat) e) by (apply nth_In; rewrite Le; lia). split; auto.
        rewrite Forall_forall in Fe. unfold n0. rewrite (moved_by_length _ _ _ M). auto. }
      destruct (F i Hi) as [Ii Ri]. destruct (F j Hj) as [Ij Rj].
      unfold corners, component. rewrite !Ax by auto.
      rewrite (twist_entry _ (nth i e 0%nat)), (twist_entry _ (nth j e 0%nat)) by (intros; apply EN; auto).
      cbn [sum].
      assert (D : forall k, (k < 3)%nat -> table_of nodes' (nth i e 0%nat) k - table_of nodes' (nth j e 0%nat) k
        = (IZR (entry cube_table (nth i e 0%nat) k) - IZR (entry cube_table (nth j e 0%nat) k)) / 2).
      { intros k Hk. pose proof (EN _ k Ri Hk). pose proof (EN _ k Rj Hk). lra. }
      rewrite !D by lia. unfold cube_gradient.
      pose proof (allb_all _ _ cube_slopes e He) as S. cbv beta in S.
      assert (Ic : In c [0; 1; 2]%nat) by (destruct c as [|[|[|c]]]; cbn; auto; lia).
      pose proof (allb_all _ _ S c Ic) as S1. unfold slope_ok in S1. cbv beta in S1.
      pose proof (allb_all _ _ (allb_all _ _ S1 _ Ii) _ Ij) as S2. cbv beta in S2. apply Z.eqb_eq in S2. apply (f_equal IZR) in S2.
      rewrite mult_IZR, !plus_IZR, !mult_IZR, !minus_IZR in S2. lra. }
    rewrite (same_energy n0 N (table_of nodes') (table_of (m_nodes m)) cube_elements (m_elements m) (fun p => twist (fun k => p k - v k)) x twisted
      cube_gradient G' BC HT0 HT Ax (fun c i Hc Hi => twisted_at c i Hc Hi) HG HG' mu la).
    rewrite <- integral_parts. unfold integral. apply lsum_ext. intros e He. f_equal.
    destruct (solid_element _ _ SG e He) as [Le Fe].
    unfold element_volume, volume. rewrite (moved_by_det v cube_nodes nodes' e M Le Fe). fold (volume (corners (table_of cube_nodes) e)).
    fold (element_volume (table_of cube_nodes) e). unfold cube_nodes. rewrite (volume_over 2 cube_table ltac:(lia)). f_equal. ring.
  Qed.
End Twist.

(* a direction of negative energy leaves the energy without lower bound *)
Lemma bottomless n E b u0 x : symmetric n E -> qform n E x < 0 -> forall bound,
  exists s, qform n E (fun i => u0 i + s * x i) / 2 - dot n b (fun i => u0 i + s * x i) < bound.
Proof.
  intros HS HQ bound. set (q := qform n E x) in *.
  set (l := dot n x (mv n E u0) - dot n b x). set (c := qform n E u0 / 2 - dot n b u0).
  assert (F : forall s, qform n E (fun i => u0 i + s * x i) / 2 - dot n b (fun i => u0 i + s * x i) = c + s * l + s * s * q / 2).
  { intros s. rewrite (qform_add_sym n E u0 (fun i => s * x i) HS). rewrite dot_plus_r. rewrite dot_scal_l, dot_scal_r.
    assert (Q : qform n E (fun i => s * x i) = s * s * q).
    { unfold q. rewrite !qform_double. rewrite <- sum_scal. apply sum_ext. intros i _. rewrite <- sum_scal. apply sum_ext. intros j _. ring. }
    rewrite Q. unfold c, l. field. }
  (* s = r with the sign of -l makes s l <= 0 *)
  set (r := (Rabs (c - bound) + 1) * (2 / - q) + 1).
  assert (Hq : 0 < 2 / - q) by (apply Rdiv_lt_0_compat; lra).
  assert (Hr : 1 <= r) by (unfold r; pose proof (Rabs_pos (c - bound)); assert (0 <= (Rabs (c - bound) + 1) * (2 / - q)) by (apply Rmult_le_pos; lra); lra).
  assert (K : c + r * r * q / 2 < bound).
  { assert (r * r >= r) by nra. assert (r * q / 2 <= - (Rabs (c - bound) + 1)).
    { unfold r. replace (((Rabs (c - bound) + 1) * (2 / - q) + 1) * q / 2) with (- (Rabs (c - bound) + 1) + q / 2) by (field; lra). lra. }
    pose proof (Rle_abs (c - bound)). nra. }
  destruct (Rle_lt_dec l 0).
  - exists r. rewrite F. nra.
  - exists (- r). rewrite F. nra.
Qed.
