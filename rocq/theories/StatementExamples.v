(* A memory layout holding any given physical data, so that the hypotheses of the statement
   theorems can be met for every problem; and small concrete data. *)
From Coq Require Import Reals List Arith ZArith Bool String Lia Lra.
From Verif Require Import Common PyModel RVec LinAlg DofModel DofSpec DirichletModel DirichletSpec DirichletProofs
  MeshModel MeshBuildModel MeshSpec StatementModel StatementSpec StatementProofs StatementValueProofs StatementLawProofs StatementEnergyProofs.
Import ListNotations.
Local Open Scope string_scope.
Local Open Scope list_scope.
Local Open Scope R_scope.

Section Canonical.
  Variable p : physics.
  Variable conds : list condition.
  Variable k : kind.
  Let N := ph_N p.
  Let n := ph_n p.

  (* a force object that always returns the same array *)
  Definition constant_source (f : nat * vec) (t : R) : (nat * vec) * result (nat * vec) := (f, Ok f).

  Definition ref_m (a r c : nat) (ty : nat * nat) : smat := mkSmat ty (mkMref a r c).
  Definition laid_out : world (nat * vec) :=
    mkWorld (mkHeap [mass p; stiffness p; damping p; expansion p; conduction p; coupling p; dielectric p; laplace p]
                    [ph_b p; ph_u p; ph_v p; ph_th p; ph_phi p])
            (match k with Wave => ph_N p | _ => ph_n p end, load p) (N, heat p) None None.
  Definition laid_out_body : body :=
    mkBody 2 N (fun _ _ => Ok conds)
      (mkOps (ref_m 0 n n (2, 2)%nat) (Some (ref_m 1 n n (2, 2)%nat)) (Some (ref_m 2 n n (2, 2)%nat))
             (Some (ref_m 3 N n (1, 2)%nat)) (Some (ref_m 4 N N (1, 1)%nat)) (Some (ref_m 5 N n (2, 2)%nat))
             (Some (ref_m 6 N N (1, 1)%nat)) (Some (ref_m 7 N N (1, 1)%nat)))
      (Some (fun _ => Ok (fun _ _ _ => 0))) (fun _ => Ok (memory p)).
  Definition laid_out_variables : variables :=
    mkVariables (Some (mkVref 0 n)) (Some (mkVref 1 n)) (Some (mkVref 2 n)) (Some (mkVref 3 N))
      (Some (mkVref 4 N)) (Some (ph_dt p)) (Some 1).

  Hypothesis Hn : ph_n p = (2 * ph_N p)%nat.
  Hypothesis Hdt : ph_dt p <> 0.

  Ltac in_heap := repeat split; simpl; try lia; try reflexivity.
  Ltac there := eexists; split; [reflexivity|in_heap].

  Lemma laid_out_reads : reads constant_source laid_out_body laid_out_variables p k laid_out.
  Proof.
    unfold laid_out_body, laid_out_variables, laid_out, ref_m, reads, sized. subst N n.
    destruct p as [N n m1 m2 m3 m4 m5 m6 m7 m8 m9 l h b0 u0 v0 th0 ph0 dt]; cbn [ph_n ph_N ph_dt] in Hn, Hdt; subst n.
    split; [split; reflexivity|].
    destruct k; cbv [quasistatic_inputs dynamic_inputs timed force_at];
      cbn -[Nat.mul].
    - split; [there|reflexivity].
    - split; [auto|]. split; [split; [reflexivity|exact Hdt]|]. split; [exists 1; split; reflexivity|].
      split; [exists (2 * N)%nat; split; [lia|there]|]. split; [exists (2 * N)%nat; split; [lia|there]|]. split; [in_heap|there].
    - split; [there|reflexivity].
    - split; [reflexivity|]. split; [split; [reflexivity|exact Hdt]|].
      split; [intros t1 t2 _; reflexivity|]. split; [intros tn; discriminate|].
      split; [exists 1, (fun _ => Ok (fun _ _ _ => 0)), (fun _ _ _ => 0); repeat split|].
      split; there.
    - split; [split; [reflexivity|exact Hdt]|]. split; [exists 1; split; reflexivity|]. repeat (split; [there|]). there.
    - split; [split; [reflexivity|exact Hdt]|]. split; [exists 1; split; reflexivity|].
      split; [there|]. split; [there|]. split; [in_heap|]. split; there.
    - split. { split; [split; [reflexivity|exact Hdt]|]. split; [exists 1; split; reflexivity|].
      split; [there|]. split; [there|]. split; [in_heap|]. split; there. }
      split; [there|]. eexists. there.
    - split; [split; [reflexivity|exact Hdt]|]. split; [auto|]. split; [there|]. split; [there|].
      split; [eexists; there|]. split; [eexists; in_heap|]. eexists; there.
    - split; [there|]. split; [eexists; there|]. there.
    - split. { split; [split; [reflexivity|exact Hdt]|]. split; [exists 1; split; reflexivity|].
      repeat (split; [there|]). there. }
      split; [there|]. eexists. there.
    - split. { split; [split; [reflexivity|exact Hdt]|]. split; [exists 1; split; reflexivity|].
      split; [there|]. split; [there|]. split; [in_heap|]. split; there. }
      split; [there|]. eexists. there.
  Qed.
End Canonical.

Lemma constant_steady : steady constant_source.
Proof. intros f t. reflexivity. Qed.

(* two nodes, four displacement dofs, coupled matrices *)
Definition tiny (dt : R) : physics :=
  mkPhysics 2 4 (fun i j => if Nat.eqb i j then 2 else 0) (fun i j => if Nat.eqb i j then 2 else 1) delta delta
    delta delta delta (fun i j => INR (i + j)) (fun i j => INR (i + 2 * j))
    (fun i => INR i) (fun i => INR i) (fun _ => 1) (fun _ => 1) (fun _ => 2) (fun _ => 3) (fun _ => 4) dt.

(* the second node (dofs 1 and 3) is fixed *)
Definition fixed : list condition := [([((1, 2), (0, 1)); ((3, 4), (0, 1))]%nat, fun _ => 0)].

Lemma fixed_shaped : well_shaped 4 fixed.
Proof.
  intros sl c s [E|[]] Hs; inversion E; subst; destruct Hs as [<-|[<-|[]]]; simpl; unfold matching; simpl; lia.
Qed.
Lemma fixed_homogeneous : homogeneous fixed.
Proof. intros d v (sl & c & s & q & [E|[]] & _ & _ & ->). inversion E; subst. reflexivity. Qed.
Lemma fixed_dof1 : prescribed fixed 1 0.
Proof.
  exists [((1, 2), (0, 1)); ((3, 4), (0, 1))]%nat, (fun _ => 0), ((1, 2), (0, 1))%nat, 0%nat.
  repeat split; simpl; auto.
Qed.

Definition fixed_1 : list condition := [([((1, 2), (0, 1))]%nat, fun _ => 0)].
Lemma fixed_1_shaped : well_shaped 2 fixed_1.
Proof.
  intros sl c s [E|[]] Hs; inversion E; subst; destruct Hs as [<-|[]]; simpl; unfold matching; simpl; lia.
Qed.

Lemma tiny_mass dt n : pos_def n (mass (tiny dt)).
Proof.
  intros x [i [Hi Hx]]. unfold qform, dot, mv. cbn [mass tiny].
  rewrite (sum_ext n _ (fun i => 2 * (x i * x i))).
  - rewrite sum_scal. apply Rmult_lt_0_compat; [lra|]. apply (sum_pos n _ i); auto; [intros; nra|].
    assert (x i < 0 \/ 0 < x i) as [H|H] by (destruct (Rtotal_order (x i) 0) as [|[|]]; auto; contradiction); nra.
  - intros j Hj. rewrite (sum_ext n _ (fun l => delta j l * (2 * x l))).
    + rewrite sum_delta_l by auto. ring.
    + intros l _. unfold delta. destruct (Nat.eqb j l); ring.
Qed.

Lemma delta_psd n : pos_semidef n delta.
Proof.
  intros x. unfold qform, dot, mv. apply sum_nonneg. intros i Hi. rewrite sum_delta_l by auto. nra.
Qed.
Lemma tiny_stiffness dt : pos_semidef 4 (stiffness (tiny dt)).
Proof.
  intros x. rewrite qform_double. cbn [stiffness tiny]. simpl.
  pose proof (Rle_0_sqr (x 0%nat + x 1%nat + x 2%nat + x 3%nat)) as H. unfold Rsqr in H. nra.
Qed.

(* no inertia, unit damping, electric potential 1 *)
Definition coupled : physics :=
  mkPhysics 1 2 (fun _ _ => 0) (fun _ _ => 0) delta delta delta delta delta (fun _ _ => 0) (fun _ _ => 1)
    (fun _ => 0) (fun _ => 0) (fun _ => 0) (fun _ => 0) (fun _ => 0) (fun _ => 0) (fun _ => 1) 1.

Lemma coupled_quasistatic x : obeys 2 (prescribed []) (law_of coupled QuasistaticVelocityWithPiezoelectric) x -> x 0%nat = -1.
Proof.
  intros [_ H]. specialize (H 0%nat ltac:(lia)).
  cbn [law_of] in H. unfold quasistatic_law, electric_load, advanced, mv, mT in H. cbn in H. unfold delta in H. simpl in H.
  assert (G : forall v, ~ prescribed [] 0 v) by (intros v (sl & c & s & q & [] & _)).
  specialize (H G). lra.
Qed.
Lemma coupled_dynamic x : obeys 2 (prescribed []) (law_of coupled DynamicVelocityWithPiezoelectric) x -> x 0%nat = 1.
Proof.
  intros [_ H]. specialize (H 0%nat ltac:(lia)).
  cbn [law_of] in H. unfold dynamic_law, electric_load, advanced, rate, mv, mT in H. cbn in H. unfold delta in H. simpl in H.
  assert (G : forall v, ~ prescribed [] 0 v) by (intros v (sl & c & s & q & [] & _)).
  specialize (H G). lra.
Qed.

(* a body whose relaxation operator is assembled from another W *)
Definition relaxing (A : mat) : body :=
  mkBody 2 1 (fun _ _ => Ok []) (mkOps (mkSmat (2, 2)%nat (mkMref 0 2 2)) None None None None None None None)
    (Some (fun _ => Ok (fun _ _ _ => 1))) (fun _ => Ok A).
Definition fresh_world : world nat := mkWorld (mkHeap [delta] []) 0%nat 0%nat None None.

Lemma stale_relaxation : exists w1 s1 w2 s2,
  relaxation (relaxing (fun _ _ => 1)) (Some 0) fresh_world = (w1, Ok s1) /\
  relaxation (relaxing (fun _ _ => 2)) (Some 0) w1 = (w2, Ok s2) /\
  load_m (hp w2) (sm_data s2) 0%nat 0%nat = 1.
Proof.
  unfold relaxation. cbn [b_relaxation relaxing w_tensor fresh_world b_relaxation_matrix b_count].
  do 4 eexists. split; [reflexivity|].
  cbn -[tensor_neq].
  replace (tensor_neq (fun _ _ _ => 1) (fun _ _ _ => 1)) with false.
  - split; [reflexivity|]. reflexivity.
  - unfold tensor_neq. simpl. destruct (Req_EM_T 1 1); [reflexivity|congruence].
Qed.

(* a vector obeying the law is the outcome of a step in the canonical layout *)
Lemma canonical_step p conds k x : ph_n p = (2 * ph_N p)%nat -> ph_dt p <> 0 ->
  well_shaped (unknowns (laid_out_body p conds) k) conds -> consistent (prescribed conds) ->
  obeys (unknowns (laid_out_body p conds) k) (prescribed conds) (law_of p k) x ->
  step_solved constant_source (laid_out_body p conds) k p x.
Proof.
  intros Hn Hdt HW HK HO.
  pose proof (laid_out_reads p conds k Hn Hdt) as HR.
  destruct (update_balance constant_source (laid_out_body p conds) (laid_out_variables p) p k (laid_out p k)
    conds HR eq_refl HW HK) as (w' & lr & E & H).
  exists (laid_out_variables p), (laid_out p k), w', lr. split; auto. split; auto. apply H. exact HO.
Qed.

Lemma no_conditions n : well_shaped n [] /\ consistent (prescribed []).
Proof.
  split; [intros sl c s []|]. intros d v v' (sl & c & s & q & [] & _).
Qed.

Lemma mv_rest n A (x : vec) : (forall i, x i = 0) -> forall i, mv n A x i = 0.
Proof. intros H i. unfold mv. apply sum_0. intros j _. rewrite H. ring. Qed.

(* a body at rest stays at rest *)
Lemma rest_step p k : ph_n p = (2 * ph_N p)%nat -> ph_dt p <> 0 ->
  (k = DynamicVelocityWithTemperature \/ k = Temperature) ->
  (forall i, load p i = 0) -> (forall i, ph_u p i = 0) -> (forall i, ph_v p i = 0) -> (forall i, ph_th p i = 0) ->
  step_solved constant_source (laid_out_body p []) k p (fun _ => 0).
Proof.
  intros Hn Hdt Hk L U V T. destruct (no_conditions (unknowns (laid_out_body p []) k)) as [W C].
  apply canonical_step; auto. split; [intros d v (sl & c & s & q & [] & _)|].
  intros i _ _. destruct Hk as [-> | ->]; cbn [law_of].
  - unfold dynamic_law, thermal_load, rate, advanced.
    rewrite !mv_rest; [rewrite L; ring| | | |]; intros; rewrite ?T, ?U, ?V; try reflexivity; field; auto.
  - unfold heat_law, rate. rewrite !mv_rest; [ring| | |]; intros; rewrite ?T, ?V; try reflexivity; field; auto.
Qed.

(* uncoupled nodes: the step can be computed by hand *)
Definition loose (dt : R) : physics :=
  mkPhysics 2 4 (fun i j => delta i j * 2) delta delta delta delta delta delta (fun _ _ => 0) (fun _ _ => 0)
    (fun _ => 0) (fun _ => 0) (fun _ => 0) (fun _ => 0) (fun _ => 0) (fun _ => 0) (fun _ => 0) dt.
Definition loose_velocity (dt : R) (u v : vec) : vec := fun i =>
  if (Nat.eqb i 1 || Nat.eqb i 3)%bool then 0 else (2 * v i / dt - u i) / (2 / dt + 1 + dt).
Fixpoint loose_state (dt : R) (u0 v0 : vec) (k : nat) : vec * vec :=
  match k with
  | O => (u0, v0)
  | S k' => let '(u, v) := loose_state dt u0 v0 k' in
            let v' := loose_velocity dt u v in (fun i => u i + dt * v' i, v')
  end.

Lemma fixed_pins d v : prescribed fixed d v -> (d = 1 \/ d = 3)%nat /\ v = 0.
Proof.
  intros (sl & c & s & q & [E|[]] & Hs & Hq & ->). inversion E; subst.
  destruct Hs as [<-|[<-|[]]]; simpl in Hq; destruct Hq as [Hq|[]]; inversion Hq; auto.
Qed.
Lemma fixed_dof3 : prescribed fixed 3 0.
Proof.
  exists [((1, 2), (0, 1)); ((3, 4), (0, 1))]%nat, (fun _ => 0), ((3, 4), (0, 1))%nat, 0%nat.
  repeat split; simpl; auto.
Qed.

Lemma loose_step dt u v : 0 < dt ->
  step_solved constant_source (laid_out_body (loose dt) fixed) DynamicVelocity
    (with_motion (loose dt) u v (fun _ => 0)) (loose_velocity dt u v).
Proof.
  intros Hdt.
  change (laid_out_body (loose dt) fixed) with (laid_out_body (with_motion (loose dt) u v (fun _ => 0)) fixed).
  apply canonical_step; [reflexivity|simpl; lra|exact fixed_shaped| |].
  { apply homogeneous_consistent, fixed_homogeneous. }
  split.
  - intros d r Hr. apply fixed_pins in Hr. destruct Hr as [[E|E] Er]; rewrite E, Er; reflexivity.
  - intros i Hi Hp. change (i < 4)%nat in Hi.
    assert (i <> 1 /\ i <> 3)%nat as [N1 N3].
    { split; intros ->; [exact (Hp 0 fixed_dof1)|exact (Hp 0 fixed_dof3)]. }
    cbn [law_of]. unfold dynamic_law, rate, advanced, mv.
    cbn [with_motion loose ph_n mass damping stiffness load ph_u ph_v ph_dt].
    assert (D : forall y : vec, sum 4 (fun j => delta i j * y j) = y i) by (intros; apply sum_delta_l; auto).
    rewrite !D.
    rewrite (sum_ext 4 _ (fun j => delta i j * (2 * ((loose_velocity dt u v j - v j) / dt)))) by (intros; ring).
    rewrite (D (fun j => 2 * ((loose_velocity dt u v j - v j) / dt))).
    unfold loose_velocity. apply Nat.eqb_neq in N1, N3. rewrite N1, N3. cbn [orb].
    assert (0 < 2 / dt) by (apply Rdiv_lt_0_compat; lra).
    field. split; apply Rgt_not_eq; nra.
Qed.

Lemma loose_run dt : 0 < dt -> forall u0 v0 : vec, exists u v : nat -> vec,
  u 0%nat = u0 /\ v 0%nat = v0 /\
  (forall k, step_solved constant_source (laid_out_body (loose dt) fixed) DynamicVelocity
     (with_motion (loose dt) (u k) (v k) (fun _ => 0)) (v (S k))) /\
  (forall k i, (i < 4)%nat -> u (S k) i = u k i + dt * v (S k) i).
Proof.
  intros Hdt u0 v0.
  exists (fun k => fst (loose_state dt u0 v0 k)), (fun k => snd (loose_state dt u0 v0 k)).
  split; [reflexivity|]. split; [reflexivity|]. split.
  - intros k. cbn [loose_state]. destruct (loose_state dt u0 v0 k) as [u v]. apply loose_step; auto.
  - intros k i _. cbn [loose_state]. destruct (loose_state dt u0 v0 k) as [u v]. reflexivity.
Qed.

Lemma coupled_signs :
  (forall i j, mass coupled i j = 0) /\
  let b := laid_out_body coupled [] in
  (exists x, step_solved constant_source b QuasistaticVelocityWithPiezoelectric coupled x) /\
  (exists x, step_solved constant_source b DynamicVelocityWithPiezoelectric coupled x) /\
  (forall x, step_solved constant_source b QuasistaticVelocityWithPiezoelectric coupled x -> x 0%nat = -1) /\
  (forall x, step_solved constant_source b DynamicVelocityWithPiezoelectric coupled x -> x 0%nat = 1).
Proof.
  split; [reflexivity|]. intros b.
  assert (P : forall d v, ~ prescribed [] d v) by (intros d v (sl & c & s & q & [] & _)).
  split; [|split; [|split]].
  - exists (fun _ => -1). apply canonical_step; [reflexivity|simpl; lra|apply no_conditions|apply (no_conditions 0)|].
    split; [intros d v H; destruct (P d v H)|]. intros i Hi _. change (i < 2)%nat in Hi.
    cbn [law_of]. unfold quasistatic_law, electric_load, advanced, mv, mT. cbn -[Nat.ltb]. unfold delta.
    destruct i as [|[|i]]; [| |lia]; simpl; lra.
  - exists (fun _ => 1). apply canonical_step; [reflexivity|simpl; lra|apply no_conditions|apply (no_conditions 0)|].
    split; [intros d v H; destruct (P d v H)|]. intros i Hi _. change (i < 2)%nat in Hi.
    cbn [law_of]. unfold dynamic_law, electric_load, advanced, rate, mv, mT. cbn -[Nat.ltb]. unfold delta.
    destruct i as [|[|i]]; [| |lia]; simpl; lra.
  - intros x H. apply coupled_quasistatic.
    apply (step_obeys constant_source b [] QuasistaticVelocityWithPiezoelectric coupled x eq_refl); auto; apply (no_conditions 2).
  - intros x H. apply coupled_dynamic.
    apply (step_obeys constant_source b [] DynamicVelocityWithPiezoelectric coupled x eq_refl); auto; apply (no_conditions 2).
Qed.

(* a tetrahedron whose base is clamped *)
Definition mean3 (l : list (Z * Z * Z)) : Z * Z * Z :=
  let n := Z.of_nat (List.length l) in
  let total f := Z.div (fold_right Z.add 0%Z (map f l)) n in
  (total (fun p => fst (fst p)), total (fun p => snd (fst p)), total snd).
Definition tower_nodes : list (Z * Z * Z) := [(0, 0, 0); (3, 0, 0); (0, 3, 0); (0, 0, 3)]%Z.
Definition tower_els : list (list nat) := [[0; 1; 2; 3]]%nat.
Definition on_floor (p : Z * Z * Z) : bool := (snd p =? 0)%Z.
Definition tower_description : @Description (Z * Z * Z) vec :=
  make_description (fun _ _ => 0) [("contact", (fun _ => false, None)); ("dirichlet", (on_floor, None))].

Lemma tower_free : exists m conds,
  build mean3 (0, 0, 0)%Z tower_nodes tower_els tower_description = Ok m /\
  dirichlet_nodes_count m = 3%Z /\
  mesh_conditions m (dimension_in DynamicVelocity 3) "dirichlet" = Ok conds /\
  let N := List.length (m_nodes m) in
  forall n, (N - 3 <= n < N)%nat ->
    (exists v, prescribed conds n v) /\ (exists v, prescribed conds (n + N)%nat v) /\
    ~ (exists v, prescribed conds (n + 2 * N)%nat v).
Proof.
  eexists. eexists. split; [vm_compute; reflexivity|]. split; [reflexivity|]. split; [reflexivity|].
  cbv zeta. cbn [m_nodes List.length]. intros n Hn.
  assert (A : forall q, (q < 3)%nat -> forall c, (c < 2)%nat ->
    exists v, prescribed [([((1, 4), (0, 3)); ((5, 8), (0, 3))]%nat, fun _ => 0)] (1 + q + c * 4)%nat v).
  { intros q Hq c Hc. exists 0, [((1, 4), (0, 3)); ((5, 8), (0, 3))]%nat, (fun _ => 0).
    destruct c as [|[|c]]; [| |lia].
    - exists ((1, 4), (0, 3))%nat, q. repeat split; simpl; auto.
      destruct q as [|[|[|q]]]; simpl; auto; lia.
    - exists ((5, 8), (0, 3))%nat, q. repeat split; simpl; auto.
      destruct q as [|[|[|q]]]; simpl; auto; lia. }
  split; [|split].
  - replace n with (1 + (n - 1) + 0 * 4)%nat by lia. apply A; lia.
  - replace (n + 4)%nat with (1 + (n - 1) + 1 * 4)%nat by lia. apply A; lia.
  - intros (v & sl & c & s & q & [E|[]] & Hs & Hq & _). inversion E; subst.
    destruct Hs as [<-|[<-|[]]]; simpl in Hq;
      repeat destruct Hq as [Hq|Hq]; try contradiction; inversion Hq; lia.
Qed.

Lemma tower_hypotheses : in_range (List.length tower_nodes) tower_els /\ simplices 4 tower_els /\
  dict_get (indicators tower_description) "dirichlet" = Some on_floor.
Proof.
  split; [repeat constructor|]. split; [|reflexivity].
  repeat constructor; simpl; intros H; repeat destruct H as [H|H]; try discriminate; auto.
Qed.
