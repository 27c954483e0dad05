(* The problems that a user poses have at most one solution. *)
From Coq Require Import Reals List Arith ZArith Bool String Permutation Lia Lra FunctionalExtensionality.
From Verif Require Import Common PyModel RVec LinAlg MeshModel MeshBuildModel MeshSpec ListLemmas MeshBuildProofs NormalsModel
  DofModel DofSpec DirichletModel DirichletSpec DirichletProofs DirichletMeshProofs
  FemModel FemSpec FemAssemblyProofs FemFormProofs FemBasicProofs FemMeshProofs FemBuildProofs FemOperatorProofs FemPipelineProofs FemKornProofs
  ForcesModel ForcesSpec ForcesProofs ForcesLoadProofs
  StatementModel StatementSpec StatementProofs StatementValueProofs StatementLawProofs StatementMeshProofs CrossBuiltProofs FemFinalProofs
  ProblemModel ProblemSpec ProblemProofs ProblemReady ProblemTheorems.
Import ListNotations.
Local Open Scope string_scope.
Local Open Scope list_scope.
Local Open Scope R_scope.

Lemma built_tied {P} (mean : list P -> P) (zero : P) nodes els (d : @Description P vec) m w ic id f :
  in_range (List.length nodes) els -> simplices w els ->
  dict_get (indicators d) "contact" = Some ic -> dict_get (indicators d) "dirichlet" = Some id ->
  dict_get (MeshBuildModel.conditions d) "dirichlet" = Some f ->
  build mean zero nodes els d = Ok m ->
  (forall i, (i < List.length nodes)%nat -> referenced els i ->
    tied (fun i => boundary_node w els i /\ holds_at nodes id i) els i) ->
  exists conds, mesh_conditions m 1 "dirichlet" = Ok conds /\
    forall i, (i < List.length (m_nodes m))%nat -> tied (grounded conds) (m_elements m) i.
Proof.
  intros HR HS HC HD Hf HB HH.
  destruct (mesh_dirichlet mean zero nodes els d m w ic id HR HS HC HD HB 1 f Hf)
    as (C & Ne & I & D & conds & HO & HM & HW & HN & HP).
  exists conds. split; [exact HM|]. cbv zeta in HP.
  set (N := List.length (m_nodes m)) in *. set (first := List.length (C ++ Ne ++ I)) in *.
  assert (Eo : List.length (C ++ Ne ++ I ++ D) = N) by (rewrite HN; unfold first; rewrite !app_length; lia).
  intros n Hn. destruct (nth_error (C ++ Ne ++ I ++ D) n) as [o|] eqn:E; [|apply nth_error_None in E; lia].
  destruct HO as [U A K R NC NN NI ND _].
  assert (Ro : referenced els o) by (apply A; eapply nth_error_In; eauto).
  assert (Lo : (o < List.length nodes)%nat).
  { destruct Ro as (e & He & Hoe). unfold in_range in HR. rewrite Forall_forall in HR. specialize (HR e He).
    rewrite Forall_forall in HR. auto. }
  refine (tied_relabelled _ els _ _ _ U R _ o (HH o Lo Ro) n E).
  clear n Hn o E Ro Lo. intros n o E Ho. apply ND in Ho.
  assert (Hn : (first <= n < N)%nat).
  { split; [|rewrite <- Eo; apply nth_error_Some; congruence].
    destruct (Nat.lt_ge_cases n first) as [L|]; auto. exfalso.
    replace (C ++ Ne ++ I ++ D) with ((C ++ Ne ++ I) ++ D) in * by (rewrite <- !app_assoc; auto).
    rewrite nth_error_app1 in E by auto. apply nth_error_In in E.
    clear - U E Ho. induction (C ++ Ne ++ I) as [|x l IH]; [destruct E|]. inversion U; subst. destruct E as [->|E]; auto.
    apply H1. apply in_or_app. auto. }
  eexists; apply HP. exists n, 0%nat. repeat split; try lia.
Qed.

Lemma form_difference n A x y z z0 : (forall i, (i < n)%nat -> z i = x i - y i) ->
  sum n (fun i => z0 i * mv n A x i) - sum n (fun i => z0 i * mv n A y i) = sum n (fun i => z0 i * mv n A z i).
Proof.
  intros H. rewrite <- sum_minus. apply sum_ext. intros i _. rewrite <- Rmult_minus_distr_l. f_equal.
  unfold mv. rewrite <- sum_minus. apply sum_ext. intros j Hj. rewrite (H j Hj). ring.
Qed.
Lemma form_scale n A z z0 c : sum n (fun i => z0 i * mv n A (fun j => c * z j) i) = c * sum n (fun i => z0 i * mv n A z i).
Proof.
  rewrite <- sum_scal. apply sum_ext. intros i _. unfold mv. rewrite <- sum_scal, <- sum_scal, <- sum_scal. apply sum_ext. intros j _. ring.
Qed.
Lemma form_q n A z : sum n (fun i => z i * mv n A z i) = qform n A z.
Proof. reflexivity. Qed.

Section Unique.
  Variables (pb : problem) (ic id : P2 -> bool) (g : P2 -> R).
  Hypothesis PO : posed pb ic id g.
  Variables (bt : built) (density : option (nat -> R)) (ops : FemModel.operators).
  Hypothesis RD : ready pb bt density ops.
  Let m := bt_mesh bt.
  Let b := bt_body bt.
  Let N := List.length (m_nodes m).
  Let points := node_table coord2 zero2 (m_nodes m).
  Let els := m_elements m.

  Lemma clamped_body : clamped_mesh pb id ->
    exists conds, mesh_conditions m 2 "dirichlet" = Ok conds /\ forall i, (i < N)%nat -> held (clamped N conds) els i.
  Proof.
    intros H. destruct RD as (HB & _). pose proof PO as [HR HS HA HC HD (f & Hf & PW)].
    destruct (built_held mean2 zero2 _ _ _ m 3 ic id f HR HS HC HD Hf HB H) as (conds & A & _ & B). eauto.
  Qed.
  Lemma grounded_body : grounded_mesh pb id ->
    exists conds, mesh_conditions m 1 "dirichlet" = Ok conds /\ forall i, (i < N)%nat -> tied (grounded conds) els i.
  Proof.
    intros H. destruct RD as (HB & _). pose proof PO as [HR HS HA HC HD (f & Hf & PW)].
    destruct (built_tied mean2 zero2 _ _ _ m 3 ic id f HR HS HC HD Hf HB H) as (conds & A & B). eauto.
  Qed.

  Lemma takes_difference dim x y : takes m id dim g x -> takes m id dim g y -> vanishes m id dim (fun i => x i - y i).
  Proof.
    intros HX HY n k Fx Hk. destruct Fx as [F1 (p & F2 & F3)].
    pose proof (HX n k p (conj F1 (ex_intro _ p (conj F2 F3))) Hk F2) as A.
    pose proof (HY n k p (conj F1 (ex_intro _ p (conj F2 F3))) Hk F2) as B. cbv beta zeta in *. lra.
  Qed.

  Lemma zero_or dim conds A (z : vec) : mesh_conditions m dim "dirichlet" = Ok conds -> definite_free (dim * N) conds A ->
    vanishes m id dim z -> qform (dim * N) A z <= 0 -> forall i, (i < dim * N)%nat -> z i = 0.
  Proof.
    intros MC DF VN Q i Hi. destruct (fixed_conds pb ic id g PO bt density ops RD dim) as (conds' & MC' & _ & _ & HP).
    fold m in MC'. rewrite MC in MC'. injection MC' as <-.
    destruct (Req_dec (z i) 0) as [|Ne]; [assumption|]. exfalso.
    assert (0 < qform (dim * N) A z); [|lra].
    apply DF; [|eauto]. exact (vanishes_fixed id g bt dim conds z HP VN).
  Qed.

  Lemma vanishing_gradients z : exists G, gradients coord2 zero2 m z G.
  Proof. exact (gradients2_ex _ _ _ z (proj1 (plane pb ic id g PO bt density ops RD))). Qed.
  Lemma vanishing_gradient z : exists G, gradient coord2 zero2 m z G.
  Proof. exact (gradient2_ex _ _ _ z (proj1 (plane pb ic id g PO bt density ops RD))). Qed.

  (* the work of the operators *)
  Lemma elastic_form mu la v u G H : elastic (pr_material pb) = Some (mu, la) -> gradients coord2 zero2 m v G -> gradients coord2 zero2 m u H ->
    stress_work coord2 zero2 m density mu la G H = sum (2 * N) (fun i => v i * mv (2 * N) (some_mat (elasticity ops)) u i).
  Proof. intros. symmetry. apply (elastic_work pb ic id g PO bt density ops RD); assumption. Qed.
  Lemma viscous_form th ze v u G H : viscous (pr_material pb) = Some (th, ze) -> gradients coord2 zero2 m v G -> gradients coord2 zero2 m u H ->
    stress_work coord2 zero2 m density th ze G H = sum (2 * N) (fun i => v i * mv (2 * N) (some_mat (viscosity ops)) u i).
  Proof. intros. symmetry. apply (viscous_work pb ic id g PO bt density ops RD); assumption. Qed.
  Lemma membrane_form c v u G H : membrane (pr_material pb) = Some c -> gradient coord2 zero2 m v G -> gradient coord2 zero2 m u H ->
    flux_work coord2 zero2 m density c G H = sum N (fun i => v i * mv N (some_mat (poisson_operator ops)) u i).
  Proof. intros. symmetry. apply (membrane_work pb ic id g PO bt density ops RD); assumption. Qed.
  Lemma mass_form v a : inertia_work coord2 zero2 m 2 (mass_density (pr_material pb)) a v
    = sum (2 * N) (fun i => v i * mv (2 * N) (acceleration_operator ops) a i).
  Proof. symmetry. apply (mass_work pb ic id g PO bt density ops RD). Qed.
  Lemma mass_form_scalar v a : inertia_work coord2 zero2 m 1 (mass_density (pr_material pb)) a v
    = sum N (fun i => v i * mv N (acceleration_operator ops) a i).
  Proof. symmetry. apply (mass_work_scalar pb ic id g PO bt density ops RD). Qed.

  Hypothesis PD : positive_density density.

  Lemma elastic_definite_free conds mu la : (forall i, (i < N)%nat -> held (clamped N conds) els i) ->
    elastic (pr_material pb) = Some (mu, la) -> 0 < mu -> 0 <= la ->
    definite_free (2 * N) conds (some_mat (elasticity ops)).
  Proof.
    intros HH EL M L. apply (elastic_free N points els density conds (proj1 (plane pb ic id g PO bt density ops RD)) mu la); auto.
    intros v u G H HG HHH. rewrite bilinear_sum. exact (elastic_work pb ic id g PO bt density ops RD mu la v u G H EL HG HHH).
  Qed.
  Lemma viscous_definite_free conds th ze : (forall i, (i < N)%nat -> held (clamped N conds) els i) ->
    viscous (pr_material pb) = Some (th, ze) -> 0 < th -> 0 <= ze ->
    definite_free (2 * N) conds (some_mat (viscosity ops)).
  Proof.
    intros HH EL M L. apply (elastic_free N points els density conds (proj1 (plane pb ic id g PO bt density ops RD)) th ze); auto.
    intros v u G H HG HHH. rewrite bilinear_sum. exact (viscous_work pb ic id g PO bt density ops RD th ze v u G H EL HG HHH).
  Qed.
  Lemma elastic_psd mu la : elastic (pr_material pb) = Some (mu, la) -> 0 <= mu -> 0 <= la ->
    pos_semidef (2 * N) (some_mat (elasticity ops)).
  Proof.
    intros EL M L. pose proof RD as (_ & _ & HO & _). pose proof (elastic_some pb ic id g PO bt density ops RD mu la EL) as X.
    destruct (elasticity ops) as [A|] eqn:E; [|contradiction].
    destruct (elasticity2_all N points els _ density ops (proj1 (plane pb ic id g PO bt density ops RD)) HO mu la A EL E) as (_ & _ & H & _).
    apply H; auto using positive_nonneg.
  Qed.
  Lemma viscous_psd th ze : viscous (pr_material pb) = Some (th, ze) -> 0 <= th -> 0 <= ze ->
    pos_semidef (2 * N) (some_mat (viscosity ops)).
  Proof.
    intros EL M L. pose proof RD as (_ & _ & HO & _). pose proof (viscous_some pb ic id g PO bt density ops RD th ze EL) as X.
    destruct (viscosity ops) as [A|] eqn:E; [|contradiction].
    destruct (viscosity2_all N points els _ density ops th ze A (proj1 (plane pb ic id g PO bt density ops RD)) HO EL E) as (_ & _ & H & _).
    apply H; auto using positive_nonneg.
  Qed.
  Lemma membrane_psd c : membrane (pr_material pb) = Some c -> pos_semidef N (some_mat (poisson_operator ops)).
  Proof.
    intros EL. pose proof RD as (_ & _ & HO & _). pose proof (membrane_some pb ic id g PO bt density ops RD c EL) as X.
    destruct (poisson_operator ops) as [A|] eqn:E; [|contradiction].
    destruct (poisson2_all N points els _ density ops c A (proj1 (plane pb ic id g PO bt density ops RD)) HO EL E (positive_nonneg _ PD)) as (_ & _ & H & _).
    exact H.
  Qed.
  Lemma membrane_definite conds c : (forall i, (i < N)%nat -> tied (grounded conds) els i) ->
    membrane (pr_material pb) = Some c -> c <> 0 -> definite_free N conds (some_mat (poisson_operator ops)).
  Proof.
    intros HH EL C0. pose proof RD as (_ & _ & HO & _). pose proof (membrane_some pb ic id g PO bt density ops RD c EL) as X.
    destruct (poisson_operator ops) as [A|] eqn:E; [|contradiction]. cbn [some_mat]. intros x H0 Hx.
    apply (poisson2_definite N points els _ density ops c A (proj1 (plane pb ic id g PO bt density ops RD)) HO EL E PD C0 (grounded conds) HH); auto.
    intros i [v Hv]. eapply H0; eauto.
  Qed.
  Lemma mass_definite conds : 0 < mass_density (pr_material pb) ->
    definite_free (2 * N) conds (acceleration_operator ops) /\ definite_free N conds (acceleration_operator ops).
  Proof.
    intros M. pose proof RD as (_ & _ & HO & _). destruct (plane pb ic id g PO bt density ops RD) as (HT & _ & HR).
    pose proof (proj2 (mass_block_2d _ _ _ _ density ops HT HO HR M)) as X. fold m in X. fold N in X.
    split; apply pos_def_free; [exact X|]. apply (pos_def_block (2 * N)); [lia|exact X].
  Qed.

  Lemma memory_psd (C : tensor) : (forall G, 0 <= memory_density C G G) ->
    pos_semidef (2 * N) (relaxation2 N (w_matrix2 points els density) C).
  Proof.
    intros PC z. destruct (vanishing_gradients z) as (G & HG).
    rewrite <- form_q, <- bilinear_sum, (proj1 (relaxation_2d N points els density C (proj1 (plane pb ic id g PO bt density ops RD))) z z G G HG HG).
    apply mesh_integral_nonneg; [intros; apply area_nonneg|apply positive_nonneg; exact PD|].
    intros e _. exact (PC (fun c => G c e)).
  Qed.

  Section Fixed.
  Hypothesis HU : clamped_mesh pb id.

  Lemma static_unique mu la fi fo u u' : elastic (pr_material pb) = Some (mu, la) -> 0 < mu -> 0 <= la ->
    takes m id 2 g u -> balances coord2 zero2 m density id mu la fi fo u ->
    takes m id 2 g u' -> balances coord2 zero2 m density id mu la fi fo u' -> veq (2 * N) u u'.
  Proof.
    intros EL M L T B T' B'. destruct (clamped_body HU) as (conds & MC & HH).
    pose proof (takes_difference 2 u u' T T') as VN. set (z := fun i => u i - u' i) in *.
    destruct (vanishing_gradients z) as (G & HG). destruct (vanishing_gradients u) as (H & HH1). destruct (vanishing_gradients u') as (H' & HH2).
    pose proof (B z G H VN HG HH1) as E1. pose proof (B' z G H' VN HG HH2) as E2.
    rewrite (elastic_form mu la z u G H EL HG HH1) in E1.
    rewrite (elastic_form mu la z u' G H' EL HG HH2) in E2.
    pose proof (form_difference (2 * N) (some_mat (elasticity ops)) u u' z z (fun i _ => eq_refl)) as E3.
    rewrite form_q in E3. fold m in E1, E2. fold N in E1, E2.
    assert (Z : forall i, (i < 2 * N)%nat -> z i = 0).
    { apply (zero_or 2 conds (some_mat (elasticity ops))); auto; [|lra]. apply (elastic_definite_free conds mu la); auto. }
    intros i Hi. specialize (Z i Hi). unfold z in Z. lra.
  Qed.
  End Fixed.

  Lemma poisson_unique c fi fo u u' :
    grounded_mesh pb id ->
    membrane (pr_material pb) = Some c -> c <> 0 ->
    takes m id 1 g u -> rests coord2 zero2 m density id c fi fo u ->
    takes m id 1 g u' -> rests coord2 zero2 m density id c fi fo u' -> veq N u u'.
  Proof.
    intros HU EL C0 T B T' B'. destruct (grounded_body HU) as (conds & MC & HH).
    pose proof (takes_difference 1 u u' T T') as VN. set (z := fun i => u i - u' i) in *.
    destruct (vanishing_gradient z) as (G & HG). destruct (vanishing_gradient u) as (H & HH1). destruct (vanishing_gradient u') as (H' & HH2).
    pose proof (B z G H VN HG HH1) as E1. pose proof (B' z G H' VN HG HH2) as E2.
    rewrite (membrane_form c z u G H EL HG HH1) in E1.
    rewrite (membrane_form c z u' G H' EL HG HH2) in E2.
    pose proof (form_difference N (some_mat (poisson_operator ops)) u u' z z (fun i _ => eq_refl)) as E3.
    rewrite form_q in E3. fold m in E1, E2. fold N in E1, E2.
    pose proof (membrane_definite conds c HH EL C0) as DF.
    assert (Z : forall i, (i < 1 * N)%nat -> z i = 0).
    { apply (zero_or 1 conds (some_mat (poisson_operator ops))); rewrite ?Nat.mul_1_l; auto; lra. }
    rewrite Nat.mul_1_l in Z. intros i Hi. specialize (Z i Hi). unfold z in Z. lra.
  Qed.

  (* ------------------------------------------------------------ motions *)

  Variable dt : R.
  Hypothesis Hdt : 0 < dt.
  Hypothesis DN : density = None.

  (* one step determines the next fields *)
  Definition settled (dim : nat) (step : R -> vec -> vec -> vec -> Prop) : Prop :=
    forall t u v u' v' x y, veq (dim * N) u u' -> veq (dim * N) v v' ->
    takes m id dim g x -> takes m id dim g y ->
    step t (fun i => (x i - v i) / dt) x (fun i => u i + dt * x i) -> step t (fun i => (y i - v' i) / dt) y (fun i => u' i + dt * y i) ->
    veq (dim * N) x y.

  Lemma motion_unique dim step u0 v0 n u v u' v' : settled dim step ->
    motion dt (takes m id dim g) step u0 v0 n u v -> motion dt (takes m id dim g) step u0 v0 n u' v' ->
    forall j, (j <= n)%nat -> veq (dim * N) (u j) (u' j) /\ veq (dim * N) (v j) (v' j).
  Proof.
    intros ST (A1 & A2 & A3) (B1 & B2 & B3) j. induction j as [|j IH]; intros Hj.
    - rewrite A1, A2, B1, B2. split; intros i _; reflexivity.
    - destruct (IH ltac:(lia)) as (IU & IV). destruct (A3 j ltac:(lia)) as (C1 & C2 & C3). destruct (B3 j ltac:(lia)) as (D1 & D2 & D3).
      assert (EU : u (S j) = (fun i => u j i + dt * v (S j) i)) by (apply functional_extensionality; exact C1).
      assert (EU' : u' (S j) = (fun i => u' j i + dt * v' (S j) i)) by (apply functional_extensionality; exact D1).
      rewrite EU in C3. rewrite EU' in D3.
      pose proof (ST _ _ _ _ _ _ _ IU IV C2 D2 C3 D3) as Q. split; [|exact Q].
      intros i Hi. rewrite EU, EU'. rewrite (IU i Hi), (Q i Hi). reflexivity.
  Qed.

  Lemma rate_difference k (x y v v' : vec) : veq k v v' ->
    forall i, (i < k)%nat -> / dt * (x i - y i) = (x i - v i) / dt - (y i - v' i) / dt.
  Proof. intros H i Hi. rewrite (H i Hi). unfold Rdiv. ring. Qed.
  Lemma place_difference k (x y u u' : vec) : veq k u u' ->
    forall i, (i < k)%nat -> dt * (x i - y i) = (u i + dt * x i) - (u' i + dt * y i).
  Proof. intros H i Hi. rewrite (H i Hi). ring. Qed.

  Lemma dynamic_settled th ze mu la fi fo : elastic (pr_material pb) = Some (mu, la) -> viscous (pr_material pb) = Some (th, ze) ->
    0 < mass_density (pr_material pb) -> 0 <= mu -> 0 <= la -> 0 <= th -> 0 <= ze ->
    settled 2 (fun t a w y => moves coord2 zero2 m id (mass_density (pr_material pb)) th ze mu la (fi t) (fo t) a w y).
  Proof.
    intros EL VI RM M L T Z t u v u' v' x y QU QV TX TY SX SY.
    destruct (fixed_conds pb ic id g PO bt density ops RD 2) as (conds & MC & _ & _ & HP).
    pose proof (takes_difference 2 x y TX TY) as VN. set (z := fun i => x i - y i) in *.
    destruct (vanishing_gradients z) as (G & HG).
    set (ux := fun i => u i + dt * x i) in *. set (uy := fun i => u' i + dt * y i) in *.
    set (ax := fun i => (x i - v i) / dt) in *. set (ay := fun i => (y i - v' i) / dt) in *.
    destruct (vanishing_gradients x) as (H & HH1). destruct (vanishing_gradients y) as (H' & HH2).
    destruct (vanishing_gradients ux) as (K & HK1). destruct (vanishing_gradients uy) as (K' & HK2).
    pose proof (SX z G H K VN HG HH1 HK1) as E1. pose proof (SY z G H' K' VN HG HH2 HK2) as E2.
    rewrite mass_form, <- DN in E1, E2.
    rewrite (elastic_form mu la z ux G K EL HG HK1), (viscous_form th ze z x G H VI HG HH1) in E1.
    rewrite (elastic_form mu la z uy G K' EL HG HK2), (viscous_form th ze z y G H' VI HG HH2) in E2.
    fold m in E1, E2. fold N in E1, E2.
    pose proof (form_difference (2 * N) (some_mat (elasticity ops)) ux uy (fun i => dt * z i) z (place_difference _ x y u u' QU)) as F1.
    pose proof (form_difference (2 * N) (some_mat (viscosity ops)) x y z z (fun i _ => eq_refl)) as F2.
    pose proof (form_difference (2 * N) (acceleration_operator ops) ax ay (fun i => / dt * z i) z (rate_difference _ x y v v' QV)) as F3.
    rewrite form_scale in F1, F3. rewrite form_q in F1, F2, F3.
    pose proof (elastic_psd mu la EL M L z) as P1. pose proof (viscous_psd th ze VI T Z z) as P2.
    assert (0 <= dt * qform (2 * N) (some_mat (elasticity ops)) z) by (apply Rmult_le_pos; lra).
    assert (I0 : 0 < / dt) by (apply Rinv_0_lt_compat; exact Hdt).
    assert (ZZ : forall i, (i < 2 * N)%nat -> z i = 0).
    { apply (zero_or 2 conds (acceleration_operator ops)); auto; [apply mass_definite; exact RM|].
      destruct (Rle_or_lt (qform (2 * N) (acceleration_operator ops) z) 0) as [|Q]; [assumption|].
      pose proof (Rmult_lt_0_compat _ _ I0 Q). lra. }
    intros i Hi. specialize (ZZ i Hi). unfold z in ZZ. lra.
  Qed.

  Lemma quasistatic_settled th ze mu la fi fo : 
    clamped_mesh pb id ->
    elastic (pr_material pb) = Some (mu, la) -> viscous (pr_material pb) = Some (th, ze) ->
    0 <= mu -> 0 <= la -> 0 < th -> 0 <= ze ->
    settled 2 (fun t a w y => flows coord2 zero2 m id th ze mu la (fi t) (fo t) w y).
  Proof.
    intros HU EL VI M L T Z t u v u' v' x y QU QV TX TY SX SY.
    destruct (clamped_body HU) as (conds & MC & HH).
    pose proof (takes_difference 2 x y TX TY) as VN. set (z := fun i => x i - y i) in *.
    destruct (vanishing_gradients z) as (G & HG).
    set (ux := fun i => u i + dt * x i) in *. set (uy := fun i => u' i + dt * y i) in *.
    destruct (vanishing_gradients x) as (H & HH1). destruct (vanishing_gradients y) as (H' & HH2).
    destruct (vanishing_gradients ux) as (K & HK1). destruct (vanishing_gradients uy) as (K' & HK2).
    pose proof (SX z G H K VN HG HH1 HK1) as E1. pose proof (SY z G H' K' VN HG HH2 HK2) as E2.
    rewrite <- DN in E1, E2.
    rewrite (elastic_form mu la z ux G K EL HG HK1), (viscous_form th ze z x G H VI HG HH1) in E1.
    rewrite (elastic_form mu la z uy G K' EL HG HK2), (viscous_form th ze z y G H' VI HG HH2) in E2.
    fold m in E1, E2. fold N in E1, E2.
    pose proof (form_difference (2 * N) (some_mat (elasticity ops)) ux uy (fun i => dt * z i) z (place_difference _ x y u u' QU)) as F1.
    pose proof (form_difference (2 * N) (some_mat (viscosity ops)) x y z z (fun i _ => eq_refl)) as F2.
    rewrite form_scale in F1. rewrite form_q in F1, F2.
    pose proof (elastic_psd mu la EL M L z) as P1.
    assert (0 <= dt * qform (2 * N) (some_mat (elasticity ops)) z) by (apply Rmult_le_pos; lra).
    assert (ZZ : forall i, (i < 2 * N)%nat -> z i = 0).
    { apply (zero_or 2 conds (some_mat (viscosity ops))); auto; [apply (viscous_definite_free conds th ze); auto|lra]. }
    intros i Hi. specialize (ZZ i Hi). unfold z in ZZ. lra.
  Qed.

  Lemma wave_settled c fi fo : membrane (pr_material pb) = Some c -> 0 < mass_density (pr_material pb) ->
    settled 1 (fun t a w y => swings coord2 zero2 m id (mass_density (pr_material pb)) c (fi t) (fo t) a y).
  Proof.
    intros EL RM t u v u' v' x y QU QV TX TY SX SY. rewrite Nat.mul_1_l in *.
    destruct (fixed_conds pb ic id g PO bt density ops RD 1) as (conds & MC & _ & _ & HP).
    pose proof (takes_difference 1 x y TX TY) as VN. set (z := fun i => x i - y i) in *.
    destruct (vanishing_gradient z) as (G & HG).
    set (ux := fun i => u i + dt * x i) in *. set (uy := fun i => u' i + dt * y i) in *.
    set (ax := fun i => (x i - v i) / dt) in *. set (ay := fun i => (y i - v' i) / dt) in *.
    destruct (vanishing_gradient ux) as (K & HK1). destruct (vanishing_gradient uy) as (K' & HK2).
    pose proof (SX z G K VN HG HK1) as E1. pose proof (SY z G K' VN HG HK2) as E2.
    rewrite mass_form_scalar, <- DN in E1, E2.
    rewrite (membrane_form c z ux G K EL HG HK1) in E1.
    rewrite (membrane_form c z uy G K' EL HG HK2) in E2.
    fold m in E1, E2. fold N in E1, E2.
    pose proof (form_difference N (some_mat (poisson_operator ops)) ux uy (fun i => dt * z i) z (place_difference _ x y u u' QU)) as F1.
    pose proof (form_difference N (acceleration_operator ops) ax ay (fun i => / dt * z i) z (rate_difference _ x y v v' QV)) as F3.
    rewrite form_scale in F1, F3. rewrite form_q in F1, F3.
    pose proof (membrane_psd c EL z) as P1.
    assert (0 <= dt * qform N (some_mat (poisson_operator ops)) z) by (apply Rmult_le_pos; lra).
    assert (I0 : 0 < / dt) by (apply Rinv_0_lt_compat; exact Hdt).
    assert (ZZ : forall i, (i < 1 * N)%nat -> z i = 0).
    { apply (zero_or 1 conds (acceleration_operator ops)); rewrite ?Nat.mul_1_l; auto; [apply mass_definite; exact RM|].
      destruct (Rle_or_lt (qform N (acceleration_operator ops) z) 0) as [|Q]; [assumption|].
      pose proof (Rmult_lt_0_compat _ _ I0 Q). lra. }
    rewrite Nat.mul_1_l in ZZ. intros i Hi. specialize (ZZ i Hi). unfold z in ZZ. lra.
  Qed.

  Lemma creep_settled mu la (C : R -> tensor) fi fo :
    clamped_mesh pb id ->
    elastic (pr_material pb) = Some (mu, la) -> 0 < mu -> 0 <= la -> (forall t G, 0 <= memory_density (C t) G G) ->
    settled 2 (fun t a w y => creeps coord2 zero2 m id mu la (C t) (fi t) (fo t) y w).
  Proof.
    intros HU EL M L PC t u v u' v' x y QU QV TX TY SX SY.
    destruct (clamped_body HU) as (conds & MC & HH).
    pose proof (takes_difference 2 x y TX TY) as VN. set (z := fun i => x i - y i) in *.
    destruct (vanishing_gradients z) as (G & HG).
    set (ux := fun i => u i + dt * x i) in *. set (uy := fun i => u' i + dt * y i) in *.
    destruct (vanishing_gradients x) as (H & HH1). destruct (vanishing_gradients y) as (H' & HH2).
    destruct (vanishing_gradients ux) as (K & HK1). destruct (vanishing_gradients uy) as (K' & HK2).
    pose proof (SX z G H K VN HG HH1 HK1) as E1. pose proof (SY z G H' K' VN HG HH2 HK2) as E2.
    rewrite <- DN in E1, E2.
    rewrite (elastic_form mu la z x G H EL HG HH1) in E1. rewrite (elastic_form mu la z y G H' EL HG HH2) in E2.
    set (A := relaxation2 N (w_matrix2 points els density) (C t)).
    pose proof (proj1 (relaxation_2d N points els density (C t) (proj1 (plane pb ic id g PO bt density ops RD)))) as RF. cbv zeta in RF.
    change (forall v u G H, vector_gradient 2 N points els v G -> vector_gradient 2 N points els u H ->
      bilinear (2 * N) (2 * N) A v u = mesh_integral (element_area points) density els (fun e => memory_density (C t) (fun c => G c e) (fun c => H c e))) in RF.
    change (node_table coord2 zero2 (m_nodes m)) with points in E1, E2. change (m_elements m) with els in E1, E2.
    rewrite <- (RF z ux G K HG HK1), bilinear_sum in E1. rewrite <- (RF z uy G K' HG HK2), bilinear_sum in E2.
    pose proof (form_difference (2 * N) A ux uy (fun i => dt * z i) z (place_difference _ x y u u' QU)) as F1.
    pose proof (form_difference (2 * N) (some_mat (elasticity ops)) x y z z (fun i _ => eq_refl)) as F2.
    rewrite form_scale in F1. rewrite form_q in F1, F2.
    assert (P1 : 0 <= qform (2 * N) A z) by (apply memory_psd; apply PC).
    assert (0 <= dt * qform (2 * N) A z) by (apply Rmult_le_pos; lra).
    assert (ZZ : forall i, (i < 2 * N)%nat -> z i = 0).
    { apply (zero_or 2 conds (some_mat (elasticity ops))); auto; [apply (elastic_definite_free conds mu la); auto|lra]. }
    intros i Hi. specialize (ZZ i Hi). unfold z in ZZ. lra.
  Qed.
End Unique.
