(* C105: the passes of a coupled step as equations of AlternationProofs. *)
From Coq Require Import Reals List Arith ZArith Bool String Lia Lra.
From Verif Require Import Common PyModel RVec LinAlg MeshModel MeshBuildModel MeshSpec NormalsModel
  DofModel DofSpec DirichletModel DirichletSpec DirichletProofs
  FemModel FemSpec FemAssemblyProofs FemFormProofs FemBasicProofs FemMeshProofs ForcesModel ForcesSpec
  StatementModel StatementSpec StatementProofs StatementValueProofs StatementLawProofs
  ProblemModel ProblemSpec ProblemProofs ProblemReady ProblemTheorems ProblemUnique
  CoupledSpec CoupledProblemSpec ElectrodeProofs CoupledProblemTheorems CoupledProblemTotal AlternationProofs CoupledLimitSpec.
Import ListNotations.
Local Open Scope string_scope.
Local Open Scope list_scope.
Local Open Scope R_scope.

Lemma cross_term x y t : 0 <= x -> 0 <= y -> t ^ 2 <= x * y -> 2 * t <= x + y.
Proof.
  intros X Y T. assert (D : 0 <= (x - y) ^ 2) by apply pow2_ge_0.
  destruct (Rle_or_lt (2 * t) (x + y)) as [|L]; [assumption|]. exfalso. nra.
Qed.

(* Cauchy and Schwarz *)
Lemma integral_cs (w p a b : list nat -> R) els :
  (forall e, In e els -> 0 <= w e /\ 0 <= a e /\ 0 <= b e /\ p e ^ 2 <= a e * b e) ->
  integral w els p ^ 2 <= integral w els a * integral w els b /\ 0 <= integral w els a /\ 0 <= integral w els b.
Proof.
  unfold integral. induction els as [|e els IH]; intros H; cbn [lsum]; [split; [cbn; lra|split; lra]|].
  destruct (H e (or_introl eq_refl)) as (W & A & B & PQ). destruct (IH (fun e I => H e (or_intror I))) as (I1 & I2 & I3). clear IH.
  set (sp := lsum els (fun e => w e * p e)) in *. set (sa := lsum els (fun e => w e * a e)) in *. set (sb := lsum els (fun e => w e * b e)) in *.
  assert (P1 : 0 <= w e * a e) by (apply Rmult_le_pos; assumption). assert (P2 : 0 <= w e * b e) by (apply Rmult_le_pos; assumption).
  split; [|split; lra].
  assert (C : 2 * (w e * p e * sp) <= sa * (w e * b e) + w e * a e * sb).
  { apply cross_term; [apply Rmult_le_pos; assumption|apply Rmult_le_pos; assumption|].
    assert (Q1 : (w e * p e) ^ 2 <= w e * a e * (w e * b e)).
    { replace ((w e * p e) ^ 2) with (w e ^ 2 * p e ^ 2) by ring. replace (w e * a e * (w e * b e)) with (w e ^ 2 * (a e * b e)) by ring.
      apply Rmult_le_compat_l; [nra|exact PQ]. }
    replace ((w e * p e * sp) ^ 2) with ((w e * p e) ^ 2 * sp ^ 2) by ring.
    replace (sa * (w e * b e) * (w e * a e * sb)) with (w e * a e * (w e * b e) * (sa * sb)) by ring.
    apply Rmult_le_compat; [apply pow2_ge_0|apply pow2_ge_0|exact Q1|exact I1]. }
  assert (Q2 : (w e * p e) ^ 2 <= w e * a e * (w e * b e)).
  { replace ((w e * p e) ^ 2) with (w e ^ 2 * p e ^ 2) by ring. replace (w e * a e * (w e * b e)) with (w e ^ 2 * (a e * b e)) by ring.
    apply Rmult_le_compat_l; [nra|exact PQ]. }
  nra.
Qed.

Lemma mean_square e y : mean_value 2 e y ^ 2 <= mean_product 2 (fun k => y (nth k e 0%nat)) (fun k => y (nth k e 0%nat)).
Proof.
  unfold mean_value, mean_product. cbn [sum INR]. set (a := y (nth 0 e 0%nat)). set (b := y (nth 1 e 0%nat)). set (c := y (nth 2 e 0%nat)).
  assert (0 <= (a - b) ^ 2) by apply pow2_ge_0. assert (0 <= (b - c) ^ 2) by apply pow2_ge_0. assert (0 <= (c - a) ^ 2) by apply pow2_ge_0.
  nra.
Qed.
Lemma elastic_nonneg mu la (H : nat -> vec) : 0 <= mu -> 0 <= la -> 0 <= elastic_density 2 mu la H H.
Proof.
  intros M L. unfold elastic_density. apply Rplus_le_le_0_compat.
  - apply Rmult_le_pos; [lra|]. apply sum_nonneg. intros; apply sum_nonneg; intros. nra.
  - apply Rmult_le_pos; [exact L|]. nra.
Qed.

Section Weak.
  Variables (pb : problem) (ic id : P2 -> bool) (g : P2 -> R).
  Hypothesis PO : posed pb ic id g.
  Variables (bt : built) (ops : FemModel.operators).
  Hypothesis RD : ready pb bt None ops.
  Notation m := (bt_mesh bt).
  Notation N := (List.length (m_nodes m)).
  Notation points := (node_table coord2 zero2 (m_nodes m)).
  Notation els := (m_elements m).
  Notation dt := (time_step_of pb).
  Notation rho := (mass_density (pr_material pb)).
  Variables fi fo : P2 -> R -> vec.
  Notation loads := (nodal_load m (bt_basic bt) fi fo).
  Notation Ma := (acceleration_operator ops).
  Notation Vi := (some_mat (viscosity ops)).
  Notation El := (some_mat (elasticity ops)).
  Notation Ex := (some_mat (thermal_expansion ops)).
  Notation Co := (some_mat (thermal_conductivity ops)).
  Notation Pz := (some_mat (piezoelectricity ops)).
  Notation Pm := (some_mat (permittivity ops)).

  (* the dofs of fixed nodes and their values *)
  Definition fixed_dof (dim : nat) (d : nat) (v : R) : Prop :=
    exists n k p, fixed_node m id n /\ (k < dim)%nat /\ nth_error (m_nodes m) n = Some p /\ d = (k * N + n)%nat /\ v = g p.

  Lemma fixed_node_point n : fixed_node m id n -> exists p, nth_error (m_nodes m) n = Some p.
  Proof. intros (_ & p & E & _). eauto. Qed.
  Lemma takes_dof dim x : takes m id dim g x <-> forall d v, fixed_dof dim d v -> x d = v.
  Proof.
    split.
    - intros T d v (n & k & p & F & K & E & -> & ->). exact (T n k p F K E).
    - intros H n k p F K E. apply H. exists n, k, p. repeat split; auto; apply F.
  Qed.
  Lemma vanishes_dof dim z : vanishes m id dim z <-> forall d v, fixed_dof dim d v -> z d = 0.
  Proof.
    split.
    - intros T d v (n & k & p & F & K & E & -> & _). exact (T n k F K).
    - intros H n k F K. destruct (fixed_node_point n F) as (p & E). apply (H _ (g p)). exists n, k, p. repeat split; auto; apply F.
  Qed.
  Lemma fixed_dof_range dim d v : fixed_dof dim d v -> (d < dim * N)%nat.
  Proof.
    intros (n & k & p & _ & K & E & -> & _). assert (n < N)%nat by (apply nth_error_Some; congruence). nia.
  Qed.
  Lemma fixed_dof_one dim d v w : fixed_dof dim d v -> fixed_dof dim d w -> v = w.
  Proof.
    intros (n & k & p & _ & K & E & -> & ->) (n' & k' & p' & _ & K' & E' & D & ->).
    assert (n < N)%nat by (apply nth_error_Some; congruence). assert (n' < N)%nat by (apply nth_error_Some; congruence).
    destruct (Nat.div_mod_unique N k k' n n') as (_ & ->); [assumption|assumption|lia|]. congruence.
  Qed.
  Lemma definite_dof dim conds A : mesh_conditions m dim "dirichlet" = Ok conds -> definite_free (dim * N) conds A -> free_definite (dim * N) A (fixed_dof dim).
  Proof.
    intros MC D x H0 Hx. destruct (fixed_conds pb ic id g PO bt None ops RD dim) as (conds' & MC' & _ & _ & HP).
    rewrite MC in MC'. injection MC' as <-. apply D; [|exact Hx]. intros d v X. apply (H0 d v). apply HP in X. exact X.
  Qed.

  (* matrices of the steps *)
  Definition motion_matrix : mat := fun i j => Ma i j * (1 / dt) + Vi i j + El i j * dt.
  Definition creep_matrix : mat := fun i j => Vi i j + El i j * dt.
  Definition heat_matrix : mat := fun i j => Ma i j * (1 / dt) + Co i j.

  Lemma bilinear_lin n k (A B : mat) a y x : bilinear n k (fun i j => A i j + B i j * a) y x = bilinear n k A y x + a * bilinear n k B y x.
  Proof.
    unfold bilinear. rewrite <- sum_scal, <- sum_plus. apply sum_ext. intros i _. rewrite <- sum_scal, <- sum_plus. apply sum_ext. intros j _. ring.
  Qed.
  Lemma bilinear_motion y x : bilinear (2 * N) (2 * N) motion_matrix y x =
    bilinear (2 * N) (2 * N) Ma y x / dt + bilinear (2 * N) (2 * N) Vi y x + dt * bilinear (2 * N) (2 * N) El y x.
  Proof.
    unfold motion_matrix. rewrite (bilinear_lin _ _ (fun i j => Ma i j * (1 / dt) + Vi i j) El).
    rewrite (bilinear_ext _ _ (fun i j => Ma i j * (1 / dt) + Vi i j) (fun i j => Vi i j + Ma i j * (1 / dt))) by (intros i j _ _; ring).
    rewrite bilinear_lin. unfold Rdiv. ring.
  Qed.
  Lemma bilinear_creep y x : bilinear (2 * N) (2 * N) creep_matrix y x = bilinear (2 * N) (2 * N) Vi y x + dt * bilinear (2 * N) (2 * N) El y x.
  Proof. apply bilinear_lin. Qed.
  Lemma bilinear_heat y x : bilinear N N heat_matrix y x = bilinear N N Ma y x / dt + bilinear N N Co y x.
  Proof.
    unfold heat_matrix. rewrite (bilinear_ext _ _ _ (fun i j => Co i j + Ma i j * (1 / dt))) by (intros i j _ _; ring). rewrite bilinear_lin. unfold Rdiv. ring.
  Qed.

  (* forms of the works *)
  Lemma mass_is v a : inertia_work coord2 zero2 m 2 rho a v = bilinear (2 * N) (2 * N) Ma v a.
  Proof. rewrite (mass_form pb ic id g PO bt None ops RD), bilinear_sum. reflexivity. Qed.
  Lemma mass1_is v a : inertia_work coord2 zero2 m 1 rho a v = bilinear N N Ma v a.
  Proof. rewrite (mass_form_scalar pb ic id g PO bt None ops RD), bilinear_sum. reflexivity. Qed.
  Lemma viscous_is th ze v u G H : viscous (pr_material pb) = Some (th, ze) -> gradients coord2 zero2 m v G -> gradients coord2 zero2 m u H ->
    stress_work coord2 zero2 m None th ze G H = bilinear (2 * N) (2 * N) Vi v u.
  Proof. intros E HG HH. rewrite (viscous_form pb ic id g PO bt None ops RD th ze v u G H E HG HH), bilinear_sum. reflexivity. Qed.
  Lemma elastic_is mu la v u G H : elastic (pr_material pb) = Some (mu, la) -> gradients coord2 zero2 m v G -> gradients coord2 zero2 m u H ->
    stress_work coord2 zero2 m None mu la G H = bilinear (2 * N) (2 * N) El v u.
  Proof. intros E HG HH. rewrite (elastic_form pb ic id g PO bt None ops RD mu la v u G H E HG HH), bilinear_sum. reflexivity. Qed.

  Lemma grads z : exists G, gradients coord2 zero2 m z G.
  Proof. exact (vanishing_gradients pb ic id g PO bt None ops RD z). Qed.
  Lemma grad z : exists G, gradient coord2 zero2 m z G.
  Proof. exact (vanishing_gradient pb ic id g PO bt None ops RD z). Qed.

  Lemma bilinear_rate n A z (x v : vec) : bilinear n n A z (fun i => (x i - v i) / dt) = bilinear n n A z x / dt - dot n z (fun i => mv n A v i / dt).
  Proof.
    unfold dot, Rdiv. rewrite <- (sum_ext n (fun i => z i * mv n A v i * / dt) (fun i => z i * (mv n A v i * / dt))) by (intros; ring).
    rewrite sum_scal_r. change (sum n (fun i => z i * mv n A v i)) with (dot n z (mv n A v)). rewrite <- bilinear_dot.
    unfold bilinear. rewrite <- Rmult_minus_distr_r. rewrite <- sum_minus, <- sum_scal_r. apply sum_ext. intros i _.
    rewrite <- sum_minus, <- sum_scal_r. apply sum_ext. intros j _. ring.
  Qed.
  Lemma bilinear_place n k A z (u x : vec) : bilinear n k A z (fun i => u i + dt * x i) = bilinear n k A z u + dt * bilinear n k A z x.
  Proof.
    unfold bilinear. rewrite <- sum_scal, <- sum_plus. apply sum_ext. intros i _. rewrite <- sum_scal, <- sum_plus. apply sum_ext. intros j _. ring.
  Qed.

  (* right hand sides *)
  Definition momentum_load (t : R) (u v : vec) : vec := fun i => loads t i + mv (2 * N) Ma v i / dt - mv (2 * N) El u i.
  Definition creep_load (t : R) (u : vec) : vec := fun i => loads t i - mv (2 * N) El u i.
  Definition heat_load (e : vec) : vec := fun i => mv N Ma e i / dt.
  Definition potential_load (u : vec) : vec := fun i => mv (2 * N) Pz u i.

  Lemma dot_parts3 n (z a b c : vec) : dot n z (fun i => a i + b i - c i) = dot n z a + dot n z b - dot n z c.
  Proof. unfold dot. rewrite <- sum_plus, <- sum_minus. apply sum_ext. intros; ring. Qed.
  Lemma dot_parts2 n (z a c : vec) : dot n z (fun i => a i - c i) = dot n z a - dot n z c.
  Proof. unfold dot. rewrite <- sum_minus. apply sum_ext. intros; ring. Qed.
  Lemma loads_dot t z : dot (2 * N) z (loads t) = load_work coord2 zero2 m 2 (fun p => fi p t) (fun p => fo p t) z.
  Proof. exact (loads_work pb ic id g PO bt None ops RD 2 fi fo t z). Qed.

  Section Material.
  Variables (th ze mu la : R).
  Hypothesis EL : elastic (pr_material pb) = Some (mu, la).
  Hypothesis VI : viscous (pr_material pb) = Some (th, ze).

  Section Heat.
  Variables (ex co : nat -> nat -> R).
  Hypothesis TH : thermal (pr_material pb) = Some (ex, co).

  Lemma momentum_weak t u v y x : momentum_step m id g rho th ze mu la ex fi fo dt t u v y x <->
    first_eq (2 * N) N motion_matrix Ex (fixed_dof 2) 1 (fun z => dot (2 * N) z (momentum_load t u v)) y x.
  Proof.
    assert (Q : forall z G H K, gradients coord2 zero2 m z G -> gradients coord2 zero2 m x H -> gradients coord2 zero2 m (fun i => u i + dt * x i) K ->
      inertia_work coord2 zero2 m 2 rho (fun i => (x i - v i) / dt) z + stress_work coord2 zero2 m None th ze G H + stress_work coord2 zero2 m None mu la G K
      - (load_work coord2 zero2 m 2 (fun p => fi p t) (fun p => fo p t) z + expansion_work coord2 zero2 m ex y G)
      = bilinear (2 * N) (2 * N) motion_matrix z x - (dot (2 * N) z (momentum_load t u v) + 1 * bilinear N (2 * N) Ex y z)).
    { intros z G H K HG HH HK. rewrite mass_is, bilinear_rate, (viscous_is th ze z x G H VI HG HH), (elastic_is mu la z _ G K EL HG HK), bilinear_place.
      rewrite <- (expansion_is pb ic id g PO bt ops RD ex co y z G TH HG), <- loads_dot, bilinear_motion.
      unfold momentum_load. rewrite dot_parts3. rewrite (bilinear_dot _ _ El z u). ring. }
    split.
    - intros (T & B). split; [apply takes_dof; exact T|]. intros z VZ. destruct (grads z) as (G & HG). destruct (grads x) as (H & HH).
      destruct (grads (fun i => u i + dt * x i)) as (K & HK). apply vanishes_dof in VZ. assert (E := B z G H K VZ HG HH HK). specialize (Q z G H K HG HH HK). lra.
    - intros (T & B). split; [apply takes_dof; exact T|]. intros z G H K VZ HG HH HK. assert (E := B z (proj1 (vanishes_dof 2 z) VZ)). specialize (Q z G H K HG HH HK). cbv beta in E. lra.
  Qed.

  Lemma heat_weak u x e y : heat_step m id g rho ex co dt u x e y <->
    second_eq (2 * N) N heat_matrix Ex (fixed_dof 1) (-1) (fun z => dot N z (heat_load e)) x y.
  Proof.
    assert (Q : forall z G H K, gradient coord2 zero2 m z G -> gradient coord2 zero2 m y H -> gradients coord2 zero2 m x K ->
      inertia_work coord2 zero2 m 1 rho (fun i => (y i - e i) / dt) z + conduction_work coord2 zero2 m co G H - - expansion_work coord2 zero2 m ex z K
      = bilinear N N heat_matrix z y - (dot N z (heat_load e) + -1 * bilinear N (2 * N) Ex z x)).
    { intros z G H K HG HH HK. rewrite mass1_is, bilinear_rate, <- (conduction_is pb ic id g PO bt ops RD ex co z y G H TH HG HH).
      rewrite <- (expansion_is pb ic id g PO bt ops RD ex co z x K TH HK), bilinear_heat. unfold heat_load. ring. }
    split.
    - intros (T & B). split; [apply takes_dof; exact T|]. intros z VZ. destruct (grad z) as (G & HG). destruct (grad y) as (H & HH). destruct (grads x) as (K & HK).
      apply vanishes_dof in VZ. assert (E := B z G H K VZ HG HH HK). specialize (Q z G H K HG HH HK). lra.
    - intros (T & B). split; [apply takes_dof; exact T|]. intros z G H K VZ HG HH HK. assert (E := B z (proj1 (vanishes_dof 1 z) VZ)). specialize (Q z G H K HG HH HK). cbv beta in E. lra.
  Qed.

  Lemma heat_energy_is y E : heat_energy m rho co dt y E <-> E = qform N heat_matrix y.
  Proof.
    rewrite <- bilinear_q, bilinear_heat. split.
    - intros (G & HG & ->). rewrite mass1_is, (conduction_is pb ic id g PO bt ops RD ex co y y G G TH HG HG). reflexivity.
    - intros ->. destruct (grad y) as (G & HG). exists G. split; [exact HG|]. rewrite mass1_is, (conduction_is pb ic id g PO bt ops RD ex co y y G G TH HG HG). reflexivity.
  Qed.
  End Heat.

  Lemma motion_energy_is z E : motion_energy m rho th ze mu la dt z E <-> E = qform (2 * N) motion_matrix z.
  Proof.
    rewrite <- bilinear_q, bilinear_motion. split.
    - intros (G & HG & ->). rewrite mass_is, (viscous_is th ze z z G G VI HG HG), (elastic_is mu la z z G G EL HG HG). reflexivity.
    - intros ->. destruct (grads z) as (G & HG). exists G. split; [exact HG|].
      rewrite mass_is, (viscous_is th ze z z G G VI HG HG), (elastic_is mu la z z G G EL HG HG). reflexivity.
  Qed.
  Lemma creep_energy_is z E : creep_energy m th ze mu la dt z E <-> E = qform (2 * N) creep_matrix z.
  Proof.
    rewrite <- bilinear_q, bilinear_creep. split.
    - intros (G & HG & ->). rewrite (viscous_is th ze z z G G VI HG HG), (elastic_is mu la z z G G EL HG HG). reflexivity.
    - intros ->. destruct (grads z) as (G & HG). exists G. split; [exact HG|].
      rewrite (viscous_is th ze z z G G VI HG HG), (elastic_is mu la z z G G EL HG HG). reflexivity.
  Qed.

  Section Piezo.
  Variables (pz : nat -> nat -> nat -> R) (pm : nat -> nat -> R).
  Hypothesis PZ : piezo (pr_material pb) = Some (pz, pm).
  Variable es : list ((P2 -> bool) * (P2 -> R)).

  Lemma creep_weak t u v y x : creep_step m id g th ze mu la pz fi fo dt t u v y x <->
    first_eq (2 * N) N creep_matrix Pz (fixed_dof 2) (-1) (fun z => dot (2 * N) z (creep_load t u)) y x.
  Proof.
    assert (Q : forall z G H K Y, gradients coord2 zero2 m z G -> gradients coord2 zero2 m x H -> gradients coord2 zero2 m (fun i => u i + dt * x i) K ->
      gradient coord2 zero2 m y Y ->
      stress_work coord2 zero2 m None th ze G H + stress_work coord2 zero2 m None mu la G K + piezo_work coord2 zero2 m pz Y G
      - load_work coord2 zero2 m 2 (fun p => fi p t) (fun p => fo p t) z
      = bilinear (2 * N) (2 * N) creep_matrix z x - (dot (2 * N) z (creep_load t u) + -1 * bilinear N (2 * N) Pz y z)).
    { intros z G H K Y HG HH HK HY. rewrite (viscous_is th ze z x G H VI HG HH), (elastic_is mu la z _ G K EL HG HK), bilinear_place.
      rewrite <- (piezo_is pb ic id g PO bt ops RD pz pm y z Y G PZ HY HG), <- loads_dot, bilinear_creep.
      unfold creep_load. rewrite dot_parts2. rewrite (bilinear_dot _ _ El z u). ring. }
    split.
    - intros (T & B). split; [apply takes_dof; exact T|]. intros z VZ. destruct (grads z) as (G & HG). destruct (grads x) as (H & HH).
      destruct (grads (fun i => u i + dt * x i)) as (K & HK). destruct (grad y) as (Y & HY). apply vanishes_dof in VZ.
      assert (E := B z G H K Y VZ HG HH HK HY). specialize (Q z G H K Y HG HH HK HY). lra.
    - intros (T & B). split; [apply takes_dof; exact T|]. intros z G H K Y VZ HG HH HK HY.
      assert (E := B z (proj1 (vanishes_dof 2 z) VZ)). specialize (Q z G H K Y HG HH HK HY). cbv beta in E. lra.
  Qed.

  Lemma motion_weak t u v y x : motion_step m id g rho th ze mu la fi fo dt t u v y x <->
    weakly (2 * N) motion_matrix (fixed_dof 2) (fun z => dot (2 * N) z (momentum_load t u v)) x.
  Proof.
    assert (Q : forall z G H K, gradients coord2 zero2 m z G -> gradients coord2 zero2 m x H -> gradients coord2 zero2 m (fun i => u i + dt * x i) K ->
      inertia_work coord2 zero2 m 2 rho (fun i => (x i - v i) / dt) z + stress_work coord2 zero2 m None th ze G H + stress_work coord2 zero2 m None mu la G K
      - load_work coord2 zero2 m 2 (fun p => fi p t) (fun p => fo p t) z
      = bilinear (2 * N) (2 * N) motion_matrix z x - dot (2 * N) z (momentum_load t u v)).
    { intros z G H K HG HH HK. rewrite mass_is, bilinear_rate, (viscous_is th ze z x G H VI HG HH), (elastic_is mu la z _ G K EL HG HK), bilinear_place.
      rewrite <- loads_dot, bilinear_motion. unfold momentum_load. rewrite dot_parts3. rewrite (bilinear_dot _ _ El z u). ring. }
    split.
    - intros (T & B). split; [apply takes_dof; exact T|]. intros z VZ. destruct (grads z) as (G & HG). destruct (grads x) as (H & HH).
      destruct (grads (fun i => u i + dt * x i)) as (K & HK). apply vanishes_dof in VZ. assert (E := B z G H K VZ HG HH HK). specialize (Q z G H K HG HH HK). lra.
    - intros (T & B). split; [apply takes_dof; exact T|]. intros z G H K VZ HG HH HK. assert (E := B z (proj1 (vanishes_dof 2 z) VZ)). specialize (Q z G H K HG HH HK). cbv beta in E. lra.
  Qed.

  Lemma electrode_range n v : at_electrode m es n v -> (n < N)%nat.
  Proof. intros (_ & _ & _ & p & _ & _ & _ & _ & E & _). apply nth_error_Some. congruence. Qed.

  (* the displacement is u + dt x *)
  Lemma potential_weak u x e y : potential_step m es pz pm (fun i => u i + dt * x i) x e y <->
    second_eq (2 * N) N Pm Pz (at_electrode m es) dt (fun z => dot N z (potential_load u)) x y.
  Proof.
    assert (Q : forall z G H K, gradient coord2 zero2 m z G -> gradient coord2 zero2 m y H -> gradients coord2 zero2 m (fun i => u i + dt * x i) K ->
      conduction_work coord2 zero2 m pm G H - piezo_work coord2 zero2 m pz G K
      = bilinear N N Pm z y - (dot N z (potential_load u) + dt * bilinear N (2 * N) Pz z x)).
    { intros z G H K HG HH HK. rewrite <- (permittivity_is pb ic id g PO bt ops RD pz pm z y G H PZ HG HH).
      rewrite <- (piezo_is pb ic id g PO bt ops RD pz pm z _ G K PZ HG HK), bilinear_place. unfold potential_load. rewrite (bilinear_dot _ _ Pz z u). unfold dot. ring. }
    split.
    - intros (T & B). split; [exact T|]. intros z VZ. destruct (grad z) as (G & HG). destruct (grad y) as (H & HH). destruct (grads (fun i => u i + dt * x i)) as (K & HK).
      assert (VZ' : forall n, (n < N)%nat -> (exists w, at_electrode m es n w) -> z n = 0) by (intros n _ (w & A); exact (VZ n w A)).
      assert (E := B z G H K VZ' HG HH HK). specialize (Q z G H K HG HH HK). lra.
    - intros (T & B). split; [exact T|]. intros z G H K VZ HG HH HK.
      assert (VZ' : forall n w, at_electrode m es n w -> z n = 0) by (intros n w A; apply VZ; [exact (electrode_range n w A)|eauto]).
      assert (E := B z VZ'). specialize (Q z G H K HG HH HK). cbv beta in E. lra.
  Qed.

  Lemma potential_energy_is y E : potential_energy m pm y E <-> E = qform N Pm y.
  Proof.
    rewrite <- bilinear_q. split.
    - intros (G & HG & ->). symmetry. exact (permittivity_is pb ic id g PO bt ops RD pz pm y y G G PZ HG HG).
    - intros ->. destruct (grad y) as (G & HG). exists G. split; [exact HG|]. exact (permittivity_is pb ic id g PO bt ops RD pz pm y y G G PZ HG HG).
  Qed.
  End Piezo.
  End Material.
End Weak.
