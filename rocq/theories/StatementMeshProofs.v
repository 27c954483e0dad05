(* The statements with the finite element operators of a mesh: C31, C32, C72. *)
From Coq Require Import Reals List Arith ZArith Bool String Lia Lra.
From Verif Require Import Common PyModel RVec LinAlg MeshModel MeshBuildModel MeshSpec DofModel DofSpec
  DirichletModel DirichletSpec DirichletProofs DirichletMeshProofs
  FemModel FemSpec FemPipelineProofs FemFinalProofs FemBuildProofs FemKornProofs
  StatementModel StatementSpec StatementProofs StatementValueProofs StatementLawProofs StatementEnergyProofs.
Import ListNotations.
Local Open Scope string_scope.
Local Open Scope list_scope.
Local Open Scope R_scope.

Definition dynamic_kind (k : kind) : Prop :=
  match k with
  | DynamicVelocity | DynamicVelocityWithTemperature | DynamicVelocityWithPiezoelectric => True
  | _ => False
  end.
Definition quasistatic_kind (k : kind) : Prop :=
  match k with QuasistaticVelocity | QuasistaticVelocityWithPiezoelectric => True | _ => False end.

(* both components of plane node i are prescribed *)
Definition clamped (N : nat) (conds : list condition) (i : nat) : Prop :=
  (exists v, prescribed conds i v) /\ (exists v, prescribed conds (N + i)%nat v).
Definition grounded (conds : list condition) (i : nat) : Prop := exists v, prescribed conds i v.

Lemma positive_nonneg density : positive_density density -> nonneg_density density.
Proof. destruct density; simpl; auto. intros H k. left. auto. Qed.

Section Plane.
  Variables (N : nat) (nodes : nat -> vec) (els : list (list nat)) (mp : properties)
    (density : option (nat -> R)) (ops : operators) (p : physics) (conds : list condition).
  Hypothesis HT : triangles N nodes els.
  Hypothesis HO : reinitialize_matrices N nodes els mp density = Ok ops.
  Hypothesis HN : ph_N p = N.
  Hypothesis Hn : ph_n p = (2 * N)%nat.

  Lemma dynamic_2d k th ze mu la : dynamic_kind k ->
    (forall i, (i < N)%nat -> referenced els i) -> 0 < mass_density mp -> nonneg_density density ->
    viscous mp = Some (th, ze) -> 0 <= th -> 0 <= ze -> elastic mp = Some (mu, la) -> 0 <= mu -> 0 <= la ->
    mass p = acceleration_operator ops -> viscosity ops = Some (damping p) ->
    elasticity ops = Some (stiffness p) -> stable_kind p conds k.
  Proof.
    intros Hk HR Hm HD HV Ht Hz HE Hmu Hla M C E.
    assert (G : definite_free (ph_n p) conds (mass p) /\ pos_semidef (ph_n p) (damping p) /\
      pos_semidef (ph_n p) (stiffness p)).
    { rewrite Hn, M. split; [|split].
      - apply pos_def_free. apply (mass_block_2d N nodes els mp density ops HT HO HR Hm).
      - destruct (viscosity2_all N nodes els mp density ops th ze _ HT HO HV C) as (_ & _ & H & _). auto.
      - destruct (elasticity2_all N nodes els mp density ops HT HO mu la _ HE E) as (_ & _ & H & _). auto. }
    destruct k; simpl in Hk; try contradiction; exact G.
  Qed.

  Lemma wave_2d c : (forall i, (i < N)%nat -> referenced els i) -> 0 < mass_density mp ->
    nonneg_density density -> membrane mp = Some c ->
    mass p = acceleration_operator ops -> poisson_operator ops = Some (laplace p) -> stable_kind p conds Wave.
  Proof.
    intros HR Hm HD Hc M L. simpl. rewrite HN, M. split.
    - apply pos_def_free, (pos_def_block (2 * N)); [clear Hn; lia|].
      apply (mass_block_2d N nodes els mp density ops HT HO HR Hm).
    - apply (poisson2_all N nodes els mp density ops c _ HT HO Hc L HD).
  Qed.

  Lemma temperature_2d ex co : (forall i, (i < N)%nat -> referenced els i) -> 0 < mass_density mp ->
    nonneg_density density -> thermal mp = Some (ex, co) ->
    (forall v, 0 <= sum 2 (fun k => sum 2 (fun l => co k l * (v k * v l)))) ->
    mass p = acceleration_operator ops -> thermal_conductivity ops = Some (conduction p) ->
    stable_kind p conds Temperature.
  Proof.
    intros HR Hm HD Hc PC M L. simpl. rewrite HN, M. split.
    - apply pos_def_free, (pos_def_block (2 * N)); [clear Hn; lia|].
      apply (mass_block_2d N nodes els mp density ops HT HO HR Hm).
    - destruct (conductivity2_all N nodes els mp density ops ex co _ HT HO Hc L) as (_ & _ & H). auto.
  Qed.

  Lemma elastic_free mu la A : (forall i, (i < N)%nat -> held (clamped N conds) els i) ->
    positive_density density -> 0 < mu -> 0 <= la ->
    (forall v u G H, vector_gradient 2 N nodes els v G -> vector_gradient 2 N nodes els u H ->
      bilinear (2 * N) (2 * N) A v u = mesh_integral (element_area nodes) density els (fun e =>
        elastic_density 2 mu la (fun c => G c e) (fun c => H c e))) ->
    definite_free (2 * N) conds A.
  Proof.
    intros HH HD Hmu Hla HF x H0 Hx.
    apply (elastic_definite N nodes els density mu la A HT HD Hmu Hla HF (clamped N conds) HH); auto.
    intros i [[v Hv] [v' Hv']]. split; eapply H0; eauto.
  Qed.

  Lemma static_2d mu la : (forall i, (i < N)%nat -> held (clamped N conds) els i) ->
    positive_density density -> elastic mp = Some (mu, la) -> 0 < mu -> 0 <= la ->
    elasticity ops = Some (stiffness p) -> stable_kind p conds StaticDisplacement.
  Proof.
    intros HH HD HE Hmu Hla E. simpl. rewrite Hn.
    destruct (elasticity2_all N nodes els mp density ops HT HO mu la _ HE E) as (HF & _).
    apply (elastic_free mu la); auto.
  Qed.

  Lemma relaxation_2d mu la : (forall i, (i < N)%nat -> held (clamped N conds) els i) ->
    positive_density density -> elastic mp = Some (mu, la) -> 0 < mu -> 0 <= la ->
    elasticity ops = Some (stiffness p) -> pos_semidef (2 * N) (memory p) ->
    stable_kind p conds QuasistaticRelaxation.
  Proof.
    intros HH HD HE Hmu Hla E HM. split; [|rewrite Hn; exact HM].
    exact (static_2d mu la HH HD HE Hmu Hla E).
  Qed.

  Lemma quasistatic_2d k th ze mu la : quasistatic_kind k ->
    (forall i, (i < N)%nat -> held (clamped N conds) els i) ->
    positive_density density -> viscous mp = Some (th, ze) -> 0 < th -> 0 <= ze ->
    elastic mp = Some (mu, la) -> 0 <= mu -> 0 <= la ->
    viscosity ops = Some (damping p) -> elasticity ops = Some (stiffness p) -> stable_kind p conds k.
  Proof.
    intros Hk HH HD HV Ht Hz HE Hmu Hla C E.
    assert (G : definite_free (ph_n p) conds (damping p) /\ pos_semidef (ph_n p) (stiffness p)).
    { rewrite Hn. split.
      - destruct (viscosity2_all N nodes els mp density ops th ze _ HT HO HV C) as (HF & _).
        apply (elastic_free th ze); auto.
      - destruct (elasticity2_all N nodes els mp density ops HT HO mu la _ HE E) as (_ & _ & H & _).
        auto using positive_nonneg. }
    destruct k; simpl in Hk; try contradiction; exact G.
  Qed.

  Lemma poisson_2d c : (forall i, (i < N)%nat -> tied (grounded conds) els i) ->
    positive_density density -> membrane mp = Some c -> c <> 0 ->
    poisson_operator ops = Some (laplace p) -> stable_kind p conds StaticPoisson.
  Proof.
    intros HH HD Hc C0 L x H0 Hx. rewrite HN in *.
    apply (poisson2_definite N nodes els mp density ops c _ HT HO Hc L HD C0 (grounded conds) HH); auto.
    intros i [v Hv]. eapply H0; eauto.
  Qed.

  Lemma potential_2d pz pm c : (forall i, (i < N)%nat -> tied (grounded conds) els i) ->
    positive_density density -> piezo mp = Some (pz, pm) -> 0 < c ->
    (forall v, c * sum 2 (fun k => v k * v k) <= sum 2 (fun k => sum 2 (fun l => pm k l * (v k * v l)))) ->
    permittivity ops = Some (dielectric p) -> stable_kind p conds Piezoelectric.
  Proof.
    intros HH HD Hc C0 HB L x H0 Hx. rewrite HN in *.
    apply (permittivity2_definite N nodes els mp density ops pz pm _ c HT HO Hc L HD C0 HB (grounded conds) HH); auto.
    intros i [v Hv]. eapply H0; eauto.
  Qed.
End Plane.

Section Space.
  Variables (N : nat) (nodes : nat -> vec) (els : list (list nat)) (mp : properties)
    (density : option (nat -> R)) (ops : operators) (p : physics) (conds : list condition).
  Hypothesis HT : tetrahedra N nodes els.
  Hypothesis HO : reinitialize_matrices N nodes els mp density = Ok ops.
  Hypothesis HN : ph_N p = N.

  Lemma wave_3d c : (forall i, (i < N)%nat -> referenced els i) -> 0 < mass_density mp ->
    membrane mp = Some c ->
    mass p = acceleration_operator ops -> poisson_operator ops = Some (laplace p) -> stable_kind p conds Wave.
  Proof.
    intros HR Hm Hc M L. simpl. rewrite HN, M. split.
    - apply pos_def_free, (pos_def_block (3 * N)); [lia|].
      apply (mass_block_3d N nodes els mp density ops HT HO HR Hm).
    - apply (poisson3_all N nodes els mp density ops c _ HT HO Hc L).
  Qed.

  Lemma temperature_3d ex co : (forall i, (i < N)%nat -> referenced els i) -> 0 < mass_density mp ->
    thermal mp = Some (ex, co) ->
    (forall v, 0 <= sum 3 (fun k => sum 3 (fun l => co k l * (v k * v l)))) ->
    mass p = acceleration_operator ops -> thermal_conductivity ops = Some (conduction p) ->
    stable_kind p conds Temperature.
  Proof.
    intros HR Hm Hc PC M L. simpl. rewrite HN, M. split.
    - apply pos_def_free, (pos_def_block (3 * N)); [lia|].
      apply (mass_block_3d N nodes els mp density ops HT HO HR Hm).
    - destruct (conductivity3_all N nodes els mp density ops ex co _ HT HO Hc L) as (_ & _ & H). auto.
  Qed.

  Lemma poisson_3d c : (forall i, (i < N)%nat -> tied (grounded conds) els i) ->
    membrane mp = Some c -> c <> 0 ->
    poisson_operator ops = Some (laplace p) -> stable_kind p conds StaticPoisson.
  Proof.
    intros HH Hc C0 L x H0 Hx. rewrite HN in *.
    apply (poisson3_definite N nodes els mp density ops c _ HT HO Hc L C0 (grounded conds) HH); auto.
    intros i [v Hv]. eapply H0; eauto.
  Qed.
End Space.

(* C72: which dofs a statement prescribes on a built mesh *)
Lemma prescribed_components {P} (mean : list P -> P) (zero : P) nodes els (d : @Description P vec) m w ic id f (b : body) k :
  in_range (List.length nodes) els -> simplices w els ->
  dict_get (indicators d) "contact" = Some ic -> dict_get (indicators d) "dirichlet" = Some id ->
  dict_get (MeshBuildModel.conditions d) "dirichlet" = Some f ->
  build mean zero nodes els d = Ok m ->
  b_conditions b = mesh_conditions m -> k <> Piezoelectric ->
  exists C Ne I D conds, node_order w nodes els (m_nodes m) (m_elements m) ic id C Ne I D /\
    conditions b k = Ok conds /\
    let N := List.length (m_nodes m) in
    let first := List.length (C ++ Ne ++ I) in
    (forall n c, (n < N)%nat ->
      ((exists v, prescribed conds (n + c * N)%nat v) <->
       (first <= n)%nat /\ (c < dimension_in k (b_dimension b))%nat)) /\
    (forall n c v, (n < N)%nat ->
      prescribed conds (n + c * N)%nat v -> v = f (skipn first (m_nodes m)) (n - first)%nat).
Proof.
  intros HR HS HC HD Hf HB Hb Hk.
  destruct (mesh_dirichlet mean zero nodes els d m w ic id HR HS HC HD HB (dimension_in k (b_dimension b)) f Hf)
    as (C & Ne & I & D & conds & HO & HM & HW & HN & HP).
  exists C, Ne, I, D, conds. split; auto. split.
  { unfold StatementValueProofs.conditions. rewrite Hb. destruct k; try exact HM. congruence. }
  cbv zeta in *. set (N := List.length (m_nodes m)) in *. set (first := List.length (C ++ Ne ++ I)) in *.
  assert (U : forall n c n' c', (n < N)%nat -> (n' < N)%nat -> (n + c * N = n' + c' * N)%nat -> n = n' /\ c = c').
  { intros n c n' c' H1 H2 E. destruct (Nat.div_mod_unique N c c' n n') as [A B]; auto; try lia. }
  split.
  - intros n c Hn. split.
    + intros [v Hv]. apply HP in Hv. destruct Hv as (n' & c' & H1 & H2 & E & _).
      destruct (U n c n' c') as [-> ->]; auto; lia.
    + intros [H1 H2]. eexists. apply HP. exists n, c. repeat split; auto.
  - intros n c v Hn Hv. apply HP in Hv. destruct Hv as (n' & c' & H1 & H2 & E & ->).
    destruct (U n c n' c') as [-> ->]; auto; lia.
Qed.

(* C32 with the operators of a plane mesh *)
Lemma dynamic_energy_2d {F} (integrate : F -> R -> F * result (nat * vec)) b conds N nodes els mp density ops p th ze mu la :
  triangles N nodes els -> reinitialize_matrices N nodes els mp density = Ok ops ->
  (forall i, (i < N)%nat -> referenced els i) -> 0 < mass_density mp -> nonneg_density density ->
  viscous mp = Some (th, ze) -> 0 <= th -> 0 <= ze -> elastic mp = Some (mu, la) -> 0 <= mu -> 0 <= la ->
  ph_n p = (2 * N)%nat -> mass p = acceleration_operator ops -> viscosity ops = Some (damping p) ->
  elasticity ops = Some (stiffness p) ->
  StatementValueProofs.conditions b DynamicVelocity = Ok conds ->
  well_shaped (unknowns b DynamicVelocity) conds -> homogeneous conds -> 0 < ph_dt p ->
  forall u v : nat -> vec,
  (forall k, step_solved integrate b DynamicVelocity (with_motion p (u k) (v k) (fun _ => 0)) (v (S k))) ->
  (forall k i, (i < ph_n p)%nat -> u (S k) i = u k i + ph_dt p * v (S k) i) ->
  forall j k, (j <= k)%nat ->
  energy (ph_n p) (mass p) (stiffness p) (u k) (v k) <= energy (ph_n p) (mass p) (stiffness p) (u j) (v j).
Proof.
  intros HT HO HR Hm HD HV Ht Hz HE Hmu Hla Hn M C E HC HW HH Hdt u v Rv Ru j k Hjk.
  destruct (mass_block_2d N nodes els mp density ops HT HO HR Hm) as [SM PM].
  destruct (viscosity2_all N nodes els mp density ops th ze _ HT HO HV C) as (_ & _ & PC & _).
  destruct (elasticity2_all N nodes els mp density ops HT HO mu la _ HE E) as (_ & SE & PE & _).
  apply (dynamic_energy_decay integrate b conds p HC HW HH); auto; rewrite ?Hn, ?M; auto.
  apply pos_def_semidef; auto.
Qed.

(* C73 *)
Lemma law_without_mass p x i g : (forall i j, mass p i j = 0) -> (dynamic_law p g x i <-> quasistatic_law p g x i).
Proof.
  intros H. unfold dynamic_law, quasistatic_law.
  replace (mv (ph_n p) (mass p) (rate p (ph_v p) x) i) with 0; [rewrite Rplus_0_l; tauto|].
  unfold mv. rewrite sum_0; auto. intros k _. rewrite H. ring.
Qed.
