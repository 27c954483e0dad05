(* Linear systems of the problem kinds: C30-C32, C34, C49, C53, C59, C72-C74. *)
From Coq Require Import Reals List Arith ZArith Bool String Lia Lra.
From Verif Require Import Common PyModel RVec LinAlg MeshModel MeshBuildModel MeshSpec DofModel DofSpec
  DirichletModel DirichletSpec DirichletProofs FemModel FemSpec FemKornProofs FemExamples
  StatementModel StatementSpec StatementProofs StatementValueProofs StatementLawProofs StatementEnergyProofs
  StatementCacheProofs StatementMeshProofs StatementExamples.
Import ListNotations.
Local Open Scope string_scope.
Local Open Scope list_scope.
Local Open Scope R_scope.

(* ------------------------------------------------------------------ C30 *)

(* Statement.update succeeds and the solutions of the stored system are exactly the vectors
   with the prescribed values that obey the balance law of the problem at all other dofs.
   [reads]: what update reads is present, has the right shape and the values of p. *)
Theorem C30_balance : forall (F : Type) (integrate : F -> R -> F * result (nat * vec))
    (b : body) (var : variables) (p : physics) (k : kind) (w : world F) (conds : list condition),
  reads integrate b var p k w ->
  b_conditions b (dimension_in k (b_dimension b)) (dirichlet_cond_name k) = Ok conds ->
  let size := match k with
              | StaticPoisson | Wave | Temperature | Piezoelectric => b_count b
              | _ => (b_dimension b * b_count b)%nat
              end in
  well_shaped size conds -> consistent (prescribed conds) ->
  exists w' l r, update integrate b k var w = (w', Ok (l, r)) /\
    forall x, solves size (load_m (hp w') (sm_data l)) (load_v (hp w') r) x <->
      obeys size (prescribed conds)
        (match k with
         | StaticPoisson => poisson_law p
         | Wave => wave_law p
         | StaticDisplacement => static_law p
         | QuasistaticRelaxation => relaxation_law p
         | QuasistaticVelocity => quasistatic_law p (fun _ => 0)
         | DynamicVelocity => dynamic_law p (fun _ => 0)
         | DynamicVelocityWithTemperature => dynamic_law p (thermal_load p)
         | Temperature => heat_law p
         | Piezoelectric => potential_law p
         | QuasistaticVelocityWithPiezoelectric => quasistatic_law p (fun i => - electric_load p i)
         | DynamicVelocityWithPiezoelectric => dynamic_law p (electric_load p)
         end) x.
Proof.
  intros F integrate b var p k w conds HR HC size HW HK.
  destruct (update_balance integrate b var p k w conds HR HC HW HK) as (w' & [l r] & E & H).
  exists w', l, r. split; [exact E|exact H].
Qed.
Print Assumptions C30_balance.

(* for every problem there is a memory layout satisfying the hypotheses *)
Example C30_example : forall k dt, dt <> 0 ->
  let conds := match k with StaticPoisson | Wave | Temperature | Piezoelectric => fixed_1 | _ => fixed end in
  let b := laid_out_body (tiny dt) conds in
  reads constant_source b (laid_out_variables (tiny dt)) (tiny dt) k (laid_out (tiny dt) k) /\
  b_conditions b (dimension_in k (b_dimension b)) (dirichlet_cond_name k) = Ok conds /\
  well_shaped (unknowns b k) conds /\ consistent (prescribed conds) /\ prescribed conds 1 0.
Proof.
  intros k dt Hdt conds b. split; [apply laid_out_reads; [reflexivity|exact Hdt]|].
  split; [reflexivity|].
  assert (H : (well_shaped 4 fixed /\ consistent (prescribed fixed) /\ prescribed fixed 1 0) /\
              (well_shaped 2 fixed_1 /\ consistent (prescribed fixed_1) /\ prescribed fixed_1 1 0)).
  { split; (split; [first [exact fixed_shaped|exact fixed_1_shaped]|]); split.
    - apply homogeneous_consistent, fixed_homogeneous.
    - exact fixed_dof1.
    - intros d v v' (sl & c & s & q & [E|[]] & _ & _ & ->) (sl' & c' & s' & q' & [E'|[]] & _ & _ & ->).
      inversion E; inversion E'; subst. reflexivity.
    - exists [((1, 2), (0, 1))]%nat, (fun _ => 0), ((1, 2), (0, 1))%nat, 0%nat. repeat split; simpl; auto. }
  destruct H as [H H']. destruct k; first [exact H | exact H'].
Qed.

(* ------------------------------------------------------------------ C31 *)

(* exactly one solution.  [stable_kind]: for the dynamic kinds the mass matrix is positive
   definite on vectors vanishing at the prescribed dofs and damping and stiffness are
   semidefinite; Wave and Temperature alike; for the static kinds the operator itself must be
   definite on those vectors. *)
Theorem C31_unique : forall (F : Type) (integrate : F -> R -> F * result (nat * vec))
    (b : body) (var : variables) (p : physics) (k : kind) (w : world F) (conds : list condition),
  reads integrate b var p k w -> conditions b k = Ok conds ->
  well_shaped (unknowns b k) conds -> 0 < ph_dt p -> stable_kind p conds k ->
  exists w' l r, update integrate b k var w = (w', Ok (l, r)) /\
    exists x, solves (unknowns b k) (load_m (hp w') (sm_data l)) (load_v (hp w') r) x /\
      forall y, solves (unknowns b k) (load_m (hp w') (sm_data l)) (load_v (hp w') r) y ->
      veq (unknowns b k) y x.
Proof.
  intros F integrate b var p k w conds HR HC HW Hdt HS.
  destruct (update_unique integrate b var p k w conds HR HC HW Hdt HS) as (w' & [l r] & E & H).
  exists w', l, r. split; [exact E|exact H].
Qed.
Print Assumptions C31_unique.

(* the finite element operators of any mesh are stable; conds is arbitrary *)
Theorem C31_dynamic_2d : forall N nodes els mp density ops p conds,
  triangles N nodes els -> reinitialize_matrices N nodes els mp density = Ok ops ->
  ph_n p = (2 * N)%nat -> forall k th ze mu la, dynamic_kind k ->
  (forall i, (i < N)%nat -> referenced els i) -> 0 < mass_density mp -> nonneg_density density ->
  viscous mp = Some (th, ze) -> 0 <= th -> 0 <= ze -> elastic mp = Some (mu, la) -> 0 <= mu -> 0 <= la ->
  mass p = acceleration_operator ops -> viscosity ops = Some (damping p) ->
  elasticity ops = Some (stiffness p) -> stable_kind p conds k.
Proof. exact dynamic_2d. Qed.
Print Assumptions C31_dynamic_2d.

Theorem C31_wave : forall N nodes els mp density ops p conds c,
  (triangles N nodes els /\ nonneg_density density \/ tetrahedra N nodes els) ->
  reinitialize_matrices N nodes els mp density = Ok ops -> ph_N p = N ->
  (forall i, (i < N)%nat -> referenced els i) -> 0 < mass_density mp -> membrane mp = Some c ->
  mass p = acceleration_operator ops -> poisson_operator ops = Some (laplace p) -> stable_kind p conds Wave.
Proof.
  exact (fun N nodes els mp density ops p conds c HT HO HN HR Hm Hc M L =>
    match HT with
    | or_introl (conj T D) => wave_2d N nodes els mp density ops p conds T HO HN c HR Hm D Hc M L
    | or_intror T => wave_3d N nodes els mp density ops p conds T HO HN c HR Hm Hc M L
    end).
Qed.
Print Assumptions C31_wave.

Theorem C31_temperature_2d : forall N nodes els mp density ops p conds,
  triangles N nodes els -> reinitialize_matrices N nodes els mp density = Ok ops -> ph_N p = N ->
  forall ex co, (forall i, (i < N)%nat -> referenced els i) -> 0 < mass_density mp ->
  nonneg_density density -> thermal mp = Some (ex, co) ->
  (forall v, 0 <= sum 2 (fun k => sum 2 (fun l => co k l * (v k * v l)))) ->
  mass p = acceleration_operator ops -> thermal_conductivity ops = Some (conduction p) ->
  stable_kind p conds Temperature.
Proof. exact temperature_2d. Qed.
Print Assumptions C31_temperature_2d.

Theorem C31_temperature_3d : forall N nodes els mp density ops p conds,
  tetrahedra N nodes els -> reinitialize_matrices N nodes els mp density = Ok ops -> ph_N p = N ->
  forall ex co, (forall i, (i < N)%nat -> referenced els i) -> 0 < mass_density mp ->
  thermal mp = Some (ex, co) ->
  (forall v, 0 <= sum 3 (fun k => sum 3 (fun l => co k l * (v k * v l)))) ->
  mass p = acceleration_operator ops -> thermal_conductivity ops = Some (conduction p) ->
  stable_kind p conds Temperature.
Proof. exact temperature_3d. Qed.
Print Assumptions C31_temperature_3d.

Definition wave_properties : properties := mkProperties 2 (Some (4, 3)) (Some (1, 2)) (Some 5)
  (Some (fun k l => if (k =? l)%nat then 1 / 2 else 0, fun k l => if (k =? l)%nat then 3 else 0)) None.

Definition quad_physics (ops : operators) : physics :=
  let get o := match o with Some A => A | None => fun _ _ => 0 end in
  mkPhysics 4 8 (acceleration_operator ops) (get (elasticity ops)) (get (viscosity ops)) (fun _ _ => 0)
    (get (poisson_operator ops)) (get (thermal_conductivity ops)) (get (permittivity ops))
    (get (thermal_expansion ops)) (get (piezoelectricity ops))
    (fun i => INR i) (fun _ => 1) (fun _ => 0) (fun _ => 1) (fun _ => 2) (fun _ => 3) (fun _ => 4) 1.

Example C31_example : triangles 4 quad_nodes quad_els /\
  (forall i, (i < 4)%nat -> referenced quad_els i) /\ 0 < mass_density wave_properties /\
  exists ops, reinitialize_matrices 4 quad_nodes quad_els wave_properties None = Ok ops /\
    let p := quad_physics ops in
    viscosity ops = Some (damping p) /\ elasticity ops = Some (stiffness p) /\
    poisson_operator ops = Some (laplace p) /\ thermal_conductivity ops = Some (conduction p) /\
    (forall k, reads constant_source (laid_out_body p fixed) (laid_out_variables p) p k (laid_out p k)).
Proof.
  split; [exact quad_triangles|]. split; [exact quad_referenced|]. split; [simpl; lra|].
  eexists. split; [reflexivity|]. cbv zeta. repeat (split; [reflexivity|]).
  intros k. apply laid_out_reads; [reflexivity|]. cbn [quad_physics ph_dt]. lra.
Qed.

Example C31_example_space : tetrahedra 5 tet_nodes tet_els /\
  (forall i, (i < 5)%nat -> referenced tet_els i) /\
  exists ops A K, reinitialize_matrices 5 tet_nodes tet_els wave_properties None = Ok ops /\
    poisson_operator ops = Some A /\ thermal_conductivity ops = Some K /\
    forall v, 0 <= sum 3 (fun k => sum 3 (fun l => (if (k =? l)%nat then 3 else 0) * (v k * v l))).
Proof.
  split; [exact tet_tetrahedra|]. split; [exact tet_referenced|].
  do 3 eexists. split; [reflexivity|]. split; [reflexivity|]. split; [reflexivity|].
  intros v. cbn [sum Nat.eqb]. nra.
Qed.

(* ------------------------------------------------------------------ C74 *)

(* static problems: on every plane mesh whose nodes are all reached from clamped nodes through
   triangles with two reached corners, the elastic systems have exactly one solution (Korn) *)
Theorem C74_static_2d : forall N nodes els mp density ops p conds,
  triangles N nodes els -> reinitialize_matrices N nodes els mp density = Ok ops -> ph_n p = (2 * N)%nat ->
  forall mu la, (forall i, (i < N)%nat -> held (clamped N conds) els i) ->
  positive_density density -> elastic mp = Some (mu, la) -> 0 < mu -> 0 <= la ->
  elasticity ops = Some (stiffness p) -> stable_kind p conds StaticDisplacement.
Proof. exact static_2d. Qed.
Print Assumptions C74_static_2d.

Theorem C74_relaxation_2d : forall N nodes els mp density ops p conds,
  triangles N nodes els -> reinitialize_matrices N nodes els mp density = Ok ops -> ph_n p = (2 * N)%nat ->
  forall mu la, (forall i, (i < N)%nat -> held (clamped N conds) els i) ->
  positive_density density -> elastic mp = Some (mu, la) -> 0 < mu -> 0 <= la ->
  elasticity ops = Some (stiffness p) -> pos_semidef (2 * N) (memory p) ->
  stable_kind p conds QuasistaticRelaxation.
Proof. exact relaxation_2d. Qed.
Print Assumptions C74_relaxation_2d.

Theorem C74_quasistatic_2d : forall N nodes els mp density ops p conds,
  triangles N nodes els -> reinitialize_matrices N nodes els mp density = Ok ops -> ph_n p = (2 * N)%nat ->
  forall k th ze mu la, quasistatic_kind k ->
  (forall i, (i < N)%nat -> held (clamped N conds) els i) ->
  positive_density density -> viscous mp = Some (th, ze) -> 0 < th -> 0 <= ze ->
  elastic mp = Some (mu, la) -> 0 <= mu -> 0 <= la ->
  viscosity ops = Some (damping p) -> elasticity ops = Some (stiffness p) -> stable_kind p conds k.
Proof. exact quasistatic_2d. Qed.
Print Assumptions C74_quasistatic_2d.

(* scalar problems: every node is connected to a prescribed one (Poincare) *)
Theorem C74_poisson : forall N nodes els mp density ops p conds c,
  (triangles N nodes els /\ positive_density density \/ tetrahedra N nodes els) ->
  reinitialize_matrices N nodes els mp density = Ok ops -> ph_N p = N ->
  (forall i, (i < N)%nat -> tied (grounded conds) els i) -> membrane mp = Some c -> c <> 0 ->
  poisson_operator ops = Some (laplace p) -> stable_kind p conds StaticPoisson.
Proof.
  exact (fun N nodes els mp density ops p conds c HT HO HN HH Hc C0 L =>
    match HT with
    | or_introl (conj T D) => poisson_2d N nodes els mp density ops p conds T HO HN c HH D Hc C0 L
    | or_intror T => poisson_3d N nodes els mp density ops p conds T HO HN c HH Hc C0 L
    end).
Qed.
Print Assumptions C74_poisson.

Theorem C74_potential : forall N nodes els mp density ops p conds,
  triangles N nodes els -> reinitialize_matrices N nodes els mp density = Ok ops -> ph_N p = N ->
  forall pz pm c, (forall i, (i < N)%nat -> tied (grounded conds) els i) ->
  positive_density density -> piezo mp = Some (pz, pm) -> 0 < c ->
  (forall v, c * sum 2 (fun k => v k * v k) <= sum 2 (fun k => sum 2 (fun l => pm k l * (v k * v l)))) ->
  permittivity ops = Some (dielectric p) -> stable_kind p conds Piezoelectric.
Proof. exact potential_2d. Qed.
Print Assumptions C74_potential.

(* two of the four corners of the quadrilateral are clamped *)
Definition quad_clamp : list condition :=
  [([((0, 1), (0, 1)); ((4, 5), (0, 1))]%nat, fun _ => 0); ([((1, 2), (0, 1)); ((5, 6), (0, 1))]%nat, fun _ => 1)].

Example C74_example : triangles 4 quad_nodes quad_els /\
  well_shaped 8 quad_clamp /\
  (forall i, (i < 4)%nat -> held (clamped 4 quad_clamp) quad_els i) /\
  (forall i, (i < 4)%nat -> tied (grounded quad_clamp) quad_els i) /\ ~ clamped 4 quad_clamp 2.
Proof.
  assert (C0 : clamped 4 quad_clamp 0).
  { split; exists 0; exists [((0, 1), (0, 1)); ((4, 5), (0, 1))]%nat, (fun _ => 0).
    - exists ((0, 1), (0, 1))%nat, 0%nat. repeat split; simpl; auto.
    - exists ((4, 5), (0, 1))%nat, 0%nat. repeat split; simpl; auto. }
  assert (C1 : clamped 4 quad_clamp 1).
  { split; exists 1; exists [((1, 2), (0, 1)); ((5, 6), (0, 1))]%nat, (fun _ => 1).
    - exists ((1, 2), (0, 1))%nat, 0%nat. repeat split; simpl; auto.
    - exists ((5, 6), (0, 1))%nat, 0%nat. repeat split; simpl; auto. }
  assert (H0 : held (clamped 4 quad_clamp) quad_els 0) by (apply held_pin; auto).
  assert (H1 : held (clamped 4 quad_clamp) quad_els 1) by (apply held_pin; auto).
  assert (H3 : held (clamped 4 quad_clamp) quad_els 3).
  { apply (held_by _ _ [0; 1; 3]%nat 0%nat 1%nat); auto; simpl; auto. }
  assert (H2 : held (clamped 4 quad_clamp) quad_els 2).
  { apply (held_by _ _ [3; 2; 1]%nat 3%nat 1%nat); auto; simpl; auto. }
  assert (T0 : tied (grounded quad_clamp) quad_els 0) by (apply tied_pin; apply C0).
  assert (T1 : tied (grounded quad_clamp) quad_els 1) by (apply tied_pin; apply C1).
  split; [exact quad_triangles|]. split; [|split; [|split]].
  - intros sl c s [E|[E|[]]] Hs; inversion E; subst; destruct Hs as [<-|[<-|[]]]; simpl; unfold matching; simpl; lia.
  - intros i Hi. destruct i as [|[|[|[|i]]]]; auto; lia.
  - intros i Hi. destruct i as [|[|[|[|i]]]]; auto; [| |lia].
    + apply (tied_by _ _ [3; 2; 1]%nat 1%nat); simpl; auto.
    + apply (tied_by _ _ [0; 1; 3]%nat 1%nat); simpl; auto.
  - intros [[v (sl & c & s & q & [E|[E|[]]] & Hs & Hq & _)] _]; inversion E; subst;
      destruct Hs as [<-|[<-|[]]]; simpl in Hq; destruct Hq as [Hq|[]]; discriminate.
Qed.

(* ------------------------------------------------------------------ C32 *)

(* exact energy balance of one dynamic step with load f: what is not stored was dissipated *)
Theorem C32_balance : forall (F : Type) (integrate : F -> R -> F * result (nat * vec)) b conds p,
  conditions b DynamicVelocity = Ok conds -> well_shaped (unknowns b DynamicVelocity) conds -> homogeneous conds ->
  symmetric (ph_n p) (mass p) -> symmetric (ph_n p) (stiffness p) -> 0 < ph_dt p ->
  forall u v v' f, step_solved integrate b DynamicVelocity (with_motion p u v f) v' ->
  energy (ph_n p) (mass p) (stiffness p) (fun j => u j + ph_dt p * v' j) v'
  + ph_dt p * qform (ph_n p) (damping p) v' + qform (ph_n p) (mass p) (fun j => v' j - v j) / 2
  + ph_dt p ^ 2 * qform (ph_n p) (stiffness p) v' / 2
  = energy (ph_n p) (mass p) (stiffness p) u v + ph_dt p * dot (ph_n p) v' f.
Proof. exact (fun F integrate => @dynamic_balance F integrate). Qed.
Print Assumptions C32_balance.

(* any number of unloaded steps: energy plus accumulated viscous dissipation never exceeds
   the initial energy *)
Theorem C32_dynamic_run : forall (F : Type) (integrate : F -> R -> F * result (nat * vec)) b conds p,
  conditions b DynamicVelocity = Ok conds -> well_shaped (unknowns b DynamicVelocity) conds -> homogeneous conds ->
  symmetric (ph_n p) (mass p) -> symmetric (ph_n p) (stiffness p) -> 0 < ph_dt p ->
  pos_semidef (ph_n p) (mass p) -> pos_semidef (ph_n p) (stiffness p) ->
  forall u v : nat -> vec,
  (forall k, step_solved integrate b DynamicVelocity (with_motion p (u k) (v k) (fun _ => 0)) (v (S k))) ->
  (forall k i, (i < ph_n p)%nat -> u (S k) i = u k i + ph_dt p * v (S k) i) ->
  forall j k, (j <= k)%nat ->
  energy (ph_n p) (mass p) (stiffness p) (u k) (v k)
  + ph_dt p * sum (k - j) (fun i => qform (ph_n p) (damping p) (v (S (j + i))))
  <= energy (ph_n p) (mass p) (stiffness p) (u j) (v j).
Proof. exact (fun F integrate => @dynamic_energy_run F integrate). Qed.
Print Assumptions C32_dynamic_run.

Theorem C32_dynamic_2d : forall (F : Type) (integrate : F -> R -> F * result (nat * vec)) b conds
    N nodes els mp density ops p th ze mu la,
  triangles N nodes els -> reinitialize_matrices N nodes els mp density = Ok ops ->
  (forall i, (i < N)%nat -> referenced els i) -> 0 < mass_density mp -> nonneg_density density ->
  viscous mp = Some (th, ze) -> 0 <= th -> 0 <= ze -> elastic mp = Some (mu, la) -> 0 <= mu -> 0 <= la ->
  ph_n p = (2 * N)%nat -> mass p = acceleration_operator ops -> viscosity ops = Some (damping p) ->
  elasticity ops = Some (stiffness p) ->
  conditions b DynamicVelocity = Ok conds ->
  well_shaped (unknowns b DynamicVelocity) conds -> homogeneous conds -> 0 < ph_dt p ->
  forall u v : nat -> vec,
  (forall k, step_solved integrate b DynamicVelocity (with_motion p (u k) (v k) (fun _ => 0)) (v (S k))) ->
  (forall k i, (i < ph_n p)%nat -> u (S k) i = u k i + ph_dt p * v (S k) i) ->
  forall j k, (j <= k)%nat ->
  energy (ph_n p) (mass p) (stiffness p) (u k) (v k) <= energy (ph_n p) (mass p) (stiffness p) (u j) (v j).
Proof. exact (fun F => @dynamic_energy_2d F). Qed.
Print Assumptions C32_dynamic_2d.

Theorem C32_wave_run : forall (F : Type) (integrate : F -> R -> F * result (nat * vec)) b conds p,
  conditions b Wave = Ok conds -> well_shaped (unknowns b Wave) conds -> homogeneous conds ->
  symmetric (ph_N p) (mass p) -> symmetric (ph_N p) (laplace p) -> 0 < ph_dt p ->
  pos_semidef (ph_N p) (mass p) -> pos_semidef (ph_N p) (laplace p) ->
  forall u v : nat -> vec,
  (forall k, step_solved integrate b Wave (with_motion p (u k) (v k) (fun _ => 0)) (v (S k))) ->
  (forall k i, (i < ph_N p)%nat -> u (S k) i = u k i + ph_dt p * v (S k) i) ->
  forall j k, (j <= k)%nat ->
  energy (ph_N p) (mass p) (laplace p) (u k) (v k) <= energy (ph_N p) (mass p) (laplace p) (u j) (v j).
Proof. exact (fun F integrate => @wave_energy_decay F integrate). Qed.
Print Assumptions C32_wave_run.

(* runs with any initial data and any number of steps exist *)
Example C32_example : forall u0 v0 : vec, exists u v : nat -> vec,
  u 0%nat = u0 /\ v 0%nat = v0 /\
  (forall k, step_solved constant_source (laid_out_body (loose 1) fixed) DynamicVelocity
     (with_motion (loose 1) (u k) (v k) (fun _ => 0)) (v (S k))) /\
  (forall k i, (i < 4)%nat -> u (S k) i = u k i + 1 * v (S k) i).
Proof. exact (loose_run 1 ltac:(lra)). Qed.

(* ------------------------------------------------------------------ C34 *)

(* update never writes to an array that existed before: all old arrays keep their contents
   and the new system lives in new arrays, whether update succeeds or raises *)
Theorem C34_frame : forall (F : Type) (integrate : F -> R -> F * result (nat * vec)) b k var (w : world F),
  let w' := fst (update integrate b k var w) in
  (forall r, (m_addr r < List.length (mats (hp w)))%nat -> load_m (hp w') r = load_m (hp w) r) /\
  (forall r, (v_addr r < List.length (vecs (hp w)))%nat -> load_v (hp w') r = load_v (hp w) r) /\
  (forall l r, snd (update integrate b k var w) = Ok (l, r) ->
     (List.length (mats (hp w)) <= m_addr (sm_data l))%nat /\ (List.length (vecs (hp w)) <= v_addr r)%nat).
Proof. exact (fun F => @update_frame_arrays F). Qed.
Print Assumptions C34_frame.

(* updating again gives the same system *)
Theorem C34_repeat : forall (F : Type) (integrate : F -> R -> F * result (nat * vec)) b var p k (w : world F) conds,
  (forall f t, snd (integrate (fst (integrate f t)) t) = snd (integrate f t)) ->
  reads integrate b var p k w -> conditions b k = Ok conds -> well_shaped (unknowns b k) conds ->
  exists w1 lr1 w2 lr2,
    update integrate b k var w = (w1, Ok lr1) /\ update integrate b k var w1 = (w2, Ok lr2) /\
    meq (unknowns b k) (unknowns b k) (load_m (hp w2) (sm_data (fst lr2))) (load_m (hp w1) (sm_data (fst lr1))) /\
    veq (unknowns b k) (load_v (hp w2) (snd lr2)) (load_v (hp w1) (snd lr1)).
Proof. exact (fun F => @update_again F). Qed.
Print Assumptions C34_repeat.

Example C34_example : (forall f t, snd (constant_source (fst (constant_source f t)) t) = snd (constant_source f t)) /\
  reads constant_source (laid_out_body (tiny 1) fixed) (laid_out_variables (tiny 1)) (tiny 1) DynamicVelocity
    (laid_out (tiny 1) DynamicVelocity) /\
  conditions (laid_out_body (tiny 1) fixed) DynamicVelocity = Ok fixed /\ well_shaped 4 fixed.
Proof.
  split; [exact constant_steady|]. split; [apply laid_out_reads; [reflexivity|simpl; lra]|].
  split; [reflexivity|exact fixed_shaped].
Qed.

(* ------------------------------------------------------------------ C49 *)

(* after any sequence of updates and requests of one body the relaxation operator is the one
   assembled from the tensor at the requested time *)
Theorem C49_coherent : forall (F : Type) (integrate : F -> R -> F * result (nat * vec)) b,
  (forall tn, exists A, b_relaxation_matrix b tn = Ok A) -> entrywise b ->
  forall (w : world F) f t tn A, reached integrate b w -> b_relaxation b = Some f -> f t = Ok tn ->
  b_relaxation_matrix b tn = Ok A ->
  exists w' s, relaxation b t w = (w', Ok s) /\ sm_type s = (2, 2)%nat /\
    m_rows (sm_data s) = (2 * b_count b)%nat /\ m_cols (sm_data s) = (2 * b_count b)%nat /\
    meq (2 * b_count b) (2 * b_count b) (load_m (hp w') (sm_data s)) A.
Proof. exact (fun F => @cache_coherent F). Qed.
Print Assumptions C49_coherent.

(* the finite element operator depends on the tensor only through its entries *)
Theorem C49_entrywise : forall N W b, (forall tn, b_relaxation_matrix b tn = Ok (relaxation2 N W tn)) -> entrywise b.
Proof.
  exact (fun N W b H t1 t2 E =>
    eq_trans (H t1) (eq_trans (f_equal Ok (relaxation2_entries N W t1 t2 E)) (eq_sym (H t2)))).
Qed.
Print Assumptions C49_entrywise.

(* not after the matrices were rebuilt: the old operator is returned *)
Theorem C49_reinitialize_refuted : exists (b b' : body) (w : world nat) f t tn A A',
  b_relaxation b = Some f /\ b_relaxation b' = Some f /\ f t = Ok tn /\
  b_relaxation_matrix b tn = Ok A /\ b_relaxation_matrix b' tn = Ok A' /\
  A 0%nat 0%nat <> A' 0%nat 0%nat /\
  exists w1 s1 w2 s2, relaxation b t w = (w1, Ok s1) /\ relaxation b' t w1 = (w2, Ok s2) /\
    load_m (hp w2) (sm_data s2) 0%nat 0%nat = A 0%nat 0%nat.
Proof.
  exists (relaxing (fun _ _ => 1)), (relaxing (fun _ _ => 2)), fresh_world, (fun _ => Ok (fun _ _ _ => 1)),
    (Some 0), (fun _ _ _ => 1), (fun _ _ => 1), (fun _ _ => 2).
  repeat (split; [reflexivity|]). split; [lra|exact stale_relaxation].
Qed.
Print Assumptions C49_reinitialize_refuted.

Example C49_example : reached constant_source (laid_out_body (tiny 1) fixed)
    (fst (update constant_source (laid_out_body (tiny 1) fixed) QuasistaticRelaxation (laid_out_variables (tiny 1))
            (laid_out (tiny 1) QuasistaticRelaxation))) /\
  entrywise (laid_out_body (tiny 1) fixed).
Proof.
  split; [apply reached_update, reached_empty; reflexivity|intros t1 t2 _; reflexivity].
Qed.

(* ------------------------------------------------------------------ C53 *)

(* M += x and M *= c change the array in place but evaluate to None, to which Python then
   binds the name M *)
Theorem C53_in_place_refuted : forall (F : Type) a a' ty n m A B c (w : world F),
  sval (hp w) a ty n m A -> sval (hp w) a' ty n m B ->
  (exists w', sm_iadd a a' w = (w', Ok None) /\ sval (hp w') a ty n m (fun i j => A i j + B i j)) /\
  (exists w', sm_imul a c w = (w', Ok None) /\ sval (hp w') a ty n m (fun i j => A i j * c)).
Proof.
  exact (fun F a a' ty n m A B c w H1 H2 =>
    conj (iadd_effect a a' ty n m A B w H1 H2) (imul_effect a ty n m A c w H1)).
Qed.
Print Assumptions C53_in_place_refuted.

Example C53_example : let w := laid_out (tiny 1) Wave in
  sval (hp w) (ref_m 0 4 4 (2, 2)%nat) (2, 2)%nat 4 4 (mass (tiny 1)) /\
  sval (hp w) (ref_m 1 4 4 (2, 2)%nat) (2, 2)%nat 4 4 (stiffness (tiny 1)).
Proof. repeat split; simpl; lia. Qed.

(* ------------------------------------------------------------------ C59 *)

(* power of the thermal load = heat drawn in the heat equation *)
Theorem C59_power : forall p v th,
  dot (ph_n p) v (mv (ph_N p) (mT (expansion p)) th) = dot (ph_N p) th (mv (ph_n p) (expansion p) v).
Proof. exact thermal_power. Qed.
Print Assumptions C59_power.

(* at a fixed point of the coupled step the coupling drops out of the energy balance *)
Theorem C59_energy : forall (F : Type) (integrate : F -> R -> F * result (nat * vec)) b conds p tconds,
  conditions b DynamicVelocityWithTemperature = Ok conds ->
  well_shaped (unknowns b DynamicVelocityWithTemperature) conds -> homogeneous conds ->
  conditions b Temperature = Ok tconds -> well_shaped (unknowns b Temperature) tconds -> homogeneous tconds ->
  symmetric (ph_n p) (mass p) -> symmetric (ph_n p) (stiffness p) -> symmetric (ph_N p) (mass p) -> 0 < ph_dt p ->
  forall u v v' th th',
  step_solved integrate b DynamicVelocityWithTemperature (with_temperature (with_motion p u v (fun _ => 0)) th') v' ->
  step_solved integrate b Temperature (with_temperature (with_motion p u v' (fun _ => 0)) th) th' ->
  energy (ph_n p) (mass p) (stiffness p) (fun j => u j + ph_dt p * v' j) v' + qform (ph_N p) (mass p) th' / 2
  + ph_dt p * qform (ph_n p) (damping p) v' + ph_dt p * qform (ph_N p) (conduction p) th'
  + qform (ph_n p) (mass p) (fun j => v' j - v j) / 2 + ph_dt p ^ 2 * qform (ph_n p) (stiffness p) v' / 2
  + qform (ph_N p) (mass p) (fun j => th' j - th j) / 2
  = energy (ph_n p) (mass p) (stiffness p) u v + qform (ph_N p) (mass p) th / 2.
Proof. exact (fun F integrate => @thermal_balance F integrate). Qed.
Print Assumptions C59_energy.

Example C59_example : let b := laid_out_body (with_temperature (with_motion (tiny 1) (fun _ => 0) (fun _ => 0) (fun _ => 0)) (fun _ => 0)) [] in
  conditions b DynamicVelocityWithTemperature = Ok [] /\ conditions b Temperature = Ok [] /\
  step_solved constant_source b DynamicVelocityWithTemperature
    (with_temperature (with_motion (tiny 1) (fun _ => 0) (fun _ => 0) (fun _ => 0)) (fun _ => 0)) (fun _ => 0) /\
  step_solved constant_source b Temperature
    (with_temperature (with_motion (tiny 1) (fun _ => 0) (fun _ => 0) (fun _ => 0)) (fun _ => 0)) (fun _ => 0).
Proof. split; [reflexivity|]. split; [reflexivity|]. split; apply rest_step; cbn; auto. Qed.

(* ------------------------------------------------------------------ C72 *)

(* component c of a Dirichlet node is prescribed exactly when c is below the dimension the
   statement was created with *)
Theorem C72_components : forall (P : Type) (mean : list P -> P) (zero : P) nodes els
    (d : @Description P vec) m w ic id f (b : body) k,
  in_range (List.length nodes) els -> simplices w els ->
  dict_get (indicators d) "contact" = Some ic -> dict_get (indicators d) "dirichlet" = Some id ->
  dict_get (MeshBuildModel.conditions d) "dirichlet" = Some f ->
  build mean zero nodes els d = Ok m ->
  b_conditions b = mesh_conditions m -> k <> Piezoelectric ->
  exists C Ne I D conds, node_order w nodes els (m_nodes m) (m_elements m) ic id C Ne I D /\
    b_conditions b (dimension_in k (b_dimension b)) (dirichlet_cond_name k) = Ok conds /\
    let N := List.length (m_nodes m) in
    let first := List.length (C ++ Ne ++ I) in
    (forall n c, (n < N)%nat ->
      ((exists v, prescribed conds (n + c * N)%nat v) <->
       (first <= n)%nat /\ (c < match k with
                               | StaticPoisson | Wave | Temperature | Piezoelectric => 1
                               | StaticDisplacement => b_dimension b
                               | _ => 2
                               end)%nat)) /\
    (forall n c v, (n < N)%nat ->
      prescribed conds (n + c * N)%nat v -> v = f (skipn first (m_nodes m)) (n - first)%nat).
Proof. exact (fun P => @prescribed_components P). Qed.
Print Assumptions C72_components.

(* hence in space the velocity and relaxation statements leave the third component of clamped
   nodes free: a tetrahedron standing on its clamped base *)
Theorem C72_space_refuted : exists m conds,
  build mean3 (0, 0, 0)%Z tower_nodes tower_els tower_description = Ok m /\
  dirichlet_nodes_count m = 3%Z /\
  mesh_conditions m (dimension_in DynamicVelocity 3) "dirichlet" = Ok conds /\
  let N := List.length (m_nodes m) in
  forall n, (N - 3 <= n < N)%nat ->
    (exists v, prescribed conds n v) /\ (exists v, prescribed conds (n + N)%nat v) /\
    ~ (exists v, prescribed conds (n + 2 * N)%nat v).
Proof. exact tower_free. Qed.
Print Assumptions C72_space_refuted.

Example C72_example : in_range (List.length tower_nodes) tower_els /\ simplices 4 tower_els /\
  dict_get (indicators tower_description) "dirichlet" = Some on_floor.
Proof. exact tower_hypotheses. Qed.

(* ------------------------------------------------------------------ C73 *)

(* without inertia the dynamic statement is the quasistatic one ... *)
Theorem C73_no_inertia : forall p x i g, (forall i j, mass p i j = 0) ->
  (dynamic_law p g x i <-> quasistatic_law p g x i).
Proof. exact law_without_mass. Qed.
Print Assumptions C73_no_inertia.

(* ... but not with piezoelectric coupling: the electric load enters with opposite signs *)
Theorem C73_piezo_sign_refuted :
  (forall i j, mass coupled i j = 0) /\
  let b := laid_out_body coupled [] in
  (exists x, step_solved constant_source b QuasistaticVelocityWithPiezoelectric coupled x) /\
  (exists x, step_solved constant_source b DynamicVelocityWithPiezoelectric coupled x) /\
  (forall x, step_solved constant_source b QuasistaticVelocityWithPiezoelectric coupled x -> x 0%nat = -1) /\
  (forall x, step_solved constant_source b DynamicVelocityWithPiezoelectric coupled x -> x 0%nat = 1).
Proof. exact coupled_signs. Qed.
Print Assumptions C73_piezo_sign_refuted.
