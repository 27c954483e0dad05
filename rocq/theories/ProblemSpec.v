(* Specification of the problems that a user poses: values at the fixed nodes and the balance of
   virtual work against every test field that vanishes there. *)
From Coq Require Import Reals List Arith Bool String.
From Verif Require Import Common PyModel RVec MeshModel MeshBuildModel MeshSpec NormalsModel FemModel FemSpec ForcesSpec
  DirichletSpec StatementModel StatementSpec MethodModel ProblemModel.
Import ListNotations.
Local Open Scope string_scope.
Local Open Scope list_scope.
Local Open Scope R_scope.

(* mean over the pairs of different corners of an element of the product of two nodal fields; it is
   the exact mean of the product when one of the fields is constant *)
Definition cross_mean (d : nat) (e : list nat) (f g : vec) : R :=
  (sum (S d) (fun i => f (nth i e 0%nat)) * sum (S d) (fun i => g (nth i e 0%nat))
   - sum (S d) (fun i => f (nth i e 0%nat) * g (nth i e 0%nat))) / (INR (S d) * INR d).

(* node n of the mesh carries the condition of the indicator: it lies on the boundary *)
Definition fixed_node {P V} (m : @MeshData P V) (indicator : P -> bool) (n : nat) : Prop :=
  boundary_node 3 (m_elements m) n /\ holds_at (m_nodes m) indicator n.

(* a field with [width] components, stacked, is g at the fixed nodes *)
Definition takes {P V} (m : @MeshData P V) (indicator : P -> bool) (width : nat) (g : P -> R) (u : vec) : Prop :=
  let N := List.length (m_nodes m) in
  forall n k p, fixed_node m indicator n -> (k < width)%nat -> nth_error (m_nodes m) n = Some p ->
  u (k * N + n)%nat = g p.

Definition vanishes {P V} (m : @MeshData P V) (indicator : P -> bool) (width : nat) (v : vec) : Prop :=
  let N := List.length (m_nodes m) in
  forall n k, fixed_node m indicator n -> (k < width)%nat -> v (k * N + n)%nat = 0.

(* a condition that depends on the place only *)
Definition pointwise {P} (f : list P -> vec) (g : P -> R) : Prop :=
  forall l i p, nth_error l i = Some p -> f l i = g p.

Section Plane.
  Context {P V : Type}.
  Variable coord : P -> vec.
  Variable zero : P.
  Variable m : @MeshData P V.
  Let nodes := m_nodes m.
  Let N := List.length nodes.
  Let els := m_elements m.
  Let points := node_table coord zero nodes.

  (* the loads given by functions of the place, at the nodes *)
  Definition at_nodes (f : P -> vec) (k : nat) : vec := fun n => f (nth n nodes zero) k.

  (* virtual work of volume and surface loads *)
  Definition volume_work (width : nat) (f : P -> vec) (v : vec) : R :=
    sum width (fun k => integral (element_area points) els (fun e => cross_mean 2 e (component N v k) (at_nodes f k))).
  Definition surface_work (width : nat) (f : P -> vec) (v : vec) : R :=
    sum width (fun k => face_integral 2 points (faces_of m "neumann") (fun n => component N v k n * at_nodes f k n)).
  Definition load_work (width : nat) (f g : P -> vec) (v : vec) : R := volume_work width f v + surface_work width g v.

  (* virtual work of isotropic stresses: G, H are the gradients of v and u *)
  Definition stress_work (density : option (nat -> R)) (mu la : R) (G H : nat -> list nat -> vec) : R :=
    mesh_integral (element_area points) density els (fun e => elastic_density 2 mu la (fun c => G c e) (fun c => H c e)).

  (* virtual work of inertia *)
  Definition inertia_work (width : nat) (rho : R) (a v : vec) : R :=
    rho * sum width (fun c => integral (element_area points) els (fun e =>
      mean_product 2 (fun k => component N v c (nth k e 0%nat)) (fun k => component N a c (nth k e 0%nat)))).

  (* int c^2 grad v . grad u for scalar fields with gradients G and H *)
  Definition flux_work (density : option (nat -> R)) (c : R) (G H : list nat -> vec) : R :=
    mesh_integral (element_area points) density els (fun e => c ^ 2 * sum 2 (fun k => G e k * H e k)).

  Definition gradients (u : vec) (G : nat -> list nat -> vec) : Prop := vector_gradient 2 N points els u G.
  Definition gradient (u : vec) (G : list nat -> vec) : Prop := field_gradient 2 points els u G.

  (* u is in equilibrium with the loads f, g *)
  Definition balances (density : option (nat -> R)) (fixed : P -> bool) (mu la : R) (f g : P -> vec) (u : vec) : Prop :=
    forall v G H, vanishes m fixed 2 v -> gradients v G -> gradients u H ->
    stress_work density mu la G H = load_work 2 f g v.

  (* inertia of the acceleration a, viscous stresses of the velocity w, elastic stresses of the
     displacement u and the loads balance *)
  Definition moves (fixed : P -> bool) (rho th ze mu la : R) (f g : P -> vec) (a w u : vec) : Prop :=
    forall v G H K, vanishes m fixed 2 v -> gradients v G -> gradients w H -> gradients u K ->
    inertia_work 2 rho a v + stress_work None th ze G H + stress_work None mu la G K = load_work 2 f g v.

  (* the same without inertia *)
  Definition flows (fixed : P -> bool) (th ze mu la : R) (f g : P -> vec) (w u : vec) : Prop :=
    forall v G H K, vanishes m fixed 2 v -> gradients v G -> gradients w H -> gradients u K ->
    stress_work None th ze G H + stress_work None mu la G K = load_work 2 f g v.

  (* elastic stresses of the displacement u and stresses of the absement b with coefficients C *)
  Definition memory_density (C : nat -> nat -> nat -> R) (G H : nat -> vec) : R :=
    C 0%nat 0%nat 0%nat * (G 0%nat 0%nat * H 0%nat 0%nat) + C 0%nat 1%nat 1%nat * (G 0%nat 1%nat * H 0%nat 1%nat)
    + C 0%nat 1%nat 0%nat * (G 0%nat 1%nat * H 1%nat 0%nat) + C 0%nat 0%nat 1%nat * (G 0%nat 0%nat * H 1%nat 1%nat)
    + C 1%nat 1%nat 0%nat * (G 1%nat 1%nat * H 0%nat 0%nat) + C 1%nat 0%nat 1%nat * (G 1%nat 0%nat * H 0%nat 1%nat)
    + C 1%nat 0%nat 0%nat * (G 1%nat 0%nat * H 1%nat 0%nat) + C 1%nat 1%nat 1%nat * (G 1%nat 1%nat * H 1%nat 1%nat).
  Definition creeps (fixed : P -> bool) (mu la : R) (C : nat -> nat -> nat -> R) (f g : P -> vec) (b u : vec) : Prop :=
    forall v G H K, vanishes m fixed 2 v -> gradients v G -> gradients u H -> gradients b K ->
    stress_work None mu la G H
    + mesh_integral (element_area points) None els (fun e => memory_density C (fun c => G c e) (fun c => K c e))
    = load_work 2 f g v.

  (* a membrane: scalar fields *)
  Definition swings (fixed : P -> bool) (rho c : R) (f g : P -> vec) (a u : vec) : Prop :=
    forall v G K, vanishes m fixed 1 v -> gradient v G -> gradient u K ->
    inertia_work 1 rho a v + flux_work None c G K = load_work 1 f g v.
  Definition rests (density : option (nat -> R)) (fixed : P -> bool) (c : R) (f g : P -> vec) (u : vec) : Prop :=
    forall v G K, vanishes m fixed 1 v -> gradient v G -> gradient u K ->
    flux_work density c G K = load_work 1 f g v.
End Plane.

(* a problem on a triangle mesh: nodes with [fixed] on the boundary have the values g *)
Record posed (pb : problem) (contact fixed : P2 -> bool) (g : P2 -> R) : Prop := mkPosed {
  po_range : in_range (List.length (pr_nodes pb)) (pr_elements pb);
  po_triangles : simplices 3 (pr_elements pb);
  po_area : forall e, In e (pr_elements pb) -> det_2d (corners (node_table coord2 zero2 (pr_nodes pb)) e) <> 0;
  po_contact : dict_get (indicators (pr_boundaries pb)) "contact" = Some contact;
  po_fixed : dict_get (indicators (pr_boundaries pb)) "dirichlet" = Some fixed;
  po_values : exists c, dict_get (MeshBuildModel.conditions (pr_boundaries pb)) "dirichlet" = Some c /\ pointwise c g }.

(* the loads are f in the body and h on the free boundary *)
Definition gives (s : load_source) (f : P2 -> R -> vec) : Prop := forall p t, s p t = Ok (f p t).
Definition loaded (pb : problem) (width : nat) (f h : P2 -> R -> vec) : Prop :=
  pr_width pb = width /\ gives (pr_inner pb) f /\ gives (pr_outer pb) h.
Definition heated (pb : problem) (f h : P2 -> R -> vec) : Prop :=
  exists si so, pr_heat pb = Some (1%nat, si, so) /\ gives si f /\ gives so h.

(* use of a body: loads are asked for, arrays are added *)
Inductive asked (m : @MeshData P2 vec) (B : basic) : forces -> forces -> Prop :=
| never a : asked m B a a
| once a b t : asked m B a b -> asked m B a (fst (integrate_forces m B b t)).
Definition used (bt : built) (w : StatementModel.world forces) : Prop :=
  let w0 := bt_world bt in
  (exists l l', mats (hp w) = mats (hp w0) ++ l /\ vecs (hp w) = vecs (hp w0) ++ l') /\
  asked (bt_mesh bt) (bt_basic bt) (w_force w0) (w_force w) /\
  asked (bt_mesh bt) (bt_basic bt) (w_temperature w0) (w_temperature w).
Definition with_world (bt : built) (w : StatementModel.world forces) : built :=
  mkBuilt (bt_mesh bt) (bt_normals bt) (bt_basic bt) (bt_body bt) w.

(* a body after construction, perhaps used and reweighted any number of times; the density is the
   last one *)
Inductive prepared (pb : problem) : built -> option (nat -> R) -> Prop :=
| constructed bt : construct pb = Ok bt -> prepared pb bt None
| reweighted bt density w rho bt' : prepared pb bt density -> used bt w ->
    update_density pb (with_world bt w) rho = Ok bt' -> prepared pb bt' (Some rho).

(* steps of implicit Euler from u0, v0: after step j the velocity has the prescribed values and
   the new fields have the property of the time before the step *)
Definition motion (dt : R) (fixes : vec -> Prop) (step : R -> vec -> vec -> vec -> Prop) (u0 v0 : vec) (n : nat)
    (u v : nat -> vec) : Prop :=
  u O = u0 /\ v O = v0 /\
  forall j, (j < n)%nat ->
    (forall i, u (S j) i = u j i + dt * v (S j) i) /\ fixes (v (S j)) /\
    step (INR j * dt) (fun i => (v (S j) i - v j i) / dt) (v (S j)) (u (S j)).

(* the solver answers with solutions of the system that it holds *)
Definition answers_exactly {F} (size : nat) (answer : method F -> vec -> vec -> vec -> R -> result (nat * vec)) : Prop :=
  forall i guess v u dt len y, v_len (m_rhs i) = size -> answer i guess v u dt = Ok (len, y) ->
  solves size (load_m (hp (m_world i)) (sm_data (m_lhs i))) (load_v (hp (m_world i)) (m_rhs i)) y.

(* ... and does answer, with an array of length [full], when the matrix is positive definite *)
Definition answers_definite {F} (size full : nat) (answer : method F -> vec -> vec -> vec -> R -> result (nat * vec)) : Prop :=
  forall i guess v u dt, v_len (m_rhs i) = size -> pos_def size (load_m (hp (m_world i)) (sm_data (m_lhs i))) ->
  exists y, answer i guess v u dt = Ok (full, y).

(* the nodes of the user's mesh that carry the condition determine all others: displacements with
   given strains, scalar fields with given gradients *)
Definition user_fixed (pb : problem) (fixed : P2 -> bool) (i : nat) : Prop :=
  boundary_node 3 (pr_elements pb) i /\ holds_at (pr_nodes pb) fixed i.
Definition clamped_mesh (pb : problem) (fixed : P2 -> bool) : Prop :=
  forall i, (i < List.length (pr_nodes pb))%nat -> referenced (pr_elements pb) i ->
  held (user_fixed pb fixed) (pr_elements pb) i.
Definition grounded_mesh (pb : problem) (fixed : P2 -> bool) : Prop :=
  forall i, (i < List.length (pr_nodes pb))%nat -> referenced (pr_elements pb) i ->
  tied (user_fixed pb fixed) (pr_elements pb) i.

(* no place is both contact and fixed boundary; boundaries of other names are complete *)
Definition separate (contact fixed : P2 -> bool) : Prop := forall p, contact p = true -> fixed p = false.
Definition complete_names (pb : problem) : Prop := forall name, In name (map fst (indicators (pr_boundaries pb))) ->
  name = "contact" \/ name = "dirichlet" \/
  (exists c, dict_get (MeshBuildModel.conditions (pr_boundaries pb)) name = Some c) /\ reserved name = false.
