(* Specification of posed problems with contact: variational inequalities with the user's loads,
   moduli, values at the fixed nodes and contact law. *)
From Coq Require Import Reals List Arith Bool String.
From Verif Require Import Common PyModel RVec MeshModel MeshBuildModel MeshSpec NormalsModel FemModel FemSpec ForcesSpec
  ContactModel ContactSpec ContactCostProofs ConstrainedSpec StatementModel StatementSpec MethodModel ContactRunSpec ProblemModel ProblemSpec.
Import ListNotations.
Local Open Scope string_scope.
Local Open Scope list_scope.
Local Open Scope R_scope.

Section Contact.
  Context {P V : Type}.
  Variable coord : P -> vec.
  Variable zero : P.
  Variable m : @MeshData P V.
  Let N := List.length (m_nodes m).
  Let points := node_table coord zero (m_nodes m).

  (* cost of contact of the field w at displacement u, with these normals of the contact faces *)
  Definition contact_cost (law : contact_law) (normals : list P) (dt : R) (u w : vec) : R :=
    contact_energy law points (fun i => coord (nth i normals zero)) (faces_of m "contact") dt (nodal N u) (nodal N w).

  (* u is in equilibrium with the loads f, g and a contact with cost J *)
  Definition leans (density : option (nat -> R)) (fixed : P -> bool) (value : P -> R) (mu la : R) (f g : P -> vec)
      (J : vec -> R) (u : vec) : Prop :=
    takes m fixed 2 value u /\
    forall v G H, takes m fixed 2 value v -> gradients coord zero m (fun i => v i - u i) G -> gradients coord zero m u H ->
    load_work coord zero m 2 f g (fun i => v i - u i) <= stress_work coord zero m density mu la G H + J v - J u.

  (* inertia of the acceleration a, viscous stresses of the velocity w, elastic stresses of the
     displacement u, the loads and a contact with cost J of velocities *)
  Definition slides (density : option (nat -> R)) (fixed : P -> bool) (value : P -> R) (rho th ze mu la : R) (f g : P -> vec)
      (J : vec -> R) (a w u : vec) : Prop :=
    takes m fixed 2 value w /\
    forall v G H K, takes m fixed 2 value v -> gradients coord zero m (fun i => v i - w i) G ->
    gradients coord zero m w H -> gradients coord zero m u K ->
    load_work coord zero m 2 f g (fun i => v i - w i)
    <= inertia_work coord zero m 2 rho a (fun i => v i - w i) + stress_work coord zero m density th ze G H
       + stress_work coord zero m density mu la G K + J v - J w.

  (* the same without inertia *)
  Definition drags (density : option (nat -> R)) (fixed : P -> bool) (value : P -> R) (th ze mu la : R) (f g : P -> vec)
      (J : vec -> R) (w u : vec) : Prop :=
    takes m fixed 2 value w /\
    forall v G H K, takes m fixed 2 value v -> gradients coord zero m (fun i => v i - w i) G ->
    gradients coord zero m w H -> gradients coord zero m u K ->
    load_work coord zero m 2 f g (fun i => v i - w i)
    <= stress_work coord zero m density th ze G H + stress_work coord zero m density mu la G K + J v - J w.

  (* kinetic energy of the velocity v, elastic energy of a displacement with gradients H *)
  Definition kinetic (k : kind) (rho : R) (v : vec) : R :=
    match k with DynamicVelocity => inertia_work coord zero m 2 rho v v / 2 | _ => 0 end.
  Definition stored (density : option (nat -> R)) (mu la : R) (H : nat -> list nat -> vec) : R :=
    stress_work coord zero m density mu la H H / 2.

  (* a step of a kind of problem at time t *)
  Definition contact_step (density : option (nat -> R)) (fixed : P -> bool) (value : P -> R) (rho th ze mu la : R)
      (fi fo : P -> R -> vec) (k : kind) (t : R) (J : vec -> R) (a w u : vec) : Prop :=
    match k with
    | DynamicVelocity => slides density fixed value rho th ze mu la (fun p => fi p t) (fun p => fo p t) J a w u
    | QuasistaticVelocity => drags density fixed value th ze mu la (fun p => fi p t) (fun p => fo p t) J w u
    | _ => False
    end.
End Contact.

(* steps of implicit Euler with contact: the cost of contact of a step is that of the displacement
   before the step *)
Definition contact_motion (dt : R) (J : vec -> vec -> R) (step : R -> (vec -> R) -> vec -> vec -> vec -> Prop)
    (u0 v0 : vec) (n : nat) (u v : nat -> vec) : Prop :=
  u O = u0 /\ v O = v0 /\
  forall j, (j < n)%nat ->
    (forall i, u (S j) i = u j i + dt * v (S j) i) /\
    step (INR j * dt) (J (u j)) (fun i => (v (S j) i - v j i) / dt) (v (S j)) (u (S j)).

(* boundary faces whose middle is a contact place have contact places at both ends *)
Definition whole_faces (pb : problem) (contact : P2 -> bool) : Prop :=
  forall f p q, boundary_face 3 (pr_elements pb) f -> picks f (pr_nodes pb) [p; q] ->
  contact (mean2 [p; q]) = true -> contact p = true /\ contact q = true.

(* what a kind of problem needs of the material and the mesh *)
Definition sturdy (pb : problem) (fixed : P2 -> bool) (k : kind) (th ze mu la : R) : Prop :=
  elastic (pr_material pb) = Some (mu, la) /\
  match k with
  | StaticDisplacement => 0 < mu /\ 0 <= la /\ clamped_mesh pb fixed
  | QuasistaticVelocity => viscous (pr_material pb) = Some (th, ze) /\ 0 <= mu /\ 0 <= la /\ 0 < th /\ 0 <= ze /\ clamped_mesh pb fixed
  | DynamicVelocity => viscous (pr_material pb) = Some (th, ze) /\ 0 <= mu /\ 0 <= la /\ 0 <= th /\ 0 <= ze /\ 0 < mass_density (pr_material pb)
  | _ => False
  end.

(* a problem with contact: boundaries do not meet, material and law are sound, time goes forward *)
Record contact_posed (pb : problem) (contact fixed : P2 -> bool) (g : P2 -> R) (fi fo : P2 -> R -> vec) (k : kind) (th ze mu la : R)
    (law : contact_law) : Prop := mkContactPosed {
  cp_posed : posed pb contact fixed g;
  cp_loaded : loaded pb 2 fi fo;
  cp_sturdy : sturdy pb fixed k th ze mu la;
  cp_forward : forward k (time_step_of pb);
  cp_law : convex_law law (time_step_of pb);
  cp_separate : separate contact fixed;
  cp_whole : whole_faces pb contact }.

(* the cost of contact of a built body *)
Definition body_cost (pb : problem) (bt : built) (law : contact_law) : vec -> vec -> R :=
  contact_cost coord2 zero2 (bt_mesh bt) law (contact_normals (bt_mesh bt) (bt_normals bt)) (time_step_of pb).

(* what motions and states at rest of a posed problem are *)
Definition posed_motion (pb : problem) (bt : built) (density : option (nat -> R)) (fixed : P2 -> bool) (g : P2 -> R) (fi fo : P2 -> R -> vec)
    (k : kind) (th ze mu la : R) (law : contact_law) (u0 v0 : vec) (n : nat) (u v : nat -> vec) : Prop :=
  contact_motion (time_step_of pb) (body_cost pb bt law)
    (contact_step coord2 zero2 (bt_mesh bt) density fixed g (mass_density (pr_material pb)) th ze mu la fi fo k) u0 v0 n u v.
Definition posed_rest (pb : problem) (bt : built) (density : option (nat -> R)) (fixed : P2 -> bool) (g : P2 -> R) (fi fo : P2 -> R -> vec)
    (mu la : R) (law : contact_law) (u0 u : vec) : Prop :=
  leans coord2 zero2 (bt_mesh bt) density fixed g mu la (fun p => fi p 0) (fun p => fo p 0) (body_cost pb bt law u0) u.
