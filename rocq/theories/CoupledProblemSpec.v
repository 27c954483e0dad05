(* Specification of posed problems with a second field (C104): balances of virtual work of a body that is
   heated or polarised. *)
From Coq Require Import Reals List Arith Bool String.
From Verif Require Import Common PyModel RVec MeshModel MeshBuildModel MeshSpec NormalsModel FemModel FemSpec ForcesSpec
  DirichletSpec StatementSpec MethodModel ProblemModel ProblemSpec CoupledSpec DirichletModel.
Import ListNotations.
Local Open Scope string_scope.
Local Open Scope list_scope.
Local Open Scope R_scope.

Section Plane.
  Context {P V : Type}.
  Variable coord : P -> vec.
  Variable zero : P.
  Variable m : @MeshData P V.
  Let N := List.length (m_nodes m).
  Let els := m_elements m.
  Let points := node_table coord zero (m_nodes m).
  Notation gradients := (gradients coord zero m).
  Notation gradient := (gradient coord zero m).
  Notation stress_work := (stress_work coord zero m None).
  Notation inertia_work := (inertia_work coord zero m).
  Notation load_work := (load_work coord zero m).

  (* int y ex : grad w, for a scalar field y and a vector field with gradients H *)
  Definition expansion_work (ex : nat -> nat -> R) (y : vec) (H : nat -> list nat -> vec) : R :=
    integral (element_area points) els (fun e => mean_value 2 e y * sum 2 (fun c => sum 2 (fun l => ex c l * H c e l))).
  (* int co grad z . grad y *)
  Definition conduction_work (co : nat -> nat -> R) (G H : list nat -> vec) : R :=
    integral (element_area points) els (fun e => sum 2 (fun k => sum 2 (fun l => co k l * (G e k * H e l)))).
  (* int pz (grad z, grad w) *)
  Definition piezo_work (pz : nat -> nat -> nat -> R) (G : list nat -> vec) (H : nat -> list nat -> vec) : R :=
    integral (element_area points) els (fun e => sum 2 (fun c => sum 2 (fun k => sum 2 (fun l => pz c k l * (G e k * H c e l))))).

  (* rho a - div (viscous (w) + elastic (u) - y ex) = loads *)
  Definition moves_heated (fixed : P -> bool) (rho th ze mu la : R) (ex : nat -> nat -> R) (f g : P -> vec) (y a w u : vec) : Prop :=
    forall v G H K, vanishes m fixed 2 v -> gradients v G -> gradients w H -> gradients u K ->
    inertia_work 2 rho a v + stress_work th ze G H + stress_work mu la G K = load_work 2 f g v + expansion_work ex y G.

  (* rho r - div (co grad y) = - ex : grad w, where r is the rate of the temperature y *)
  Definition warms (fixed : P -> bool) (rho : R) (ex co : nat -> nat -> R) (w r y : vec) : Prop :=
    forall z G H K, vanishes m fixed 1 z -> gradient z G -> gradient y H -> gradients w K ->
    inertia_work 1 rho r z + conduction_work co G H = - expansion_work ex z K.

  (* - div (viscous (w) + elastic (u) + pz^T grad y) = loads *)
  Definition flows_polarised (fixed : P -> bool) (th ze mu la : R) (pz : nat -> nat -> nat -> R) (f g : P -> vec) (y w u : vec) : Prop :=
    forall v G H K Y, vanishes m fixed 2 v -> gradients v G -> gradients w H -> gradients u K -> gradient y Y ->
    stress_work th ze G H + stress_work mu la G K + piezo_work pz Y G = load_work 2 f g v.

  (* div (pm grad y - pz grad u) = 0, tested with fields that vanish at the nodes [on] *)
  Definition polarises (on : nat -> Prop) (pz : nat -> nat -> nat -> R) (pm : nat -> nat -> R) (u y : vec) : Prop :=
    forall z G H K, (forall n, (n < N)%nat -> on n -> z n = 0) -> gradient z G -> gradient y H -> gradients u K ->
    conduction_work pm G H = piezo_work pz G K.
End Plane.

(* one pass: the momentum balance at time t, of a body with displacement u and velocity v before the
   step, gives the velocity x if the temperature is y *)
Definition momentum_step (m : @MeshData P2 vec) (fixed : P2 -> bool) (g : P2 -> R) (rho th ze mu la : R) (ex : nat -> nat -> R)
    (f h : P2 -> R -> vec) (dt t : R) (u v y x : vec) : Prop :=
  takes m fixed 2 g x /\
  moves_heated coord2 zero2 m fixed rho th ze mu la ex (fun p => f p t) (fun p => h p t) y
    (fun i => (x i - v i) / dt) x (fun i => u i + dt * x i).
(* the heat equation gives the temperature y, from the temperature e before the step *)
Definition heat_step (m : @MeshData P2 vec) (fixed : P2 -> bool) (g : P2 -> R) (rho : R) (ex co : nat -> nat -> R) (dt : R)
    (u x e y : vec) : Prop :=
  takes m fixed 1 g y /\ warms coord2 zero2 m fixed rho ex co x (fun i => (y i - e i) / dt) y.

(* a heated body: every pass of a step balances the momentum with the temperature of the pass before, and
   the heat with the new velocity *)
Definition heated_motion (m : @MeshData P2 vec) (fixed : P2 -> bool) (g : P2 -> R) (rho th ze mu la : R) (ex co : nat -> nat -> R)
    (f h : P2 -> R -> vec) (dt : R) : vec -> vec -> vec -> nat -> (nat -> vec) -> (nat -> vec) -> (nat -> vec) -> Prop :=
  let N := List.length (m_nodes m) in
  coupled_motion (2 * N) N (momentum_step m fixed g rho th ze mu la ex f h dt) (heat_step m fixed g rho ex co dt) dt.

(* the boundaries that hold the potential: "piezo_dirichlet_0", "piezo_dirichlet_1", ... with the places
   and values given *)
Definition electrodes (d : @Description P2 vec) (es : list ((P2 -> bool) * (P2 -> R))) : Prop :=
  dict_get (indicators d) "piezo_dirichlet" = None /\
  dict_get (indicators d) (numbered "piezo_dirichlet" (List.length es)) = None /\
  NoDup (map fst (indicators d)) /\
  forall j ind g, nth_error es j = Some (ind, g) ->
    dict_get (indicators d) (numbered "piezo_dirichlet" j) = Some ind /\
    exists c, dict_get (MeshBuildModel.conditions d) (numbered "piezo_dirichlet" j) = Some c /\ pointwise c g.

(* node n belongs to an electrode: to a face of the boundary whose centre does; there the potential is v *)
Definition on_electrode (nodes : list P2) (els : list (list nat)) (es : list ((P2 -> bool) * (P2 -> R))) (n : nat) (v : R) : Prop :=
  exists ind g f p, In (ind, g) es /\ boundary_face 3 els f /\ face_holds mean2 nodes ind f /\ In n f /\
    nth_error nodes n = Some p /\ v = g p.
Definition at_electrode (m : @MeshData P2 vec) := on_electrode (m_nodes m) (m_elements m).
(* every electrode has a face; electrodes that meet have the same potential there *)
Definition electrodes_meet (nodes : list P2) (els : list (list nat)) (es : list ((P2 -> bool) * (P2 -> R))) : Prop :=
  (forall ind g, In (ind, g) es -> exists f, boundary_face 3 els f /\ face_holds mean2 nodes ind f) /\
  (forall n v v', on_electrode nodes els es n v -> on_electrode nodes els es n v' -> v = v').
Definition electrodes_fit (m : @MeshData P2 vec) := electrodes_meet (m_nodes m) (m_elements m).
(* the electrodes determine the potentials with a given gradient *)
Definition wired (nodes : list P2) (els : list (list nat)) (es : list ((P2 -> bool) * (P2 -> R))) : Prop :=
  forall n, (n < List.length nodes)%nat -> referenced els n -> tied (fun i => exists v, on_electrode nodes els es i v) els n.

(* passes of a polarised body: at rest, in motion, and the potential *)
Definition creep_step (m : @MeshData P2 vec) (fixed : P2 -> bool) (g : P2 -> R) (th ze mu la : R) (pz : nat -> nat -> nat -> R)
    (f h : P2 -> R -> vec) (dt t : R) (u v y x : vec) : Prop :=
  takes m fixed 2 g x /\
  flows_polarised coord2 zero2 m fixed th ze mu la pz (fun p => f p t) (fun p => h p t) y x (fun i => u i + dt * x i).
Definition motion_step (m : @MeshData P2 vec) (fixed : P2 -> bool) (g : P2 -> R) (rho th ze mu la : R)
    (f h : P2 -> R -> vec) (dt t : R) (u v y x : vec) : Prop :=
  takes m fixed 2 g x /\
  moves coord2 zero2 m fixed rho th ze mu la (fun p => f p t) (fun p => h p t) (fun i => (x i - v i) / dt) x (fun i => u i + dt * x i).
Definition potential_step (m : @MeshData P2 vec) (es : list ((P2 -> bool) * (P2 -> R))) (pz : nat -> nat -> nat -> R) (pm : nat -> nat -> R)
    (u x e y : vec) : Prop :=
  (forall n w, at_electrode m es n w -> y n = w) /\
  polarises coord2 zero2 m (fun n => exists w, at_electrode m es n w) pz pm u y.

Definition polarised_motion (m : @MeshData P2 vec) (fixed : P2 -> bool) (g : P2 -> R) (th ze mu la : R)
    (es : list ((P2 -> bool) * (P2 -> R))) (pz : nat -> nat -> nat -> R) (pm : nat -> nat -> R)
    (f h : P2 -> R -> vec) (dt : R) : vec -> vec -> vec -> nat -> (nat -> vec) -> (nat -> vec) -> (nat -> vec) -> Prop :=
  let N := List.length (m_nodes m) in
  coupled_motion (2 * N) N (creep_step m fixed g th ze mu la pz f h dt) (potential_step m es pz pm) dt.

(* the dynamic problem: the potential does not act on the body *)
Definition sensed_motion (m : @MeshData P2 vec) (fixed : P2 -> bool) (g : P2 -> R) (rho th ze mu la : R)
    (es : list ((P2 -> bool) * (P2 -> R))) (pz : nat -> nat -> nat -> R) (pm : nat -> nat -> R)
    (f h : P2 -> R -> vec) (dt : R) : vec -> vec -> vec -> nat -> (nat -> vec) -> (nat -> vec) -> (nat -> vec) -> Prop :=
  let N := List.length (m_nodes m) in
  coupled_motion (2 * N) N (motion_step m fixed g rho th ze mu la f h dt) (potential_step m es pz pm) dt.
