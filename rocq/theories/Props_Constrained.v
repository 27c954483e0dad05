(* C84: contact problems with prescribed values. *)
From Coq Require Import Reals List Arith Bool Lia Lra.
From Verif Require Import Common PyModel RVec LinAlg DirichletModel DirichletSpec ForcesSpec FemSpec ContactModel ContactSpec ContactCostProofs
  SchurModel SchurSpec SchurMinProofs ContactWitness ConstrainedSpec ConstrainedProofs ConstrainedSchurProofs ConstrainedWitness.
Import ListNotations.
Local Open Scope R_scope.

(* no contact face touches a prescribed dof: a vector minimises the cost made of the eliminated
   system iff it has the prescribed values and minimises the cost of the original system among
   the vectors that have them *)
Theorem C84_apart : forall law nodes normals faces N A b old u dt conds x,
  faces_ok 2 N faces -> well_shaped (2 * N) conds -> consistent (prescribed conds) -> symmetric (2 * N) A ->
  (forall e a k, In e faces -> In a e -> (k < 2)%nat -> ~ fixed_dof (prescribed conds) N a k) ->
  let sys := apply_dirichlet conds (mkSystem A b) in
  let cost := fun A b y => loss law 2 2 nodes 2 normals (mkSized (2 * N) (2 * N) A) ((2 * N)%nat, b)
    ((2 * N)%nat, y) ((2 * N)%nat, old) ((2 * N)%nat, u) faces dt in
  (minimises (cost (lhs sys) (rhs sys)) x <-> minimises_among (prescribed conds) (cost A b) x).
Proof.
  exact (fun law nodes normals faces N A b old u dt conds x HF HW HK HS =>
    apart_minimiser law nodes normals faces N A b old u dt conds HF HW HK HS x).
Qed.
Print Assumptions C84_apart.

Example C84_apart_example : forall v, faces_ok 2 3 bar_faces /\ well_shaped 6 (roof v) /\ consistent (prescribed (roof v)) /\
  (exists d w, prescribed (roof v) d w) /\
  (forall e a k, In e bar_faces -> In a e -> (k < 2)%nat -> ~ fixed_dof (prescribed (roof v)) 3 a k).
Proof. exact roof_facts. Qed.
Example C84_apart_matrix : symmetric 6 delta /\ pos_def 6 delta.
Proof. exact (delta_pos 6). Qed.

(* with a matrix definite on the admissible differences and a convex law there is exactly one
   admissible vector of least cost, whether or not faces touch prescribed dofs *)
Theorem C84_exactly_one : forall law nodes normals faces N A b old u dt conds,
  faces_ok 2 N faces -> well_shaped (2 * N) conds -> consistent (prescribed conds) -> symmetric (2 * N) A ->
  (forall x, (forall d v, prescribed conds d v -> x d = 0) -> (exists i, (i < 2 * N)%nat /\ x i <> 0) -> 0 < qform (2 * N) A x) ->
  convex_law law dt ->
  let cost := fun y => loss law 2 2 nodes 2 normals (mkSized (2 * N) (2 * N) A) ((2 * N)%nat, b)
    ((2 * N)%nat, y) ((2 * N)%nat, old) ((2 * N)%nat, u) faces dt in
  exists x, minimises_among (prescribed conds) cost x /\
    forall x', minimises_among (prescribed conds) cost x' -> veq (2 * N) x' x.
Proof. exact contact_exactly_one. Qed.
Print Assumptions C84_exactly_one.

Example C84_law_example : forall dt, convex_law stiff_law dt.
Proof. exact stiff_law_convex. Qed.

(* and it is the solution of the variational inequality with the prescribed values *)
Theorem C84_inequality : forall law nodes normals faces N A b old u dt conds x,
  faces_ok 2 N faces -> symmetric (2 * N) A ->
  (forall z, (forall d v, prescribed conds d v -> z d = 0) -> 0 <= qform (2 * N) A z) -> convex_law law dt ->
  (minimises_among (prescribed conds) (fun y => loss law 2 2 nodes 2 normals (mkSized (2 * N) (2 * N) A) ((2 * N)%nat, b)
     ((2 * N)%nat, y) ((2 * N)%nat, old) ((2 * N)%nat, u) faces dt) x <->
   contact_inequality (2 * N) (prescribed conds) (fun x i => mv (2 * N) A x i - b i)
     (fun y => contact_energy law nodes normals faces dt (nodal N u) (nodal N y)) x).
Proof.
  exact (fun law nodes normals faces N A b old u dt conds x HF HS =>
    contact_inequality_iff law nodes normals faces N A b old u dt conds HF HS x).
Qed.
Print Assumptions C84_inequality.

(* Schur: a face may touch prescribed dofs of nodes that are not counted as contact nodes, if the
   old values are the prescribed ones there *)
Theorem C84_schur : forall inv law nodes normals faces nc nf A b old u dt conds s x xc xf, inverts inv ->
  let N := (nc + nf)%nat in
  faces_ok 2 N faces -> well_shaped (2 * N) conds -> consistent (prescribed conds) -> symmetric (2 * N) A ->
  (forall x, (forall d v, prescribed conds d v -> x d = 0) -> (exists i, (i < 2 * N)%nat /\ x i <> 0) -> 0 < qform (2 * N) A x) ->
  let sys := apply_dirichlet conds (mkSystem A b) in
  init inv 2 nc N (mkSized (2 * N) (2 * N) (lhs sys)) ((2 * N)%nat, rhs sys) = Ok s ->
  (forall e a k, In e faces -> In a e -> (k < 2)%nat ->
    (a < nc)%nat /\ ~ fixed_dof (prescribed conds) N a k \/
    (nc <= a)%nat /\ prescribed conds (k * N + a) (old (k * N + a)%nat)) ->
  parts 2 nc nf x xc xf ->
  (minimises_among (prescribed conds) (fun y => loss law 2 2 nodes 2 normals (mkSized (2 * N) (2 * N) A) ((2 * N)%nat, b)
     ((2 * N)%nat, y) ((2 * N)%nat, old) ((2 * N)%nat, u) faces dt) x <->
   minimises (fun y => loss law 2 2 nodes 2 normals (node_relations s) (node_forces s)
     ((2 * nc)%nat, y) ((2 * N)%nat, old) ((2 * N)%nat, u) faces dt) xc /\
   exists r, complement_free_nodes s ((2 * nc)%nat, xc) = Ok ((2 * nf)%nat, r) /\ veq (2 * nf) xf r).
Proof.
  exact (fun inv law nodes normals faces nc nf A b old u dt conds s x xc xf HI HF HW HK HS HD E HT HX =>
    schur_constrained law nodes normals faces nc nf A b old u dt conds HF HW HK HS HD _ _ s
      (fun i j _ _ => eq_refl) (fun i _ => eq_refl) (init_reduces inv 2 nc nf HI (Nat.neq_succ_0 1) _ _ s E) HT x xc xf HX).
Qed.
Print Assumptions C84_schur.

(* the whole step with an exact minimiser of the reduced cost *)
Theorem C84_schur_step : forall inv law nodes normals faces nc nf A b old u dt conds s optimise x0, inverts inv ->
  let N := (nc + nf)%nat in
  faces_ok 2 N faces -> well_shaped (2 * N) conds -> consistent (prescribed conds) -> symmetric (2 * N) A ->
  (forall x, (forall d v, prescribed conds d v -> x d = 0) -> (exists i, (i < 2 * N)%nat /\ x i <> 0) -> 0 < qform (2 * N) A x) ->
  let sys := apply_dirichlet conds (mkSystem A b) in
  init inv 2 nc N (mkSized (2 * N) (2 * N) (lhs sys)) ((2 * N)%nat, rhs sys) = Ok s ->
  (forall e a k, In e faces -> In a e -> (k < 2)%nat ->
    (a < nc)%nat /\ ~ fixed_dof (prescribed conds) N a k \/
    (nc <= a)%nat /\ prescribed conds (k * N + a) (old (k * N + a)%nat)) ->
  (forall g, contact_of 2 nc nf x0 g ->
     exists xc, optimise ((2 * nc)%nat, g) = ((2 * nc)%nat, xc) /\
       minimises (fun y => loss law 2 2 nodes 2 normals (node_relations s) (node_forces s)
         ((2 * nc)%nat, y) ((2 * N)%nat, old) ((2 * N)%nat, u) faces dt) xc) ->
  exists x, solve_impl 2 nc false optimise s ((2 * N)%nat, x0) = Ok ((2 * N)%nat, x) /\
    minimises_among (prescribed conds) (fun y => loss law 2 2 nodes 2 normals (mkSized (2 * N) (2 * N) A) ((2 * N)%nat, b)
      ((2 * N)%nat, y) ((2 * N)%nat, old) ((2 * N)%nat, u) faces dt) x.
Proof.
  exact (fun inv law nodes normals faces nc nf A b old u dt conds s optimise x0 HI HF HW HK HS HD E HT =>
    schur_step law nodes normals faces nc nf A b old u dt conds HF HW HK HS HD _ _ s
      (fun i j _ _ => eq_refl) (fun i _ => eq_refl) (init_reduces inv 2 nc nf HI (Nat.neq_succ_0 1) _ _ s E) HT optimise x0).
Qed.
Print Assumptions C84_schur_step.

(* the face of the two nodes touches the second one, which is held at 0, its old value *)
Example C84_schur_example : forall inv, inverts inv -> exists s,
  faces_ok 2 2 bar_faces /\ well_shaped 4 (held 0) /\ consistent (prescribed (held 0)) /\
  init inv 2 1 2 (mkSized 4 4 (lhs (apply_dirichlet (held 0) (mkSystem unit4 pull4))))
    (4%nat, rhs (apply_dirichlet (held 0) (mkSystem unit4 pull4))) = Ok s /\
  (forall e a k, In e bar_faces -> In a e -> (k < 2)%nat ->
    (a < 1)%nat /\ ~ fixed_dof (prescribed (held 0)) 2 a k \/ (1 <= a)%nat /\ prescribed (held 0) (k * 2 + a) ((fun _ => 0) (k * 2 + a)%nat)) /\
  minimises (fun y => loss stiff_law 2 2 bar 2 up (node_relations s) (node_forces s) (2%nat, y) (4%nat, fun _ => 0) (4%nat, fun _ => 0)
    bar_faces 1) half.
Proof.
  intros inv HI. destruct (held_state inv 0 pull4 HI) as (s & E). exists s.
  split; [exact bar_faces_ok|]. split; [apply held_shaped|]. split; [apply held_consistent|]. split; [exact E|].
  split; [|exact (corner_reduced_least inv 0 s (fun _ => 0) 1 HI E)].
  intros e a k [<-|[]] Ha Hk. destruct Ha as [<-|[<-|[]]].
  - left. split; [lia|]. intros (v & Hv). apply held_prescribed in Hv. destruct k as [|[|k]]; lia.
  - right. split; [lia|]. apply held_prescribed. destruct k as [|[|k]]; [left|right|lia]; split; reflexivity.
Qed.

(* Full claim of C84: also with faces that touch prescribed dofs the minimiser of the eliminated
   cost, with the prescribed values written into it, solves the constrained problem.  It is false,
   even for zero values: the contact terms of the eliminated cost see the unpinned values. *)
Theorem C84_touching_refuted : ~ (forall law nodes normals faces N A b old u dt conds x,
  faces_ok 2 N faces -> well_shaped (2 * N) conds -> consistent (prescribed conds) ->
  symmetric (2 * N) A -> pos_def (2 * N) A -> convex_law law dt -> (forall d v, prescribed conds d v -> v = 0) ->
  let sys := apply_dirichlet conds (mkSystem A b) in
  minimises (fun y => loss law 2 2 nodes 2 normals (mkSized (2 * N) (2 * N) (lhs sys)) ((2 * N)%nat, rhs sys)
    ((2 * N)%nat, y) ((2 * N)%nat, old) ((2 * N)%nat, u) faces dt) x ->
  minimises_among (prescribed conds) (fun y => loss law 2 2 nodes 2 normals (mkSized (2 * N) (2 * N) A) ((2 * N)%nat, b)
    ((2 * N)%nat, y) ((2 * N)%nat, old) ((2 * N)%nat, u) faces dt) (overwrite_all conds x)).
Proof. exact touching_refuted. Qed.
Print Assumptions C84_touching_refuted.

(* and for Schur without the condition on the old values: the contact terms see the old value of
   a corner node instead of the prescribed one *)
Theorem C84_corner_refuted : forall inv, inverts inv -> ~ (forall law nodes normals faces nc nf A b old u dt conds s optimise x0 x,
  let N := (nc + nf)%nat in
  faces_ok 2 N faces -> well_shaped (2 * N) conds -> consistent (prescribed conds) ->
  symmetric (2 * N) A -> pos_def (2 * N) A -> convex_law law dt ->
  let sys := apply_dirichlet conds (mkSystem A b) in
  init inv 2 nc N (mkSized (2 * N) (2 * N) (lhs sys)) ((2 * N)%nat, rhs sys) = Ok s ->
  (forall e a k, In e faces -> In a e -> (k < 2)%nat ->
    (a < nc)%nat /\ ~ fixed_dof (prescribed conds) N a k \/ (nc <= a)%nat /\ fixed_dof (prescribed conds) N a k) ->
  (forall g, exists xc, optimise ((2 * nc)%nat, g) = ((2 * nc)%nat, xc) /\
     minimises (fun y => loss law 2 2 nodes 2 normals (node_relations s) (node_forces s)
       ((2 * nc)%nat, y) ((2 * N)%nat, old) ((2 * N)%nat, u) faces dt) xc) ->
  solve_impl 2 nc false optimise s ((2 * N)%nat, x0) = Ok ((2 * N)%nat, x) ->
  minimises_among (prescribed conds) (fun y => loss law 2 2 nodes 2 normals (mkSized (2 * N) (2 * N) A) ((2 * N)%nat, b)
    ((2 * N)%nat, y) ((2 * N)%nat, old) ((2 * N)%nat, u) faces dt) x).
Proof. exact corner_refuted. Qed.
Print Assumptions C84_corner_refuted.
