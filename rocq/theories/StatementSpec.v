(* Independent specification of the time steps (C30-C34, C59): the discrete balance laws
   written with the physical matrices, loads and the previous state, without any reference
   to how the systems are assembled. *)
From Coq Require Import Reals List Arith Lia.
From Verif Require Import RVec DirichletSpec.
Import ListNotations.
Local Open Scope R_scope.

(* a problem with N nodes and n = (dimension * N) displacement dofs *)
Record physics := mkPhysics {
  ph_N : nat;                (* nodes *)
  ph_n : nat;                (* displacement dofs *)
  mass : mat;                (* n x n; its first N x N block is the scalar mass *)
  stiffness : mat;           (* n x n *)
  damping : mat;             (* n x n *)
  memory : mat;              (* n x n, relaxation at the current time *)
  laplace : mat;             (* N x N, c^2 times the Laplacian *)
  conduction : mat;          (* N x N *)
  dielectric : mat;          (* N x N *)
  expansion : mat;           (* N x n, thermal *)
  coupling : mat;            (* N x n, piezoelectric *)
  load : vec;                (* nodal forces at the current time *)
  heat : vec;                (* nodal heat source *)
  ph_b : vec;                (* previous absement *)
  ph_u : vec;                (* previous displacement *)
  ph_v : vec;                (* previous velocity; the current one in the heat equation *)
  ph_th : vec;               (* temperature *)
  ph_phi : vec;              (* electric potential *)
  ph_dt : R }.

Section Laws.
  Variable p : physics.
  Let N := ph_N p.
  Let n := ph_n p.

  (* implicit Euler: the new displacement (absement) belonging to the new velocity
     (displacement) x, the acceleration, the heating rate *)
  Definition advanced (old x : vec) : vec := fun i => old i + ph_dt p * x i.
  Definition rate (old x : vec) : vec := fun i => (x i - old i) / ph_dt p.

  (* E u = F *)
  Definition static_law (x : vec) (i : nat) : Prop := mv n (stiffness p) x i = load p i.
  (* c^2 L u = heat *)
  Definition poisson_law (x : vec) (i : nat) : Prop := mv N (laplace p) x i = heat p i.
  (* E u + R b = F *)
  Definition relaxation_law (x : vec) (i : nat) : Prop :=
    mv n (stiffness p) x i + mv n (memory p) (advanced (ph_b p) x) i = load p i.
  (* C v + E u = F, plus an extra load g *)
  Definition quasistatic_law (g : vec) (x : vec) (i : nat) : Prop :=
    mv n (damping p) x i + mv n (stiffness p) (advanced (ph_u p) x) i = load p i + g i.
  (* M v' + C v + E u = F, plus an extra load g *)
  Definition dynamic_law (g : vec) (x : vec) (i : nat) : Prop :=
    mv n (mass p) (rate (ph_v p) x) i + mv n (damping p) x i
      + mv n (stiffness p) (advanced (ph_u p) x) i = load p i + g i.
  (* M v' + c^2 L u = F *)
  Definition wave_law (x : vec) (i : nat) : Prop :=
    mv N (mass p) (rate (ph_v p) x) i + mv N (laplace p) (advanced (ph_u p) x) i = load p i.
  (* M th' + K th = - T v *)
  Definition heat_law (x : vec) (i : nat) : Prop :=
    mv N (mass p) (rate (ph_th p) x) i + mv N (conduction p) x i = - mv n (expansion p) (ph_v p) i.
  (* eps phi = P u *)
  Definition potential_law (x : vec) (i : nat) : Prop :=
    mv N (dielectric p) x i = mv n (coupling p) (ph_u p) i.
  (* nodal forces of a temperature and of an electric potential *)
  Definition thermal_load : vec := mv N (mT (expansion p)) (ph_th p).
  Definition electric_load : vec := mv N (mT (coupling p)) (ph_phi p).
End Laws.

(* x has the prescribed values and obeys the law at all other dofs *)
Definition obeys (size : nat) (pin : nat -> R -> Prop) (law : vec -> nat -> Prop) (x : vec) : Prop :=
  (forall d v, pin d v -> x d = v) /\
  (forall k, (k < size)%nat -> (forall v, ~ pin k v) -> law x k).

(* nodes whose value is determined by the fixed nodes [pin] and the elements: a scalar field
   with vanishing gradient is constant on each element ... *)
Inductive tied (pin : nat -> Prop) (els : list (list nat)) : nat -> Prop :=
| tied_pin i : pin i -> tied pin els i
| tied_by e i k : In e els -> In i e -> In k e -> tied pin els i -> tied pin els k.

(* ... and a plane displacement without strain is fixed on an element as soon as two of its
   corners are *)
Inductive held (pin : nat -> Prop) (els : list (list nat)) : nat -> Prop :=
| held_pin i : pin i -> held pin els i
| held_by e i j k : In e els -> In i e -> In j e -> i <> j -> In k e ->
    held pin els i -> held pin els j -> held pin els k.

(* positive weight on every element *)
Definition positive_density (density : option (nat -> R)) : Prop :=
  match density with None => True | Some rho => forall k, 0 < rho k end.
