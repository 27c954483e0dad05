(* Model of the finite element assembly.
   Sources: /repo/conmech/dynamics/factory/_dynamics_factory_2d.py (cited 2d:),
   _dynamics_factory_3d.py (3d:), _abstract_dynamics_factory.py (abs:),
   dynamics_factory_method.py (fm:), /repo/conmech/dynamics/dynamics.py (dyn:).

   Real numbers replace doubles.  A division by the determinant of a degenerate element
   gives nan/inf in numpy; the theorems assume non-degenerate elements.  A node table is a
   function [nat -> vec] (node index, coordinate); an element is the list of its nodes. *)
From Coq Require Import Reals List Arith Bool.
From Verif Require Import RVec PyModel.
Import ListNotations.
Local Open Scope R_scope.

(* nodes[element]: the table of the corner coordinates of one element *)
Definition element_nodes (nodes : nat -> vec) (e : list nat) : nat -> vec :=
  fun k => nodes (nth k e 0%nat).

(* [np.arange(n) != i] as an index list *)
Definition others (n i : nat) : list nat := filter (fun k => negb (k =? i)%nat) (seq 0 n).

(* a Python bool used as a number *)
Definition num (b : bool) : R := if b then 1 else 0.

(* ------------------------------------------------------------------ 2D *)

(* 2d:144-153  denominator_numba *)
Definition denominator2 (x_i x_j1 x_j2 : vec) : R :=
  x_i 1%nat * x_j1 0%nat
  + x_j1 1%nat * x_j2 0%nat
  + x_i 0%nat * x_j2 1%nat
  - x_i 1%nat * x_j2 0%nat
  - x_j2 1%nat * x_j1 0%nat
  - x_i 0%nat * x_j1 1%nat.

(* 2d:127-141  get_integral_parts_numba: (gradient, volume) *)
Definition integral_parts2 (en : nat -> vec) (i : nat) : vec * R :=
  let x_i := en i in
  let x_j1 := en (nth 0 (others 3 i) 0%nat) in
  let x_j2 := en (nth 1 (others 3 i) 0%nat) in
  let dm := denominator2 x_i x_j1 x_j2 in
  let element_volume := Rabs dm / 2 in
  let y_sub := x_j2 1%nat - x_j1 1%nat in
  let x_sub := x_j1 0%nat - x_j2 0%nat in
  ((fun c => nth c [y_sub / dm; x_sub / dm] 0), element_volume).

(* 2d:39-43  int_sqr *)
Definition int_sqr2 (en : nat -> vec) (c : nat) : R :=
  sum 3 (fun k => en k c ^ 2) + en 0%nat c * (en 1%nat c + en 2%nat c) + en 1%nat c * en 2%nat c.

(* 2d:46  int_xy = en0 @ [[2,1,1],[1,2,1],[1,1,2]] @ en1 *)
Definition int_xy2 (en : nat -> vec) : R :=
  sum 3 (fun l => sum 3 (fun k => en k 0%nat * (if (k =? l)%nat then 2 else 1)) * en l 1%nat).

(* 2d:47-65  int_matrix *)
Definition int_matrix2 (en : nat -> vec) (r c : nat) : R :=
  let s0 := sum 3 (fun k => en k 0%nat) in
  let s1 := sum 3 (fun k => en k 1%nat) in
  nth c (nth r [ [0; 1 / 6 * s0; 1 / 6 * s1];
                 [1 / 6 * s0; 1 / 12 * int_sqr2 en 0; 1 / 24 * int_xy2 en];
                 [1 / 6 * s1; 1 / 24 * int_xy2 en; 1 / 12 * int_sqr2 en 1] ] []) 0.

(* determinant of a 2x2 array given by its rows *)
Definition det2 (r0 r1 : vec) : R := r0 0%nat * r1 1%nat - r0 1%nat * r1 0%nat.

(* 2d:66  jacobian *)
Definition jacobian2 (en : nat -> vec) : R :=
  Rabs (det2 (fun c => en 1%nat c - en 0%nat c) (fun c => en 2%nat c - en 0%nat c)).

(* 2d:74-80  coefficients [c_i, d_i, e_i] of basis function i *)
Definition coeffs2 (en : nat -> vec) (i : nat) : vec :=
  let vert_ip1 := en ((i + 1) mod 3) in
  let vert_ip2 := en ((i + 2) mod 3) in
  let c_i := det2 vert_ip1 vert_ip2 in
  let d_i := vert_ip1 1%nat - vert_ip2 1%nat in
  let e_i := vert_ip2 0%nat - vert_ip1 0%nat in
  fun r => nth r [c_i; d_i; e_i] 0.

(* 2d:89-91  q *)
Definition q2 (en : nat -> vec) (i j : nat) (element_volume : R) : R :=
  sum 3 (fun c => sum 3 (fun r => jacobian2 en * coeffs2 en i r * int_matrix2 en r c) * coeffs2 en j c)
    / (4 * element_volume ^ 2)
  + coeffs2 en i 0%nat * coeffs2 en j 0%nat / (4 * element_volume).

(* 2d:69-121  the feature column added at [:, element[i], element[j]] *)
Definition contribution2 (en : nat -> vec) (i j : nat) : list R :=
  let '(di, element_volume) := integral_parts2 en i in
  let '(dj, _) := integral_parts2 en j in
  let volume_at_nodes := num (negb (i =? j)%nat) * ((1 / 3) / 2) in
  let u := (1 + num (i =? j)%nat) / 12 in
  let v k := 1 / 3 * dj k in
  let w k l := di k * dj l in
  map (fun x => element_volume * x)
    [ volume_at_nodes; u; v 0%nat; v 1%nat;
      w 0%nat 0%nat; w 0%nat 1%nat; w 1%nat 0%nat; w 1%nat 1%nat;
      q2 en i j element_volume / element_volume ].

(* 2d:73  element_initial_volume: the value of the last i remains *)
Definition element_volume2 (en : nat -> vec) : R := snd (integral_parts2 en 2).

(* 2d:106  local_stifness_matrices[k, l, element, i, j] *)
Definition local_stiffness2 (en : nat -> vec) (k l i j : nat) : R :=
  let '(di, element_volume) := integral_parts2 en i in
  let '(dj, _) := integral_parts2 en j in
  element_volume * (di k * dj l).

(* ------------------------------------------------------------------ 3D *)

(* 3d:116-143  denominator_numba *)
Definition denominator3 (x_i x_j1 x_j2 x_j3 : vec) : R :=
  x_i 2%nat * x_j1 1%nat * x_j2 0%nat
  - x_i 1%nat * x_j1 2%nat * x_j2 0%nat
  - x_i 2%nat * x_j1 0%nat * x_j2 1%nat
  + x_i 0%nat * x_j1 2%nat * x_j2 1%nat
  + x_i 1%nat * x_j1 0%nat * x_j2 2%nat
  - x_i 0%nat * x_j1 1%nat * x_j2 2%nat
  - x_i 2%nat * x_j1 1%nat * x_j3 0%nat
  + x_i 1%nat * x_j1 2%nat * x_j3 0%nat
  + x_i 2%nat * x_j2 1%nat * x_j3 0%nat
  - x_j1 2%nat * x_j2 1%nat * x_j3 0%nat
  - x_i 1%nat * x_j2 2%nat * x_j3 0%nat
  + x_j1 1%nat * x_j2 2%nat * x_j3 0%nat
  + x_i 2%nat * x_j1 0%nat * x_j3 1%nat
  - x_i 0%nat * x_j1 2%nat * x_j3 1%nat
  - x_i 2%nat * x_j2 0%nat * x_j3 1%nat
  + x_j1 2%nat * x_j2 0%nat * x_j3 1%nat
  + x_i 0%nat * x_j2 2%nat * x_j3 1%nat
  - x_j1 0%nat * x_j2 2%nat * x_j3 1%nat
  - x_i 1%nat * x_j1 0%nat * x_j3 2%nat
  + x_i 0%nat * x_j1 1%nat * x_j3 2%nat
  + x_i 1%nat * x_j2 0%nat * x_j3 2%nat
  - x_j1 1%nat * x_j2 0%nat * x_j3 2%nat
  - x_i 0%nat * x_j2 1%nat * x_j3 2%nat
  + x_j1 0%nat * x_j2 1%nat * x_j3 2%nat.

(* 3d:76-113  get_integral_parts_numba *)
Definition integral_parts3 (en : nat -> vec) (i : nat) : vec * R :=
  let x_i := en i in
  let x_j1 := en (nth 0 (others 4 i) 0%nat) in
  let x_j2 := en (nth 1 (others 4 i) 0%nat) in
  let x_j3 := en (nth 2 (others 4 i) 0%nat) in
  let dm := denominator3 x_i x_j1 x_j2 x_j3 in
  let element_volume := Rabs dm / 6 in
  let x_sub :=
    x_j1 2%nat * x_j2 1%nat
    - x_j1 1%nat * x_j2 2%nat
    - x_j1 2%nat * x_j3 1%nat
    + x_j2 2%nat * x_j3 1%nat
    + x_j1 1%nat * x_j3 2%nat
    - x_j2 1%nat * x_j3 2%nat in
  let y_sub :=
    x_j1 0%nat * x_j2 2%nat
    - x_j1 2%nat * x_j2 0%nat
    + x_j1 2%nat * x_j3 0%nat
    - x_j2 2%nat * x_j3 0%nat
    - x_j1 0%nat * x_j3 2%nat
    + x_j2 0%nat * x_j3 2%nat in
  let z_sub :=
    x_j1 1%nat * x_j2 0%nat
    - x_j1 0%nat * x_j2 1%nat
    - x_j1 1%nat * x_j3 0%nat
    + x_j2 1%nat * x_j3 0%nat
    + x_j1 0%nat * x_j3 1%nat
    - x_j2 0%nat * x_j3 1%nat in
  ((fun c => nth c [x_sub / dm; y_sub / dm; z_sub / dm] 0), element_volume).

(* 3d:33-69  the feature column added at [:, element[i], element[j]] *)
Definition contribution3 (en : nat -> vec) (i j : nat) : list R :=
  let '(di, element_volume) := integral_parts3 en i in
  let '(dj, _) := integral_parts3 en j in
  let volume_at_nodes := num (negb (i =? j)%nat) * ((1 / 4) / 3) in
  let u := (1 + num (i =? j)%nat) / 20 in
  let v k := 1 / 4 * dj k in
  let w k l := di k * dj l in
  map (fun x => element_volume * x)
    [ volume_at_nodes; u; v 0%nat; v 1%nat; v 2%nat;
      w 0%nat 0%nat; w 0%nat 1%nat; w 0%nat 2%nat;
      w 1%nat 0%nat; w 1%nat 1%nat; w 1%nat 2%nat;
      w 2%nat 0%nat; w 2%nat 1%nat; w 2%nat 2%nat ].

(* 3d:36-40  element_initial_volume *)
Definition element_volume3 (en : nat -> vec) : R := snd (integral_parts3 en 3).

(* -------------------------------------------------------- assembly loops *)

(* edges_features_matrix[:, a, b] += column *)
Definition features := nat -> mat.
Definition add_column (E : features) (a b : nat) (column : list R) : features :=
  fun f r c => if (r =? a)%nat && (c =? b)%nat then E f r c + nth f column 0 else E f r c.

(* 2d:35-121 and 3d:28-70: the loops over elements and local indices; element_size is the
   number of columns of the element table *)
Definition edges_features (contribution : (nat -> vec) -> nat -> nat -> list R)
    (nodes : nat -> vec) (els : list (list nat)) : features :=
  let element_size := length (nth 0 els []) in
  fold_left (fun E e =>
    fold_left (fun E i =>
      fold_left (fun E j =>
        add_column E (nth i e 0%nat) (nth j e 0%nat) (contribution (element_nodes nodes e) i j))
        (seq 0 element_size) E)
      (seq 0 element_size) E)
    els (fun _ _ _ => 0).

(* fm:25-48  get_basic_matrices: what it returns *)
Record basic := mkBasic {
  element_initial_volume : list R;
  volume_at_nodes : mat;
  U : mat;
  V : nat -> mat;
  W : nat -> nat -> mat }.

Definition basic_of (dimension : nat) (volumes : list R) (E : features) : basic :=
  mkBasic volumes (E 0%nat) (E 1%nat) (fun j => E (2 + j)%nat)
          (fun k j => E (2 + dimension * (k + 1) + j)%nat).

Definition basic2 (nodes : nat -> vec) (els : list (list nat)) : basic :=
  basic_of 2 (map (fun e => element_volume2 (element_nodes nodes e)) els)
           (edges_features contribution2 nodes els).

Definition basic3 (nodes : nat -> vec) (els : list (list nat)) : basic :=
  basic_of 3 (map (fun e => element_volume3 (element_nodes nodes e)) els)
           (edges_features contribution3 nodes els).

(* fm:25-48  get_basic_matrices: the dimension is read off the first element *)
Definition get_basic_matrices (nodes : nat -> vec) (els : list (list nat)) : result basic :=
  match els with
  | [] => Err IndexError
  | e :: _ =>
      let dimension := (length e - 1)%nat in
      if (dimension =? 2)%nat then Ok (basic2 nodes els)
      else if (dimension =? 3)%nat then Ok (basic3 nodes els)
      else Err NotImplemented
  end.

(* --------------------------------------------------------------- operators *)

(* np.block of square blocks of size N *)
Definition block (N : nat) (B : nat -> nat -> mat) : mat :=
  fun a b => B (a / N)%nat (b / N)%nat (a mod N)%nat (b mod N)%nat.

(* M[a, b] for a table of blocks given by rows; the value outside is never read *)
Definition table (rows : list (list mat)) : nat -> nat -> mat :=
  fun r c => nth c (nth r rows []) (fun _ _ => 0).

(* scalar * array and array + array *)
Definition smul (c : R) (A : mat) : mat := fun i j => c * A i j.
Definition madd (A B : mat) : mat := fun i j => A i j + B i j.
Local Infix "+m" := madd (at level 50, left associativity).
Local Infix "*m" := smul (at level 40, left associativity).

(* 2d:163-168  calculate_constitutive_matrices *)
Definition constitutive2 (N : nat) (W : nat -> nat -> mat) (mu lambda : R) : mat :=
  let A_11 := (2 * mu + lambda) *m W 0%nat 0%nat +m mu *m W 1%nat 1%nat in
  let A_12 := mu *m W 1%nat 0%nat +m lambda *m W 0%nat 1%nat in
  let A_21 := lambda *m W 1%nat 0%nat +m mu *m W 0%nat 1%nat in
  let A_22 := mu *m W 0%nat 0%nat +m (2 * mu + lambda) *m W 1%nat 1%nat in
  block N (table [[A_11; A_12]; [A_21; A_22]]).

(* 2d:170-175  get_relaxation_tensor; coeff i j k = coeff[i][j][k] *)
Definition relaxation2 (N : nat) (W : nat -> nat -> mat) (coeff : nat -> nat -> nat -> R) : mat :=
  let c := coeff in
  let A_11 := c 0%nat 0%nat 0%nat *m W 0%nat 0%nat +m c 0%nat 1%nat 1%nat *m W 1%nat 1%nat in
  let A_12 := c 0%nat 1%nat 0%nat *m W 1%nat 0%nat +m c 0%nat 0%nat 1%nat *m W 0%nat 1%nat in
  let A_21 := c 1%nat 1%nat 0%nat *m W 1%nat 0%nat +m c 1%nat 0%nat 1%nat *m W 0%nat 1%nat in
  let A_22 := c 1%nat 0%nat 0%nat *m W 0%nat 0%nat +m c 1%nat 1%nat 1%nat *m W 1%nat 1%nat in
  block N (table [[A_11; A_12]; [A_21; A_22]]).

(* 2d:177-179  calculate_acceleration *)
Definition acceleration2 (N : nat) (U : mat) (density : R) : mat :=
  let Z := fun _ _ => 0 in
  smul density (block N (table [[U; Z]; [Z; U]])).

(* 2d:181-184  calculate_thermal_expansion: np.block([A_11, A_22]) is N x 2N *)
Definition thermal_expansion2 (N : nat) (V : nat -> mat) (coeff : nat -> nat -> R) : mat :=
  let A_11 := coeff 0%nat 0%nat *m V 0%nat +m coeff 0%nat 1%nat *m V 1%nat in
  let A_22 := coeff 1%nat 0%nat *m V 0%nat +m coeff 1%nat 1%nat *m V 1%nat in
  block N (table [[A_11; A_22]]).

(* 2d:186-192  calculate_thermal_conductivity and 2d:201-207 get_permittivity_tensor *)
Definition conductivity2 (W : nat -> nat -> mat) (coeff : nat -> nat -> R) : mat :=
  coeff 0%nat 0%nat *m W 0%nat 0%nat
  +m coeff 0%nat 1%nat *m W 0%nat 1%nat
  +m coeff 1%nat 0%nat *m W 1%nat 0%nat
  +m coeff 1%nat 1%nat *m W 1%nat 1%nat.

(* 2d:194-199  get_piezoelectric_tensor: N x 2N *)
Definition piezoelectric2 (N : nat) (W : nat -> nat -> mat) (coeff : nat -> nat -> nat -> R) : mat :=
  let c := coeff in
  let A_11 := c 0%nat 0%nat 0%nat *m W 0%nat 0%nat +m c 0%nat 1%nat 1%nat *m W 1%nat 1%nat in
  let A_12 := c 0%nat 1%nat 0%nat *m W 1%nat 0%nat +m c 0%nat 0%nat 1%nat *m W 0%nat 1%nat in
  let A_21 := c 1%nat 1%nat 0%nat *m W 1%nat 0%nat +m c 1%nat 0%nat 1%nat *m W 0%nat 1%nat in
  let A_22 := c 1%nat 0%nat 0%nat *m W 0%nat 0%nat +m c 1%nat 1%nat 1%nat *m W 1%nat 1%nat in
  block N (table [[A_11 +m A_12; A_22 +m A_21]]).

(* 3d:154-175  calculate_constitutive_matrices *)
Definition constitutive3 (N : nat) (W : nat -> nat -> mat) (mu lambda : R) : mat :=
  let A_11 := (2 * mu + lambda) *m W 0%nat 0%nat +m mu *m W 1%nat 1%nat +m lambda *m W 2%nat 2%nat in
  let A_22 := mu *m W 0%nat 0%nat +m (2 * mu + lambda) *m W 1%nat 1%nat +m lambda *m W 2%nat 2%nat in
  let A_33 := mu *m W 0%nat 0%nat +m lambda *m W 1%nat 1%nat +m (2 * mu + lambda) *m W 2%nat 2%nat in
  let A_21 := mu *m W 1%nat 0%nat +m lambda *m W 0%nat 1%nat in
  let A_31 := mu *m W 2%nat 0%nat +m lambda *m W 0%nat 2%nat in
  let A_32 := mu *m W 2%nat 1%nat +m lambda *m W 1%nat 2%nat in
  let A_12 := lambda *m W 1%nat 0%nat +m mu *m W 0%nat 1%nat in
  let A_13 := lambda *m W 2%nat 0%nat +m mu *m W 0%nat 2%nat in
  let A_23 := lambda *m W 2%nat 1%nat +m mu *m W 1%nat 2%nat in
  block N (table [[A_11; A_12; A_13]; [A_21; A_22; A_23]; [A_31; A_32; A_33]]).

(* 3d:177-179  calculate_acceleration *)
Definition acceleration3 (N : nat) (U : mat) (density : R) : mat :=
  let Z := fun _ _ => 0 in
  smul density (block N (table [[U; Z; Z]; [Z; U; Z]; [Z; Z; U]])).

(* 3d:181-185  calculate_thermal_expansion *)
Definition thermal_expansion3 (N : nat) (V : nat -> mat) (coeff : nat -> nat -> R) : mat :=
  let A k := coeff k 0%nat *m V 0%nat +m coeff k 1%nat *m V 1%nat +m coeff k 2%nat *m V 2%nat in
  block N (table [[A 0%nat; A 1%nat; A 2%nat]]).

(* 3d:187-199  calculate_thermal_conductivity *)
Definition conductivity3 (W : nat -> nat -> mat) (coeff : nat -> nat -> R) : mat :=
  coeff 0%nat 0%nat *m W 0%nat 0%nat
  +m coeff 0%nat 1%nat *m W 0%nat 1%nat
  +m coeff 0%nat 2%nat *m W 0%nat 2%nat
  +m coeff 1%nat 0%nat *m W 1%nat 0%nat
  +m coeff 1%nat 1%nat *m W 1%nat 1%nat
  +m coeff 1%nat 2%nat *m W 1%nat 2%nat
  +m coeff 2%nat 0%nat *m W 2%nat 0%nat
  +m coeff 2%nat 1%nat *m W 2%nat 1%nat
  +m coeff 2%nat 2%nat *m W 2%nat 2%nat.

(* abs:38-40  calculate_poisson_matrix (and 42-44 calculate_wave_matrix with 1):
   the sum of the diagonal blocks, times propagation squared *)
Definition poisson (dimension : nat) (W : nat -> nat -> mat) (propagation : R) : mat :=
  fun a b => propagation ^ 2 * sum dimension (fun k => W k k a b).

(* dyn:78-87  asembly_w_matrix_with_density, 2D; [local k l e i j] is
   _local_stifness_matrices[k, l, e, i, j] *)
Definition w_with_density (els : list (list nat)) (density : nat -> R)
    (local : nat -> nat -> nat -> nat -> nat -> R) : nat -> nat -> mat :=
  fold_left (fun Wm ie =>
    let '(idx, e) := ie in
    fold_left (fun Wm i =>
      fold_left (fun Wm j =>
        fun k l r c => if (r =? nth i e 0)%nat && (c =? nth j e 0)%nat
                       then Wm k l r c + density idx * local k l idx i j else Wm k l r c)
        (seq 0 (length e)) Wm)
      (seq 0 (length e)) Wm)
    (combine (seq 0 (length els)) els) (fun _ _ _ _ => 0).

(* the array stored by reinitialize_matrices (dyn:46-63); 3d: local_stifness_matrices is
   None there, so a density raises TypeError ('NoneType' object is not subscriptable) *)
Definition local_stiffness_table (nodes : nat -> vec) (els : list (list nat))
  : nat -> nat -> nat -> nat -> nat -> R :=
  fun k l idx i j => local_stiffness2 (element_nodes nodes (nth idx els [])) k l i j.

(* dyn:46-63  the W matrix used by reinitialize_matrices *)
Definition w_matrix2 (nodes : nat -> vec) (els : list (list nat)) (density : option (nat -> R))
  : nat -> nat -> mat :=
  match density with
  | None => W (basic2 nodes els)
  | Some rho => w_with_density els rho (local_stiffness_table nodes els)
  end.

Definition w_matrix3 (nodes : nat -> vec) (els : list (list nat)) (density : option (nat -> R))
  : result (nat -> nat -> mat) :=
  match density with
  | None => Ok (W (basic3 nodes els))
  | Some _ => match els with [] => Ok (fun _ _ _ _ => 0) | _ => Err TypeError end
  end.

(* --------------------------------------------------------- get_dynamics *)

(* conmech/properties/body_properties.py: the attributes present on an instance; which are
   present is what the isinstance tests decide (8-61).  The class hierarchy makes
   viscoelastic properties elastic ones (20-23). *)
Record properties := mkProperties {
  mass_density : R;
  elastic : option (R * R);                                  (* mu, lambda_ *)
  viscous : option (R * R);                                  (* theta, zeta *)
  membrane : option R;                                       (* propagation *)
  thermal : option ((nat -> nat -> R) * (nat -> nat -> R));  (* expansion, conductivity *)
  piezo : option ((nat -> nat -> nat -> R) * (nat -> nat -> R)) }. (* piezoelectricity, permittivity *)

Record operators := mkOperators {
  acceleration_operator : mat;
  elasticity : option mat;
  viscosity : option mat;
  thermal_expansion : option mat;
  thermal_conductivity : option mat;
  piezoelectricity : option mat;
  permittivity : option mat;
  poisson_operator : option mat }.

(* fm:51-97  get_dynamics for triangles; N nodes *)
Definition get_dynamics2 (N : nat) (p : properties) (U : mat) (V : nat -> mat)
    (W : nat -> nat -> mat) : operators :=
  {| acceleration_operator := acceleration2 N U (mass_density p);
     poisson_operator := option_map (poisson 2 W) (membrane p);
     elasticity := option_map (fun '(mu, la) => constitutive2 N W mu la) (elastic p);
     viscosity := option_map (fun '(th, ze) => constitutive2 N W th ze) (viscous p);
     thermal_expansion := option_map (fun '(ex, _) => thermal_expansion2 N V ex) (thermal p);
     thermal_conductivity := option_map (fun '(_, co) => conductivity2 W co) (thermal p);
     piezoelectricity := option_map (fun '(pz, _) => piezoelectric2 N W pz) (piezo p);
     permittivity := option_map (fun '(_, pm) => conductivity2 W pm) (piezo p) |}.

(* fm:51-97  get_dynamics for tetrahedra; 3d:200-204 piezoelectric operators raise *)
Definition get_dynamics3 (N : nat) (p : properties) (U : mat) (V : nat -> mat)
    (W : nat -> nat -> mat) : result operators :=
  match piezo p with
  | Some _ => Err NotImplemented
  | None =>
      Ok {| acceleration_operator := acceleration3 N U (mass_density p);
            poisson_operator := option_map (poisson 3 W) (membrane p);
            elasticity := option_map (fun '(mu, la) => constitutive3 N W mu la) (elastic p);
            viscosity := option_map (fun '(th, ze) => constitutive3 N W th ze) (viscous p);
            thermal_expansion := option_map (fun '(ex, _) => thermal_expansion3 N V ex) (thermal p);
            thermal_conductivity := option_map (fun '(_, co) => conductivity3 W co) (thermal p);
            piezoelectricity := None;
            permittivity := None |}
  end.

(* dyn:46-76  reinitialize_matrices *)
Definition reinitialize_matrices (N : nat) (nodes : nat -> vec) (els : list (list nat))
    (p : properties) (density : option (nat -> R)) : result operators :=
  match els with
  | [] => Err IndexError
  | e :: _ =>
      let dimension := (length e - 1)%nat in
      if (dimension =? 2)%nat then
        let B := basic2 nodes els in
        Ok (get_dynamics2 N p (U B) (V B) (w_matrix2 nodes els density))
      else if (dimension =? 3)%nat then
        let B := basic3 nodes els in
        match w_matrix3 nodes els density with
        | Ok Wm => get_dynamics3 N p (U B) (V B) Wm
        | Err x => Err x
        end
      else Err NotImplemented
  end.
