(* Model of the outer normals of boundary faces and of the complete Mesh construction.
   Sources: /repo/conmech/mesh/boundaries.py:28-105, /repo/conmech/helpers/nph.py:19-22,
   /repo/conmech/mesh/mesh.py:87-109.
   Simplification: real numbers instead of doubles; division by a zero norm gives 0 here
   and nan in numpy (the theorems assume non-degenerate faces). *)
From Coq Require Import Reals List Arith ZArith String Bool.
From Verif Require Import Common PyModel MeshModel MeshBuildModel.
Import ListNotations.
Local Open Scope string_scope.
Local Open Scope list_scope.

(* the transposed table; the number of columns is that of the first row *)
Definition transpose (rows : list (list nat)) : list (list nat) :=
  map (fun j => map (fun r => nth j r 0) rows) (seq 0 (List.length (nth 0 rows []))).

(* boundaries.py:86-89  np.unique(rows, axis=1): the distinct columns in lexicographic order *)
Definition unique_columns (rows : list (list nat)) : list (list nat) :=
  transpose (unique_rows (transpose rows)).

(* numpy broadcasting of two arrays along the first axis *)
Definition broadcast {A B} (l : list A) (r : list B) : result (list (A * B)) :=
  match l, r with
  | [a], _ => Ok (map (fun b => (a, b)) r)
  | _, [b] => Ok (map (fun a => (a, b)) l)
  | _, _ => if (List.length l =? List.length r)%nat then Ok (combine l r) else Err ValueError
  end.

Local Open Scope R_scope.

(* np.sign *)
Definition sign (x : R) : R :=
  if Rlt_dec 0 x then 1 else if Rlt_dec x 0 then -1 else 0.

Section Normals.
  Context {P : Type}.
  Variable zero : P.
  Variable psub : P -> P -> P.
  Variable pdot : P -> P -> R.
  Variable pscale : R -> P -> P.
  (* get_unoriented_normals_2d / _3d for one face: tail node and unoriented normal *)
  Variable unoriented : list P -> P * P.

  (* boundaries.py:51-66 for one face and its internal node (62-66) *)
  Definition oriented (face_nodes : list P) (internal : P) : P :=
    let '(tail, un) := unoriented face_nodes in
    pscale ((-1) * sign (pdot (psub internal tail) un)) un.

  (* boundaries.py:51-66  get_boundary_surfaces_normals; the subtraction of line 64
     broadcasts the two tables *)
  Definition surfaces_normals (nodes : list P) (surfaces : list (list nat)) (internal : list nat)
    : result (list P) :=
    bind (broadcast surfaces internal) (fun pairs =>
    Ok (map (fun fi => oriented (map (fun i => nth i nodes zero) (fst fi))
                                (nth (snd fi) nodes zero)) pairs)).

  (* boundaries.py:77-82  Boundaries.surface_normals of a mesh *)
  Definition mesh_normals {V} (m : @MeshData P V) : result (list P) :=
    surfaces_normals (m_nodes m) (unique_columns (stacked_surfaces m)) (m_internal m).

  (* mesh.py:87-109 with boundaries.py:69-82: construction of a Mesh, including the
     normals; the result is the mesh and its surface_normals *)
  Definition mesh_init {V} (mean : list P -> P) (nodes : list P) (els : list (list nat))
      (d : @Description P V) : result (@MeshData P V * list P) :=
    bind (build mean zero nodes els d) (fun m =>
    bind (mesh_normals m) (fun ns => Ok (m, ns))).

  (* boundaries.py:103-105  contact_normals *)
  Definition contact_normals {V} (m : @MeshData P V) (normals : list P) : list P :=
    firstn (List.length (faces_of m "contact")) normals.
End Normals.

(* -------------------------------------------------------------- 2D *)

Definition P2 := (R * R)%type.
Definition zero2 : P2 := (0, 0).
Definition sub2 (a b : P2) : P2 := (fst a - fst b, snd a - snd b).
(* nph.py:19-22  elementwise_dot, one row *)
Definition dot2 (a b : P2) : R := fst a * fst b + snd a * snd b.
Definition scale2 (k : R) (a : P2) : P2 := (k * fst a, k * snd a).

(* boundaries.py:28-31  normalize_euclidean_numba, one row *)
Definition normalize2 (a : P2) : P2 := (fst a / sqrt (dot2 a a), snd a / sqrt (dot2 a a)).

(* boundaries.py:34-39  get_unoriented_normals_2d, one face *)
Definition unoriented2 (face : list P2) : P2 * P2 :=
  let tail := nth 0 face zero2 in
  let head := nth 1 face zero2 in
  let normal := normalize2 (sub2 head tail) in
  (tail, (snd normal, - fst normal)).

(* np.mean(nodes[surface], axis=0) for one face *)
Definition mean2 (l : list P2) : P2 :=
  (fold_right Rplus 0 (map fst l) / INR (List.length l),
   fold_right Rplus 0 (map snd l) / INR (List.length l)).

Definition mesh_normals2 {V} (m : @MeshData P2 V) : result (list P2) :=
  mesh_normals zero2 sub2 dot2 scale2 unoriented2 m.

Definition mesh_init2 {V} := @mesh_init P2 zero2 sub2 dot2 scale2 unoriented2 V mean2.

(* -------------------------------------------------------------- 3D *)

Definition P3 := (R * R * R)%type.
Definition zero3 : P3 := (0, 0, 0).
Definition sub3 (a b : P3) : P3 :=
  let '(a0, a1, a2) := a in let '(b0, b1, b2) := b in (a0 - b0, a1 - b1, a2 - b2).
Definition dot3 (a b : P3) : R :=
  let '(a0, a1, a2) := a in let '(b0, b1, b2) := b in a0 * b0 + a1 * b1 + a2 * b2.
Definition scale3 (k : R) (a : P3) : P3 :=
  let '(a0, a1, a2) := a in (k * a0, k * a1, k * a2).
(* np.cross *)
Definition cross3 (a b : P3) : P3 :=
  let '(a0, a1, a2) := a in let '(b0, b1, b2) := b in
  (a1 * b2 - a2 * b1, a2 * b0 - a0 * b2, a0 * b1 - a1 * b0).

(* boundaries.py:28-31 *)
Definition normalize3 (a : P3) : P3 :=
  let '(a0, a1, a2) := a in
  (a0 / sqrt (dot3 a a), a1 / sqrt (dot3 a a), a2 / sqrt (dot3 a a)).

(* boundaries.py:42-48  get_unoriented_normals_3d, one face *)
Definition unoriented3 (face : list P3) : P3 * P3 :=
  let tail := nth 0 face zero3 in
  let head1 := nth 1 face zero3 in
  let head2 := nth 2 face zero3 in
  (tail, normalize3 (cross3 (sub3 head1 tail) (sub3 head2 tail))).

Definition mean3 (l : list P3) : P3 :=
  (fold_right Rplus 0 (map (fun p => fst (fst p)) l) / INR (List.length l),
   fold_right Rplus 0 (map (fun p => snd (fst p)) l) / INR (List.length l),
   fold_right Rplus 0 (map snd l) / INR (List.length l)).

Definition mesh_normals3 {V} (m : @MeshData P3 V) : result (list P3) :=
  mesh_normals zero3 sub3 dot3 scale3 unoriented3 m.

Definition mesh_init3 {V} := @mesh_init P3 zero3 sub3 dot3 scale3 unoriented3 V mean3.
