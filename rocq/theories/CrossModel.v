(* Model of the structured cross mesh and of placing a mesh.
   Sources: /repo/conmech/mesh/zoo/cross_for_tests.py (cited cm:), /repo/conmech/helpers/nph.py (nph:),
   /repo/conmech/mesh/mesh_builders.py (mb:), /repo/conmech/mesh/mesh.py (me:).
   A row of an array is a list; numbers are exact. *)
From Coq Require Import Reals R_Ifp List Arith ZArith Bool.
From Verif Require Import PyModel MeshBuildModel.
Import ListNotations.
Local Open Scope R_scope.

(* ------------------------------------------------------------- rows *)

Fixpoint map2 {A B C} (f : A -> B -> C) (l : list A) (m : list B) : list C :=
  match l, m with
  | a :: l, b :: m => f a b :: map2 f l m
  | _, _ => []
  end.
Definition total (l : list R) : R := fold_right Rplus 0 l.

(* nph:31-36  get_node_index_numba, counting from [k]; np.sum(np.abs(node - n)) *)
Definition distance (a b : list R) : R := total (map2 (fun x y => Rabs (x - y)) a b).
Definition tolerance : R := 1 / 10000.
Fixpoint index_from (k : nat) (node : list R) (nodes : list (list R)) : result nat :=
  match nodes with
  | [] => Err ArgumentError
  | n :: nodes => if Rlt_dec (distance node n) tolerance then Ok k else index_from (S k) node nodes
  end.
Definition get_node_index (node : list R) (nodes : list (list R)) : result nat := index_from 0 node nodes.

(* ------------------------------------------------------------- filling arrays *)

(* array[k] = a; simplification: compiled code does not check the bound, here a write outside of
   the array is an error *)
Definition write {A} (l : list A) (k : nat) (a : A) : result (list A) :=
  if (k <? length l)%nat then Ok (firstn k l ++ a :: skipn (S k) l) else Err IndexError.
(* array[index] = a; index += 1 *)
Definition put {A} (a : A) (s : list A * nat) : result (list A * nat) :=
  bind (write (fst s) (snd s) a) (fun l => Ok (l, S (snd s))).
Fixpoint for_each {A S} (xs : list A) (body : A -> S -> result S) (s : S) : result S :=
  match xs with
  | [] => Ok s
  | x :: xs => bind (body x s) (for_each xs body)
  end.
(* range(n) and range(n - 1, k - 1, -1) *)
Definition upto (n : Z) : list nat := seq 0 (Z.to_nat n).
Definition down (n : Z) (k : nat) : list nat := rev (seq k (Z.to_nat n - k)).
(* range(1, n + 1) *)
Definition from_one (n : Z) : list nat := seq 1 (Z.to_nat n).

(* np.zeros((n, w)) *)
Definition zeros {A} (n : Z) (row : list A) : result (list (list A)) :=
  if (n <? 0)%Z then Err ValueError else Ok (repeat row (Z.to_nat n)).

(* ------------------------------------------------------------- the cross mesh *)

Section Cross.
  Variables size_x size_y : Z.
  Variables edge_len_x edge_len_y : R.
  Variable left_bottom_node : list R.

  (* cm:70-100  _set_cross_nodes_ordered_numba *)
  Definition set_cross_nodes (nodes : list (list R)) : result (list (list R)) :=
    bind (for_each (down size_y 0) (fun j => for_each (down size_x 0) (fun i =>
            put [(INR i + 1 / 2) * edge_len_x; (INR j + 1 / 2) * edge_len_y])) (nodes, 0%nat)) (fun s =>
    bind (for_each (down size_y 1) (fun j => for_each (down size_x 1) (fun i =>
            put [INR i * edge_len_x; INR j * edge_len_y])) s) (fun s =>
    bind (for_each (from_one size_x) (fun i => put [INR i * edge_len_x; IZR size_y * edge_len_y]) s) (fun s =>
    bind (for_each (down size_y 0) (fun j => put [IZR size_x * edge_len_x; INR j * edge_len_y]) s) (fun s =>
    bind (for_each (down size_x 0) (fun i => put [INR i * edge_len_x; 0]) s) (fun s =>
    bind (for_each (from_one size_y) (fun j => put [0; INR j * edge_len_y]) s) (fun s =>
    Ok (map (fun n => map2 Rplus n left_bottom_node) (fst s)))))))).

  (* cm:40-67  _set_cross_elements_numba *)
  Definition set_cross_elements (nodes : list (list R)) (elements : list (list nat)) : result (list (list nat)) :=
    bind (for_each (upto size_x) (fun i => for_each (upto size_y) (fun j s =>
      let left_bottom := map2 Rplus [INR i * edge_len_x; INR j * edge_len_y] left_bottom_node in
      bind (get_node_index left_bottom nodes) (fun lb =>
      bind (get_node_index (map2 Rplus left_bottom [edge_len_x; 0]) nodes) (fun rb =>
      bind (get_node_index (map2 Rplus left_bottom [1 / 2 * edge_len_x; 1 / 2 * edge_len_y]) nodes) (fun c =>
      bind (get_node_index (map2 Rplus left_bottom [0; edge_len_y]) nodes) (fun lt =>
      bind (get_node_index (map2 Rplus left_bottom [edge_len_x; edge_len_y]) nodes) (fun rt =>
      bind (put [lb; rb; c] s) (fun s =>
      bind (put [rb; rt; c] s) (fun s =>
      bind (put [rt; lt; c] s) (fun s =>
      put [lt; lb; c] s)))))))))) (elements, 0%nat)) (fun s =>
    Ok (fst s)).
End Cross.

(* np.ceil, as an integer *)
Definition ceil (x : R) : Z := (- Int_part (- x))%Z.

(* cm:14-36  _get_cross_rectangle; simplification: scale and max_element_perimeter are numbers of
   Python, whose division by zero raises *)
Definition cross_rectangle (scale : list R) (max_element_perimeter : R) : result (list (list R) * list (list nat)) :=
  match scale with
  | [scale_x; scale_y] =>
      if Req_EM_T max_element_perimeter 0 then Err ZeroDivision
      else
        let size_x := ceil (scale_x / max_element_perimeter) in
        let size_y := ceil (scale_y / max_element_perimeter) in
        if (size_x =? 0)%Z || (size_y =? 0)%Z then Err ZeroDivision
        else
          let edge_len_x := scale_x / IZR size_x in
          let edge_len_y := scale_y / IZR size_y in
          bind (zeros (2 * (size_x * size_y) + (size_x + size_y) + 1) [0; 0]) (fun nodes =>
          bind (zeros (4 * (size_x * size_y)) [0; 0; 0]%nat) (fun elements =>
          bind (set_cross_nodes size_x size_y edge_len_x edge_len_y [0; 0] nodes) (fun nodes =>
          bind (set_cross_elements size_x size_y edge_len_x edge_len_y [0; 0] nodes elements) (fun elements =>
          Ok (nodes, elements)))))
  | _ => Err ValueError                     (* unpacking *)
  end.

(* ------------------------------------------------------------- placing a mesh *)

(* np.min(nodes, axis=0) *)
Definition min_rows (nodes : list (list R)) : result (list R) :=
  match nodes with
  | [] => Err ValueError
  | n :: nodes => Ok (fold_left (map2 Rmin) nodes n)
  end.
(* nodes += v for every row; a vector of one entry is repeated *)
Definition add_row (v row : list R) : result (list R) :=
  if (length v =? length row)%nat then Ok (map2 Rplus row v)
  else match v with
       | [x] => Ok (map (fun y => y + x) row)
       | _ => Err ValueError
       end.
Fixpoint map_rows {A B} (f : A -> result B) (l : list A) : result (list B) :=
  match l with
  | [] => Ok []
  | a :: l => bind (f a) (fun b => bind (map_rows f l) (fun l => Ok (b :: l)))
  end.

(* mb:14-19  translate_nodes *)
Definition translate_nodes (nodes : list (list R)) (initial_position : option (list R)) : result (list (list R)) :=
  match initial_position with
  | None => Ok nodes
  | Some position =>
      bind (min_rows nodes) (fun origin =>
      map_rows (add_row position) (map (fun n => map2 Rminus n origin) nodes))
  end.

(* mb:8-11  build_mesh of a CrossMeshDescription *)
Definition build_cross (scale : list R) (max_element_perimeter : R) (initial_position : option (list R))
  : result (list (list R) * list (list nat)) :=
  bind (cross_rectangle scale max_element_perimeter) (fun '(nodes, elements) =>
  bind (translate_nodes nodes initial_position) (fun nodes =>
  Ok (nodes, elements))).

(* np.mean(rows, axis=0) of rows of two entries *)
Definition mean_row (rows : list (list R)) : list R :=
  map (fun k => total (map (fun r => nth k r 0) rows) / INR (length rows)) [0; 1]%nat.

(* me:90-109  Mesh.__init__ for it *)
Definition cross_mesh {V} (scale : list R) (max_element_perimeter : R) (initial_position : option (list R))
    (d : @Description (list R) V) : result (@MeshData (list R) V) :=
  bind (build_cross scale max_element_perimeter initial_position) (fun '(nodes, elements) =>
  build mean_row [0; 0] nodes elements d).
