(* The meshes that come with the library as tables and meshes read from files.
     cu = conmech/mesh/zoo/cube.py               ba = conmech/mesh/zoo/ball.py
     ra = conmech/mesh/zoo/raw_mesh.py           md = conmech/properties/mesh_description.py
     mb = conmech/mesh/mesh_builders.py          me = conmech/mesh/mesh.py
   Coordinates are real numbers: the decimal fractions of the tables are taken exactly, as integers over a
   common denominator.  Reading the file (meshio.read) is outside the model: the model starts from its
   result.  cells_dict maps the name of a cell type to the rows of all cells of that type. *)
From Coq Require Import Reals List Arith ZArith Bool String.
From Verif Require Import Common PyModel RVec MeshModel MeshBuildModel CrossModel.
Import ListNotations.
Local Open Scope R_scope.

(* rows of integers over a denominator *)
Definition over (s : Z) (rows : list (list Z)) : list (list R) := map (map (fun z => IZR z / IZR s)) rows.

(* cu:27-57  nodes of Cube, in halves *)
Definition cube_table : list (list Z) :=
  [[0; 0; 0]; [1; 0; 0]; [2; 0; 0]; [0; 1; 0];
   [1; 1; 0]; [2; 1; 0]; [0; 2; 0]; [1; 2; 0];
   [2; 2; 0]; [0; 0; 1]; [1; 0; 1]; [2; 0; 1];
   [0; 1; 1]; [1; 1; 1]; [2; 1; 1]; [0; 2; 1];
   [1; 2; 1]; [2; 2; 1]; [0; 0; 2]; [1; 0; 2];
   [2; 0; 2]; [0; 1; 2]; [1; 1; 2]; [2; 1; 2];
   [0; 2; 2]; [1; 2; 2]; [2; 2; 2]]%Z.
Definition cube_nodes : list (list R) := over 2 cube_table.
(* cu:59-102  its elements *)
Definition cube_elements : list (list nat) :=
  [[0; 1; 3; 9]; [12; 13; 15; 21]; [10; 11; 13; 19]; [4; 5; 7; 13]; [1; 4; 3; 13]; [13; 16; 15; 25];
   [11; 14; 13; 23]; [5; 8; 7; 17]; [1; 3; 9; 13]; [13; 15; 21; 25]; [11; 13; 19; 23]; [5; 7; 13; 17];
   [1; 9; 10; 13]; [13; 21; 22; 25]; [11; 19; 20; 23]; [5; 13; 14; 17]; [3; 9; 13; 12]; [15; 21; 25; 24];
   [13; 19; 23; 22]; [7; 13; 17; 16]; [18; 19; 9; 21]; [12; 13; 3; 15]; [10; 11; 1; 13]; [22; 23; 13; 25];
   [19; 22; 13; 21]; [13; 16; 7; 15]; [11; 14; 5; 13]; [23; 26; 17; 25]; [19; 21; 13; 9]; [13; 15; 7; 3];
   [11; 13; 5; 1]; [23; 25; 17; 13]; [19; 9; 13; 10]; [13; 3; 7; 4]; [11; 1; 5; 2]; [23; 13; 17; 14];
   [21; 9; 12; 13]; [15; 3; 6; 7]; [13; 1; 4; 5]; [25; 13; 16; 17]]%nat.

(* ba:27-94  nodes of Ball, in units of the last decimal *)
Definition ball_table : list (list Z) :=
  [[(-33333333); (-33333333); (-33333333)]; [(-13245324); (-39735971); (-39735971)]; [13245324; (-39735971); (-39735971)]; [33333333; (-33333333); (-33333333)];
   [(-39735971); (-13245324); (-39735971)]; [(-17407766); (-17407766); (-52223297)]; [17407766; (-17407766); (-52223297)]; [39735971; (-13245324); (-39735971)];
   [(-39735971); 13245324; (-39735971)]; [(-17407766); 17407766; (-52223297)]; [17407766; 17407766; (-52223297)]; [39735971; 13245324; (-39735971)];
   [(-33333333); 33333333; (-33333333)]; [(-13245324); 39735971; (-39735971)]; [13245324; 39735971; (-39735971)]; [33333333; 33333333; (-33333333)];
   [(-39735971); (-39735971); (-13245324)]; [(-17407766); (-52223297); (-17407766)]; [17407766; (-52223297); (-17407766)]; [39735971; (-39735971); (-13245324)];
   [(-52223297); (-17407766); (-17407766)]; [(-11111111); (-11111111); (-11111111)]; [11111111; (-11111111); (-11111111)]; [52223297; (-17407766); (-17407766)];
   [(-52223297); 17407766; (-17407766)]; [(-11111111); 11111111; (-11111111)]; [11111111; 11111111; (-11111111)]; [52223297; 17407766; (-17407766)];
   [(-39735971); 39735971; (-13245324)]; [(-17407766); 52223297; (-17407766)]; [17407766; 52223297; (-17407766)]; [39735971; 39735971; (-13245324)];
   [(-39735971); (-39735971); 13245324]; [(-17407766); (-52223297); 17407766]; [17407766; (-52223297); 17407766]; [39735971; (-39735971); 13245324];
   [(-52223297); (-17407766); 17407766]; [(-11111111); (-11111111); 11111111]; [11111111; (-11111111); 11111111]; [52223297; (-17407766); 17407766];
   [(-52223297); 17407766; 17407766]; [(-11111111); 11111111; 11111111]; [11111111; 11111111; 11111111]; [52223297; 17407766; 17407766];
   [(-39735971); 39735971; 13245324]; [(-17407766); 52223297; 17407766]; [17407766; 52223297; 17407766]; [39735971; 39735971; 13245324];
   [(-33333333); (-33333333); 33333333]; [(-13245324); (-39735971); 39735971]; [13245324; (-39735971); 39735971]; [33333333; (-33333333); 33333333];
   [(-39735971); (-13245324); 39735971]; [(-17407766); (-17407766); 52223297]; [17407766; (-17407766); 52223297]; [39735971; (-13245324); 39735971];
   [(-39735971); 13245324; 39735971]; [(-17407766); 17407766; 52223297]; [17407766; 17407766; 52223297]; [39735971; 13245324; 39735971];
   [(-33333333); 33333333; 33333333]; [(-13245324); 39735971; 39735971]; [13245324; 39735971; 39735971]; [33333333; 33333333; 33333333]]%Z.
Definition ball_nodes : list (list R) := over 100000000 ball_table.
(* ba:95-233  its elements *)
Definition ball_elements : list (list nat) :=
  [[0; 1; 4; 16]; [32; 33; 36; 48]; [20; 21; 24; 36]; [8; 9; 12; 24]; [40; 41; 44; 56]; [17; 18; 21; 33];
   [5; 6; 9; 21]; [37; 38; 41; 53]; [25; 26; 29; 41]; [2; 3; 6; 18]; [34; 35; 38; 50]; [22; 23; 26; 38];
   [10; 11; 14; 26]; [42; 43; 46; 58]; [1; 5; 4; 21]; [33; 37; 36; 53]; [21; 25; 24; 41]; [9; 13; 12; 29];
   [41; 45; 44; 61]; [18; 22; 21; 38]; [6; 10; 9; 26]; [38; 42; 41; 58]; [26; 30; 29; 46]; [3; 7; 6; 23];
   [35; 39; 38; 55]; [23; 27; 26; 43]; [11; 15; 14; 31]; [43; 47; 46; 63]; [1; 4; 16; 21]; [33; 36; 48; 53];
   [21; 24; 36; 41]; [9; 12; 24; 29]; [41; 44; 56; 61]; [18; 21; 33; 38]; [6; 9; 21; 26]; [38; 41; 53; 58];
   [26; 29; 41; 46]; [3; 6; 18; 23]; [35; 38; 50; 55]; [23; 26; 38; 43]; [11; 14; 26; 31]; [43; 46; 58; 63];
   [1; 16; 17; 21]; [33; 48; 49; 53]; [21; 36; 37; 41]; [9; 24; 25; 29]; [41; 56; 57; 61]; [18; 33; 34; 38];
   [6; 21; 22; 26]; [38; 53; 54; 58]; [26; 41; 42; 46]; [3; 18; 19; 23]; [35; 50; 51; 55]; [23; 38; 39; 43];
   [11; 26; 27; 31]; [43; 58; 59; 63]; [4; 16; 21; 20]; [36; 48; 53; 52]; [24; 36; 41; 40]; [12; 24; 29; 28];
   [44; 56; 61; 60]; [21; 33; 38; 37]; [9; 21; 26; 25]; [41; 53; 58; 57]; [29; 41; 46; 45]; [6; 18; 23; 22];
   [38; 50; 55; 54]; [26; 38; 43; 42]; [14; 26; 31; 30]; [46; 58; 63; 62]; [32; 33; 16; 36]; [20; 21; 4; 24];
   [52; 53; 36; 56]; [40; 41; 24; 44]; [17; 18; 1; 21]; [49; 50; 33; 53]; [37; 38; 21; 41]; [25; 26; 9; 29];
   [57; 58; 41; 61]; [34; 35; 18; 38]; [22; 23; 6; 26]; [54; 55; 38; 58]; [42; 43; 26; 46]; [33; 37; 21; 36];
   [21; 25; 9; 24]; [53; 57; 41; 56]; [41; 45; 29; 44]; [18; 22; 6; 21]; [50; 54; 38; 53]; [38; 42; 26; 41];
   [26; 30; 14; 29]; [58; 62; 46; 61]; [35; 39; 23; 38]; [23; 27; 11; 26]; [55; 59; 43; 58]; [43; 47; 31; 46];
   [33; 36; 21; 16]; [21; 24; 9; 4]; [53; 56; 41; 36]; [41; 44; 29; 24]; [18; 21; 6; 1]; [50; 53; 38; 33];
   [38; 41; 26; 21]; [26; 29; 14; 9]; [58; 61; 46; 41]; [35; 38; 23; 18]; [23; 26; 11; 6]; [55; 58; 43; 38];
   [43; 46; 31; 26]; [33; 16; 21; 17]; [21; 4; 9; 5]; [53; 36; 41; 37]; [41; 24; 29; 25]; [18; 1; 6; 2];
   [50; 33; 38; 34]; [38; 21; 26; 22]; [26; 9; 14; 10]; [58; 41; 46; 42]; [35; 18; 23; 19]; [23; 6; 11; 7];
   [55; 38; 43; 39]; [43; 26; 31; 27]; [36; 16; 20; 21]; [24; 4; 8; 9]; [56; 36; 40; 41]; [44; 24; 28; 29];
   [21; 1; 5; 6]; [53; 33; 37; 38]; [41; 21; 25; 26]; [29; 9; 13; 14]; [61; 41; 45; 46]; [38; 18; 22; 23];
   [26; 6; 10; 11]; [58; 38; 42; 43]; [46; 26; 30; 31]]%nat.

(* ra:23-30  RawMesh: nodes and elements as they are *)
Definition raw_mesh := (list (list R) * list (list nat))%type.
(* cu:25-103, md:69-73  CubeMeshDescription.build;  ba:25-235, md:77-81  BallMeshDescription.build *)
Definition cube : raw_mesh := (cube_nodes, cube_elements).
Definition ball : raw_mesh := (ball_nodes, ball_elements).

(* what meshio.read returns: the points (an array, all rows have the same width) and the cells by type *)
Record mesh_file := { mf_width : nat; mf_points : list (list R); mf_cells : list (string * list (list nat)) }.

(* md:21-35  ImportedMeshDescription.build *)
Definition imported (f : mesh_file) : result raw_mesh :=
  match dict_get (mf_cells f) "tetra" with
  | Some elements => Ok (mf_points f, elements)
  | None =>
      let points := if (mf_width f =? 3)%nat then map (firstn 2) (mf_points f) else mf_points f in
      match dict_get (mf_cells f) "triangle" with
      | Some elements => Ok (points, elements)
      | None => Err (KeyError "triangle")
      end
  end.

(* mb:8-11  build_mesh for a description whose build() returns [raw] *)
Definition build_raw (raw : raw_mesh) (initial_position : option (list R)) : result raw_mesh :=
  bind (translate_nodes (fst raw) initial_position) (fun nodes => Ok (nodes, snd raw)).

(* np.mean(rows, axis=0) of rows of three entries *)
Definition mean_row3 (rows : list (list R)) : list R :=
  map (fun k => total (map (fun r => nth k r 0) rows) / INR (List.length rows)) [0; 1; 2]%nat.

(* me:90-109  Mesh.__init__ for tetrahedra *)
Definition solid_mesh {V} (raw : raw_mesh) (initial_position : option (list R))
    (d : @Description (list R) V) : result (@MeshData (list R) V) :=
  bind (build_raw raw initial_position) (fun '(nodes, elements) =>
  build mean_row3 [0; 0; 0] nodes elements d).

(* np.mean(rows, axis=0) of rows of w entries *)
Definition mean_rows (w : nat) (rows : list (list R)) : list R :=
  map (fun k => total (map (fun r => nth k r 0) rows) / INR (List.length rows)) (seq 0 w).

(* nodes.shape[1] of the mesh made of a file *)
Definition file_width (f : mesh_file) : nat :=
  match dict_get (mf_cells f) "tetra" with
  | Some _ => mf_width f
  | None => if (mf_width f =? 3)%nat then 2%nat else mf_width f
  end.

(* me:90-109, mb:8-19, md:21-35  Mesh.__init__ for an ImportedMeshDescription *)
Definition imported_mesh {V} (f : mesh_file) (initial_position : option (list R))
    (d : @Description (list R) V) : result (@MeshData (list R) V) :=
  bind (imported f) (fun raw =>
  bind (build_raw raw initial_position) (fun '(nodes, elements) =>
  build (mean_rows (file_width f)) (repeat 0 (file_width f)) nodes elements d)).
