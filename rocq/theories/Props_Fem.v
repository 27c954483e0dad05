(* Finite element matrices and operators (C20-C26, C64-C70). *)
From Coq Require Import Reals List Arith ZArith String Bool Lia Lra.
From Verif Require Import RVec PyModel MeshModel MeshBuildModel MeshSpec FemModel FemSpec
  FemGeomProofs FemAssemblyProofs FemFormProofs FemBasicProofs FemOperatorProofs FemMeshProofs
  FemBuildProofs FemQuadProofs FemPipelineProofs FemFinalProofs FemExamples MeshExamples.
Import ListNotations.
Local Open Scope string_scope.
Local Open Scope list_scope.
Local Open Scope R_scope.

(* ------------------------------------------------------------------ C20 *)

(* what get_integral_parts_numba returns for local index i is the gradient of the affine
   function equal to 1 at corner i and 0 at the others, and the area of the triangle *)
Theorem C20_gradients_2d : forall (x : nat -> vec) (i : nat),
  det_2d x <> 0 -> (i <= 2)%nat ->
  let '(g, v) := integral_parts2 x i in
  affine_gradient 2 x (delta i) g /\
  (forall g', affine_gradient 2 x (delta i) g' -> veq 2 g' g) /\
  v = area x.
Proof. exact gradients_2d. Qed.
Print Assumptions C20_gradients_2d.

Theorem C20_gradients_3d : forall (x : nat -> vec) (i : nat),
  det_3d x <> 0 -> (i <= 3)%nat ->
  let '(g, v) := integral_parts3 x i in
  affine_gradient 3 x (delta i) g /\
  (forall g', affine_gradient 3 x (delta i) g' -> veq 3 g' g) /\
  v = volume x.
Proof. exact gradients_3d. Qed.
Print Assumptions C20_gradients_3d.

Theorem C20_sum_zero : forall x,
  (det_2d x <> 0 -> forall c, (c < 2)%nat ->
     sum 3 (fun i => fst (integral_parts2 x i) c) = 0) /\
  (det_3d x <> 0 -> forall c, (c < 3)%nat ->
     sum 4 (fun i => fst (integral_parts3 x i) c) = 0).
Proof. exact (fun x => conj (fun D c H => grad2_sum x c D H) (fun D c H => grad3_sum x c D H)). Qed.
Print Assumptions C20_sum_zero.

Example C20_example : det_2d (corners quad_nodes [3; 2; 1]%nat) = -3 /\
  area (corners quad_nodes [3; 2; 1]%nat) = 3 / 2 /\
  det_3d (corners tet_nodes [1; 2; 3; 4]%nat) <> 0.
Proof.
  assert (D : det_2d (corners quad_nodes [3; 2; 1]%nat) = -3).
  { unfold det_2d, corners, quad_nodes, at_rows; cbn [nth]; lra. }
  split; [exact D|split].
  - unfold area. rewrite D, Rabs_left; lra.
  - unfold det_3d, corners, tet_nodes, at_rows; cbn [nth]; lra.
Qed.

(* ------------------------------------------------------------------ C21 *)

(* entry (a, b) of each matrix is the sum over elements and corners of the element integral,
   for any table g of basis gradients *)
Theorem C21_entries_2d : forall N nodes els B g, triangles N nodes els ->
  get_basic_matrices nodes els = Ok B ->
  (forall e i, In e els -> (i <= 2)%nat -> affine_gradient 2 (corners nodes e) (delta i) (g e i)) ->
  (forall a b, volume_at_nodes B a b = assembly 3 els (fun e i j =>
      element_area nodes e * ((1 - delta i j) / (INR 3 * INR 2))) a b) /\
  (forall a b, U B a b = assembly 3 els (fun e i j =>
      element_area nodes e * ((1 + delta i j) / (INR 3 * INR 4))) a b) /\
  (forall k a b, (k < 2)%nat -> V B k a b = assembly 3 els (fun e i j =>
      element_area nodes e * (g e j k / INR 3)) a b) /\
  (forall k l a b, (k < 2)%nat -> (l < 2)%nat -> W B k l a b = assembly 3 els (fun e i j =>
      element_area nodes e * (g e i k * g e j l)) a b) /\
  element_initial_volume B = map (element_area nodes) els.
Proof. exact entries_2d. Qed.
Print Assumptions C21_entries_2d.

Theorem C21_entries_3d : forall N nodes els B g, tetrahedra N nodes els ->
  get_basic_matrices nodes els = Ok B ->
  (forall e i, In e els -> (i <= 3)%nat -> affine_gradient 3 (corners nodes e) (delta i) (g e i)) ->
  (forall a b, volume_at_nodes B a b = assembly 4 els (fun e i j =>
      element_volume nodes e * ((1 - delta i j) / (INR 4 * INR 3))) a b) /\
  (forall a b, U B a b = assembly 4 els (fun e i j =>
      element_volume nodes e * ((1 + delta i j) / (INR 4 * INR 5))) a b) /\
  (forall k a b, (k < 3)%nat -> V B k a b = assembly 4 els (fun e i j =>
      element_volume nodes e * (g e j k / INR 4)) a b) /\
  (forall k l a b, (k < 3)%nat -> (l < 3)%nat -> W B k l a b = assembly 4 els (fun e i j =>
      element_volume nodes e * (g e i k * g e j l)) a b) /\
  element_initial_volume B = map (element_volume nodes) els.
Proof. exact entries_3d. Qed.
Print Assumptions C21_entries_3d.

(* constants have zero gradient energy; W[k,l] is the transpose of W[l,k] *)
Theorem C21_rows_2d : forall N nodes els B, triangles N nodes els ->
  get_basic_matrices nodes els = Ok B ->
  (forall k l a, (k < 2)%nat -> (l < 2)%nat -> (a < N)%nat -> sum N (W B k l a) = 0) /\
  (forall k a, (k < 2)%nat -> (a < N)%nat -> sum N (V B k a) = 0) /\
  (forall k l a b, (k < 2)%nat -> (l < 2)%nat -> W B k l a b = W B l k b a).
Proof. exact rows_2d. Qed.
Print Assumptions C21_rows_2d.

Theorem C21_rows_3d : forall N nodes els B, tetrahedra N nodes els ->
  get_basic_matrices nodes els = Ok B ->
  (forall k l a, (k < 3)%nat -> (l < 3)%nat -> (a < N)%nat -> sum N (W B k l a) = 0) /\
  (forall k a, (k < 3)%nat -> (a < N)%nat -> sum N (V B k a) = 0) /\
  (forall k l a b, (k < 3)%nat -> (l < 3)%nat -> W B k l a b = W B l k b a).
Proof. exact rows_3d. Qed.
Print Assumptions C21_rows_3d.

(* as bilinear forms on piecewise linear functions:
   U(y,x) = int y x,  V_k(y,x) = int y d_k x,  W_kl(y,x) = int d_k y d_l x *)
Theorem C21_forms_2d : forall N nodes els B, triangles N nodes els ->
  get_basic_matrices nodes els = Ok B ->
  (forall y x, bilinear N N (U B) y x = integral (element_area nodes) els (fun e =>
     mean_product 2 (fun k => y (nth k e 0%nat)) (fun k => x (nth k e 0%nat)))) /\
  (forall k y x gx, (k < 2)%nat -> field_gradient 2 nodes els x gx ->
     bilinear N N (V B k) y x = integral (element_area nodes) els (fun e => mean_value 2 e y * gx e k)) /\
  (forall k l y x gy gx, (k < 2)%nat -> (l < 2)%nat ->
     field_gradient 2 nodes els y gy -> field_gradient 2 nodes els x gx ->
     bilinear N N (W B k l) y x = integral (element_area nodes) els (fun e => gy e k * gx e l)) /\
  (forall x, exists g, field_gradient 2 nodes els x g).
Proof. exact forms_2d. Qed.
Print Assumptions C21_forms_2d.

Theorem C21_forms_3d : forall N nodes els B, tetrahedra N nodes els ->
  get_basic_matrices nodes els = Ok B ->
  (forall y x, bilinear N N (U B) y x = integral (element_volume nodes) els (fun e =>
     mean_product 3 (fun k => y (nth k e 0%nat)) (fun k => x (nth k e 0%nat)))) /\
  (forall k y x gx, (k < 3)%nat -> field_gradient 3 nodes els x gx ->
     bilinear N N (V B k) y x = integral (element_volume nodes) els (fun e => mean_value 3 e y * gx e k)) /\
  (forall k l y x gy gx, (k < 3)%nat -> (l < 3)%nat ->
     field_gradient 3 nodes els y gy -> field_gradient 3 nodes els x gx ->
     bilinear N N (W B k l) y x = integral (element_volume nodes) els (fun e => gy e k * gx e l)) /\
  (forall x, exists g, field_gradient 3 nodes els x g).
Proof. exact forms_3d. Qed.
Print Assumptions C21_forms_3d.

Example C21_example_2d : triangles 4 quad_nodes quad_els /\
  exists B, get_basic_matrices quad_nodes quad_els = Ok B.
Proof. split; [exact quad_triangles|eexists; reflexivity]. Qed.
Example C21_example_3d : tetrahedra 5 tet_nodes tet_els /\
  exists B, get_basic_matrices tet_nodes tet_els = Ok B.
Proof. split; [exact tet_tetrahedra|eexists; reflexivity]. Qed.

(* ------------------------------------------------------------------ C22 *)

Theorem C22_mass_2d : forall N nodes els B, triangles N nodes els ->
  get_basic_matrices nodes els = Ok B ->
  symmetric N (U B) /\
  sum N (fun a => sum N (fun b => U B a b)) = lsum els (element_area nodes) /\
  sum N (fun a => sum N (fun b => volume_at_nodes B a b)) = lsum els (element_area nodes) /\
  ((forall i, (i < N)%nat -> referenced els i) -> pos_def N (U B)) /\
  element_initial_volume B = map (element_area nodes) els.
Proof. exact mass_2d. Qed.
Print Assumptions C22_mass_2d.

Theorem C22_mass_3d : forall N nodes els B, tetrahedra N nodes els ->
  get_basic_matrices nodes els = Ok B ->
  symmetric N (U B) /\
  sum N (fun a => sum N (fun b => U B a b)) = lsum els (element_volume nodes) /\
  sum N (fun a => sum N (fun b => volume_at_nodes B a b)) = lsum els (element_volume nodes) /\
  ((forall i, (i < N)%nat -> referenced els i) -> pos_def N (U B)) /\
  element_initial_volume B = map (element_volume nodes) els.
Proof. exact mass_3d. Qed.
Print Assumptions C22_mass_3d.

(* the means used in the forms are integrals: over the reference simplex the product of two
   affine functions integrates to measure * mean_product, one affine function to
   measure * mean of the corner values (iterated integrals, unique by is_integral_unique) *)
Theorem C22_quadrature_2d : forall f g,
  is_triangle_integral (fun s t => bary2 f s t * bary2 g s t) (mean_product 2 f g / 2) /\
  is_triangle_integral (bary2 f) (sum 3 f / 3 / 2).
Proof. exact (fun f g => conj (triangle_product f g) (triangle_linear f)). Qed.
Print Assumptions C22_quadrature_2d.

Theorem C22_quadrature_3d : forall f g,
  is_tetrahedron_integral (fun r s t => bary3 f r s t * bary3 g r s t) (mean_product 3 f g / 6) /\
  is_tetrahedron_integral (bary3 f) (sum 4 f / 4 / 6).
Proof. exact (fun f g => conj (tetrahedron_product f g) (tetrahedron_linear f)). Qed.
Print Assumptions C22_quadrature_3d.

Theorem C22_integral_unique : forall f a b I J,
  is_integral f a b I -> is_integral f a b J -> I = J.
Proof. exact is_integral_unique. Qed.
Print Assumptions C22_integral_unique.

(* from the raw mesh to the mass matrix: after Mesh construction (removal of unconnected
   nodes, renumbering) the mass matrix is positive definite and its entries sum to the total
   area of the raw mesh, which need not reference all its nodes *)
Theorem C22_built_2d : forall (P A : Type) (mean : list P -> P) (zero : P) (coord : P -> vec)
    (nodes0 : list P) (els0 : list (list nat)) (d : @Description P A) (m : @MeshData P A) ic id B,
  in_range (List.length nodes0) els0 -> simplices 3 els0 ->
  dict_get (indicators d) "contact" = Some ic -> dict_get (indicators d) "dirichlet" = Some id ->
  build mean zero nodes0 els0 d = Ok m ->
  (forall e, In e els0 -> det_2d (corners (node_table coord zero nodes0) e) <> 0) ->
  get_basic_matrices (node_table coord zero (m_nodes m)) (m_elements m) = Ok B ->
  let N := List.length (m_nodes m) in
  symmetric N (U B) /\ pos_def N (U B) /\
  sum N (fun a => sum N (fun b => U B a b))
    = lsum els0 (element_area (node_table coord zero nodes0)).
Proof. exact @built_mass_2d. Qed.
Print Assumptions C22_built_2d.

Theorem C22_built_3d : forall (P A : Type) (mean : list P -> P) (zero : P) (coord : P -> vec)
    (nodes0 : list P) (els0 : list (list nat)) (d : @Description P A) (m : @MeshData P A) ic id B,
  in_range (List.length nodes0) els0 -> simplices 4 els0 ->
  dict_get (indicators d) "contact" = Some ic -> dict_get (indicators d) "dirichlet" = Some id ->
  build mean zero nodes0 els0 d = Ok m ->
  (forall e, In e els0 -> det_3d (corners (node_table coord zero nodes0) e) <> 0) ->
  get_basic_matrices (node_table coord zero (m_nodes m)) (m_elements m) = Ok B ->
  let N := List.length (m_nodes m) in
  symmetric N (U B) /\ pos_def N (U B) /\
  sum N (fun a => sum N (fun b => U B a b))
    = lsum els0 (element_volume (node_table coord zero nodes0)).
Proof. exact @built_mass_3d. Qed.
Print Assumptions C22_built_3d.

Example C22_example_2d : triangles 4 quad_nodes quad_els /\
  (forall i, (i < 4)%nat -> referenced quad_els i) /\
  exists B, get_basic_matrices quad_nodes quad_els = Ok B.
Proof. split; [exact quad_triangles|split; [exact quad_referenced|eexists; reflexivity]]. Qed.
Example C22_example_3d : tetrahedra 5 tet_nodes tet_els /\
  (forall i, (i < 5)%nat -> referenced tet_els i) /\
  exists B, get_basic_matrices tet_nodes tet_els = Ok B.
Proof. split; [exact tet_tetrahedra|split; [exact tet_referenced|eexists; reflexivity]]. Qed.
Example C22_example_built :
  in_range 6 cross_els /\ simplices 3 cross_els /\
  dict_get (indicators (descr bottom top)) "contact" = Some bottom /\
  dict_get (indicators (descr bottom top)) "dirichlet" = Some top /\
  (exists m, build pt_mean pt0 cross_nodes cross_els (descr bottom top) = Ok m) /\
  (forall e, In e cross_els -> det_2d (corners (node_table (fun p c =>
     nth c [IZR (fst p); IZR (snd p)] 0) pt0 cross_nodes) e) <> 0).
Proof. exact cross_built. Qed.

(* ------------------------------------------------------------------ C23 *)

(* elasticity, optionally weighted with a density per element *)
Theorem C23_elasticity_2d : forall N nodes els p density ops mu lambda E,
  triangles N nodes els -> reinitialize_matrices N nodes els p density = Ok ops ->
  elastic p = Some (mu, lambda) -> elasticity ops = Some E ->
  (forall v u G H, vector_gradient 2 N nodes els v G -> vector_gradient 2 N nodes els u H ->
     bilinear (2 * N) (2 * N) E v u
     = mesh_integral (element_area nodes) density els (fun e =>
         elastic_density 2 mu lambda (fun c => G c e) (fun c => H c e))) /\
  symmetric (2 * N) E /\
  (0 <= mu -> 0 <= lambda -> nonneg_density density -> pos_semidef (2 * N) E) /\
  (forall b S u, antisymmetric 2 S -> rigid_motion 2 N nodes b S u ->
     veq (2 * N) (mv (2 * N) E u) (fun _ => 0)).
Proof.
  exact (fun N nodes els p density ops mu lambda E HT HO =>
           elasticity2_all N nodes els p density ops HT HO mu lambda E).
Qed.
Print Assumptions C23_elasticity_2d.

Theorem C23_viscosity_2d : forall N nodes els p density ops th ze C,
  triangles N nodes els -> reinitialize_matrices N nodes els p density = Ok ops ->
  viscous p = Some (th, ze) -> viscosity ops = Some C ->
  (forall v u G H, vector_gradient 2 N nodes els v G -> vector_gradient 2 N nodes els u H ->
     bilinear (2 * N) (2 * N) C v u
     = mesh_integral (element_area nodes) density els (fun e =>
         elastic_density 2 th ze (fun c => G c e) (fun c => H c e))) /\
  symmetric (2 * N) C /\
  (0 <= th -> 0 <= ze -> nonneg_density density -> pos_semidef (2 * N) C) /\
  (forall b S u, antisymmetric 2 S -> rigid_motion 2 N nodes b S u ->
     veq (2 * N) (mv (2 * N) C u) (fun _ => 0)).
Proof. exact viscosity2_all. Qed.
Print Assumptions C23_viscosity_2d.

(* gradients of every displacement exist *)
Theorem C23_gradients_exist : forall N nodes els u,
  (triangles N nodes els -> exists H, vector_gradient 2 N nodes els u H) /\
  (tetrahedra N nodes els -> exists H, vector_gradient 3 N nodes els u H).
Proof.
  exact (fun N nodes els u => conj (gradients2_ex N nodes els u) (gradients3_ex N nodes els u)).
Qed.
Print Assumptions C23_gradients_exist.

Definition full_properties : properties :=
  mkProperties 2 (Some (4, 3)) (Some (1, 2)) (Some 5)
    (Some (fun k l => if (k =? l)%nat then 1 / 2 else 0, fun k l => if (k =? l)%nat then 3 else 0))
    (Some (fun c k l => INR (c + 2 * k + 4 * l), fun k l => if (k =? l)%nat then 2 else 1)).
Definition solid_properties : properties :=
  mkProperties 2 (Some (4, 3)) (Some (1, 2)) (Some 5)
    (Some (fun k l => if (k =? l)%nat then 1 / 2 else 0, fun k l => if (k =? l)%nat then 3 else 0)) None.

Example C23_example : triangles 4 quad_nodes quad_els /\ exists ops E C,
  reinitialize_matrices 4 quad_nodes quad_els full_properties (Some (fun k => INR k)) = Ok ops /\
  elasticity ops = Some E /\ viscosity ops = Some C /\ nonneg_density (Some (fun k => INR k)) /\
  rigid_motion 2 4 quad_nodes (fun c => INR c) (fun k l => INR k - INR l)
    (fun a => if (a <? 4)%nat then - quad_nodes a 1%nat else 1 + quad_nodes (a - 4)%nat 0%nat).
Proof.
  split; [exact quad_triangles|]. do 3 eexists. split; [reflexivity|]. split; [reflexivity|].
  split; [reflexivity|]. split; [intros k; apply pos_INR|].
  intros c n Hc Hn. destruct c as [|[|c]]; [| |lia]; cbn [sum];
    destruct n as [|[|[|[|n]]]]; try lia; unfold quad_nodes, at_rows; cbn; lra.
Qed.

(* ------------------------------------------------------------------ C24 *)

(* what the 3D operator is, for all mu and lambda: isotropic elasticity plus (mu - lambda)
   times the form [defect_3d]; it is symmetric *)
Theorem C24_elasticity_3d : forall N nodes els p density ops mu lambda E,
  tetrahedra N nodes els -> reinitialize_matrices N nodes els p density = Ok ops ->
  elastic p = Some (mu, lambda) -> elasticity ops = Some E ->
  (forall v u G H, vector_gradient 3 N nodes els v G -> vector_gradient 3 N nodes els u H ->
     bilinear (3 * N) (3 * N) E v u
     = integral (element_volume nodes) els (fun e =>
         elastic_density 3 mu lambda (fun c => G c e) (fun c => H c e))
       + (mu - lambda) * integral (element_volume nodes) els (fun e =>
           defect_3d (fun c => G c e) (fun c => H c e))) /\
  symmetric (3 * N) E.
Proof.
  exact (fun N nodes els p density ops mu lambda E HT HO Hp HE =>
    elasticity3_all N nodes els HT mu lambda E (elasticity3_is N nodes els p density ops HT HO mu lambda E Hp HE)).
Qed.
Print Assumptions C24_elasticity_3d.

(* for mu = lambda it is isotropic elasticity *)
Theorem C24_isotropic : forall N nodes els p density ops mu E,
  tetrahedra N nodes els -> reinitialize_matrices N nodes els p density = Ok ops ->
  elastic p = Some (mu, mu) -> elasticity ops = Some E ->
  (forall v u G H, vector_gradient 3 N nodes els v G -> vector_gradient 3 N nodes els u H ->
     bilinear (3 * N) (3 * N) E v u
     = integral (element_volume nodes) els (fun e =>
         elastic_density 3 mu mu (fun c => G c e) (fun c => H c e))) /\
  (0 <= mu -> pos_semidef (3 * N) E) /\
  (forall b S u, antisymmetric 3 S -> rigid_motion 3 N nodes b S u ->
     veq (3 * N) (mv (3 * N) E u) (fun _ => 0)).
Proof.
  exact (fun N nodes els p density ops mu E HT HO Hp HE =>
    elasticity3_iso N nodes els HT mu E (elasticity3_is N nodes els p density ops HT HO mu mu E Hp HE)).
Qed.
Print Assumptions C24_isotropic.

(* the viscosity operator has the same form *)
Theorem C24_viscosity_3d : forall N nodes els p density ops th ze C,
  tetrahedra N nodes els -> reinitialize_matrices N nodes els p density = Ok ops ->
  viscous p = Some (th, ze) -> viscosity ops = Some C ->
  (forall v u G H, vector_gradient 3 N nodes els v G -> vector_gradient 3 N nodes els u H ->
     bilinear (3 * N) (3 * N) C v u
     = integral (element_volume nodes) els (fun e =>
         elastic_density 3 th ze (fun c => G c e) (fun c => H c e))
       + (th - ze) * integral (element_volume nodes) els (fun e =>
           defect_3d (fun c => G c e) (fun c => H c e))) /\
  symmetric (3 * N) C.
Proof.
  exact (fun N nodes els p density ops th ze C HT HO Hp HC =>
    elasticity3_all N nodes els HT th ze C (viscosity3_is N nodes els p density ops HT HO th ze C Hp HC)).
Qed.
Print Assumptions C24_viscosity_3d.

(* on every mesh, whenever mu < lambda, an infinitesimal rotation has negative energy *)
Theorem C24_rotation : forall N nodes els p ops mu lambda E,
  tetrahedra N nodes els -> reinitialize_matrices N nodes els p None = Ok ops ->
  elastic p = Some (mu, lambda) -> elasticity ops = Some E -> mu < lambda ->
  exists b S u, antisymmetric 3 S /\ rigid_motion 3 N nodes b S u /\ qform (3 * N) E u < 0.
Proof. exact elasticity3_not_isotropic. Qed.
Print Assumptions C24_rotation.

(* hence the property fails for mu <> lambda *)
Theorem C24_elasticity_3d_refuted : exists N nodes els p ops mu lambda E b S u,
  tetrahedra N nodes els /\ reinitialize_matrices N nodes els p None = Ok ops /\
  elastic p = Some (mu, lambda) /\ elasticity ops = Some E /\ 0 <= mu /\ 0 <= lambda /\
  antisymmetric 3 S /\ rigid_motion 3 N nodes b S u /\ qform (3 * N) E u < 0.
Proof. exact elasticity3_refuted. Qed.
Print Assumptions C24_elasticity_3d_refuted.

Example C24_example : tetrahedra 5 tet_nodes tet_els /\ exists ops E C,
  reinitialize_matrices 5 tet_nodes tet_els solid_properties None = Ok ops /\
  elasticity ops = Some E /\ viscosity ops = Some C.
Proof. split; [exact tet_tetrahedra|]. do 3 eexists. split; [reflexivity|]. split; reflexivity. Qed.

(* ------------------------------------------------------------------ C25 *)

Theorem C25_density : forall N nodes els g, triangles N nodes els ->
  (forall e i, In e els -> (i <= 2)%nat -> affine_gradient 2 (corners nodes e) (delta i) (g e i)) ->
  (forall rho k l a b, (k < 2)%nat -> (l < 2)%nat ->
     w_matrix2 nodes els (Some rho) k l a b
     = lsum (combine (seq 0 (List.length els)) els) (fun p => rho (fst p) *
         assembly 3 [snd p] (fun e i j => element_area nodes e * (g e i k * g e j l)) a b)) /\
  (forall k l a b, (k < 2)%nat -> (l < 2)%nat ->
     w_matrix2 nodes els (Some (fun _ => 1)) k l a b = w_matrix2 nodes els None k l a b) /\
  (forall rho rho' s s' k l a b, (k < 2)%nat -> (l < 2)%nat ->
     w_matrix2 nodes els (Some (fun n => s * rho n + s' * rho' n)) k l a b
     = s * w_matrix2 nodes els (Some rho) k l a b + s' * w_matrix2 nodes els (Some rho') k l a b).
Proof. exact density_2d. Qed.
Print Assumptions C25_density.

Example C25_example : triangles 4 quad_nodes quad_els /\ exists g,
  forall e i, In e quad_els -> (i <= 2)%nat ->
    affine_gradient 2 (corners quad_nodes e) (delta i) (g e i).
Proof.
  split; [exact quad_triangles|]. exists (grads2 quad_nodes). intros e i He Hi.
  apply grad2_basis; auto. apply quad_triangles; auto.
Qed.

(* ------------------------------------------------------------------ C26 *)

Theorem C26_q : forall x i j, det_2d x <> 0 -> (i < 3)%nat -> (j < 3)%nat ->
  q2 x i j (area x) = area x * ((1 + delta i j) / 12).
Proof. exact q2_exact. Qed.
Print Assumptions C26_q.

Example C26_example : det_2d (corners quad_nodes [3; 2; 1]%nat) <> 0.
Proof. apply quad_triangles. right; left; reflexivity. Qed.

(* ------------------------------------------------------------------ C64 *)

(* the acceleration operator is rho * int v . u (stacked components), symmetric and
   positive definite: the kinetic energy of a non-zero velocity is positive *)
Theorem C64_kinetic_2d : forall N nodes els p density ops,
  triangles N nodes els -> reinitialize_matrices N nodes els p density = Ok ops ->
  (forall v u, bilinear (2 * N) (2 * N) (acceleration_operator ops) v u
    = mass_density p * sum 2 (fun c => integral (element_area nodes) els (fun e =>
        mean_product 2 (fun k => component N v c (nth k e 0%nat)) (fun k => component N u c (nth k e 0%nat))))) /\
  ((forall i, (i < N)%nat -> referenced els i) -> 0 < mass_density p ->
    symmetric (2 * N) (acceleration_operator ops) /\ pos_def (2 * N) (acceleration_operator ops)).
Proof.
  exact (fun N nodes els p density ops HT HO => conj (mass2_form N nodes els p density ops HT HO)
    (mass_block_2d N nodes els p density ops HT HO)).
Qed.
Print Assumptions C64_kinetic_2d.

Theorem C64_kinetic_3d : forall N nodes els p density ops,
  tetrahedra N nodes els -> reinitialize_matrices N nodes els p density = Ok ops ->
  (forall v u, bilinear (3 * N) (3 * N) (acceleration_operator ops) v u
    = mass_density p * sum 3 (fun c => integral (element_volume nodes) els (fun e =>
        mean_product 3 (fun k => component N v c (nth k e 0%nat)) (fun k => component N u c (nth k e 0%nat))))) /\
  ((forall i, (i < N)%nat -> referenced els i) -> 0 < mass_density p ->
    symmetric (3 * N) (acceleration_operator ops) /\ pos_def (3 * N) (acceleration_operator ops)).
Proof.
  exact (fun N nodes els p density ops HT HO => conj (mass3_form N nodes els p density ops HT HO)
    (mass_block_3d N nodes els p density ops HT HO)).
Qed.
Print Assumptions C64_kinetic_3d.

Example C64_example : triangles 4 quad_nodes quad_els /\ tetrahedra 5 tet_nodes tet_els /\
  (exists ops, reinitialize_matrices 4 quad_nodes quad_els full_properties None = Ok ops) /\
  (exists ops, reinitialize_matrices 5 tet_nodes tet_els solid_properties None = Ok ops) /\
  0 < mass_density full_properties.
Proof.
  split; [exact quad_triangles|split; [exact tet_tetrahedra|]].
  split; [eexists; reflexivity|split; [eexists; reflexivity|simpl; lra]].
Qed.

(* ------------------------------------------------------------------ C65 *)

Theorem C65_conductivity_2d : forall N nodes els p density ops ex co K,
  triangles N nodes els -> reinitialize_matrices N nodes els p density = Ok ops ->
  thermal p = Some (ex, co) -> thermal_conductivity ops = Some K ->
  (forall y x gy gx, field_gradient 2 nodes els y gy -> field_gradient 2 nodes els x gx ->
     bilinear N N K y x = mesh_integral (element_area nodes) density els (fun e =>
       sum 2 (fun k => sum 2 (fun l => co k l * (gy e k * gx e l))))) /\
  (co 0%nat 1%nat = co 1%nat 0%nat -> symmetric N K) /\
  (nonneg_density density ->
   (forall v, 0 <= sum 2 (fun k => sum 2 (fun l => co k l * (v k * v l)))) -> pos_semidef N K).
Proof. exact conductivity2_all. Qed.
Print Assumptions C65_conductivity_2d.

Theorem C65_permittivity_2d : forall N nodes els p density ops pz pm K,
  triangles N nodes els -> reinitialize_matrices N nodes els p density = Ok ops ->
  piezo p = Some (pz, pm) -> permittivity ops = Some K ->
  (forall y x gy gx, field_gradient 2 nodes els y gy -> field_gradient 2 nodes els x gx ->
     bilinear N N K y x = mesh_integral (element_area nodes) density els (fun e =>
       sum 2 (fun k => sum 2 (fun l => pm k l * (gy e k * gx e l))))) /\
  (pm 0%nat 1%nat = pm 1%nat 0%nat -> symmetric N K) /\
  (nonneg_density density ->
   (forall v, 0 <= sum 2 (fun k => sum 2 (fun l => pm k l * (v k * v l)))) -> pos_semidef N K).
Proof. exact permittivity2_all. Qed.
Print Assumptions C65_permittivity_2d.

Theorem C65_conductivity_3d : forall N nodes els p density ops ex co K,
  tetrahedra N nodes els -> reinitialize_matrices N nodes els p density = Ok ops ->
  thermal p = Some (ex, co) -> thermal_conductivity ops = Some K ->
  (forall y x gy gx, field_gradient 3 nodes els y gy -> field_gradient 3 nodes els x gx ->
     bilinear N N K y x = integral (element_volume nodes) els (fun e =>
       sum 3 (fun k => sum 3 (fun l => co k l * (gy e k * gx e l))))) /\
  ((forall k l, (k < 3)%nat -> (l < 3)%nat -> co k l = co l k) -> symmetric N K) /\
  ((forall v, 0 <= sum 3 (fun k => sum 3 (fun l => co k l * (v k * v l)))) -> pos_semidef N K).
Proof. exact conductivity3_all. Qed.
Print Assumptions C65_conductivity_3d.

Example C65_example : exists ops K K' ops3 K3,
  reinitialize_matrices 4 quad_nodes quad_els full_properties (Some (fun k => INR k)) = Ok ops /\
  thermal_conductivity ops = Some K /\ permittivity ops = Some K' /\
  reinitialize_matrices 5 tet_nodes tet_els solid_properties None = Ok ops3 /\
  thermal_conductivity ops3 = Some K3 /\
  (forall v : vec, 0 <= sum 2 (fun k => sum 2 (fun l => (if (k =? l)%nat then 2 else 1) * (v k * v l)))).
Proof.
  do 5 eexists. do 5 (split; [reflexivity|]). intros v. cbn [sum Nat.eqb]. nra.
Qed.

(* ------------------------------------------------------------------ C66 *)

Theorem C66_poisson_2d : forall N nodes els p density ops c K,
  triangles N nodes els -> reinitialize_matrices N nodes els p density = Ok ops ->
  membrane p = Some c -> poisson_operator ops = Some K -> nonneg_density density ->
  (forall y x gy gx, field_gradient 2 nodes els y gy -> field_gradient 2 nodes els x gx ->
     bilinear N N K y x = mesh_integral (element_area nodes) density els (fun e =>
       c ^ 2 * sum 2 (fun k => gy e k * gx e k))) /\
  symmetric N K /\ pos_semidef N K /\ (forall s, veq N (mv N K (fun _ => s)) (fun _ => 0)).
Proof. exact poisson2_all. Qed.
Print Assumptions C66_poisson_2d.

Theorem C66_poisson_3d : forall N nodes els p density ops c K,
  tetrahedra N nodes els -> reinitialize_matrices N nodes els p density = Ok ops ->
  membrane p = Some c -> poisson_operator ops = Some K ->
  (forall y x gy gx, field_gradient 3 nodes els y gy -> field_gradient 3 nodes els x gx ->
     bilinear N N K y x = integral (element_volume nodes) els (fun e =>
       c ^ 2 * sum 3 (fun k => gy e k * gx e k))) /\
  symmetric N K /\ pos_semidef N K /\ (forall s, veq N (mv N K (fun _ => s)) (fun _ => 0)).
Proof. exact poisson3_all. Qed.
Print Assumptions C66_poisson_3d.

Example C66_example : exists ops K ops3 K3,
  reinitialize_matrices 4 quad_nodes quad_els full_properties (Some (fun k => INR k)) = Ok ops /\
  poisson_operator ops = Some K /\
  reinitialize_matrices 5 tet_nodes tet_els solid_properties None = Ok ops3 /\
  poisson_operator ops3 = Some K3.
Proof. do 4 eexists. do 3 (split; [reflexivity|]). reflexivity. Qed.

(* ------------------------------------------------------------------ C67 *)

(* thermal expansion: (theta, u) |-> int theta sum_cl ex_cl d_l u_c; no density weight *)
Theorem C67_thermal_expansion_2d : forall N nodes els p density ops ex co K,
  triangles N nodes els -> reinitialize_matrices N nodes els p density = Ok ops ->
  thermal p = Some (ex, co) -> thermal_expansion ops = Some K ->
  forall theta u H, vector_gradient 2 N nodes els u H ->
  bilinear N (2 * N) K theta u = integral (element_area nodes) els (fun e =>
     mean_value 2 e theta * sum 2 (fun c => sum 2 (fun l => ex c l * H c e l))).
Proof.
  exact (fun N nodes els p density ops ex co K HT HO =>
    expansion2_is N nodes els p density ops HT HO ex co K).
Qed.
Print Assumptions C67_thermal_expansion_2d.

Theorem C67_thermal_expansion_3d : forall N nodes els p density ops ex co K,
  tetrahedra N nodes els -> reinitialize_matrices N nodes els p density = Ok ops ->
  thermal p = Some (ex, co) -> thermal_expansion ops = Some K ->
  forall theta u H, vector_gradient 3 N nodes els u H ->
  bilinear N (3 * N) K theta u = integral (element_volume nodes) els (fun e =>
     mean_value 3 e theta * sum 3 (fun c => sum 3 (fun l => ex c l * H c e l))).
Proof.
  exact (fun N nodes els p density ops ex co K HT HO =>
    expansion3_is N nodes els p density ops HT HO ex co K).
Qed.
Print Assumptions C67_thermal_expansion_3d.

Example C67_example : exists ops K ops3 K3,
  reinitialize_matrices 4 quad_nodes quad_els full_properties None = Ok ops /\
  thermal_expansion ops = Some K /\
  reinitialize_matrices 5 tet_nodes tet_els solid_properties None = Ok ops3 /\
  thermal_expansion ops3 = Some K3.
Proof. do 4 eexists. do 3 (split; [reflexivity|]). reflexivity. Qed.

(* ------------------------------------------------------------------ C68 *)

Theorem C68_piezoelectricity : forall N nodes els p density ops pz pm K,
  triangles N nodes els -> reinitialize_matrices N nodes els p density = Ok ops ->
  piezo p = Some (pz, pm) -> piezoelectricity ops = Some K ->
  forall phi u gphi H, field_gradient 2 nodes els phi gphi -> vector_gradient 2 N nodes els u H ->
  bilinear N (2 * N) K phi u = mesh_integral (element_area nodes) density els (fun e =>
    sum 2 (fun c => sum 2 (fun k => sum 2 (fun l => pz c k l * (gphi e k * H c e l))))).
Proof.
  exact (fun N nodes els p density ops pz pm K HT HO =>
    piezo2_is N nodes els p density ops HT HO pz pm K).
Qed.
Print Assumptions C68_piezoelectricity.

Example C68_example : exists ops K,
  reinitialize_matrices 4 quad_nodes quad_els full_properties (Some (fun k => INR k)) = Ok ops /\
  piezoelectricity ops = Some K.
Proof. do 2 eexists. split; reflexivity. Qed.

(* ------------------------------------------------------------------ C69 *)

(* the relaxation operator for arbitrary coefficients; symmetric for coefficients with the
   two symmetries; isotropic coefficients give isotropic elasticity *)
Theorem C69_relaxation : forall N nodes els density coeff, triangles N nodes els ->
  let A := relaxation2 N (w_matrix2 nodes els density) coeff in
  (forall v u G H, vector_gradient 2 N nodes els v G -> vector_gradient 2 N nodes els u H ->
   bilinear (2 * N) (2 * N) A v u
    = mesh_integral (element_area nodes) density els (fun e =>
        coeff 0%nat 0%nat 0%nat * (G 0%nat e 0%nat * H 0%nat e 0%nat)
        + coeff 0%nat 1%nat 1%nat * (G 0%nat e 1%nat * H 0%nat e 1%nat)
        + coeff 0%nat 1%nat 0%nat * (G 0%nat e 1%nat * H 1%nat e 0%nat)
        + coeff 0%nat 0%nat 1%nat * (G 0%nat e 0%nat * H 1%nat e 1%nat)
        + coeff 1%nat 1%nat 0%nat * (G 1%nat e 1%nat * H 0%nat e 0%nat)
        + coeff 1%nat 0%nat 1%nat * (G 1%nat e 0%nat * H 0%nat e 1%nat)
        + coeff 1%nat 0%nat 0%nat * (G 1%nat e 0%nat * H 1%nat e 0%nat)
        + coeff 1%nat 1%nat 1%nat * (G 1%nat e 1%nat * H 1%nat e 1%nat))) /\
  (coeff 0%nat 1%nat 0%nat = coeff 1%nat 0%nat 1%nat ->
   coeff 0%nat 0%nat 1%nat = coeff 1%nat 1%nat 0%nat -> symmetric (2 * N) A) /\
  (forall mu lambda,
    coeff 0%nat 0%nat 0%nat = 2 * mu + lambda -> coeff 1%nat 1%nat 1%nat = 2 * mu + lambda ->
    coeff 0%nat 1%nat 1%nat = mu -> coeff 1%nat 0%nat 0%nat = mu ->
    coeff 0%nat 1%nat 0%nat = mu -> coeff 1%nat 0%nat 1%nat = mu ->
    coeff 0%nat 0%nat 1%nat = lambda -> coeff 1%nat 1%nat 0%nat = lambda ->
    forall v u G H, vector_gradient 2 N nodes els v G -> vector_gradient 2 N nodes els u H ->
    bilinear (2 * N) (2 * N) A v u = mesh_integral (element_area nodes) density els (fun e =>
      elastic_density 2 mu lambda (fun c => G c e) (fun c => H c e))).
Proof. exact relaxation_2d. Qed.
Print Assumptions C69_relaxation.

(* isotropic coefficients with mu = 4, lambda = 3 *)
Example C69_example : let coeff i j k := nth k (nth j (nth i
    [[[11; 3]; [4; 4]]; [[4; 4]; [3; 11]]] []) []) 0 in
  coeff 0%nat 0%nat 0%nat = 2 * 4 + 3 /\ coeff 0%nat 1%nat 0%nat = coeff 1%nat 0%nat 1%nat /\
  coeff 0%nat 0%nat 1%nat = 3 /\ coeff 1%nat 1%nat 0%nat = 3.
Proof. cbn. repeat split; lra. Qed.

(* ------------------------------------------------------------------ C70 *)

(* reinitialize_matrices on triangles always succeeds and builds exactly the operators the
   properties ask for; on tetrahedra a density or piezoelectric properties raise *)
Theorem C70_dispatch_2d : forall N nodes els p density, triangles N nodes els -> els <> [] ->
  exists ops, reinitialize_matrices N nodes els p density = Ok ops /\
    same_presence (elastic p) (elasticity ops) /\ same_presence (viscous p) (viscosity ops) /\
    same_presence (membrane p) (poisson_operator ops) /\
    same_presence (thermal p) (thermal_expansion ops) /\
    same_presence (thermal p) (thermal_conductivity ops) /\
    same_presence (piezo p) (piezoelectricity ops) /\ same_presence (piezo p) (permittivity ops).
Proof. exact dispatch_2d. Qed.
Print Assumptions C70_dispatch_2d.

Theorem C70_dispatch_3d : forall N nodes els p density, tetrahedra N nodes els -> els <> [] ->
  match density, piezo p with
  | Some _, _ => reinitialize_matrices N nodes els p density = Err TypeError
  | None, Some _ => reinitialize_matrices N nodes els p density = Err NotImplemented
  | None, None => exists ops, reinitialize_matrices N nodes els p density = Ok ops /\
      same_presence (elastic p) (elasticity ops) /\ same_presence (viscous p) (viscosity ops) /\
      same_presence (membrane p) (poisson_operator ops) /\
      same_presence (thermal p) (thermal_expansion ops) /\
      same_presence (thermal p) (thermal_conductivity ops) /\
      piezoelectricity ops = None /\ permittivity ops = None
  end.
Proof. exact dispatch_3d. Qed.
Print Assumptions C70_dispatch_3d.

Example C70_example : triangles 4 quad_nodes quad_els /\ tetrahedra 5 tet_nodes tet_els /\
  quad_els <> [] /\ tet_els <> [].
Proof.
  split; [exact quad_triangles|split; [exact tet_tetrahedra|split; discriminate]].
Qed.
