(* Nodal loads: C27-C29, C48, C71. *)
From Coq Require Import Reals List Arith ZArith String Bool Lia Lra.
From Verif Require Import Common RVec PyModel MeshModel MeshBuildModel MeshSpec FemModel FemSpec FemMeshProofs
  FemBasicProofs FemPipelineProofs FemExamples MeshExamples ForcesModel ForcesSpec ForcesProofs ForcesLoadProofs.
Import ListNotations.
Local Open Scope string_scope.
Local Open Scope list_scope.
Local Open Scope R_scope.

(* ------------------------------------------------------------------ C27 *)

(* the nodal forces of every component add up to the integral of the piecewise linear
   interpolant of the volume force plus the integral over the Neumann faces of the
   interpolant of the traction.  [up_to_date]: the cache of a source does not hold
   values of another source for the requested time (see C48). *)
Theorem C27_total_force_2d : forall P T (teq : T -> T -> bool) (nodes : list P) table els neumann B bf fi fo t li lo,
  (forall a b, teq a b = true -> a = b) ->
  triangles (List.length nodes) table els -> faces_ok 2 (List.length nodes) neumann ->
  get_basic_matrices table els = Ok B ->
  up_to_date (inner bf) fi nodes t -> up_to_date (outer bf) fo nodes t ->
  values fi nodes t li -> values fo nodes t lo ->
  exists r, snd (integrate teq nodes table 2 neumann (volume_at_nodes B) bf t) = Ok r /\
    (forall k, sum (List.length nodes) (component (List.length nodes) r k)
       = integral (element_area table) els (fun e => mean_value 2 e (fun n => array_of li n k))
         + face_integral 2 table neumann (fun n => array_of lo n k)).
Proof. exact load_2d. Qed.
Print Assumptions C27_total_force_2d.

Theorem C27_total_force_3d : forall P T (teq : T -> T -> bool) (nodes : list P) table els neumann B bf fi fo t li lo,
  (forall a b, teq a b = true -> a = b) ->
  tetrahedra (List.length nodes) table els -> faces_ok 3 (List.length nodes) neumann ->
  get_basic_matrices table els = Ok B ->
  up_to_date (inner bf) fi nodes t -> up_to_date (outer bf) fo nodes t ->
  values fi nodes t li -> values fo nodes t lo ->
  exists r, snd (integrate teq nodes table 3 neumann (volume_at_nodes B) bf t) = Ok r /\
    (forall k, sum (List.length nodes) (component (List.length nodes) r k)
       = integral (element_volume table) els (fun e => mean_value 3 e (fun n => array_of li n k))
         + face_integral 3 table neumann (fun n => array_of lo n k)).
Proof. exact load_3d. Qed.
Print Assumptions C27_total_force_3d.

(* constant forces on a constructed mesh: force times the volume of the raw mesh, traction
   times the measure of the Neumann boundary *)
Theorem C27_constant_forces_2d :
  forall (P V T : Type) (mean : list P -> P) (zero : P) (coord : P -> vec) (teq : T -> T -> bool)
    (nodes0 : list P) (els0 : list (list nat)) (d : @Description P V) (m : @MeshData P V) contact dirichlet B
    (fi fo : P -> T -> result vec) t gi go,
  (forall a b, teq a b = true -> a = b) ->
  in_range (List.length nodes0) els0 -> simplices 3 els0 ->
  dict_get (indicators d) "contact" = Some contact -> dict_get (indicators d) "dirichlet" = Some dirichlet ->
  build mean zero nodes0 els0 d = Ok m ->
  (forall e, In e els0 -> det_2d (corners (node_table coord zero nodes0) e) <> 0) ->
  let nodes := m_nodes m in
  let table := node_table coord zero nodes in
  get_basic_matrices table (m_elements m) = Ok B ->
  (forall p, fi p t = Ok gi) -> (forall p, fo p t = Ok go) ->
  exists r, snd (integrate teq nodes table 2 (faces_of m "neumann") (volume_at_nodes B)
                   (mkForces (fresh_source (Some fi)) (fresh_source (Some fo))) t) = Ok r /\
    forall k, sum (List.length nodes) (component (List.length nodes) r k)
      = gi k * lsum els0 (element_area (node_table coord zero nodes0))
        + go k * lsum (faces_of m "neumann") (face_measure 2 table).
Proof. exact built_load_2d. Qed.
Print Assumptions C27_constant_forces_2d.

Theorem C27_constant_forces_3d :
  forall (P V T : Type) (mean : list P -> P) (zero : P) (coord : P -> vec) (teq : T -> T -> bool)
    (nodes0 : list P) (els0 : list (list nat)) (d : @Description P V) (m : @MeshData P V) contact dirichlet B
    (fi fo : P -> T -> result vec) t gi go,
  (forall a b, teq a b = true -> a = b) ->
  in_range (List.length nodes0) els0 -> simplices 4 els0 ->
  dict_get (indicators d) "contact" = Some contact -> dict_get (indicators d) "dirichlet" = Some dirichlet ->
  build mean zero nodes0 els0 d = Ok m ->
  (forall e, In e els0 -> det_3d (corners (node_table coord zero nodes0) e) <> 0) ->
  let nodes := m_nodes m in
  let table := node_table coord zero nodes in
  get_basic_matrices table (m_elements m) = Ok B ->
  (forall p, fi p t = Ok gi) -> (forall p, fo p t = Ok go) ->
  exists r, snd (integrate teq nodes table 3 (faces_of m "neumann") (volume_at_nodes B)
                   (mkForces (fresh_source (Some fi)) (fresh_source (Some fo))) t) = Ok r /\
    forall k, sum (List.length nodes) (component (List.length nodes) r k)
      = gi k * lsum els0 (element_volume (node_table coord zero nodes0))
        + go k * lsum (faces_of m "neumann") (face_measure 3 table).
Proof. exact built_load_3d. Qed.
Print Assumptions C27_constant_forces_3d.

(* the quadrilateral with one Neumann edge and a force that depends on place and time *)
Example C27_example : let nodes := [0; 1; 2; 3]%nat in
  let f (p t : nat) : result vec := Ok (fun k => INR (p + t + k)) in
  triangles (List.length nodes) quad_nodes quad_els /\
  faces_ok 2 (List.length nodes) [[1; 2]]%nat /\
  (exists B, get_basic_matrices quad_nodes quad_els = Ok B) /\
  up_to_date (fresh_source (Some f)) f nodes 7%nat /\
  (exists l, values f nodes 7%nat l) /\
  (forall a b, Nat.eqb a b = true -> a = b) /\
  (in_range 6 cross_els /\ simplices 3 cross_els /\
   dict_get (indicators (descr bottom top)) "contact" = Some bottom /\
   dict_get (indicators (descr bottom top)) "dirichlet" = Some top /\
   (exists m, build pt_mean pt0 cross_nodes cross_els (descr bottom top) = Ok m) /\
   (forall e, In e cross_els -> det_2d (corners (node_table (fun p c =>
     nth c [IZR (fst p); IZR (snd p)] 0) pt0 cross_nodes) e) <> 0)).
Proof.
  cbv zeta. split; [exact quad_triangles|]. split.
  { repeat constructor; simpl; intros H; repeat destruct H as [H|H]; try discriminate; auto. }
  split; [eexists; reflexivity|]. split; [apply fresh_up_to_date|]. split.
  { eexists. unfold values. repeat constructor. }
  split; [intros a b H; apply Nat.eqb_eq; exact H|]. exact cross_built.
Qed.

(* ------------------------------------------------------------------ C28 *)

Theorem C28_surface_weights : forall d N nodes faces, d = 2%nat \/ d = 3%nat -> faces_ok d N faces ->
  exists s, surface_per_node d nodes faces (fun _ => 0) = Ok s /\
    (forall n, 0 <= s n) /\
    (forall n, (forall f, In f faces -> ~ In n f) -> s n = 0) /\
    sum N s = lsum faces (face_measure d nodes) /\
    (forall g, sum N (fun n => s n * g n) = face_integral d nodes faces g).
Proof. exact surface_spec. Qed.
Print Assumptions C28_surface_weights.

(* every face list of a constructed mesh qualifies *)
Theorem C28_mesh_faces :
  forall (P V : Type) (mean : list P -> P) (zero : P) (nodes0 : list P) (els0 : list (list nat))
    (d : @Description P V) (m : @MeshData P V) (w : nat) contact dirichlet,
  in_range (List.length nodes0) els0 -> simplices (S (S w)) els0 ->
  dict_get (indicators d) "contact" = Some contact -> dict_get (indicators d) "dirichlet" = Some dirichlet ->
  build mean zero nodes0 els0 d = Ok m ->
  forall which, In which ["contact"; "dirichlet"; "neumann"] ->
  faces_ok (S w) (List.length (m_nodes m)) (faces_of m which).
Proof. exact built_faces. Qed.
Print Assumptions C28_mesh_faces.

Example C28_example :
  faces_ok 2 4 [[0; 1]; [1; 2]]%nat /\
  lsum [[0; 1]; [1; 2]]%nat (face_measure 2 quad_nodes) = 2 + sqrt 2.
Proof.
  split.
  { repeat constructor; simpl; intros H; repeat destruct H as [H|H]; try discriminate; auto. }
  cbn [lsum face_measure]. unfold segment_length, inner_product, corners, quad_nodes, at_rows.
  cbn [sum nth]. replace (0 + (2 - 0) * (2 - 0) + (0 - 0) * (0 - 0)) with (2 * 2) by ring.
  rewrite sqrt_square by lra.
  replace (0 + (3 - 2) * (3 - 2) + (1 - 0) * (1 - 0)) with 2 by ring. ring.
Qed.

(* ------------------------------------------------------------------ C29 *)

Theorem C29_stack : forall A (zero : A) d rows,
  List.length (stack_column zero d rows) = (d * List.length rows)%nat /\
  (forall n k, (n < List.length rows)%nat -> (k < d)%nat ->
     nth (k * List.length rows + n) (stack_column zero d rows) zero = nth k (nth n rows []) zero).
Proof. exact (fun A zero d rows => conj (stack_length zero d rows) (stack_nth zero d rows)). Qed.
Print Assumptions C29_stack.

Theorem C29_unstack_stack : forall A (zero : A) d rows, d <> 0%nat -> rectangular d rows ->
  unstack zero (stack_column zero d rows) d = Ok rows.
Proof. exact (@unstack_stack). Qed.
Print Assumptions C29_unstack_stack.

Theorem C29_stack_unstack : forall A (zero : A) v d rows, unstack zero v d = Ok rows ->
  stack_column zero d rows = v /\ rectangular d rows /\
  (forall n k, (n < List.length rows)%nat -> (k < d)%nat ->
     nth k (nth n rows []) zero = nth (k * List.length rows + n) v zero).
Proof.
  exact (fun A zero v d rows H =>
    conj (stack_unstack zero v d rows H)
      (conj (proj1 (proj2 (proj2 (unstack_ok zero v d rows H))))
            (proj2 (proj2 (proj2 (unstack_ok zero v d rows H)))))).
Qed.
Print Assumptions C29_stack_unstack.

Theorem C29_unstack_total : forall A (zero : A) v d, d <> 0%nat -> (List.length v mod d = 0)%nat ->
  exists rows, unstack zero v d = Ok rows.
Proof. exact (@unstack_total). Qed.
Print Assumptions C29_unstack_total.

Example C29_example :
  stack_column 0%nat 2 [[1; 2]; [3; 4]; [5; 6]]%nat = [1; 3; 5; 2; 4; 6]%nat /\
  unstack 0%nat [1; 3; 5; 2; 4; 6]%nat 2 = Ok [[1; 2]; [3; 4]; [5; 6]]%nat /\
  rectangular 2 [[1; 2]; [3; 4]; [5; 6]]%nat.
Proof. repeat split. repeat constructor. Qed.

(* ------------------------------------------------------------------ C48 *)

(* a new source, any sequence of requested times: every answer is the source evaluated at
   that time (an exception of the source is passed on, and None is never returned) *)
Theorem C48_cache : forall (P T V : Type) (teq : T -> T -> bool),
  (forall a b, teq a b = true -> a = b) ->
  forall (f : P -> T -> result V) nodes times,
  Forall2 (fun t r => (forall l, r = Ok (Some l) <-> values f nodes t l) /\ r <> Ok None)
          times (requests teq (fresh_source (Some f)) nodes times).
Proof. exact (@fresh_requests). Qed.
Print Assumptions C48_cache.

(* after any history (also clear or a new source): correct if the time differs from the
   last one evaluated *)
Theorem C48_new_time : forall (P T V : Type) (teq : T -> T -> bool),
  (forall a b, teq a b = true -> a = b) ->
  forall (fs : field_source P T V) f nodes t, timestamp fs <> Some t -> source fs = Some f ->
  (forall l, snd (node_source teq fs nodes t) = Ok (Some l) <-> values f nodes t l) /\
  snd (node_source teq fs nodes t) <> Ok None.
Proof. exact (@new_time). Qed.
Print Assumptions C48_new_time.

(* a load integrated at time t is not evaluated again at t: the sources are not consulted,
   whatever they have become in the meantime *)
Theorem C48_reused : forall P T (teq : T -> T -> bool) (nodes : list P) table d neumann A
    (bf bf' : body_forces P T) t r g h,
  teq t t = true ->
  integrate teq nodes table d neumann A bf t = (bf', Ok r) ->
  snd (integrate teq nodes table d neumann A
         (mkForces (set_source (inner bf') g) (set_source (outer bf') h)) t) = Ok r.
Proof. exact integrate_again. Qed.
Print Assumptions C48_reused.

(* clear() followed by a request at the same time returns None, and integrate raises *)
Theorem C48_clear_refuted :
  let f (p t : nat) : result vec := Ok (fun _ => INR (p + t)) in
  let nodes := [0; 1; 2; 3]%nat in
  let fs1 := fst (node_source Nat.eqb (fresh_source (Some f)) nodes 5%nat) in
  (exists l, snd (node_source Nat.eqb (fresh_source (Some f)) nodes 5%nat) = Ok (Some l)) /\
  snd (node_source Nat.eqb (clear_source fs1) nodes 5%nat) = Ok None /\
  forall o A, snd (integrate Nat.eqb nodes quad_nodes 2 [[1; 2]]%nat A
                (mkForces (clear_source fs1) o) 5%nat) = Err TypeError.
Proof. cbv zeta. split; [eexists; reflexivity|split; [reflexivity|intros; reflexivity]]. Qed.
Print Assumptions C48_clear_refuted.

(* a replaced source is ignored until the time changes *)
Theorem C48_replaced_refuted :
  let f (p t : nat) : result nat := Ok (p + t)%nat in
  let g (p t : nat) : result nat := Ok (p * t)%nat in
  let nodes := [3; 4]%nat in
  let fs1 := fst (node_source Nat.eqb (fresh_source (Some f)) nodes 5%nat) in
  snd (node_source Nat.eqb (set_source fs1 (Some g)) nodes 5%nat) = Ok (Some [8; 9]%nat) /\
  values g nodes 5%nat [15; 20]%nat.
Proof. cbv zeta. split; [reflexivity|]. unfold values. repeat constructor. Qed.
Print Assumptions C48_replaced_refuted.

Example C48_reused_example :
  let f (p t : nat) : result vec := Ok (fun k => INR (p + t + k)) in
  let bf := mkForces (fresh_source (Some f)) (fresh_source (Some f)) in
  Nat.eqb 7 7 = true /\ exists bf' r, integrate Nat.eqb [0; 1; 2; 3]%nat quad_nodes 2 [[1; 2]]%nat (fun _ _ => 1) bf 7%nat = (bf', Ok r).
Proof. cbv zeta. split; [reflexivity|]. do 2 eexists. reflexivity. Qed.

Example C48_example :
  requests Nat.eqb (fresh_source (Some (fun p t : nat => if (t =? 9)%nat then Err ValueError else Ok (p + t)%nat)))
    [10; 20]%nat [1; 1; 2; 9; 1]%nat
  = [Ok (Some [11; 21]); Ok (Some [11; 21]); Ok (Some [12; 22]); Err ValueError; Ok (Some [11; 21])]%nat.
Proof. reflexivity. Qed.

(* ------------------------------------------------------------------ C71 *)

(* a constant volume force does the exact work against every piecewise linear displacement;
   tractions are integrated with nodal (trapezoidal) quadrature *)
Theorem C71_constant_work_2d : forall P T (teq : T -> T -> bool) (nodes : list P) table els neumann B bf fi fo t g0 li lo,
  (forall a b, teq a b = true -> a = b) ->
  triangles (List.length nodes) table els -> faces_ok 2 (List.length nodes) neumann ->
  get_basic_matrices table els = Ok B ->
  up_to_date (inner bf) fi nodes t -> up_to_date (outer bf) fo nodes t ->
  values fi nodes t li -> values fo nodes t lo ->
  (forall p, In p nodes -> fi p t = Ok g0) ->
  exists r, snd (integrate teq nodes table 2 neumann (volume_at_nodes B) bf t) = Ok r /\
    (forall k v, sum (List.length nodes) (fun n => v n * component (List.length nodes) r k n)
       = g0 k * integral (element_area table) els (fun e => mean_value 2 e v)
         + face_integral 2 table neumann (fun n => v n * array_of lo n k)).
Proof. exact work_2d. Qed.
Print Assumptions C71_constant_work_2d.

Theorem C71_constant_work_3d : forall P T (teq : T -> T -> bool) (nodes : list P) table els neumann B bf fi fo t g0 li lo,
  (forall a b, teq a b = true -> a = b) ->
  tetrahedra (List.length nodes) table els -> faces_ok 3 (List.length nodes) neumann ->
  get_basic_matrices table els = Ok B ->
  up_to_date (inner bf) fi nodes t -> up_to_date (outer bf) fo nodes t ->
  values fi nodes t li -> values fo nodes t lo ->
  (forall p, In p nodes -> fi p t = Ok g0) ->
  exists r, snd (integrate teq nodes table 3 neumann (volume_at_nodes B) bf t) = Ok r /\
    (forall k v, sum (List.length nodes) (fun n => v n * component (List.length nodes) r k n)
       = g0 k * integral (element_volume table) els (fun e => mean_value 3 e v)
         + face_integral 3 table neumann (fun n => v n * array_of lo n k)).
Proof. exact work_3d. Qed.
Print Assumptions C71_constant_work_3d.

(* a linear volume force does not: one triangle, force and displacement both the first hat
   function, exact work area/6 but assembled work 0 *)
Theorem C71_linear_work_refuted : exists N nodes els B f v,
  triangles N nodes els /\ get_basic_matrices nodes els = Ok B /\
  bilinear N N (volume_at_nodes B) v f = 0 /\
  0 < integral (element_area nodes) els (fun e =>
        mean_product 2 (fun k => v (nth k e 0%nat)) (fun k => f (nth k e 0%nat))).
Proof.
  set (nodes := at_rows [[0; 0]; [1; 0]; [0; 1]]). set (els := [[0; 1; 2]]%nat).
  assert (HT : triangles 3 nodes els).
  { split; [repeat constructor|]. split; [repeat constructor|].
    intros e [<-|[]]; unfold det_2d, corners, nodes, at_rows; cbn [nth]; lra. }
  exists 3%nat, nodes, els, (basic2 nodes els), (delta 0), (delta 0).
  split; [exact HT|]. split; [reflexivity|]. split.
  - rewrite (vol_work 2 3 nodes els _ _ _ (triangles_fem _ _ _ HT) (basic2_assembled nodes els (proj1 (proj2 HT)))) by lia.
    unfold integral, els. cbn [lsum sum nth]. unfold delta. cbn [Nat.eqb]. field. simpl; lra.
  - unfold integral, els, mean_product. cbn [lsum sum nth]. unfold delta. cbn [Nat.eqb].
    unfold element_area, area, det_2d, corners, nodes, at_rows. cbn [nth].
    replace ((1 - 0) * (1 - 0) - (0 - 0) * (0 - 0)) with 1 by ring. rewrite Rabs_R1. simpl INR. lra.
Qed.
Print Assumptions C71_linear_work_refuted.

Example C71_example : let nodes := [0; 1; 2; 3; 4]%nat in
  let f (p t : nat) : result vec := Ok (fun k => INR k) in
  tetrahedra (List.length nodes) tet_nodes tet_els /\
  faces_ok 3 (List.length nodes) [[0; 1; 2]]%nat /\
  (exists B, get_basic_matrices tet_nodes tet_els = Ok B) /\
  up_to_date (fresh_source (Some f)) f nodes 7%nat /\
  (exists l, values f nodes 7%nat l).
Proof.
  cbv zeta. split; [exact tet_tetrahedra|]. split.
  { repeat constructor; simpl; intros H; repeat destruct H as [H|H]; try discriminate; auto. }
  split; [eexists; reflexivity|]. split; [apply fresh_up_to_date|].
  eexists. unfold values. repeat constructor.
Qed.
