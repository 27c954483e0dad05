(* Nodal stresses reported by the constitutive laws of the examples (C94). *)
From Coq Require Import Reals List Arith Bool Lra Lia.
From Verif Require Import RVec PyModel MeshSpec FemSpec FemModel FemExamples
  StressModel StressSpec StressProofs StressFinal.
Import ListNotations.
Local Open Scope R_scope.

(* the recovered gradient of a nodal field is, at every node of some element, MINUS the
   unweighted mean of the gradients on the elements that meet there; other nodes get nan *)
Theorem C94_gradient : forall N nodes els f g, triangles N nodes els -> field_gradient 2 nodes els f g ->
  exists r, gradient N nodes els f = Ok r /\
    (forall n, referenced els n -> exists v, r n = Some v /\
       forall k, (k < 2)%nat -> v k = - mean_around els n (fun e => g e k)) /\
    (forall n, ~ referenced els n -> r n = None).
Proof. exact gradient_mean. Qed.
Print Assumptions C94_gradient.

(* an element without area stops the recovery *)
Theorem C94_flat : forall N nodes f els, in_range N els -> Forall (fun e => length e = 3%nat) els ->
  (exists e, In e els /\ det_2d (corners nodes e) = 0) -> gradient N nodes els f = Err ZeroDivision.
Proof. exact gradient_flat. Qed.
Print Assumptions C94_flat.

(* the viscoelastic law reports minus the mean of the Kelvin-Voigt stresses around the node *)
Theorem C94_viscoelastic : forall N nodes els mu la th ze u v G H, triangles N nodes els ->
  rows_gradient nodes els u G -> rows_gradient nodes els v H ->
  exists r, viscoelastic_constitutive_law mu la th ze N nodes els u v = Ok r /\
    (forall n, referenced els n -> exists s, r n = Some s /\ forall i j, (i < 2)%nat -> (j < 2)%nat ->
       s i j = - mean_around els n (fun e => hooke 2 mu la (fun c => G c e) i j + hooke 2 th ze (fun c => H c e) i j)) /\
    (forall n, ~ referenced els n -> r n = None).
Proof. exact viscoelastic_mean. Qed.
Print Assumptions C94_viscoelastic.

(* the law with relaxation: of the relaxation tensor only the entry [1, 0, 1] enters *)
Theorem C94_relaxation : forall N nodes els mu la relaxation u v t G H, triangles N nodes els ->
  rows_gradient nodes els u G -> rows_gradient nodes els v H ->
  exists r, elastic_relaxation_constitutive_law mu la relaxation N nodes els u v t = Ok r /\
    (forall n, referenced els n -> exists s, r n = Some s /\ forall i j, (i < 2)%nat -> (j < 2)%nat ->
       s i j = - mean_around els n (fun e => hooke 2 mu la (fun c => G c e) i j
                                     + hooke 2 (relaxation t 1%nat 0%nat 1%nat) 0 (fun c => H c e) i j)) /\
    (forall n, ~ referenced els n -> r n = None).
Proof. exact relaxation_mean. Qed.
Print Assumptions C94_relaxation.

(* gradients on the elements exist for every field *)
Theorem C94_fields : forall N nodes els field, triangles N nodes els ->
  exists G, rows_gradient nodes els field G.
Proof. exact rows_gradient_ex. Qed.
Print Assumptions C94_fields.

(* affine fields are recovered exactly, but for the sign *)
Theorem C94_affine : forall N nodes els mu la th ze bu A u bv B v, triangles N nodes els ->
  affine_rows N nodes bu A u -> affine_rows N nodes bv B v ->
  exists r, viscoelastic_constitutive_law mu la th ze N nodes els u v = Ok r /\
    forall n, referenced els n -> exists s, r n = Some s /\ forall i j, (i < 2)%nat -> (j < 2)%nat ->
      s i j = - (hooke 2 mu la A i j + hooke 2 th ze B i j).
Proof. exact affine_stress. Qed.
Print Assumptions C94_affine.

(* rigid motions are free of stress *)
Theorem C94_rigid : forall N nodes els mu la th ze bu A u bv B v, triangles N nodes els ->
  affine_rows N nodes bu A u -> affine_rows N nodes bv B v -> antisymmetric 2 A -> antisymmetric 2 B ->
  exists r, viscoelastic_constitutive_law mu la th ze N nodes els u v = Ok r /\
    forall n, referenced els n -> exists s, r n = Some s /\ same2 s (fun _ _ => 0).
Proof. exact rigid_stress. Qed.
Print Assumptions C94_rigid.

(* the elasticity operator of the solver does minus the work of the reported stress *)
Theorem C94_work : forall N nodes els p ops mu la E b A u x n r s, triangles N nodes els ->
  reinitialize_matrices N nodes els p None = Ok ops -> elastic p = Some (mu, la) -> elasticity ops = Some E ->
  affine_rows N nodes b A u ->
  (forall c m, (c < 2)%nat -> (m < N)%nat -> x (c * N + m)%nat = u m c) ->
  viscoelastic_constitutive_law mu la 0 0 N nodes els u (fun _ _ => 0) = Ok r ->
  referenced els n -> r n = Some s ->
  forall y Y, vector_gradient 2 N nodes els y Y ->
  bilinear (2 * N) (2 * N) E y x
  = - integral (element_area nodes) els (fun e => contract s (fun c => Y c e)).
Proof. exact stress_work. Qed.
Print Assumptions C94_work.

(* "a stretched body is reported under tension" is false on every triangulation: stress_x is
   negative for every stretch along the first axis *)
Theorem C94_sign_refuted : forall N nodes els mu la a, triangles N nodes els -> 0 < mu -> 0 <= la -> 0 < a ->
  exists r, viscoelastic_constitutive_law mu la 0 0 N nodes els
              (fun n c => match c with 0%nat => a * nodes n 0%nat | _ => 0 end) (fun _ _ => 0) = Ok r /\
    forall n, referenced els n -> exists s, r n = Some s /\ stress_x s = - ((2 * mu + la) * a) /\ stress_x s < 0.
Proof. exact stretch_reported. Qed.
Print Assumptions C94_sign_refuted.

(* stress_norm is the Frobenius norm, not affected by the sign *)
Theorem C94_norm : forall s, 0 <= stress_norm s /\ stress_norm s * stress_norm s = contract s s /\
  forall t, same2 s (negate t) -> stress_norm s = stress_norm t.
Proof. exact norm_frobenius. Qed.
Print Assumptions C94_norm.

(* draw_stress: one vertical arrow per contact node, of length minus the reported vertical stress *)
Theorem C94_arrows : forall scale displaced stress contact n, scale <> 0 -> In n contact ->
  stress n 1%nat 1%nat <> 0 ->
  draw_stress scale displaced stress contact
  = map (fun k => ((displaced k 0%nat, displaced k 1%nat), (0, - stress k 1%nat 1%nat))) contact.
Proof. exact arrows_down. Qed.
Print Assumptions C94_arrows.

(* "the law with relaxation reports the memory that the relaxation operator adds" is false: with
   the isotropic tensor of pure bulk relaxation the operator does work on a stretch of the
   quadrilateral, while the law returns the same stress for every absement *)
Theorem C94_memory_refuted :
  bilinear (2 * 4) (2 * 4) (relaxation2 4 (w_matrix2 quad_nodes quad_els None) (bulk 0)) quad_stretch quad_stretch
  = 5 / 2 /\
  forall N nodes els mu la u v w t, triangles N nodes els ->
  exists r r', elastic_relaxation_constitutive_law mu la bulk N nodes els u v t = Ok r /\
    elastic_relaxation_constitutive_law mu la bulk N nodes els u w t = Ok r' /\
    forall n, referenced els n -> exists s s', r n = Some s /\ r' n = Some s' /\ same2 s s'.
Proof. exact (conj bulk_work memory_blind). Qed.
Print Assumptions C94_memory_refuted.

(* the quadrilateral of two triangles: a stretch, a rotation, a field that is not affine *)
Example C94_example :
  triangles 4 quad_nodes quad_els /\ (forall n, (n < 4)%nat -> referenced quad_els n) /\
  ~ referenced quad_els 4 /\
  affine_rows 4 quad_nodes (fun _ => 1) (fun i j => INR (i + 2 * j))
    (fun n c => 1 + (INR (c + 2 * 0) * quad_nodes n 0%nat + INR (c + 2 * 1) * quad_nodes n 1%nat)) /\
  antisymmetric 2 (fun i j => INR i - INR j) /\
  field_gradient 2 quad_nodes quad_els (fun n => match n with 2%nat => 3 | _ => 0 end)
    (fun e k => if (hd 0%nat e =? 0)%nat then 0 else match k with 0%nat => 1 | _ => 2 end) /\
  mean_around quad_els 1 (fun e => if (hd 0%nat e =? 0)%nat then 0 else 1) = 1 / 2.
Proof.
  split; [exact quad_triangles |]. split; [exact quad_referenced |]. split.
  { intros [e [[<- | [<- | []]] H]]; cbn in H; lia. }
  split; [intros n c _ _; reflexivity |].
  split; [intros k l _ _; ring |]. split.
  - intros e [<- | [<- | []]] i j Hi Hj; destruct i as [| [| [|]]]; try lia; destruct j as [| [| [|]]]; try lia;
      unfold corners, quad_nodes, at_rows; cbn [nth sum hd Nat.eqb]; lra.
  - unfold mean_around, around, quad_els. cbn [filter existsb Nat.eqb orb hd lsum length]. cbn [INR]. field.
Qed.

(* a flat element *)
Example C94_flat_example : in_range 3 [[0; 1; 2]]%nat /\
  det_2d (corners (at_rows [[0; 0]; [1; 1]; [2; 2]]) [0; 1; 2]%nat) = 0.
Proof. split; [repeat constructor |]. unfold det_2d, corners, at_rows. cbn [nth]. ring. Qed.

(* operators of the quadrilateral, and contact nodes under load *)
Example C94_work_example : exists ops E,
  reinitialize_matrices 4 quad_nodes quad_els (mkProperties 2 (Some (4, 3)) None None None None) None = Ok ops /\
  elasticity ops = Some E.
Proof. do 2 eexists. split; reflexivity. Qed.
