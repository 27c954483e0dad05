(* Contact functionals and laws: C33, C35-C39, C58, C75-C77. *)
From Coq Require Import Reals List Arith Bool Lia Lra.
From Verif Require Import RVec PyModel DirichletSpec ForcesSpec FemSpec ContactModel ContactSpec ContactProofs ContactLawProofs
  ConvexMin ContactCostProofs ContactForceProofs ContactExtraProofs ContactWitness.
Import ListNotations.
Local Open Scope R_scope.

(* ------------------------------------------------------------------ C33 *)

(* without contact faces, in every dimension: a vector minimises the cost of the
   optimisation solvers iff it solves the linear system *)
Theorem C33_minimiser_is_solution : forall law din dout nodes width normals n A b old u dt x,
  symmetric n A -> pos_semidef n A ->
  minimises (fun x => loss law din dout nodes width normals (mkSized n n A) (n, b) (n, x) old u [] dt) x
  <-> solves n A b x.
Proof. exact minimiser_no_faces. Qed.
Print Assumptions C33_minimiser_is_solution.

(* with contact faces and a law without potential *)
Theorem C33_zero_law : forall law nodes normals faces N A b old u dt x,
  symmetric (2 * N) A -> pos_semidef (2 * N) A -> faces_ok 2 N faces ->
  (forall v s, potential_normal_direction law v s dt = 0) ->
  (forall v s, potential_tangential_direction law v s dt = 0) ->
  minimises (fun x => loss law 2 2 nodes 2 normals (mkSized (2 * N) (2 * N) A) (2 * N, b)%nat
                  (2 * N, x)%nat (2 * N, old)%nat (2 * N, u)%nat faces dt) x <-> solves (2 * N) A b x.
Proof. exact solution_minimises. Qed.
Print Assumptions C33_zero_law.

(* the residual of the direct equation vanishes iff the vector solves the linear system *)
Theorem C33_direct : forall nodes normals jn n A b x,
  exists r, equation_residual 2 nodes 2 normals jn (mkSized n n A) (n, b) (n, x) [] = Ok (n, r) /\
    ((forall i, (i < n)%nat -> r i = 0) <-> solves n A b x).
Proof. exact residual_no_contact. Qed.
Print Assumptions C33_direct.

Theorem C33_direct_zero_law : forall nodes normals faces N jn A b x,
  faces_ok 2 N faces -> (forall v, jn v 0 0 = 0) ->
  exists r, equation_residual 2 nodes 2 normals jn (mkSized (2 * N) (2 * N) A) (2 * N, b)%nat (2 * N, x)%nat faces
      = Ok (2 * N, r)%nat /\
    ((forall i, (i < 2 * N)%nat -> r i = 0) <-> solves (2 * N) A b x).
Proof. exact residual_zero_law. Qed.
Print Assumptions C33_direct_zero_law.

Example C33_example :
  symmetric 4 unit4 /\ pos_semidef 4 unit4 /\ faces_ok 2 2 bar_faces /\
  (forall v s, potential_normal_direction (make_slope_contact_law 0) v s 1 = 0) /\
  (forall v s, potential_tangential_direction (make_slope_contact_law 0) v s 1 = 0) /\
  solves 4 unit4 load4 load4 /\ ~ solves 4 unit4 load4 pushed.
Proof.
  split; [exact unit4_symmetric|]. split; [apply pos_def_semidef; exact unit4_pos|]. split; [exact bar_faces_ok|].
  split; [intros; rewrite slope_value; ring|]. split; [reflexivity|].
  assert (E : forall x k, (k < 4)%nat -> sum 4 (fun l => unit4 k l * x l) = x k).
  { intros x k Hk. rewrite (sum_single 4 k); auto.
    - unfold unit4. rewrite Nat.eqb_refl. ring.
    - intros i _ Hne. unfold unit4. destruct (Nat.eqb_spec k i); [congruence|ring]. }
  split.
  - intros k Hk. apply E. exact Hk.
  - intros H. specialize (H 2%nat ltac:(lia)). rewrite E in H by lia. unfold load4, pushed in H. cbn [vec4] in H. lra.
Qed.

(* ------------------------------------------------------------------ C35 *)

(* the contact cost is the quadrature of the law over the contact faces: the mean over the
   face and its two ends, each with a third of the length *)
Theorem C35_value : forall jn hn jt ht nodes normals faces C x N old u dt,
  faces_ok 2 C faces ->
  contact_cost_functional (Function jn) (Function hn) (Function jt) (Function ht) 2 2 nodes 2 normals
    (2 * C, x)%nat (2 * N, old)%nat (2 * N, u)%nat faces dt
  = Ok (boundary_sum nodes faces (fun ei => density hn jn ht jt dt (normals ei)) (nodal C x) (nodal N u)).
Proof. exact contact_value_inside. Qed.
Print Assumptions C35_value.

(* the whole cost: quadratic energy plus contact cost *)
Theorem C35_loss : forall law nodes normals faces C A b x N old u dt,
  faces_ok 2 C faces ->
  loss law 2 2 nodes 2 normals (mkSized (2 * C) (2 * C) A) (2 * C, b)%nat
    (2 * C, x)%nat (2 * N, old)%nat (2 * N, u)%nat faces dt
  = Ok (quadratic (2 * C) A b x
        + boundary_sum nodes faces (fun ei => density (normal_bound law) (potential_normal_direction law)
             (tangential_bound law) (potential_tangential_direction law) dt (normals ei)) (nodal C x) (nodal N u)).
Proof. exact loss_value. Qed.
Print Assumptions C35_loss.

(* values away from the contact faces do not matter *)
Theorem C35_local : forall jn hn jt ht nodes normals faces N x y old old' u dt, faces_ok 2 N faces ->
  (forall e a k, In e faces -> In a e -> (k < 2)%nat -> x (k * N + a)%nat = y (k * N + a)%nat) ->
  contact_cost_functional (Function jn) (Function hn) (Function jt) (Function ht) 2 2 nodes 2 normals
    (2 * N, x)%nat (2 * N, old)%nat (2 * N, u)%nat faces dt
  = contact_cost_functional (Function jn) (Function hn) (Function jt) (Function ht) 2 2 nodes 2 normals
    (2 * N, y)%nat (2 * N, old')%nat (2 * N, u)%nat faces dt.
Proof. exact cost_local. Qed.
Print Assumptions C35_local.

Theorem C35_nonneg : forall jn hn jt ht nodes normals faces N x old u dt, faces_ok 2 N faces ->
  (forall v s, 0 <= jn v s dt) -> (forall v s, 0 <= hn v s dt) ->
  (forall v s, 0 <= jt v s dt) -> (forall v s, 0 <= ht v s dt) ->
  exists c, contact_cost_functional (Function jn) (Function hn) (Function jt) (Function ht) 2 2 nodes 2 normals
    (2 * N, x)%nat (2 * N, old)%nat (2 * N, u)%nat faces dt = Ok c /\ 0 <= c.
Proof. exact cost_nonneg. Qed.
Print Assumptions C35_nonneg.

Theorem C35_no_faces : forall jn hn jt ht din dout nodes width normals x old u dt,
  contact_cost_functional jn hn jt ht din dout nodes width normals x old u [] dt = Ok 0.
Proof. exact cost_no_faces. Qed.
Print Assumptions C35_no_faces.

(* a concrete value: slope 6 on a bar of length one, moved by 1 at one end *)
Example C35_example :
  faces_ok 2 2 bar_faces /\
  loss (make_slope_contact_law 6) 2 2 bar 2 up (mkSized 4 4 unit4) (4%nat, load4) (4%nat, pushed)
    (4%nat, pushed) (4%nat, pushed) bar_faces 1 = Ok (/ 2).
Proof.
  split; [exact bar_faces_ok|]. rewrite bar_loss. apply (f_equal Ok). unfold quadratic.
  rewrite unit4_qform. unfold dot, load4, pushed. cbn [sum vec4].
  rewrite (Rmax_right 0 1), (Rmax_right 0 ((1 + 0) / 2)), (Rmax_right 0 0) by lra. lra.
Qed.

(* ------------------------------------------------------------------ C36 *)

Theorem C36_nonneg : forall slope x s dt, 0 <= slope ->
  0 <= potential_normal_direction (make_slope_contact_law slope) x s dt.
Proof. exact slope_nonneg. Qed.
Print Assumptions C36_nonneg.

Theorem C36_convex : forall slope s dt, 0 <= slope ->
  convex1 (fun x => potential_normal_direction (make_slope_contact_law slope) x s dt).
Proof. exact slope_convex. Qed.
Print Assumptions C36_convex.

Theorem C36_subgradient : forall slope sub x y s dt, 0 <= slope ->
  subderivative_normal_direction (make_slope_contact_law slope) = Some sub ->
  potential_normal_direction (make_slope_contact_law slope) x s dt + sub x s dt * (y - x)
  <= potential_normal_direction (make_slope_contact_law slope) y s dt.
Proof. exact slope_is_subgradient. Qed.
Print Assumptions C36_subgradient.

(* even differentiable, also at the obstacle *)
Theorem C36_derivative : forall slope sub x s dt,
  subderivative_normal_direction (make_slope_contact_law slope) = Some sub ->
  derivable_pt_lim (fun y => potential_normal_direction (make_slope_contact_law slope) y s dt) x (sub x s dt).
Proof. exact slope_is_derivative. Qed.
Print Assumptions C36_derivative.

(* the law as a function on the plane, with unit bounds and no friction, is convex *)
Theorem C36_convex_law : forall slope dt, 0 <= slope -> convex_law (make_slope_contact_law slope) dt.
Proof. exact slope_law_convex. Qed.
Print Assumptions C36_convex_law.

Example C36_example : 0 <= 3 /\
  subderivative_normal_direction (make_slope_contact_law 1) = Some sub1 /\
  potential_normal_direction (make_slope_contact_law 3) 2 0 0 = 6 /\
  potential_normal_direction (make_slope_contact_law 3) (-2) 0 0 = 0.
Proof.
  split; [lra|]. split; [reflexivity|]. rewrite !slope_value. rewrite (Rmax_right 0 2), (Rmax_left 0 (-2)) by lra. lra.
Qed.

(* ------------------------------------------------------------------ C37 *)

(* the work of the contact forces of the direct equation against a field w is the sampled
   stress times the mean of w over each face *)
Theorem C37_direct_forces : forall jn nodes normals faces N x,
  faces_ok 2 N faces ->
  exists c, contact_part 2 nodes 2 normals jn (2 * N, x)%nat faces = Ok (2 * N, c)%nat /\
    forall w, dot (2 * N) w c
      = averaged_work nodes normals faces (fun _ r => jn r 0 0) (nodal N x) (nodal N w).
Proof. exact direct_forces. Qed.
Print Assumptions C37_direct_forces.

(* the same holds for the gradient handed to the optimisers *)
Theorem C37_gradient_forces : forall sub nodes normals faces N x old u dt,
  faces_ok 2 N faces ->
  exists c, contact_subgradient (Function sub) Nothing Nothing Nothing 2 2 nodes 2 normals
              (2 * N, x)%nat (2 * N, old)%nat (2 * N, u)%nat faces dt = Ok (2 * N, c)%nat /\
    forall w, dot (2 * N) w c
      = averaged_work nodes normals faces
          (fun ei r => sub r (along (normals ei) (mean_at (nth ei faces []) (nodal N u))) dt) (nodal N x) (nodal N w).
Proof. exact subgradient_forces. Qed.
Print Assumptions C37_gradient_forces.

(* a vector solves the direct equation iff its stresses balance the load in that sense *)
Theorem C37_balance : forall jn nodes normals faces N A b x, faces_ok 2 N faces ->
  exists r, equation_residual 2 nodes 2 normals jn (mkSized (2 * N) (2 * N) A) (2 * N, b)%nat (2 * N, x)%nat faces
      = Ok (2 * N, r)%nat /\
    ((forall i, (i < 2 * N)%nat -> r i = 0) <->
     (forall w, dot (2 * N) w (mv (2 * N) A x)
                + averaged_work nodes normals faces (fun _ r => jn r 0 0) (nodal N x) (nodal N w)
                = dot (2 * N) w b)).
Proof. exact direct_balance. Qed.
Print Assumptions C37_balance.

(* the derivative of the cost uses the values of w at the sampling points *)
Theorem C37_cost_derivative : forall pot sub nodes normals faces v s w dt,
  (forall r q, derivable_pt_lim (fun y => pot y q dt) r (sub r q dt)) ->
  derivable_pt_lim (fun h => boundary_sum nodes faces
      (fun ei => density (fun _ _ _ => 1) pot (fun _ _ _ => 1) (fun _ _ _ => 0) dt (normals ei))
      (fun a k => v a k + h * w a k) s) 0
    (sampled_work nodes normals faces
       (fun ei r => sub r (along (normals ei) (mean_at (nth ei faces []) s)) dt) v w).
Proof. exact cost_derivative. Qed.
Print Assumptions C37_cost_derivative.

(* both agree on every field that is constant on each face, in particular on translations *)
Theorem C37_resultant : forall slope sub nodes normals faces N x old u dt w,
  subderivative_normal_direction (make_slope_contact_law slope) = Some sub -> faces_ok 2 N faces ->
  (forall e a b k, In e faces -> In a e -> In b e -> w (k * N + a)%nat = w (k * N + b)%nat) ->
  exists c J, contact_part 2 nodes 2 normals sub (2 * N, x)%nat faces = Ok (2 * N, c)%nat /\
    (forall h, contact_cost_functional (Function (potential_normal_direction (make_slope_contact_law slope)))
       Nothing Nothing Nothing 2 2 nodes 2 normals ((2 * N)%nat, fun i => x i + h * w i) (2 * N, old)%nat
       (2 * N, u)%nat faces dt = Ok (J h)) /\
    derivable_pt_lim J 0 (dot (2 * N) w c).
Proof. exact direct_resultant. Qed.
Print Assumptions C37_resultant.

(* but the force vector is not the gradient of the cost *)
Theorem C37_gradient_refuted : ~ (forall slope sub nodes normals faces N x c u dt w J,
  0 <= slope -> subderivative_normal_direction (make_slope_contact_law slope) = Some sub ->
  faces_ok 2 N faces -> (forall i, inner_product 2 (normals i) (normals i) = 1) ->
  contact_part 2 nodes 2 normals sub (2 * N, x)%nat faces = Ok (2 * N, c)%nat ->
  (forall h, contact_cost_functional (Function (potential_normal_direction (make_slope_contact_law slope)))
     Nothing Nothing Nothing 2 2 nodes 2 normals ((2 * N)%nat, fun i => x i + h * w i) (2 * N, x)%nat (2 * N, u)%nat faces dt
     = Ok (J h)) ->
  derivable_pt_lim J 0 (dot (2 * N) w c)).
Proof. exact direct_not_gradient. Qed.
Print Assumptions C37_gradient_refuted.

(* and the direct solution is not the minimiser of the cost *)
Theorem C37_same_solution_refuted : ~ (forall slope sub nodes normals faces N A b x r old u dt,
  0 <= slope -> subderivative_normal_direction (make_slope_contact_law slope) = Some sub ->
  symmetric (2 * N) A -> pos_def (2 * N) A -> faces_ok 2 N faces ->
  (forall i, inner_product 2 (normals i) (normals i) = 1) ->
  equation_residual 2 nodes 2 normals sub (mkSized (2 * N) (2 * N) A) (2 * N, b)%nat
    (2 * N, x)%nat faces = Ok (2 * N, r)%nat ->
  (forall i, (i < 2 * N)%nat -> r i = 0) ->
  minimises (fun x => loss (make_slope_contact_law slope) 2 2 nodes 2 normals (mkSized (2 * N) (2 * N) A) (2 * N, b)%nat
     (2 * N, x)%nat (2 * N, old)%nat (2 * N, u)%nat faces dt) x).
Proof. exact direct_not_minimal. Qed.
Print Assumptions C37_same_solution_refuted.

Example C37_example : faces_ok 2 2 bar_faces /\
  subderivative_normal_direction (make_slope_contact_law 1) = Some sub1 /\
  (forall r q, derivable_pt_lim (fun y => potential_normal_direction (make_slope_contact_law 1) y q 1) r (sub1 r q 1)) /\
  (forall e a b k, In e bar_faces -> In a e -> In b e -> vec4 1 1 2 2 (k * 2 + a)%nat = vec4 1 1 2 2 (k * 2 + b)%nat).
Proof.
  split; [exact bar_faces_ok|]. split; [reflexivity|]. split.
  - intros r q. apply C36_derivative. reflexivity.
  - intros e a b k [<- | []] Ha Hb.
    destruct k as [|[|k]]; destruct Ha as [<- | [<- | []]]; destruct Hb as [<- | [<- | []]]; reflexivity.
Qed.

(* ------------------------------------------------------------------ C38 *)

(* the derivative of the potential of the constant law carries the static displacement ... *)
Theorem C38_actual_derivative : forall resistance x s dt, 0 < x ->
  derivable_pt_lim (fun y => potential_normal_direction (make_const_contact_law resistance) y s dt) x (resistance * s).
Proof. exact const_derivative. Qed.
Print Assumptions C38_actual_derivative.

(* ... so it is not the declared subderivative *)
Theorem C38_refuted : ~ (forall resistance sub x s dt,
  subderivative_normal_direction (make_const_contact_law resistance) = Some sub -> x <> 0 ->
  derivable_pt_lim (fun y => potential_normal_direction (make_const_contact_law resistance) y s dt) x (sub x s dt)).
Proof. exact const_mismatch. Qed.
Print Assumptions C38_refuted.

(* in a problem without static displacement the law offers no resistance at all *)
Theorem C38_no_resistance : forall resistance nodes normals faces N x old u dt, faces_ok 2 N faces ->
  (forall i, (i < 2 * N)%nat -> u i = 0) ->
  contact_cost_functional (Function (potential_normal_direction (make_const_contact_law resistance)))
    (Function (normal_bound (make_const_contact_law resistance)))
    (Function (potential_tangential_direction (make_const_contact_law resistance)))
    (Function (tangential_bound (make_const_contact_law resistance)))
    2 2 nodes 2 normals (2 * N, x)%nat (2 * N, old)%nat (2 * N, u)%nat faces dt = Ok 0.
Proof. exact const_no_resistance. Qed.
Print Assumptions C38_no_resistance.

Example C38_example : faces_ok 2 2 bar_faces /\
  (exists sub, subderivative_normal_direction (make_const_contact_law 5) = Some sub /\ sub 1 0 0 = 5) /\
  (0 < 1 /\ 1 <> 0).
Proof.
  split; [exact bar_faces_ok|]. split; [|lra]. eexists. split; [reflexivity|]. cbv beta. rewrite leb_false by lra. reflexivity.
Qed.

(* ------------------------------------------------------------------ C39 *)

(* symmetric positive definite matrix, convex law: exactly one minimiser *)
Theorem C39_exactly_one : forall law nodes normals faces N A b old u dt,
  symmetric (2 * N) A -> pos_def (2 * N) A -> faces_ok 2 N faces -> convex_law law dt ->
  let cost x := loss law 2 2 nodes 2 normals (mkSized (2 * N) (2 * N) A) (2 * N, b)%nat
                  (2 * N, x)%nat (2 * N, old)%nat (2 * N, u)%nat faces dt in
  exists x, minimises cost x /\ forall x', minimises cost x' -> veq (2 * N) x' x.
Proof. exact exactly_one_minimiser. Qed.
Print Assumptions C39_exactly_one.

Theorem C39_slope : forall slope nodes normals faces N A b old u dt, 0 <= slope ->
  symmetric (2 * N) A -> pos_def (2 * N) A -> faces_ok 2 N faces ->
  let cost x := loss (make_slope_contact_law slope) 2 2 nodes 2 normals (mkSized (2 * N) (2 * N) A) (2 * N, b)%nat
                  (2 * N, x)%nat (2 * N, old)%nat (2 * N, u)%nat faces dt in
  exists x, minimises cost x /\ forall x', minimises cost x' -> veq (2 * N) x' x.
Proof. exact slope_unique. Qed.
Print Assumptions C39_slope.

(* minimisers are the solutions of the variational inequality of contact mechanics *)
Theorem C39_inequality : forall law nodes normals faces N A b old u dt x,
  symmetric (2 * N) A -> pos_semidef (2 * N) A -> faces_ok 2 N faces -> convex_law law dt ->
  let cost x := loss law 2 2 nodes 2 normals (mkSized (2 * N) (2 * N) A) (2 * N, b)%nat
                  (2 * N, x)%nat (2 * N, old)%nat (2 * N, u)%nat faces dt in
  let J x := boundary_sum nodes faces (fun ei => density (normal_bound law) (potential_normal_direction law)
             (tangential_bound law) (potential_tangential_direction law) dt (normals ei)) (nodal N x) (nodal N u) in
  minimises cost x <->
  (forall y, dot (2 * N) b (fun i => y i - x i)
             <= dot (2 * N) (mv (2 * N) A x) (fun i => y i - x i) + J y - J x).
Proof. exact minimiser_inequality. Qed.
Print Assumptions C39_inequality.

Example C39_example : symmetric 4 unit4 /\ pos_def 4 unit4 /\ faces_ok 2 2 bar_faces /\
  convex_law (make_slope_contact_law 2) 1.
Proof.
  split; [exact unit4_symmetric|]. split; [exact unit4_pos|]. split; [exact bar_faces_ok|]. apply slope_law_convex. lra.
Qed.

(* ------------------------------------------------------------------ C58 *)

(* scalar problems: the law receives the mean displacement times the sum of the components
   of the normal *)
Theorem C58_value : forall jn hn jt ht nodes normals M faces m x old u l dt,
  faces_ok 2 M faces -> (M <= m)%nat ->
  contact_cost_functional (Function jn) (Function hn) (Function jt) (Function ht) 1 1 nodes 2 normals
    (m, x) old (l, u) faces dt
  = Ok (boundary_sum nodes faces (fun ei v s => scalar_density hn jn ht jt dt
          (s 0%nat * (normals ei 0%nat + normals ei 1%nat))
          (map (fun k => s 0%nat - s 0%nat * (normals ei 0%nat + normals ei 1%nat) * normals ei k) [0; 1]%nat) v)
          (nodal m x) (nodal l u)).
Proof. exact scalar_value. Qed.
Print Assumptions C58_value.

(* which is the displacement iff those components add up to one *)
Theorem C58_orientation : forall n s, s 0%nat <> 0 ->
  (s 0%nat * (n 0%nat + n 1%nat) = s 0%nat <-> n 0%nat + n 1%nat = 1).
Proof. exact skewed_right. Qed.
Print Assumptions C58_orientation.

Theorem C58_refuted : ~ (forall jn hn jt ht nodes normals faces N x u dt,
  faces_ok 2 N faces -> (forall i, inner_product 2 (normals i) (normals i) = 1) ->
  contact_cost_functional (Function jn) (Function hn) (Function jt) (Function ht) 1 1 nodes 2 normals
    (N, x) (N, x) (N, u) faces dt
  = Ok (boundary_sum nodes faces (fun ei v s => hn (v 0%nat) (s 0%nat) dt * jn (v 0%nat) (s 0%nat) dt
       + ht (v 0%nat) (s 0%nat) dt * jt [] [] dt) (nodal N x) (nodal N u))).
Proof. exact scalar_skewed. Qed.
Print Assumptions C58_refuted.

Example C58_example : faces_ok 2 2 bar_faces /\ (2 <= 2)%nat /\
  (forall i, inner_product 2 (left i) (left i) = 1) /\ left 0%nat 0%nat + left 0%nat 1%nat <> 1.
Proof.
  split; [exact bar_faces_ok|]. split; [lia|]. unfold inner_product, left. cbn [sum Nat.eqb]. split; [intros; ring|lra].
Qed.

(* ------------------------------------------------------------------ C75 *)

(* the energy of an interior law *)
Theorem C75_value : forall f n m A b x disp M dt, (n <= m)%nat ->
  equation_energy (Function f) (mkSized n n A) (n, b) (m, x) disp (mkSized n n M) dt
  = Ok (quadratic n A b x
        + / 2 * sum n (fun i => sum n (fun j => M i j * f (x j) (snd disp j) dt))
        + sum (m - n) (fun i => x (n + i)%nat ^ 2)).
Proof. exact interior_value. Qed.
Print Assumptions C75_value.

(* its minimisers vanish beyond the unknowns and minimise the first part *)
Theorem C75_minimiser : forall f n m A b x disp M dt, (n <= m)%nat ->
  minimises (fun x => equation_energy (Function f) (mkSized n n A) (n, b) (m, x) disp (mkSized n n M) dt) x <->
  (forall i, (n <= i < m)%nat -> x i = 0) /\
  (forall y, quadratic n A b x + / 2 * sum n (fun i => sum n (fun j => M i j * f (x j) (snd disp j) dt))
          <= quadratic n A b y + / 2 * sum n (fun i => sum n (fun j => M i j * f (y j) (snd disp j) dt))).
Proof. exact interior_minimiser. Qed.
Print Assumptions C75_minimiser.

Example C75_example : (4 <= 6)%nat /\
  equation_energy (Function (fun v d dt => v + d)) (mkSized 4 4 unit4) (4%nat, load4)
    (6%nat, fun i => if (i =? 5)%nat then 3 else 1) (6%nat, fun _ => 1) (mkSized 4 4 unit4) 1 = Ok (29 / 2).
Proof.
  split; [lia|]. rewrite C75_value by lia. apply (f_equal Ok). unfold quadratic. rewrite unit4_qform.
  unfold dot, load4, unit4. cbn [sum vec4 Nat.eqb Nat.sub Nat.add snd]. lra.
Qed.

(* ------------------------------------------------------------------ C76 *)

(* damped normal compliance: bound times potential jumps where the obstacle is reached *)
Theorem C76_jump : forall g kappa beta s dt v, 0 < dt -> v <> 0 -> beta <> 0 -> s + v * dt = g ->
  ~ continuity_pt (fun v => normal_bound (make_damped_norm_compl g kappa beta) v s dt
                            * potential_normal_direction (make_damped_norm_compl g kappa beta) v s dt) v.
Proof. exact damped_jump. Qed.
Print Assumptions C76_jump.

Theorem C76_continuous_refuted : ~ (forall g kappa beta s dt v, 0 < kappa -> 0 < beta -> 0 < dt ->
  continuity_pt (fun v => normal_bound (make_damped_norm_compl g kappa beta) v s dt
                          * potential_normal_direction (make_damped_norm_compl g kappa beta) v s dt) v).
Proof. exact damped_not_continuous. Qed.
Print Assumptions C76_continuous_refuted.

Example C76_example : 0 < / 2 /\ 2 <> 0 /\ 3 <> 0 /\ 0 + 2 * / 2 = 1.
Proof. lra. Qed.

(* ------------------------------------------------------------------ C77 *)

(* in the plane a unit potential measures the contact boundary *)
Theorem C77_plane : forall nodes normals faces N x old u dt, faces_ok 2 N faces ->
  contact_cost_functional (Function (fun _ _ _ => 1)) (Function (fun _ _ _ => 1))
    (Function (fun _ _ _ => 0)) (Function (fun _ _ _ => 1)) 2 2 nodes 2 normals
    (2 * N, x)%nat (2 * N, old)%nat (2 * N, u)%nat faces dt
  = Ok (lsum faces (face_measure 2 nodes)).
Proof. exact plane_weights. Qed.
Print Assumptions C77_plane.

(* in space it does not *)
Theorem C77_space_refuted : ~ (forall nodes normals faces N x u dt, faces_ok 3 N faces ->
  contact_cost_functional (Function (fun _ _ _ => 1)) (Function (fun _ _ _ => 1))
    (Function (fun _ _ _ => 0)) (Function (fun _ _ _ => 1)) 3 3 nodes 3 normals
    (3 * N, x)%nat (3 * N, x)%nat (3 * N, u)%nat faces dt
  = Ok (lsum faces (face_measure 3 nodes))).
Proof. exact space_weights. Qed.
Print Assumptions C77_space_refuted.

(* faces whose first edge is vertical cost nothing, whatever the law *)
Theorem C77_vertical_faces : forall jn hn jt ht nodes normals x old u faces dt,
  (forall e, In e faces -> nodes (nth 0 e 0%nat) 0%nat = nodes (nth 1 e 0%nat) 0%nat
                        /\ nodes (nth 0 e 0%nat) 1%nat = nodes (nth 1 e 0%nat) 1%nat) ->
  contact_cost_functional (Function jn) (Function hn) (Function jt) (Function ht) 3 3 nodes 3 normals
    x old u faces dt = Ok 0.
Proof. exact vertical_cost. Qed.
Print Assumptions C77_vertical_faces.

(* the direct equation and the gradient do not exist in space *)
Theorem C77_direct_raises : forall jn nodes normals x faces, faces <> [] ->
  contact_part 2 nodes 3 normals jn x faces = Err ValueError.
Proof. exact direct_raises_3d. Qed.
Print Assumptions C77_direct_raises.

Theorem C77_gradient_raises : forall sub nodes normals b A x old u faces dt, faces <> [] ->
  loss_subgradient sub nodes 3 normals A b x old u faces dt = Err ValueError.
Proof. exact gradient_raises_3d. Qed.
Print Assumptions C77_gradient_raises.

Example C77_example : faces_ok 2 2 bar_faces /\ lsum bar_faces (face_measure 2 bar) = 1 /\
  [[0; 1; 2]]%nat <> [] /\ face_measure 3 wall [0; 1; 2]%nat = / 2 /\
  (forall e, In e [[0; 1; 2]]%nat -> wall (nth 0 e 0%nat) 0%nat = wall (nth 1 e 0%nat) 0%nat
                        /\ wall (nth 0 e 0%nat) 1%nat = wall (nth 1 e 0%nat) 1%nat).
Proof.
  split; [exact bar_faces_ok|]. split.
  - unfold bar_faces. cbn [lsum]. rewrite bar_length. ring.
  - split; [discriminate|]. split; [exact wall_area|]. intros e [<- | []]. split; reflexivity.
Qed.
