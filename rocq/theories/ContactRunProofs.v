(* Whole runs with contact: Global and Schur, energy, uniqueness. *)
From Coq Require Import Reals List Arith ZArith Bool String Lia Lra.
From Verif Require Import Common PyModel RVec LinAlg DofModel DofSpec DirichletModel DirichletSpec DirichletProofs
  StatementModel StatementSpec StatementProofs StatementValueProofs StatementLawProofs StatementEnergyProofs
  RegistryModel RegistrySpec RegistryProofs DispatchProofs StateModel TimeModel TimeSpec StateLemmas CopyProofs TimeProofs
  RunProofs HistoryProofs SolveProofs MarchProofs TimeTheorems TimeCorollaries MethodModel MethodProofs RunSpec RunTotal
  ForcesSpec ContactModel ContactSpec ContactProofs ConvexMin ContactCostProofs
  SchurModel SchurSpec SchurProofs SchurMinProofs ConstrainedSpec ConstrainedProofs ConstrainedSchurProofs
  OptimisationModel ContactRunSpec OptimisationProofs.
Import ListNotations.
Local Open Scope list_scope.
Local Open Scope R_scope.

(* ------------------------------------------------------------ runs of any solver *)

Section Steps.
  Context {V W I : Type}.
  Variables (dimension nodes_count : nat) (nodes : vec).
  Variable iterate : I -> vectors -> R -> R -> result I.
  Variable answer : I -> vec -> vec -> vec -> R -> result (nat * vec).
  Notation size := (dimension * nodes_count)%nat.
  Notation driver := (driver V I).
  Implicit Type d : driver.
  Notation look := (@look V W).
  (* the solver has been updated with these arrays at this time *)
  Variable dt : R.
  Variable good : vectors -> R -> I -> Prop.
  Hypothesis HG : forall x0 t0 i x t i', good x0 t0 i -> iterate i x dt t = Ok i' -> good x t i'.

  Theorem dynamic_steps n u0 v0 out given d d' l x0 t0 : fit d -> in_stock (d_mem d) given ->
    non_decreasing 0 (requested n out) -> current_time (d_sv d) = 0 -> dt_of d = dt ->
    good x0 t0 (inner (d_sv d)) ->
    @dynamic_solve V W I dimension nodes_count nodes iterate answer n u0 v0 out given d = (d', Ok l) ->
    exists inn u v, u O = u0 /\ v O = v0 /\
      (forall j, (j < last_step n out)%nat ->
        (forall i, u (S j) i = u j i + dt * v (S j) i) /\
        good (mkVectors (held_vec d b_vector) (u j) (v j) (held_vec d t_vector) (held_vec d p_vector)) (INR j * dt) (inn j) /\
        answer (inn j) (v j) (v j) (u j) dt = Ok (size, v (S j))) /\
      List.length l = List.length (requested n out) /\
      forall j q (s : state W), nth_error (requested n out) j = Some q -> nth_error l j = Some s ->
        shows dt u v (Z.to_nat q) (look (d_mem d') s).
  Proof.
    intros Ft G ND C Dt G0 H. destruct (dynamic_answers _ _ _ _ _ _ _ _ _ _ _ _ _ Ft G ND H) as (i & I0 & A).
    rewrite C in A, I0. unfold first_iterate in I0. rewrite Dt in I0.
    assert (G1 := HG _ _ _ _ _ _ G0 I0).
    destruct A as (inn & u & v & N0 & U0 & V0 & HH & LL & S & _). rewrite Dt in *.
    exists inn, u, v. split; [exact U0|]. split; [exact V0|]. split; [|split; [exact LL|]].
    - intros j L. destruct (HH j L) as (AJ & HU & _). split.
      { intros a. rewrite HU. unfold behind. destruct j; ring. }
      assert (U : forall j, (j <= last_step n out)%nat ->
        good (mkVectors (held_vec d b_vector) (u j) (v j) (held_vec d t_vector) (held_vec d p_vector)) (instant 0 dt j) (inn j)).
      { induction j0 as [|j0 IH]; intros L0.
        - unfold instant. cbn [INR]. rewrite Rmult_0_l, Rplus_0_r, U0, V0, N0. exact G1.
        - destruct (HH j0 ltac:(lia)) as (_ & _ & HI). eapply HG; [|exact HI]. apply IH. lia. }
      split; [|exact AJ]. replace (INR j * dt) with (instant 0 dt j) by (unfold instant; ring). apply U. lia.
    - intros j q s Hq Hs. rewrite (S _ _ _ Hq Hs). unfold shows, velocity_view. destruct (Z.to_nat q) as [|m];
        cbn [view_time view_displacement view_velocity]; unfold instant; (split; [rewrite ?Rplus_0_l; try reflexivity; cbn [INR]; ring|split; reflexivity]).
  Qed.

  (* one answer of a static problem *)
  Theorem static_step u0 given d d' s x0 t0 : fit d -> in_stock (d_mem d) given -> dt_of d = dt ->
    good x0 t0 (inner (d_sv d)) ->
    @static_solve V W I dimension nodes_count nodes iterate answer u0 given d = (d', Ok s) ->
    exists x t i, good x t i /\
      answer i u0 (held_vec d v_vector) u0 dt = Ok (size, view_displacement (look (d_mem d') s)).
  Proof.
    intros Ft G Dt G0 H.
    destruct (static_course _ _ _ _ _ _ _ _ _ _ Ft G H) as (_ & _ & C & _). rewrite Dt in C.
    destruct (iterate _ _ _ _) as [i|e] eqn:I0; [|discriminate].
    pose proof (HG _ _ _ _ _ _ G0 I0) as G1. eexists _, _, i. split; [exact G1|].
    destruct C as (h & Hn & Hl & _). rewrite Hl. clear Hl. cbn [nexts] in Hn.
    destruct (next _ _ _ _ _ _ _) as [g|e] eqn:N0; [|discriminate]. injection Hn as <-.
    unfold next, displacement_start in N0. cbn [f_inner f_u g_v g_u] in N0.
    destruct (answer _ _ _ _ _) as [[len y]|e] eqn:A; [|discriminate].
    destruct (len =? _)%nat eqn:LE; [|discriminate]. apply Nat.eqb_eq in LE. clear I0. destruct (iterate _ _ _ _) in N0; [|discriminate].
    injection N0 as <-. rewrite <- LE. reflexivity.
  Qed.
End Steps.

(* ------------------------------------------------------------ energy and uniqueness *)

Section Governed.
  Variable n : nat.
  Variable pin : nat -> R -> Prop.
  Variables M C E : mat.
  Variable dt : R.
  Hypothesis Hdt : 0 < dt.
  Variable loads : R -> vec.
  Variable forces : vec -> vec -> R -> vec -> vec.
  Variable J : vec -> vec -> R.
  Hypothesis HL : forall u v t x i, forces u v t x i =
    mv n M (fun j => (x j - v j) / dt) i + mv n C x i + mv n E (fun j => u j + dt * x j) i - loads t i.

  Section Work.
    Hypothesis HM : symmetric n M.
    Hypothesis HE : symmetric n E.
    Hypothesis PM : pos_semidef n M.
    Hypothesis PE : pos_semidef n E.
    Hypothesis P0 : forall d v, pin d v -> v = 0.

    Lemma contact_work u0 v0 m u v : contact_governed n pin forces J dt u0 v0 m u v ->
      forall j q, (j <= q <= m)%nat ->
      energy n M E (u q) (v q) + dt * sum (q - j) (fun i => qform n C (v (S (j + i))))
        + dt * sum (q - j) (fun i => J (u (j + i)%nat) (v (S (j + i))) - J (u (j + i)%nat) (fun _ => 0))
      <= energy n M E (u j) (v j) + dt * sum (q - j) (fun i => dot n (v (S (j + i))) (loads (INR (j + i) * dt))).
    Proof.
      intros (_ & _ & G) j q Hq. replace q with (j + (q - j))%nat at 1 2 by lia.
      assert (B : (j + (q - j) <= m)%nat) by lia. revert B. generalize (q - j)%nat as r.
      induction r as [|r IH]; intros B.
      - cbn [sum]. rewrite Nat.add_0_r. lra.
      - cbn [sum]. rewrite Nat.add_succ_r. specialize (IH ltac:(lia)).
        destruct (G (j + r)%nat ltac:(lia)) as [GU GV].
        set (a := (j + r)%nat) in *.
        assert (EU : energy n M E (u (S a)) (v (S a)) = energy n M E (fun i => u a i + dt * v (S a) i) (v (S a))).
        { unfold energy. do 2 f_equal. apply qform_ext. intros i _. apply GU. }
        destruct GV as [AD IN]. specialize (IN (fun _ => 0) ltac:(intros d w P; symmetry; exact (P0 d w P))).
        set (f := fun i => mv n M (fun j => (v (S a) j - v a j) / dt) i + mv n C (v (S a)) i
                     + mv n E (fun j => u a j + dt * v (S a) j) i).
        assert (BAL := energy_balance n M C E dt (u a) (v a) (v (S a)) f HM HE ltac:(lra) eq_refl).
        assert (W : dot n (forces (u a) (v a) (INR a * dt) (v (S a))) (fun i => 0 - v (S a) i)
          = dot n (v (S a)) (loads (INR a * dt)) - dot n (v (S a)) f).
        { unfold dot. rewrite <- sum_minus. apply sum_ext. intros i _. rewrite HL. unfold f. ring. }
        cbv beta in IN. rewrite W in IN.
        pose proof (PM (fun i => v (S a) i - v a i)). pose proof (PE (v (S a))).
        assert (0 <= dt ^ 2 * qform n E (v (S a))) by (apply Rmult_le_pos; auto; apply pow2_ge_0).
        assert (X : dt * dot n (v (S a)) f + dt * (J (u a) (v (S a)) - J (u a) (fun _ => 0)) <= dt * dot n (v (S a)) (loads (INR a * dt))).
        { rewrite <- Rmult_plus_distr_l. apply Rmult_le_compat_l; lra. }
        rewrite EU. lra.
    Qed.

    Hypothesis PC : pos_semidef n C.
    Lemma contact_decay u0 v0 m u v : contact_governed n pin forces J dt u0 v0 m u v ->
      (forall t i, (i < n)%nat -> loads t i = 0) -> (forall w x, J w (fun _ => 0) <= J w x) ->
      forall j q, (j <= q <= m)%nat -> energy n M E (u q) (v q) <= energy n M E (u j) (v j).
    Proof.
      intros G HF HJ j q Hq. pose proof (contact_work _ _ _ _ _ G j q Hq) as W.
      rewrite (sum_ext (q - j) (fun i => dot n (v (S (j + i))) (loads (INR (j + i) * dt))) (fun _ => 0)) in W.
      2:{ intros i _. apply sum_0. intros a Ha. rewrite HF by exact Ha. ring. }
      rewrite (sum_0 (q - j) (fun _ => 0)) in W by (intros; reflexivity).
      assert (0 <= dt * sum (q - j) (fun i => qform n C (v (S (j + i))))).
      { apply Rmult_le_pos; [lra|]. apply sum_nonneg. intros; apply PC. }
      assert (0 <= dt * sum (q - j) (fun i => J (u (j + i)%nat) (v (S (j + i))) - J (u (j + i)%nat) (fun _ => 0))).
      { apply Rmult_le_pos; [lra|]. apply sum_nonneg. intros i _. pose proof (HJ (u (j + i)%nat) (v (S (j + i)))). lra. }
      lra.
    Qed.
  End Work.

  Section Unique.
    (* definite on the differences of admissible vectors *)
    Hypothesis DF : forall z, (forall d v, pin d v -> z d = 0) -> (exists i, (i < n)%nat /\ z i <> 0) ->
      0 < qform n M z / dt + qform n C z + dt * qform n E z.
    Hypothesis HJ : forall u u' x, veq n u u' -> J u x = J u' x.

    Lemma contact_one u v u' v' t x y : veq n u u' -> veq n v v' ->
      contact_inequality n pin (forces u v t) (J u) x -> contact_inequality n pin (forces u' v' t) (J u') y -> veq n x y.
    Proof.
      intros HU HV [PX OX] [PY OY]. specialize (OX y PY). specialize (OY x PX).
      rewrite <- !(HJ u u') in OY by exact HU.
      set (z := fun i => x i - y i).
      assert (ZP : forall i v0, pin i v0 -> z i = 0).
      { intros i v0 H. unfold z. rewrite (PX i v0 H), (PY i v0 H). ring. }
      assert (Q : dot n (forces u v t x) (fun i => y i - x i) + dot n (forces u' v' t y) (fun i => x i - y i)
        = - (qform n M z / dt + qform n C z + dt * qform n E z)).
      { unfold qform, dot, Rdiv. rewrite <- sum_scal_r, <- sum_scal, <- !sum_plus, <- sum_opp. apply sum_ext. intros i Hi.
        rewrite !HL.
        assert (E1 : mv n M (fun j => (x j - v j) / dt) i - mv n M (fun j => (y j - v' j) / dt) i = mv n M z i / dt).
        { unfold mv. rewrite <- sum_minus. unfold Rdiv at 3. rewrite <- sum_scal_r. apply sum_ext. intros j Hj.
          unfold z. rewrite (HV j Hj). field. lra. }
        assert (E2 : mv n C x i - mv n C y i = mv n C z i).
        { unfold mv. rewrite <- sum_minus. apply sum_ext. intros j Hj. unfold z. ring. }
        assert (E3 : mv n E (fun j => u j + dt * x j) i - mv n E (fun j => u' j + dt * y j) i = dt * mv n E z i).
        { unfold mv. rewrite <- sum_minus, <- sum_scal. apply sum_ext. intros j Hj. unfold z. rewrite (HU j Hj). ring. }
        unfold Rdiv in *.
        transitivity (- (z i * ((mv n M (fun j => (x j - v j) * / dt) i - mv n M (fun j => (y j - v' j) * / dt) i)
          + (mv n C x i - mv n C y i) + (mv n E (fun j => u j + dt * x j) i - mv n E (fun j => u' j + dt * y j) i)))).
        - unfold z. ring.
        - rewrite E1, E2, E3. ring. }
      intros i Hi. destruct (Req_dec (x i) (y i)) as [|Ne]; [assumption|]. exfalso.
      assert (0 < qform n M z / dt + qform n C z + dt * qform n E z).
      { apply DF; [exact ZP|]. exists i. split; [exact Hi|]. unfold z. lra. }
      lra.
    Qed.

    Lemma contact_unique u0 v0 m u v u' v' :
      contact_governed n pin forces J dt u0 v0 m u v -> contact_governed n pin forces J dt u0 v0 m u' v' ->
      forall j, (j <= m)%nat -> veq n (u j) (u' j) /\ veq n (v j) (v' j).
    Proof.
      intros (U0 & V0 & G) (U0' & V0' & G') j. induction j as [|j IH]; intros Hj.
      - rewrite U0, V0, U0', V0'. split; intros i _; reflexivity.
      - destruct (IH ltac:(lia)) as [IU IV].
        destruct (G j ltac:(lia)) as [GU GV]. destruct (G' j ltac:(lia)) as [GU' GV'].
        assert (X : veq n (v (S j)) (v' (S j))) by exact (contact_one _ _ _ _ _ _ _ IU IV GV GV').
        split; [|exact X]. intros i Hi. rewrite GU, GU', (IU i Hi), (X i Hi). reflexivity.
    Qed.
  End Unique.
End Governed.

(* the contact energy depends on the displacements of the nodes of the faces *)
Lemma contact_energy_at law nodes normals faces dt N u u' x : faces_ok 2 N faces -> veq (2 * N) u u' ->
  contact_energy law nodes normals faces dt (nodal N u) x = contact_energy law nodes normals faces dt (nodal N u') x.
Proof.
  intros HF E. unfold contact_energy, boundary_sum. apply sum_ext. intros ei Hei. cbv zeta. f_equal.
  assert (He : In (nth ei faces []) faces) by (apply nth_In; auto).
  set (e := nth ei faces []) in *.
  assert (X : forall a c, In a e -> (c < 2)%nat -> nodal N u a c = nodal N u' a c).
  { intros a c Ha Hc. unfold nodal. apply E. unfold faces_ok in HF. rewrite Forall_forall in HF. destruct (HF e He) as (_ & _ & HR).
    rewrite Forall_forall in HR. specialize (HR a Ha). nia. }
  apply lsum_ext. intros q _. apply density_planar; auto; apply mean_at_ext; intros a Ha; apply X; auto.
Qed.

(* ------------------------------------------------------------ Global and Schur *)

(* a contact problem in the plane: the mesh, the conditions, the matrices, the law, the loads *)
Definition contact_setting {F} (integrate : F -> R -> F * result (nat * vec)) (b : body) (k : kind) (p : physics)
    (loads : R -> vec) (forceful heated : F -> Prop) (conds : list condition) (mesh : contact_mesh) (law : contact_law) (dt : R) : Prop :=
  b_dimension b = 2%nat /\ conditions b k = Ok conds /\ well_shaped (unknowns b k) conds /\ consistent (prescribed conds) /\
  mesh_width mesh = 2%nat /\ faces_ok 2 (b_count b) (mesh_faces mesh) /\
  symmetric (ph_n p) (mass p) /\ symmetric (ph_n p) (damping p) /\ symmetric (ph_n p) (stiffness p) /\ stable_kind p conds k /\
  keeps_force integrate b k loads forceful /\ keeps_heat integrate b p heated /\ forward k dt /\ convex_law law dt.

(* no contact face touches a prescribed dof *)
Definition faces_apart (b : body) (mesh : contact_mesh) (conds : list condition) : Prop :=
  forall e a c, In e (mesh_faces mesh) -> In a e -> (c < 2)%nat -> ~ fixed_dof (prescribed conds) (b_count b) a c.
(* every dof of a contact face is a free one of a contact node or a prescribed one of another node *)
Definition faces_split (b : body) (mesh : contact_mesh) (conds : list condition) : Prop :=
  forall e a c, In e (mesh_faces mesh) -> In a e -> (c < 2)%nat ->
    (a < mesh_contact_count mesh)%nat /\ ~ fixed_dof (prescribed conds) (b_count b) a c \/
    (mesh_contact_count mesh <= a)%nat /\ fixed_dof (prescribed conds) (b_count b) a c.

(* forces left over and contact energy of a step of a run *)
Definition run_forces (k : kind) (p : physics) (loads : R -> vec) (relaxations : R -> mat) (vb vt vp : vec) (dt : R)
    (u v : vec) (t : R) : vec -> vec :=
  imbalance (moment k p loads relaxations (mkVectors vb u v vt vp) dt t) k.
Definition run_contact (b : body) (mesh : contact_mesh) (law : contact_law) (dt : R) (u x : vec) : R :=
  contact_energy law (mesh_nodes mesh) (mesh_normals mesh) (mesh_faces mesh) dt (nodal (b_count b) u) (nodal (b_count b) x).

Section Runs.
  Context {V W F : Type}.
  Variable integrate : F -> R -> F * result (nat * vec).
  Variable b : body.
  Variable k : kind.
  Variable p : physics.
  Variable loads : R -> vec.
  Variable relaxations : R -> mat.
  Variables forceful heated : F -> Prop.
  Variable conds : list condition.
  Variable mesh : contact_mesh.
  Variable law : contact_law.
  Variable minimise : route -> nat -> (arr -> result R) -> arr -> arr.
  Variables (method_name : string) (maxiter : option nat).
  Variable c : solver_class.
  Variable nodes : vec.
  Variable dt : R.
  Notation N := (b_count b).
  Notation look := (@look V W).
  Notation updated := (updated integrate b k p loads relaxations forceful heated conds).
  Notation equipped := (equipped b k p relaxations forceful heated).
  Notation global := (global_answer (F := F) b k mesh law minimise method_name maxiter).
  Notation schur := (schur_answer (F := F) b k mesh law minimise method_name maxiter false).
  Notation forces vb vt vp := (run_forces k p loads relaxations vb vt vp dt).
  Notation J := (run_contact b mesh law dt).

  Hypothesis HS : contact_setting integrate b k p loads forceful heated conds mesh law dt.
  Hypothesis HMin : forall m, reliable (minimise (route_of method_name) m).

  Section Global.
    Hypothesis AP : faces_apart b mesh conds.

    Theorem global_run n u0 v0 out given (d d' : driver V (method F)) l w x0 : velocity_kind k -> renews integrate b k c ->
      fit d -> in_stock (d_mem d) given -> non_decreasing 0 (requested n out) -> current_time (d_sv d) = 0 -> dt_of d = dt ->
      equipped w -> setup integrate b k w x0 dt = Ok (inner (d_sv d)) ->
      @dynamic_solve V W (method F) (b_dimension b) N nodes (MethodModel.iterate integrate b k c) global n u0 v0 out given d = (d', Ok l) ->
      exists u v,
        contact_governed (2 * N) (prescribed conds) (forces (held_vec d b_vector) (held_vec d t_vector) (held_vec d p_vector))
          J dt u0 v0 (last_step n out) u v /\
        List.length l = List.length (requested n out) /\
        forall j q (s : state W), nth_error (requested n out) j = Some q -> nth_error l j = Some s ->
          shows dt u v (Z.to_nat q) (look (d_mem d') s).
    Proof.
      destruct HS as (HB & HC & HW & HK & HM & HF & SM & SC & SE & ST & KF & KH & Hdt & CV).
      intros VK RN Ft G ND C0 Dt EQ SU H. assert (HP : plane_kind k) by (right; exact VK).
      assert (CS : can_step k dt) by (exact (forward_steps k dt HP Hdt)).
      destruct (MethodProofs.setup_updated integrate b k p loads relaxations forceful heated KF KH conds HC HW w x0 dt EQ CS) as (i & Ei & Ui).
      rewrite SU in Ei. injection Ei as <-.
      edestruct (dynamic_steps (V := V) (W := W) (b_dimension b) N nodes (MethodModel.iterate integrate b k c) global dt (fun x t i => updated x dt t i))
        as (inn & u & v & U0 & V0 & ST' & LL & SH); [|exact Ft|exact G|exact ND|exact C0|exact Dt|exact Ui|exact H|].
      { intros y0 t0 i y t i' U Hi.
        destruct (iterate_updated integrate b k p loads relaxations forceful heated KF KH conds HC HW c i y dt t RN (proj1 U) CS) as (j & J1 & J2).
        rewrite J1 in Hi. injection Hi as <-. exact J2. }
      exists u, v. split; [|split; [exact LL|exact SH]]. split; [exact U0|]. split; [exact V0|].
      intros j Hj. destruct (ST' j Hj) as (ADV & U & A). split; [exact ADV|].
      destruct (global_step integrate b k p loads relaxations forceful heated conds mesh law minimise method_name maxiter
        HB HP HC HW HK HM HF SM SC SE ST HMin _ dt _ _ (v j) (v j) (u j) U Hdt CV AP) as (y & Ey & My).
      rewrite Ey in A. injection A as _ ->.
      apply (step_inequality b k p loads relaxations conds mesh law HB HP HF SM SC SE ST _ dt _ (v j) (u j) (v (S j))
        (updated_sized _ _ _ _ _ _ _ _ _ _ _ _ _ U) Hdt CV) in My. exact My.
    Qed.

    Theorem global_total n u0 v0 out (d : driver V (method F)) w x0 : velocity_kind k -> renews integrate b k c ->
      fit d -> non_decreasing 0 (requested n out) -> n <> 0%nat -> dt_of d = dt ->
      equipped w -> setup integrate b k w x0 dt = Ok (inner (d_sv d)) ->
      exists d' l, @dynamic_solve V W (method F) (b_dimension b) N nodes (MethodModel.iterate integrate b k c) global n u0 v0 out [] d = (d', Ok l).
    Proof.
      destruct HS as (HB & HC & HW & HK & HM & HF & SM & SC & SE & ST & KF & KH & Hdt & CV).
      intros VK RN Ft ND NZ Dt EQ SU. assert (HP : plane_kind k) by (right; exact VK).
      assert (CS : can_step k dt) by (exact (forward_steps k dt HP Hdt)).
      destruct (MethodProofs.setup_updated integrate b k p loads relaxations forceful heated KF KH conds HC HW w x0 dt EQ CS) as (i & Ei & Ui).
      rewrite SU in Ei. injection Ei as <-.
      apply (dynamic_runs (b_dimension b) N nodes (MethodModel.iterate integrate b k c) global (fun i => exists x t, updated x dt t i) dt); auto; [| |eauto].
      - intros i x t (x1 & t1 & U).
        destruct (iterate_updated integrate b k p loads relaxations forceful heated KF KH conds HC HW c i x dt t RN (proj1 U) CS) as (j & J1 & J2).
        exists j. eauto.
      - intros i g v u (x1 & t1 & U).
        destruct (global_step integrate b k p loads relaxations forceful heated conds mesh law minimise method_name maxiter
          HB HP HC HW HK HM HF SM SC SE ST HMin _ dt _ _ g v u U Hdt CV AP) as (y & Ey & My).
        exists y. rewrite HB. exact Ey.
    Qed.

    (* the static problem *)
    Theorem global_static u0 given (d d' : driver V (method F)) s w x0 : k = StaticDisplacement ->
      renews integrate b k c \/ (forall g, iterate_variables c g = None) ->
      fit d -> in_stock (d_mem d) given -> dt_of d = dt ->
      equipped w -> setup integrate b k w x0 dt = Ok (inner (d_sv d)) ->
      @static_solve V W (method F) (b_dimension b) N nodes (MethodModel.iterate integrate b k c) global u0 given d = (d', Ok s) ->
      contact_inequality (2 * N) (prescribed conds) (fun x i => mv (ph_n p) (stiffness p) x i - loads 0 i) (J u0)
        (view_displacement (look (d_mem d') s)).
    Proof.
      destruct HS as (HB & HC & HW & HK & HM & HF & SM & SC & SE & ST & KF & KH & Hdt & CV).
      intros K RI Ft G Dt EQ SU H. assert (HP : plane_kind k) by (left; exact K).
      assert (CS : can_step k dt) by (rewrite K; exact Logic.I).
      destruct (MethodProofs.setup_updated integrate b k p loads relaxations forceful heated KF KH conds HC HW w x0 dt EQ CS) as (i & Ei & Ui).
      rewrite SU in Ei. injection Ei as <-.
      set (good := fun (_ : vectors) (_ : R) (i : method F) => exists x t, updated x dt t i).
      assert (GOOD : forall y0 t0 i y t i', good y0 t0 i -> MethodModel.iterate integrate b k c i y dt t = Ok i' -> good y t i').
      { intros y0 t0 i y t i' (y1 & t1 & U) Hi. destruct RI as [RN|ID].
        - destruct (iterate_updated integrate b k p loads relaxations forceful heated KF KH conds HC HW c i y dt t RN (proj1 U) CS) as (j & J1 & J2).
          rewrite J1 in Hi. injection Hi as <-. unfold good. eauto.
        - rewrite iterate_idle in Hi by exact ID. injection Hi as <-. unfold good. eauto. }
      destruct (static_step (V := V) (W := W) (b_dimension b) N nodes (MethodModel.iterate integrate b k c) global dt good GOOD
        u0 given d d' s x0 0 Ft G Dt ltac:(unfold good; eauto) H) as (x & t & i & (y & ty & U) & A).
      destruct (global_step integrate b k p loads relaxations forceful heated conds mesh law minimise method_name maxiter
        HB HP HC HW HK HM HF SM SC SE ST HMin _ dt _ _ u0 (held_vec d v_vector) u0 U Hdt CV AP) as (z & Ez & Mz).
      rewrite Ez in A. assert (Q : z = view_displacement (look (d_mem d') s)) by (injection A; auto). rewrite <- Q. clear A Q.
      apply (step_inequality b k p loads relaxations conds mesh law HB HP HF SM SC SE ST _ dt _ _ u0 z
        (updated_sized _ _ _ _ _ _ _ _ _ _ _ _ _ U) Hdt CV) in Mz.
      rewrite K in Mz. exact Mz.
    Qed.

    Theorem global_static_total u0 (d : driver V (method F)) w x0 : k = StaticDisplacement ->
      renews integrate b k c \/ (forall g, iterate_variables c g = None) ->
      fit d -> d_to_do d <> 0%nat -> dt_of d = dt -> equipped w -> setup integrate b k w x0 dt = Ok (inner (d_sv d)) ->
      exists d' s, @static_solve V W (method F) (b_dimension b) N nodes (MethodModel.iterate integrate b k c) global u0 [] d = (d', Ok s).
    Proof.
      destruct HS as (HB & HC & HW & HK & HM & HF & SM & SC & SE & ST & KF & KH & Hdt & CV).
      intros K RI Ft NZ Dt EQ SU. assert (HP : plane_kind k) by (left; exact K).
      assert (CS : can_step k dt) by (rewrite K; exact Logic.I).
      destruct (MethodProofs.setup_updated integrate b k p loads relaxations forceful heated KF KH conds HC HW w x0 dt EQ CS) as (i & Ei & Ui).
      rewrite SU in Ei. injection Ei as <-.
      apply (static_runs (b_dimension b) N nodes (MethodModel.iterate integrate b k c) global (fun i => exists x t, updated x dt t i) dt); auto; [| |eauto].
      - intros i x t (x1 & t1 & U). destruct RI as [RN|ID].
        + destruct (iterate_updated integrate b k p loads relaxations forceful heated KF KH conds HC HW c i x dt t RN (proj1 U) CS) as (j & J1 & J2).
          exists j. eauto.
        + exists i. split; [apply iterate_idle; exact ID|eauto].
      - intros i g v u (x1 & t1 & U).
        destruct (global_step integrate b k p loads relaxations forceful heated conds mesh law minimise method_name maxiter
          HB HP HC HW HK HM HF SM SC SE ST HMin _ dt _ _ g v u U Hdt CV AP) as (y & Ey & My).
        exists y. rewrite HB. exact Ey.
    Qed.
  End Global.

  Section Schur.
    Variable inv : nat -> mat -> result mat.
    Hypothesis HI : inverts inv.
    Hypothesis SP : faces_split b mesh conds.
    Hypothesis CN : (mesh_contact_count mesh <= N)%nat.

    (* initial velocities with the prescribed values, if contact faces touch those *)
    Theorem schur_run n u0 v0 out given (d d' : driver V (schur_method F)) l w x0 : velocity_kind k -> renews integrate b k c -> schur_class c ->
      admissible (prescribed conds) v0 \/ faces_apart b mesh conds ->
      fit d -> in_stock (d_mem d) given -> non_decreasing 0 (requested n out) -> current_time (d_sv d) = 0 -> dt_of d = dt ->
      equipped w -> schur_setup integrate b k mesh inv w x0 dt = Ok (inner (d_sv d)) ->
      @dynamic_solve V W (schur_method F) (b_dimension b) N nodes (schur_iterate integrate b k mesh c) schur n u0 v0 out given d = (d', Ok l) ->
      exists u v,
        contact_governed (2 * N) (prescribed conds) (forces (held_vec d b_vector) (held_vec d t_vector) (held_vec d p_vector))
          J dt u0 v0 (last_step n out) u v /\
        List.length l = List.length (requested n out) /\
        forall j q (s : state W), nth_error (requested n out) j = Some q -> nth_error l j = Some s ->
          shows dt u v (Z.to_nat q) (look (d_mem d') s).
    Proof.
      destruct HS as (HB & HC & HW & HK & HM & HF & SM & SC & SE & ST & KF & KH & Hdt & CV).
      intros VK RN SCl AV Ft G ND C0 Dt EQ SU H. assert (HP : plane_kind k) by (right; exact VK).
      set (nf := (N - mesh_contact_count mesh)%nat). assert (HN : N = (mesh_contact_count mesh + nf)%nat) by (unfold nf; lia).
      destruct (schur_setup_updated integrate b k p loads relaxations forceful heated conds mesh HB HP HC HW HM ST inv HI nf HN KF KH w x0 dt EQ Hdt)
        as (i & Ei & Ui).
      rewrite SU in Ei. injection Ei as <-.
      edestruct (dynamic_steps (V := V) (W := W) (b_dimension b) N nodes (schur_iterate integrate b k mesh c) schur dt
        (fun x t i => schur_updated integrate b k p loads relaxations forceful heated conds mesh nf x dt t i))
        as (inn & u & v & U0 & V0 & ST' & LL & SH); [|exact Ft|exact G|exact ND|exact C0|exact Dt|exact Ui|exact H|].
      { intros y0 t0 i y t i' U Hi.
        destruct (schur_iterate_updated integrate b k p loads relaxations forceful heated conds mesh HB HP HC HW HM nf HN KF KH c y0 t0 i y dt t SCl RN U Hdt)
          as (j & J1 & J2).
        rewrite J1 in Hi. injection Hi as <-. exact J2. }
      exists u, v. split; [|split; [exact LL|exact SH]]. split; [exact U0|]. split; [exact V0|].
      assert (STEP : forall j, (j < last_step n out)%nat -> admissible (prescribed conds) (v j) \/ faces_apart b mesh conds ->
        contact_inequality (2 * N) (prescribed conds)
          (forces (held_vec d b_vector) (held_vec d t_vector) (held_vec d p_vector) (u j) (v j) (INR j * dt)) (J (u j)) (v (S j))).
      { intros j Hj AJ. destruct (ST' j Hj) as (_ & U & A).
        destruct (schur_step_run integrate b k p loads relaxations forceful heated conds mesh law minimise method_name maxiter
          HB HP HC HW HK HM HF SM SC SE ST HMin nf HN _ dt _ _ (v j) (v j) (u j) U Hdt CV) as (y & Ey & My).
        { intros e a cc He Ha Hc. destruct (SP e a cc He Ha Hc) as [L|[L (w0 & Q)]]; [left; exact L|right].
          split; [exact L|]. destruct AJ as [AJ|AP]; [rewrite (AJ _ _ Q); exact Q|].
          exfalso. exact (AP e a cc He Ha Hc (ex_intro _ w0 Q)). }
        rewrite Ey in A. injection A as _ ->.
        apply (step_inequality b k p loads relaxations conds mesh law HB HP HF SM SC SE ST _ dt _ (v j) (u j) (v (S j))
          (updated_sized _ _ _ _ _ _ _ _ _ _ _ _ _ (proj1 U)) Hdt CV) in My. exact My. }
      assert (AD : forall j, (j <= last_step n out)%nat -> admissible (prescribed conds) (v j) \/ faces_apart b mesh conds).
      { induction j as [|j IH]; intros Hj; [rewrite V0; exact AV|]. left. exact (proj1 (STEP j Hj (IH ltac:(lia)))). }
      intros j Hj. split; [apply ST'; exact Hj|]. apply STEP; [exact Hj|]. apply AD. lia.
    Qed.

    Theorem schur_total n u0 v0 out (d : driver V (schur_method F)) w x0 : velocity_kind k -> renews integrate b k c -> schur_class c ->
      faces_apart b mesh conds ->
      fit d -> non_decreasing 0 (requested n out) -> n <> 0%nat -> dt_of d = dt ->
      equipped w -> schur_setup integrate b k mesh inv w x0 dt = Ok (inner (d_sv d)) ->
      exists d' l, @dynamic_solve V W (schur_method F) (b_dimension b) N nodes (schur_iterate integrate b k mesh c) schur n u0 v0 out [] d = (d', Ok l).
    Proof.
      destruct HS as (HB & HC & HW & HK & HM & HF & SM & SC & SE & ST & KF & KH & Hdt & CV).
      intros VK RN SCl AP Ft ND NZ Dt EQ SU. assert (HP : plane_kind k) by (right; exact VK).
      set (nf := (N - mesh_contact_count mesh)%nat). assert (HN : N = (mesh_contact_count mesh + nf)%nat) by (unfold nf; lia).
      destruct (schur_setup_updated integrate b k p loads relaxations forceful heated conds mesh HB HP HC HW HM ST inv HI nf HN KF KH w x0 dt EQ Hdt)
        as (i & Ei & Ui).
      rewrite SU in Ei. injection Ei as <-.
      apply (dynamic_runs (b_dimension b) N nodes (schur_iterate integrate b k mesh c) schur
        (fun i => exists x t, schur_updated integrate b k p loads relaxations forceful heated conds mesh nf x dt t i) dt); auto; [| |eauto].
      - intros i x t (x1 & t1 & U).
        destruct (schur_iterate_updated integrate b k p loads relaxations forceful heated conds mesh HB HP HC HW HM nf HN KF KH c x1 t1 i x dt t SCl RN U Hdt)
          as (j & J1 & J2).
        exists j. eauto.
      - intros i g v u (x1 & t1 & U).
        destruct (schur_step_run integrate b k p loads relaxations forceful heated conds mesh law minimise method_name maxiter
          HB HP HC HW HK HM HF SM SC SE ST HMin nf HN _ dt _ _ g v u U Hdt CV) as (y & Ey & My).
        { intros e a cc He Ha Hc. destruct (SP e a cc He Ha Hc) as [L|[L Q]]; [left; exact L|].
          exfalso. exact (AP e a cc He Ha Hc Q). }
        exists y. rewrite HB. exact Ey.
    Qed.

    (* the static problem: the velocities of the driver stand in for the prescribed values *)
    Theorem schur_static u0 given (d d' : driver V (schur_method F)) s w x0 : k = StaticDisplacement -> c = StaticSchur ->
      admissible (prescribed conds) (held_vec d v_vector) \/ faces_apart b mesh conds ->
      fit d -> in_stock (d_mem d) given -> dt_of d = dt ->
      equipped w -> schur_setup integrate b k mesh inv w x0 dt = Ok (inner (d_sv d)) ->
      @static_solve V W (schur_method F) (b_dimension b) N nodes (schur_iterate integrate b k mesh c) schur u0 given d = (d', Ok s) ->
      contact_inequality (2 * N) (prescribed conds) (fun x i => mv (ph_n p) (stiffness p) x i - loads 0 i) (J u0)
        (view_displacement (look (d_mem d') s)).
    Proof.
      destruct HS as (HB & HC & HW & HK & HM & HF & SM & SC & SE & ST & KF & KH & Hdt & CV).
      intros K CC AV Ft G Dt EQ SU H. assert (HP : plane_kind k) by (left; exact K).
      set (nf := (N - mesh_contact_count mesh)%nat). assert (HN : N = (mesh_contact_count mesh + nf)%nat) by (unfold nf; lia).
      destruct (schur_setup_updated integrate b k p loads relaxations forceful heated conds mesh HB HP HC HW HM ST inv HI nf HN KF KH w x0 dt EQ Hdt)
        as (i & Ei & Ui).
      rewrite SU in Ei. injection Ei as <-.
      set (good := fun (_ : vectors) (_ : R) (i : schur_method F) => exists x t,
        schur_updated integrate b k p loads relaxations forceful heated conds mesh nf x dt t i).
      assert (GOOD : forall y0 t0 i y t i', good y0 t0 i -> schur_iterate integrate b k mesh c i y dt t = Ok i' -> good y t i').
      { intros y0 t0 i y t i' (y1 & t1 & U) Hi. rewrite CC in Hi. injection Hi as <-. unfold good. eauto. }
      destruct (static_step (V := V) (W := W) (b_dimension b) N nodes (schur_iterate integrate b k mesh c) schur dt good GOOD
        u0 given d d' s x0 0 Ft G Dt ltac:(unfold good; eauto) H) as (x & t & i & (y & ty & U) & A).
      destruct (schur_step_run integrate b k p loads relaxations forceful heated conds mesh law minimise method_name maxiter
        HB HP HC HW HK HM HF SM SC SE ST HMin nf HN _ dt _ _ u0 (held_vec d v_vector) u0 U Hdt CV) as (z & Ez & Mz).
      { intros e a cc He Ha Hc. destruct (SP e a cc He Ha Hc) as [L|[L (w0 & Q)]]; [left; exact L|right].
        split; [exact L|]. destruct AV as [AV|AP]; [rewrite (AV _ _ Q); exact Q|].
        exfalso. exact (AP e a cc He Ha Hc (ex_intro _ w0 Q)). }
      rewrite Ez in A. assert (Q : z = view_displacement (look (d_mem d') s)) by (injection A; auto). rewrite <- Q. clear A Q.
      apply (step_inequality b k p loads relaxations conds mesh law HB HP HF SM SC SE ST _ dt _ _ u0 z
        (updated_sized _ _ _ _ _ _ _ _ _ _ _ _ _ (proj1 U)) Hdt CV) in Mz.
      rewrite K in Mz. exact Mz.
    Qed.

    Theorem schur_static_total u0 (d : driver V (schur_method F)) w x0 : k = StaticDisplacement -> c = StaticSchur ->
      faces_apart b mesh conds ->
      fit d -> d_to_do d <> 0%nat -> dt_of d = dt -> equipped w -> schur_setup integrate b k mesh inv w x0 dt = Ok (inner (d_sv d)) ->
      exists d' s, @static_solve V W (schur_method F) (b_dimension b) N nodes (schur_iterate integrate b k mesh c) schur u0 [] d = (d', Ok s).
    Proof.
      destruct HS as (HB & HC & HW & HK & HM & HF & SM & SC & SE & ST & KF & KH & Hdt & CV).
      intros K CC AP Ft NZ Dt EQ SU. assert (HP : plane_kind k) by (left; exact K).
      set (nf := (N - mesh_contact_count mesh)%nat). assert (HN : N = (mesh_contact_count mesh + nf)%nat) by (unfold nf; lia).
      destruct (schur_setup_updated integrate b k p loads relaxations forceful heated conds mesh HB HP HC HW HM ST inv HI nf HN KF KH w x0 dt EQ Hdt)
        as (i & Ei & Ui).
      rewrite SU in Ei. injection Ei as <-.
      apply (static_runs (b_dimension b) N nodes (schur_iterate integrate b k mesh c) schur
        (fun i => exists x t, schur_updated integrate b k p loads relaxations forceful heated conds mesh nf x dt t i) dt); auto; [| |eauto].
      - intros i x t U. exists i. rewrite CC. split; [reflexivity|exact U].
      - intros i g v u (x1 & t1 & U).
        destruct (schur_step_run integrate b k p loads relaxations forceful heated conds mesh law minimise method_name maxiter
          HB HP HC HW HK HM HF SM SC SE ST HMin nf HN _ dt _ _ g v u U Hdt CV) as (y & Ey & My).
        { intros e a cc He Ha Hc. destruct (SP e a cc He Ha Hc) as [L|[L Q]]; [left; exact L|].
          exfalso. exact (AP e a cc He Ha Hc Q). }
        exists y. rewrite HB. exact Ey.
    Qed.
  End Schur.
End Runs.
