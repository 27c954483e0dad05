(* The construction of a problem solver: what the body, its operators and its loads are. *)
From Coq Require Import Reals List Arith ZArith Bool String Permutation Lia Lra FunctionalExtensionality.
From Verif Require Import Common PyModel RVec LinAlg MeshModel MeshBuildModel MeshSpec ListLemmas MeshOrderProofs MeshBuildProofs NormalsModel
  DofModel DofSpec DirichletModel DirichletSpec DirichletProofs DirichletMeshProofs
  FemModel FemSpec FemGeomProofs FemAssemblyProofs FemFormProofs FemBasicProofs FemMeshProofs FemBuildProofs FemPipelineProofs FemFinalProofs
  ForcesModel ForcesSpec ForcesProofs ForcesLoadProofs
  StatementModel StatementSpec StatementProofs StatementValueProofs
  TimeModel MethodModel MethodProofs ProblemModel ProblemSpec.
Import ListNotations.
Local Open Scope string_scope.
Local Open Scope list_scope.
Local Open Scope R_scope.

Lemma same_time_sound a b : same_time a b = true -> a = b.
Proof. unfold same_time. destruct (Req_EM_T a b); [auto|discriminate]. Qed.

Lemma nth_error_skipn {A} k : forall (l : list A) j, nth_error (skipn k l) j = nth_error l (k + j).
Proof.
  induction k as [|k IH]; intros l j; [reflexivity|]. destruct l as [|x l]; cbn.
  - destruct j; reflexivity.
  - apply IH.
Qed.

(* ------------------------------------------------------------- the fixed nodes *)

Section Fixed.
  Context {P : Type}.
  Variables (mean : list P -> P) (zero : P) (nodes0 : list P) (els0 : list (list nat)).
  Variables (d : @Description P vec) (m : @MeshData P vec) (ic id : P -> bool).
  Hypothesis HR : in_range (List.length nodes0) els0.
  Hypothesis HS : simplices 3 els0.
  Hypothesis HC : dict_get (indicators d) "contact" = Some ic.
  Hypothesis HD : dict_get (indicators d) "dirichlet" = Some id.
  Hypothesis HB : build mean zero nodes0 els0 d = Ok m.
  Let N := List.length (m_nodes m).

  (* the Dirichlet nodes are the last ones of the built mesh *)
  Lemma fixed_block C Ne I D : node_order 3 nodes0 els0 (m_nodes m) (m_elements m) ic id C Ne I D ->
    forall n, fixed_node m id n <-> (List.length (C ++ Ne ++ I) <= n < N)%nat.
  Proof.
    intros HO n. destruct HO as [U A K R NC NN NI ND _].
    set (old := C ++ Ne ++ I ++ D) in *.
    assert (Eo : List.length old = N) by exact (Forall2_length' _ _ _ K).
    assert (EN : forall j o, nth_error old j = Some o -> nth_error (m_nodes m) j = nth_error nodes0 o).
    { intros j o Hj. destruct (Forall2_nth_error _ _ _ _ _ K Hj) as [q [H1 H2]]. congruence. }
    assert (Split : old = (C ++ Ne ++ I) ++ D) by (unfold old; rewrite <- !app_assoc; auto).
    assert (F : (n < N)%nat -> forall o, nth_error old n = Some o ->
              (fixed_node m id n <-> In o D)).
    { intros _ o Ho. rewrite ND. unfold fixed_node, holds_at. rewrite (EN n o Ho).
      rewrite (reb_boundary old els0 (m_elements m) U R 3 n o Ho). tauto. }
    split.
    - intros H. assert (Ln : (n < N)%nat).
      { destruct H as (_ & p & Hp & _). apply nth_error_Some. congruence. }
      split; [|exact Ln]. destruct (nth_error old n) as [o|] eqn:E; [|apply nth_error_None in E; lia].
      apply (F Ln o eq_refl) in H. destruct (Nat.lt_ge_cases n (List.length (C ++ Ne ++ I))) as [L|]; auto. exfalso.
      rewrite Split in E, U. rewrite nth_error_app1 in E by auto. apply nth_error_In in E.
      clear - U E H. induction (C ++ Ne ++ I) as [|x l IH]; [destruct E|]. inversion U; subst. destruct E as [->|E]; auto.
      apply H2. apply in_or_app. auto.
    - intros [L Ln]. destruct (nth_error old n) as [o|] eqn:E; [|apply nth_error_None in E; lia].
      apply (F Ln o eq_refl). rewrite Split, nth_error_app2 in E by auto. eapply nth_error_In; eauto.
  Qed.

  (* the conditions of a built mesh *)
  Lemma fixed_conditions dim f g : dict_get (MeshBuildModel.conditions d) "dirichlet" = Some f -> pointwise f g ->
    exists conds, mesh_conditions m dim "dirichlet" = Ok conds /\ well_shaped (dim * N) conds /\
      consistent (prescribed conds) /\
      (forall dof v, prescribed conds dof v <->
        exists n k p, fixed_node m id n /\ (k < dim)%nat /\ nth_error (m_nodes m) n = Some p /\
          dof = (k * N + n)%nat /\ v = g p).
  Proof.
    intros Hf PW.
    destruct (mesh_dirichlet mean zero nodes0 els0 d m 3 ic id HR HS HC HD HB dim f Hf)
      as (C & Ne & I & D & conds & HO & HM & HW & HN & HP). cbv zeta in HP. fold N in HW, HN, HP.
    pose proof (fixed_block C Ne I D HO) as FB. fold N in FB.
    set (first := List.length (C ++ Ne ++ I)) in *.
    assert (HP' : forall dof v, prescribed conds dof v <->
        exists n k p, fixed_node m id n /\ (k < dim)%nat /\ nth_error (m_nodes m) n = Some p /\
          dof = (k * N + n)%nat /\ v = g p).
    { assert (Q : forall n p, (first <= n < N)%nat -> nth_error (m_nodes m) n = Some p ->
                f (skipn first (m_nodes m)) (n - first)%nat = g p).
      { intros n p Hn E. apply PW. rewrite nth_error_skipn. replace (first + (n - first))%nat with n by lia. exact E. }
      intros dof v. rewrite HP. split.
      - intros (n & k & Hn & Hk & -> & ->). destruct (nth_error (m_nodes m) n) as [p|] eqn:E.
        2:{ apply nth_error_None in E. unfold N in Hn. lia. }
        exists n, k, p. split; [apply FB; auto|]. split; [auto|]. split; [exact E|]. split; [lia|]. auto.
      - intros (n & k & p & Hn & Hk & E & -> & ->). apply FB in Hn. exists n, k. split; [auto|]. split; [auto|].
        split; [lia|]. symmetry. auto. }
    exists conds. split; [exact HM|]. split; [exact HW|]. split; [|exact HP'].
    intros dof v v' H1 H2. apply HP' in H1, H2.
    destruct H1 as (n & k & p & F1 & K1 & E1 & Q1 & ->), H2 as (n' & k' & p' & F2 & K2 & E2 & Q2 & ->).
    assert (n < N)%nat by (apply nth_error_Some; congruence). assert (n' < N)%nat by (apply nth_error_Some; congruence).
    assert (n = n').
    { assert (M : forall a b, (b < N)%nat -> ((a * N + b) mod N = b)%nat).
      { intros a b Hb. rewrite Nat.add_comm, Nat.mod_add, Nat.mod_small by lia. reflexivity. }
      rewrite <- (M k n), <- (M k' n') by auto. congruence. }
    congruence.
  Qed.
End Fixed.

(* ------------------------------------------------------------- operators in the heap *)

Section Operators.
  Variable N : nat.
  Definition in_place (h : heap) (refs : operator_refs) (ops : FemModel.operators) : Prop :=
    sval h (o_acceleration refs) (2, 2)%nat (2 * N) (2 * N) (acceleration_operator ops) /\
    (forall A, elasticity ops = Some A -> has_op h (o_elasticity refs) (2, 2)%nat (2 * N) (2 * N) A) /\
    (forall A, viscosity ops = Some A -> has_op h (o_viscosity refs) (2, 2)%nat (2 * N) (2 * N) A) /\
    (forall A, thermal_expansion ops = Some A -> has_op h (o_thermal_expansion refs) (1, 2)%nat N (2 * N) A) /\
    (forall A, thermal_conductivity ops = Some A -> has_op h (o_thermal_conductivity refs) (1, 1)%nat N N A) /\
    (forall A, piezoelectricity ops = Some A -> has_op h (o_piezoelectricity refs) (2, 2)%nat N (2 * N) A) /\
    (forall A, permittivity ops = Some A -> has_op h (o_permittivity refs) (1, 1)%nat N N A) /\
    (forall A, poisson_operator ops = Some A -> has_op h (o_poisson refs) (1, 1)%nat N N A).

  Lemma in_place_ext h h' refs ops : hext h h' -> in_place h refs ops -> in_place h' refs ops.
  Proof.
    intros X (A0 & A1 & A2 & A3 & A4 & A5 & A6 & A7).
    split; [eapply sval_ext; eauto|]. repeat split; intros A E; eapply has_op_ext; eauto.
  Qed.
End Operators.

Lemma install_in_place (m : @MeshData P2 vec) h ops h' refs : install m h ops = (h', refs) ->
  hext h h' /\ in_place (List.length (m_nodes m)) h' refs ops.
Proof.
  intros E. injection E as <- <-.
  match goal with |- hext h (mkHeap (mats h ++ ?l0) _) /\ _ => set (l := l0) end.
  assert (Ll : List.length l = 8%nat) by reflexivity.
  assert (L0 : nth 0 l (fun _ _ => 0) = acceleration_operator ops) by reflexivity.
  assert (L1 : nth 1 l (fun _ _ => 0) = some_mat (elasticity ops)) by reflexivity.
  assert (L2 : nth 2 l (fun _ _ => 0) = some_mat (viscosity ops)) by reflexivity.
  assert (L3 : nth 3 l (fun _ _ => 0) = some_mat (thermal_expansion ops)) by reflexivity.
  assert (L4 : nth 4 l (fun _ _ => 0) = some_mat (thermal_conductivity ops)) by reflexivity.
  assert (L5 : nth 5 l (fun _ _ => 0) = some_mat (piezoelectricity ops)) by reflexivity.
  assert (L6 : nth 6 l (fun _ _ => 0) = some_mat (permittivity ops)) by reflexivity.
  assert (L7 : nth 7 l (fun _ _ => 0) = some_mat (poisson_operator ops)) by reflexivity.
  clearbody l.
  assert (X : hext h (mkHeap (mats h ++ l) (vecs h))).
  { repeat split; cbn [mats vecs]; rewrite ?app_length; try lia.
    intros a Ha. apply app_nth1. exact Ha. }
  split; [exact X|].
  assert (L : forall k rows cols A, (k < 8)%nat -> nth k l (fun _ _ => 0) = A ->
     mval (mkHeap (mats h ++ l) (vecs h)) (mkMref (List.length (mats h) + k) rows cols) rows cols A).
  { intros k rows cols A Hk <-. split; [|split; [reflexivity|split; [reflexivity|]]].
    - cbn [mats m_addr]. rewrite app_length, Ll. lia.
    - intros i j _ _. unfold load_m. cbn [mats m_addr]. rewrite app_nth2 by lia.
      replace (List.length (mats h) + k - List.length (mats h))%nat with k by lia. reflexivity. }
  unfold in_place. cbn [o_acceleration o_elasticity o_viscosity o_thermal_expansion o_thermal_conductivity
    o_piezoelectricity o_permittivity o_poisson].
  split; [split; [reflexivity|]; cbn [sm_data]; apply L; [lia|exact L0]|].
  repeat split; intros A E; rewrite E in *; eexists; (split; [reflexivity|]); (split; [reflexivity|]); cbn [sm_data];
    apply L; try lia; assumption.
Qed.

(* ------------------------------------------------------------- the loads *)

Section Loads.
  Variables (m : @MeshData P2 vec) (els : list (list nat)) (B : basic).
  Let nodes := m_nodes m.
  Let N := List.length nodes.
  Let points := node_table coord2 zero2 nodes.
  Variables fi fo : P2 -> R -> vec.

  Definition surfaces : vec :=
    match surface_per_node 2 points (faces_of m "neumann") (fun _ => 0) with Ok s => s | Err _ => fun _ => 0 end.
  Definition nodal_load (t : R) : vec := fun a =>
    sum N (fun b => volume_at_nodes B (a mod N)%nat b * array_of (map (fun p => fi p t) nodes) b (a / N)%nat)
    + surfaces (a mod N)%nat * array_of (map (fun p => fo p t) nodes) (a mod N)%nat (a / N)%nat.

  Variables si so : load_source.
  Hypothesis Hi : forall p t, si p t = Ok (fi p t).
  Hypothesis Ho : forall p t, so p t = Ok (fo p t).

  Definition answers (width : nat) (f : forces) : Prop :=
    fst f = width /\ coherent (ForcesModel.inner (snd f)) si nodes /\ coherent (outer (snd f)) so nodes.

  Lemma values_map (s : load_source) (g : P2 -> R -> vec) t : (forall p u, s p u = Ok (g p u)) ->
    forall l, values s l t (map (fun p => g p t) l).
  Proof. intros H l. unfold values. induction l; cbn; constructor; auto. Qed.

  Hypothesis HF : faces_ok 2 N (faces_of m "neumann").

  Lemma surfaces_are : surface_per_node 2 points (faces_of m "neumann") (fun _ => 0) = Ok surfaces.
  Proof.
    destruct (surface_spec 2 N points (faces_of m "neumann") (or_introl eq_refl) HF) as (s & E & _).
    unfold surfaces. rewrite E. reflexivity.
  Qed.

  Lemma integrate_answers width f t : answers width f ->
    snd (integrate_forces m B f t) = Ok ((width * N)%nat, nodal_load t) /\ answers width (fst (integrate_forces m B f t)).
  Proof.
    intros (E1 & CI & CO). destruct f as [w bf]. cbn [fst snd] in *. subst w.
    unfold integrate_forces, ForcesModel.integrate, integrated_inner, integrated_outer.
    fold nodes. fold points. change (fun i => coord2 (nth i nodes zero2)) with points.
    rewrite surfaces_are.
    destruct (node_source_coherent same_time same_time_sound (ForcesModel.inner bf) si nodes t CI) as (CI' & VI & _).
    destruct (node_source_coherent same_time same_time_sound (outer bf) so nodes t CO) as (CO' & VO & _).
    pose proof (proj2 (VI _) (values_map si fi t Hi nodes)) as RI.
    pose proof (proj2 (VO _) (values_map so fo t Ho nodes)) as RO.
    destruct (node_source same_time (ForcesModel.inner bf) nodes t) as [i ri]. cbn [fst snd] in *. subst ri. cbn [bind outer ForcesModel.inner].
    destruct (node_source same_time (outer bf) nodes t) as [o ro]. cbn [fst snd] in *. subst ro. cbn [bind fst snd].
    split; [reflexivity|]. split; [reflexivity|]. split; assumption.
  Qed.

  Lemma fresh_answers width : answers width (width, mkForces (fresh_source (Some si)) (fresh_source (Some so))).
  Proof. split; [reflexivity|]. split; apply fresh_coherent. Qed.

  (* the work of the loads *)
  Lemma nodal_component t k n : (n < N)%nat -> nodal_load t (k * N + n)%nat
    = sum N (fun b => volume_at_nodes B n b * fi (nth b nodes zero2) t k) + surfaces n * fo (nth n nodes zero2) t k.
  Proof.
    intros Hn. unfold nodal_load.
    replace ((k * N + n) mod N)%nat with n by (rewrite Nat.add_comm, Nat.mod_add, Nat.mod_small by lia; reflexivity).
    replace ((k * N + n) / N)%nat with k by (rewrite Nat.add_comm, Nat.div_add, Nat.div_small by lia; lia).
    assert (Q : forall (g : P2 -> R -> vec) b, (b < N)%nat -> array_of (map (fun p => g p t) nodes) b k = g (nth b nodes zero2) t k).
    { intros g b Hb. unfold array_of. rewrite (nth_indep _ _ (g zero2 t)) by (rewrite map_length; exact Hb).
      rewrite (map_nth (fun p => g p t)). reflexivity. }
    rewrite Q by auto. f_equal. apply sum_ext. intros b Hb. rewrite Q by auto. reflexivity.
  Qed.

  Hypothesis HT : triangles N points els.
  Hypothesis HE : els = m_elements m.
  Hypothesis HB : B = basic2 points els.

  Lemma load_power width t v :
    sum (width * N) (fun a => v a * nodal_load t a) = load_work coord2 zero2 m width (fun p => fi p t) (fun p => fo p t) v.
  Proof.
    rewrite sum_blocks. unfold load_work, volume_work, surface_work. rewrite <- sum_plus. apply sum_ext. intros k _.
    fold nodes. fold N. fold points. rewrite <- HE.
    destruct (surface_spec 2 N points (faces_of m "neumann") (or_introl eq_refl) HF) as (s & Es & _ & _ & _ & HG).
    assert (s = surfaces) by (rewrite surfaces_are in Es; congruence). subst s.
    rewrite (sum_ext N _ (fun n => v (k * N + n)%nat * sum N (fun b => volume_at_nodes B n b * fi (nth b nodes zero2) t k)
      + surfaces n * (component N v k n * at_nodes zero2 m (fun p => fo p t) k n))).
    2:{ intros n Hn. rewrite nodal_component by auto. unfold component, at_nodes. fold nodes. ring. }
    rewrite sum_plus, HG. f_equal.
    pose proof (vol_work 2 N points els _ _ _ (triangles_fem _ _ _ HT) (basic2_assembled points els (proj1 (proj2 HT)))
      (component N v k) (at_nodes zero2 m (fun p => fi p t) k) ltac:(lia)) as VW.
    rewrite <- HB in VW. transitivity (bilinear N N (volume_at_nodes B) (component N v k) (at_nodes zero2 m (fun p => fi p t) k)).
    - unfold bilinear. apply sum_ext. intros n Hn. rewrite <- sum_scal. apply sum_ext. intros b Hb. unfold component, at_nodes. fold nodes. ring.
    - rewrite VW. reflexivity.
  Qed.
End Loads.
