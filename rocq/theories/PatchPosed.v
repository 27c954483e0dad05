(* The patch test for posed problems. *)
From Coq Require Import Reals List Arith Bool Lia Lra Permutation Sorted String.
From Verif Require Import Common PyModel RVec ListLemmas MeshModel MeshBuildModel MeshBuildProofs MeshSpec MeshFacesProofs MeshOrderProofs FemModel FemSpec ForcesSpec NormalsModel ForcesModel
  FemAssemblyProofs FemGeomProofs FemOperatorProofs FemMeshProofs FemPipelineProofs FemBuildProofs FemFinalProofs DirichletSpec StatementModel StatementSpec StateModel MethodModel
  RegistryModel TimeModel TimeSpec ProblemModel ProblemSpec ProblemReady ProblemTheorems ProblemUnique ProblemFinal ProblemContactProofs
  GaussSpec GaussProofs GaussFinal SidesProofs SidesFinal PatchSpec PatchProofs PatchFinal PatchProblemSpec.
Import ListNotations.
Local Open Scope string_scope.
Local Open Scope list_scope.
Local Open Scope R_scope.

Section Posed.
  Variables (pb : problem) (ic id : P2 -> bool) (g : P2 -> R).
  Hypothesis PO : posed pb ic id g.
  Variables (bt : built) (density : option (nat -> R)) (ops : FemModel.operators).
  Hypothesis RD : ready pb bt density ops.
  Let m := bt_mesh bt.
  Let N := List.length (m_nodes m).
  Let els := m_elements m.
  Let x := node_table coord2 zero2 (m_nodes m).

  (* numbers, places, boundary nodes and faces of the user's mesh *)
  Lemma user_numbers : exists old, NoDup old /\ picks old (pr_nodes pb) (m_nodes m) /\ relabelled_unordered old (pr_elements pb) els.
  Proof.
    destruct RD as (HB & _). destruct PO as [HR HS HA HC HD _].
    destruct (mesh_node_order P2 vec mean2 zero2 _ _ _ m 3 ic id HR HS HC HD HB) as (C & Ne & I & D & [U A K R _ _ _ _ _]). eauto.
  Qed.

  Lemma node_lt f i : boundary_face 3 els f -> In i f -> (i < N)%nat.
  Proof.
    intros BF Hi. pose proof (surfaces_list 2 els (posed_simplices pb ic id g PO bt density ops RD)) as BL.
    apply (face_lt 2 N els (boundary_surfaces els) (proj1 (posed_triangles pb ic id g PO bt density ops RD)) BL f i); auto. apply BL; auto.
  Qed.

  Section Numbers.
    Variable old : list nat.
    Hypothesis U : NoDup old.
    Hypothesis K : picks old (pr_nodes pb) (m_nodes m).
    Hypothesis R : relabelled_unordered old (pr_elements pb) els.
    Definition user_of (f : list nat) : list nat := sort_nat (map (fun j => nth j old 0%nat) f).

    Lemma place_of i : (i < N)%nat -> exists o p, nth_error old i = Some o /\ nth_error (m_nodes m) i = Some p /\ nth_error (pr_nodes pb) o = Some p.
    Proof.
      intros Hi. destruct (nth_error (m_nodes m) i) as [p|] eqn:E; [|apply nth_error_None in E; unfold N in Hi; lia].
      destruct (Forall2_nth_error_r _ _ _ _ _ K E) as (o & H1 & H2). exists o, p. auto.
    Qed.
    Lemma points_of i : (i < N)%nat -> x i = user_points pb (nth i old 0%nat) /\ nth i (m_nodes m) zero2 = nth (nth i old 0%nat) (pr_nodes pb) zero2.
    Proof.
      intros Hi. destruct (place_of i Hi) as (o & p & H1 & H2 & H3). unfold x, user_points, node_table.
      rewrite (nth_error_nth _ _ _ H1), (nth_error_nth _ _ _ H2), (nth_error_nth _ _ _ H3). auto.
    Qed.
    Lemma fixed_of i : (i < N)%nat -> (fixed_node m id i <-> user_fixed pb id (nth i old 0%nat)).
    Proof.
      intros Hi. destruct (place_of i Hi) as (o & p & H1 & H2 & H3). rewrite (nth_error_nth _ _ _ H1).
      unfold fixed_node, user_fixed. fold els. rewrite (reb_boundary old (pr_elements pb) els U R 3 i o H1).
      unfold holds_at. rewrite H2, H3. reflexivity.
    Qed.

    (* the outer normals of the user's faces are those of the faces of the mesh *)
    Lemma normals_of n : outer_normals 2 (user_points pb) (pr_elements pb) n -> outer_normals 2 x els (fun f => n (user_of f)).
    Proof.
      intros HN f o BF (k & e & (Hk & If & Uf) & Ho & No).
      pose proof (user_face old (pr_elements pb) els 3 f U R BF) as UF. fold (user_of f) in UF.
      assert (Q : Forall2 (fun e' e => Permutation (map (fun j => nth j old 0%nat) e') e) els (pr_elements pb)).
      { pose proof (reb_elements old (pr_elements pb) els U R) as E. clear - E. induction E; constructor; tauto. }
      destruct (Forall2_nth_error _ _ _ _ _ Q Hk) as (e0 & Hk0 & Pe).
      assert (IJ : forall a b, referenced els a -> referenced els b -> nth a old 0%nat = nth b old 0%nat -> a = b).
      { intros a b Ha Hb E. apply (proj1 (NoDup_nth old 0%nat) U); auto; eapply reb_referenced'; eauto. }
      assert (RF : forall e1 k1 a, nth_error els k1 = Some e1 -> In a e1 -> referenced els a) by (intros e1 k1 a H1 H2; exists e1; split; [eapply nth_error_In; eauto|auto]).
      assert (LT : forall a, referenced els a -> (a < N)%nat).
      { intros a (e1 & H1 & H2). pose proof (proj1 (posed_triangles pb ic id g PO bt density ops RD)) as RG. unfold in_range in RG.
        rewrite Forall_forall in RG. specialize (RG e1 H1). rewrite Forall_forall in RG. apply RG; auto. }
      assert (OP : opposing (pr_elements pb) (user_of f) (nth o old 0%nat)).
      { exists k, e0. split; [split; [exact Hk0|split]|split].
        - intros a Ha. unfold user_of in Ha. apply In_sort_nat, in_map_iff in Ha. destruct Ha as (b & <- & Hb).
          apply (Permutation_in _ Pe). apply (in_map (fun j => nth j old 0%nat)). auto.
        - intros k' e' Hk' I'. apply (Forall2_nth_error_r _ _ _ _ _ Q) in Hk'. destruct Hk' as (e1 & Hk1 & P1).
          apply (Uf k' e1 Hk1). intros a Ha.
          assert (G : In (nth a old 0%nat) e') by (apply I'; unfold user_of; apply In_sort_nat, (in_map (fun j => nth j old 0%nat)); auto).
          apply (Permutation_in _ (Permutation_sym P1)) in G. apply in_map_iff in G. destruct G as (b & E & Hb).
          rewrite <- (IJ b a); auto; [apply (RF e1 k'); auto|apply (RF e k); auto].
        - apply (Permutation_in _ Pe). apply (in_map (fun j => nth j old 0%nat)). auto.
        - unfold user_of. intros H. apply In_sort_nat, in_map_iff in H. destruct H as (b & E & Hb). apply No.
          rewrite <- (IJ b o); auto; [apply (RF e k); auto|apply (RF e k); auto]. }
      destruct (HN (user_of f) (nth o old 0%nat) UF OP) as (N1 & N2 & N3).
      assert (IU : forall a, In a f -> In (nth a old 0%nat) (user_of f)) by (intros a Ha; unfold user_of; apply In_sort_nat, (in_map (fun j => nth j old 0%nat)); auto).
      split; [exact N1|]. split.
      - intros a b Ha Hb. rewrite (proj1 (points_of a (node_lt f a BF Ha))), (proj1 (points_of b (node_lt f b BF Hb))). apply N2; auto.
      - intros a Ha. rewrite (proj1 (points_of a (node_lt f a BF Ha))), (proj1 (points_of o (LT o (RF e k o Hk Ho)))). apply N3; auto.
    Qed.

    (* the indicators at the centres of the user's faces *)
    Lemma holds_of q f : boundary_face 3 els f -> (face_holds mean2 (m_nodes m) q f <-> face_holds mean2 (pr_nodes pb) q (user_of f)).
    Proof.
      intros BF. pose proof BF as (SF & LF & _). destruct f as [|a [|b [|]]]; cbn in LF; try discriminate.
      destruct (place_of a (node_lt _ a BF ltac:(cbn; auto))) as (oa & pa & A1 & A2 & A3).
      destruct (place_of b (node_lt _ b BF ltac:(cbn; auto))) as (ob & pb' & B1 & B2 & B3).
      unfold user_of. cbn [map]. rewrite (nth_error_nth _ _ _ A1), (nth_error_nth _ _ _ B1).
      assert (L : face_holds mean2 (m_nodes m) q [a; b] <-> q (mean2 [pa; pb']) = true).
      { split.
        - intros (ps & PK & H). inversion PK as [|? p1 ? l1 H1 PK1]; subst. inversion PK1 as [|? p2 ? l2 H2 PK2]; subst. inversion PK2; subst.
          rewrite A2 in H1. rewrite B2 in H2. injection H1 as <-. injection H2 as <-. exact H.
        - intros H. exists [pa; pb']. split; [repeat constructor; auto|exact H]. }
      assert (M : forall u v pu pv, nth_error (pr_nodes pb) u = Some pu -> nth_error (pr_nodes pb) v = Some pv ->
        (face_holds mean2 (pr_nodes pb) q [u; v] <-> q (mean2 [pu; pv]) = true)).
      { intros u v pu pv Hu Hv. split.
        - intros (ps & PK & H). inversion PK as [|? p1 ? l1 H1 PK1]; subst. inversion PK1 as [|? p2 ? l2 H2 PK2]; subst. inversion PK2; subst.
          rewrite Hu in H1. rewrite Hv in H2. injection H1 as <-. injection H2 as <-. exact H.
        - intros H. exists [pu; pv]. split; [repeat constructor; auto|exact H]. }
      rewrite L. unfold sort_nat. cbn. destruct (Nat.leb oa ob) eqn:LE; cbn; rewrite ?LE.
      - rewrite (M oa ob pa pb' A3 B3). reflexivity.
      - rewrite (M ob oa pb' pa B3 A3), mean2_swap. reflexivity.
    Qed.

    Lemma match_of width t h : user_match pb ic id width t h ->
      loads_match 2 width els (fun f => In f (faces_of m "neumann")) (fixed_node m id) (fun f => t (user_of f)) (fun i => h (nth i (m_nodes m) zero2)).
    Proof.
      intros LM f i BF Hi. pose proof (node_lt f i BF Hi) as LT.
      pose proof (user_face old (pr_elements pb) els 3 f U R BF) as UF. fold (user_of f) in UF.
      assert (IU : In (nth i old 0%nat) (user_of f)) by (unfold user_of; apply In_sort_nat, (in_map (fun j => nth j old 0%nat)); auto).
      assert (FN : In f (faces_of m "neumann") <-> user_loaded pb ic id (user_of f)).
      { destruct RD as (HB & _). destruct PO as [HR HS HA HC HD _].
        destruct (face_classes mean2 zero2 (pr_nodes pb) (pr_elements pb) (pr_boundaries pb) m 3 ic id HR HS HC HD HB) as (_ & _ & FN & _).
        rewrite FN. unfold user_loaded. rewrite <- !(holds_of _ f BF). tauto. }
      destruct (LM (user_of f) (nth i old 0%nat) UF IU) as [Fx|L].
      - left. apply fixed_of; auto.
      - right. intros k Hk. rewrite FN. destruct (L k Hk) as [L1 L2]. rewrite (proj2 (points_of i LT)). auto.
    Qed.
  End Numbers.

  Hypothesis TS : two_sided 2 (user_points pb) (pr_elements pb).

  Lemma user_balances mu la f h n b A u : density = None -> outer_normals 2 (user_points pb) (pr_elements pb) n -> (forall p k, (k < 2)%nat -> f p k = 0) ->
    user_match pb ic id 2 (fun f => traction 2 (stress 2 mu la A) (n f)) h ->
    affine_values 2 N x b A u -> balances coord2 zero2 m density id mu la f h u.
  Proof.
    intros DN HN F0 LM AF. destruct user_numbers as (old & U & K & R).
    apply (affine_balances pb ic id g PO bt density ops RD TS mu la f h (fun f => n (user_of old f)) b A u DN); auto.
    - apply normals_of; auto.
    - exact (match_of old U K R 2 _ h LM).
  Qed.
  Lemma user_rests c f h n b A u : density = None -> outer_normals 2 (user_points pb) (pr_elements pb) n -> (forall p, f p 0%nat = 0) ->
    user_match pb ic id 1 (fun f _ => c ^ 2 * dot 2 A (n f)) h ->
    (forall i, (i < N)%nat -> u i = b + dot 2 A (x i)) -> rests coord2 zero2 m density id c f h u.
  Proof.
    intros DN HN F0 LM AF. destruct user_numbers as (old & U & K & R).
    apply (affine_rests pb ic id g PO bt density ops RD TS c f h (fun f => n (user_of old f)) b A u DN); auto.
    - apply normals_of; auto.
    - exact (match_of old U K R 1 _ h LM).
  Qed.

  Lemma user_takes width w u : prescribes pb id width g w ->
    (forall k n p, (k < width)%nat -> nth_error (m_nodes m) n = Some p -> u (k * N + n)%nat = w p k) -> takes m id width g u.
  Proof.
    intros PR UV n k p Fx Hk Hp. destruct user_numbers as (old & U & K & R).
    assert (LT : (n < N)%nat) by (apply nth_error_Some; unfold m in *; congruence).
    destruct (place_of old K n LT) as (o & p' & H1 & H2 & H3). rewrite Hp in H2. injection H2 as <-.
    rewrite (PR o p k); auto.
    rewrite <- (nth_error_nth _ _ 0%nat H1). apply (fixed_of old U K R n LT); auto.
  Qed.

End Posed.

(* normals of the user's mesh exist *)
Lemma user_normals pb ic id g : posed pb ic id g -> exists n, outer_normals 2 (user_points pb) (pr_elements pb) n.
Proof.
  intros [HR HS HA _ _ _].
  apply (gauss_2d (List.length (pr_nodes pb)) (user_points pb) (pr_elements pb)); auto.
  split; [exact HR|]. split; auto. revert HS. apply Forall_impl. tauto.
Qed.

Lemma closed_match pb ic id width t h : closed_problem pb id -> user_match pb ic id width t h.
Proof. intros CL f i BF Hi. left. split; [exists f; auto|apply CL; exists f; auto]. Qed.

Section Runs.
  Context {V W : Type}.
  Variables (pb : problem) (ic id : P2 -> bool) (g : P2 -> R).
  Hypothesis PO : posed pb ic id g.
  Variable bt : built.
  Hypothesis PR : prepared pb bt None.
  Let m := bt_mesh bt.
  Let N := List.length (m_nodes m).
  Let x := node_table coord2 zero2 (m_nodes m).
  Hypothesis TS : two_sided 2 (user_points pb) (pr_elements pb).

  Definition affine_field (b : vec) (A : mat) : vec := fun i => affine_at 2 b A (x (i mod N)%nat) (i / N)%nat.
  Lemma affine_field_at b A k n : (n < N)%nat -> affine_field b A (k * N + n)%nat = affine_at 2 b A (x n) k.
  Proof.
    intros H. unfold affine_field. rewrite Nat.add_comm, Nat.mod_add, Nat.mod_small by lia. rewrite Nat.div_add, Nat.div_small by lia. reflexivity.
  Qed.

  Lemma affine_solution fi fo mu la b A n : (forall p k, (k < 2)%nat -> fi p 0 k = 0) -> prescribes pb id 2 g (fun p => affine_at 2 b A (coord2 p)) ->
    outer_normals 2 (user_points pb) (pr_elements pb) n -> user_match pb ic id 2 (fun f => traction 2 (stress 2 mu la A) (n f)) (fun p => fo p 0) ->
    takes m id 2 g (affine_field b A) /\ balances coord2 zero2 m None id mu la (fun p => fi p 0) (fun p => fo p 0) (affine_field b A).
  Proof.
    intros F0 PV HN LM. destruct (prepared_ready pb ic id g PO bt None PR) as (ops & RD). split.
    - apply (user_takes pb ic id g PO bt None ops RD 2 (fun p => affine_at 2 b A (coord2 p))); auto.
      intros k i p Hk Hp. assert (LT : (i < N)%nat) by (apply nth_error_Some; unfold m in *; congruence).
      unfold N, m in *. rewrite affine_field_at by auto. unfold x, node_table, m. rewrite (nth_error_nth _ _ _ Hp). reflexivity.
    - apply (user_balances pb ic id g PO bt None ops RD TS mu la _ _ n b A); auto.
      intros k i Hk Hi. apply affine_field_at. exact Hi.
  Qed.

  Lemma veq_affine b A s : veq (2 * N) (affine_field b A) s -> affine_values 2 N x b A s.
  Proof. intros E k i Hk Hi. rewrite <- E by nia. apply affine_field_at; auto. Qed.

  Lemma patch_static answer fi fo cls mu la (m0 : store V) b A n :
    loaded pb 2 fi fo -> elastic (pr_material pb) = Some (mu, la) -> 0 < mu -> 0 <= la -> clamped_mesh pb id ->
    answers_exactly (2 * N) answer -> answers_definite (2 * N) (2 * N) answer -> (forall g, iterate_variables cls g = None) ->
    (forall p k, (k < 2)%nat -> fi p 0 k = 0) -> prescribes pb id 2 g (fun p => affine_at 2 b A (coord2 p)) ->
    outer_normals 2 (user_points pb) (pr_elements pb) n -> user_match pb ic id 2 (fun f => traction 2 (stress 2 mu la A) (n f)) (fun p => fo p 0) ->
    exists d : driver V (method forces), step_solver pb bt StaticDisplacement m0 = Ok d /\ forall u0, exists d' (s : state W),
      static_solve (b_dimension (bt_body bt)) (b_count (bt_body bt)) (start_positions bt)
        (MethodModel.iterate (integrate_forces (bt_mesh bt) (bt_basic bt)) (bt_body bt) StaticDisplacement cls) answer u0 [] d = (d', Ok s) /\
      affine_values 2 N x b A (view_displacement (look (d_mem d') s)).
  Proof.
    intros LD EL M L CM AE AD ID F0 PV HN LM. destruct (affine_solution fi fo mu la b A n F0 PV HN LM) as [T B].
    destruct (static_total (V:=V) (W:=W) pb ic id g PO bt None PR answer fi fo cls mu la m0 LD EL M L Logic.I CM AE AD ID) as (d & HS & H).
    exists d. split; [exact HS|]. intros u0. destruct (H u0) as (d' & s & R & _ & _ & UQ). exists d', s. split; [exact R|].
    apply veq_affine. apply UQ. split; auto.
  Qed.

  Lemma patch_direct linsolve fi fo cls mu la (m0 : store V) b A n :
    loaded pb 2 fi fo -> elastic (pr_material pb) = Some (mu, la) -> 0 < mu -> 0 <= la -> clamped_mesh pb id ->
    (forall n A r x, linsolve n A r = Ok x -> solves n A r x) -> (forall n A r, pos_def n A -> exists x, linsolve n A r = Ok x) ->
    (forall g, iterate_variables cls g = None) ->
    (forall p k, (k < 2)%nat -> fi p 0 k = 0) -> prescribes pb id 2 g (fun p => affine_at 2 b A (coord2 p)) ->
    outer_normals 2 (user_points pb) (pr_elements pb) n -> user_match pb ic id 2 (fun f => traction 2 (stress 2 mu la A) (n f)) (fun p => fo p 0) ->
    exists d : driver V (method forces), step_solver pb bt StaticDisplacement m0 = Ok d /\ forall u0, exists d' (s : state W),
      static_solve (b_dimension (bt_body bt)) (b_count (bt_body bt)) (start_positions bt)
        (MethodModel.iterate (integrate_forces (bt_mesh bt) (bt_basic bt)) (bt_body bt) StaticDisplacement cls) (direct_answer (bt_body bt) StaticDisplacement linsolve) u0 [] d = (d', Ok s) /\
      affine_values 2 N x b A (view_displacement (look (d_mem d') s)).
  Proof.
    intros LD EL M L CM LS LW ID F0 PV HN LM. destruct (affine_solution fi fo mu la b A n F0 PV HN LM) as [T B].
    destruct (static_direct_total (V:=V) (W:=W) pb ic id g PO bt None PR fi fo linsolve cls mu la m0 LD EL M L Logic.I CM LS LW ID) as (d & HS & H).
    exists d. split; [exact HS|]. intros u0. destruct (H u0) as (d' & s & R & _ & _ & UQ). exists d', s. split; [exact R|].
    apply veq_affine. apply UQ. split; auto.
  Qed.

  (* all of the boundary is fixed *)
  Lemma patch_closed answer fi fo cls mu la (m0 : store V) b A :
    loaded pb 2 fi fo -> elastic (pr_material pb) = Some (mu, la) -> 0 < mu -> 0 <= la -> clamped_mesh pb id ->
    answers_exactly (2 * N) answer -> answers_definite (2 * N) (2 * N) answer -> (forall g, iterate_variables cls g = None) ->
    (forall p k, (k < 2)%nat -> fi p 0 k = 0) -> prescribes pb id 2 g (fun p => affine_at 2 b A (coord2 p)) -> closed_problem pb id ->
    exists d : driver V (method forces), step_solver pb bt StaticDisplacement m0 = Ok d /\ forall u0, exists d' (s : state W),
      static_solve (b_dimension (bt_body bt)) (b_count (bt_body bt)) (start_positions bt)
        (MethodModel.iterate (integrate_forces (bt_mesh bt) (bt_basic bt)) (bt_body bt) StaticDisplacement cls) answer u0 [] d = (d', Ok s) /\
      affine_values 2 N x b A (view_displacement (look (d_mem d') s)).
  Proof.
    intros LD EL M L CM AE AD ID F0 PV CL. destruct (user_normals pb ic id g PO) as (n & HN).
    apply (patch_static answer fi fo cls mu la m0 b A n); auto. apply closed_match; auto.
  Qed.

  Lemma patch_poisson answer fi fo cls c full (m0 : store V) b A n :
    heated pb fi fo -> membrane (pr_material pb) = Some c -> c <> 0 -> grounded_mesh pb id ->
    answers_exactly N answer -> answers_definite N full answer -> (forall g, iterate_variables cls g = None) ->
    (forall p, fi p 0 0%nat = 0) -> prescribes pb id 1 g (fun p _ => b + dot 2 A (coord2 p)) ->
    outer_normals 2 (user_points pb) (pr_elements pb) n -> user_match pb ic id 1 (fun f _ => c ^ 2 * dot 2 A (n f)) (fun p => fo p 0) ->
    exists d : driver V (method forces), step_solver pb bt StaticPoisson m0 = Ok d /\ exists d' (s : state W) cell,
      poisson_solve (start_positions bt)
        (MethodModel.iterate (integrate_forces (bt_mesh bt) (bt_basic bt)) (bt_body bt) StaticPoisson cls) answer d = (d', Ok s) /\ extra s = Thermal cell /\
      forall i, (i < N)%nat -> StateModel.load (d_mem d') cell i = b + dot 2 A (x i).
  Proof.
    intros HT ME C0 GM AE AD ID F0 PV HN LM. destruct (prepared_ready pb ic id g PO bt None PR) as (ops & RD).
    destruct (poisson_total (V:=V) (W:=W) pb ic id g PO bt None PR answer fi fo cls c full m0 HT ME C0 Logic.I GM AE AD ID) as (d & HS & d' & s & cell & R & X & _ & _ & UQ).
    exists d. split; [exact HS|]. exists d', s, cell. split; [exact R|]. split; [exact X|]. intros i Hi. symmetry.
    apply (UQ (fun i => b + dot 2 A (x i))); [|exact Hi]. split.
    - apply (user_takes pb ic id g PO bt None ops RD 1 (fun p _ => b + dot 2 A (coord2 p))); auto.
      intros k j p Hk Hp. assert (k = 0%nat) by lia. subst k. cbn. unfold x, node_table, m. rewrite (nth_error_nth _ _ _ Hp). reflexivity.
    - apply (user_rests pb ic id g PO bt None ops RD TS c _ _ n b A); auto.
  Qed.
End Runs.
