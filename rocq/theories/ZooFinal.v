(* The statements about the solids of the library. *)
From Coq Require Import Reals List Arith ZArith Bool String Permutation Lia Lra.
From Verif Require Import Common PyModel RVec LinAlg MeshModel MeshBuildModel MeshSpec MeshTotalProofs DirichletModel DirichletSpec
  FemModel FemSpec FemPipelineProofs FemFinalProofs FemBuildProofs StatementModel StatementSpec StatementLawProofs StatementMeshProofs
  CrossModel CrossSpec CrossBuiltProofs SolidSpec SolidProofs ZooModel ZooSpec ZooCheck ZooProofs ZooBuilt ZooTwist.
Import ListNotations.
Local Open Scope string_scope.
Local Open Scope list_scope.
Local Open Scope R_scope.

Lemma ball_nonempty : ball_elements <> [].
Proof. discriminate. Qed.

Lemma placed_unique nodes pos v v' : placed_by nodes pos v -> placed_by nodes pos v' -> forall c, (c < 3)%nat -> v c = v' c.
Proof.
  intros [[-> Z]|(p & -> & _ & L)] [[E Z']|(p' & E & _ & L')] c Hc; try discriminate.
  - rewrite Z, Z'; auto.
  - injection E as <-. pose proof (lowest_unique _ _ _ _ (L c Hc) (L' c Hc)). lra.
Qed.

Lemma placed_once : forall nodes els pos, solid_grid nodes els -> els <> [] ->
  (pos = None \/ exists p, pos = Some p /\ List.length p = 3%nat) ->
  exists v, placed_by nodes pos v /\ forall v', placed_by nodes pos v' -> forall c, (c < 3)%nat -> v c = v' c.
Proof.
  intros nodes els pos G NE H. destruct (placed_exists nodes pos (solid_rows _ _ G) (solid_nonempty _ _ G NE) H) as (v & Hv).
  exists v. split; [exact Hv|]. intros v' Hv'. exact (placed_unique nodes pos v v' Hv Hv').
Qed.

Lemma semidefinite_3d : forall N nodes els mp density ops, tetrahedra N nodes els ->
  reinitialize_matrices N nodes els mp density = Ok ops ->
  (forall mu la E, elastic mp = Some (mu, la) -> 0 <= la <= mu -> elasticity ops = Some E -> pos_semidef (3 * N) E) /\
  (forall th ze C, viscous mp = Some (th, ze) -> 0 <= ze <= th -> viscosity ops = Some C -> pos_semidef (3 * N) C).
Proof.
  intros N nodes els mp density ops HT HO. split.
  - intros mu la E HE HM EE. exact (semidef3 N nodes els mu la E HT (elastic3_form N nodes els mp density ops HT HO mu la E HE EE) HM).
  - intros th ze C HV HM CC. exact (semidef3 N nodes els th ze C HT (viscous3_form N nodes els mp density ops HT HO th ze C HV CC) HM).
Qed.

(* the lowest corner of the placed mesh *)
Lemma placed_lowest nodes els pos v (d : @Description (list R) vec) (m : @MeshData (list R) vec) ic id p : solid_grid nodes els -> els <> [] -> placed_by nodes pos v -> pos = Some p ->
  dict_get (indicators d) "contact" = Some ic -> dict_get (indicators d) "dirichlet" = Some id ->
  solid_mesh (nodes, els) pos d = Ok m -> forall c, (c < 3)%nat -> lowest (m_nodes m) c (nth c p 0).
Proof.
  intros G NE HP E HC HD HB c Hc.
  destruct (built_solid nodes els G NE pos v HP d m ic id HC HD HB) as (_ & _ & _ & _ & R).
  destruct HP as [[E' _]|(p' & E' & _ & Low)]; [congruence|]. assert (p' = p) by congruence. subst p'.
  destruct (Low c Hc) as [(q & Hq & Eq) Min]. split.
  - eexists. split; [apply R; exists q; split; [exact Hq|reflexivity]|].
    destruct c as [|[|[|c]]]; [| | |lia]; cbn [nth]; lra.
  - intros r Hr. apply R in Hr. destruct Hr as (q' & Hq' & ->). pose proof (Min q' Hq').
    destruct c as [|[|[|c]]]; [| | |lia]; cbn [nth]; lra.
Qed.

Section Bottom.
  Variables (pos : option (list R)) (v : vec).
  Hypothesis HP : placed_by cube_nodes pos v.
  Variables (d : @Description (list R) vec) (id : list R -> bool) (f : list (list R) -> vec) (mp : properties) (mu la : R).
  Hypothesis HC : exists c, dict_get (indicators d) "contact" = Some c.
  Hypothesis HD : dict_get (indicators d) "dirichlet" = Some id.
  Hypothesis Hf : dict_get (MeshBuildModel.conditions d) "dirichlet" = Some f.
  Hypothesis HK : forall name, In name (map fst (indicators d)) -> name <> "contact" -> name <> "dirichlet" ->
    (exists c, dict_get (MeshBuildModel.conditions d) name = Some c) /\ reserved name = false.
  (* the condition holds at the bottom only *)
  Hypothesis HI : forall r, id r = true -> nth 2 r 0 = v 2%nat.
  Hypothesis HE : elastic mp = Some (mu, la).
  Hypothesis HZ : piezo mp = None.

  Lemma bottom_made : exists m ops E conds, solid_mesh cube pos d = Ok m /\
    let N := List.length (m_nodes m) in
    reinitialize_matrices N (table_of (m_nodes m)) (m_elements m) mp None = Ok ops /\
    elasticity ops = Some E /\ mesh_conditions m 3 "dirichlet" = Ok conds /\ well_shaped (3 * N) conds /\ symmetric (3 * N) E.
  Proof.
    destruct HC as [ic HC']. pose proof (cube_solid _ _ cube_is_grid) as G.
    destruct (build_raw_moved cube_nodes cube_elements pos v (solid_rows _ _ G) (solid_nonempty _ _ G cube_nonempty) HP) as (nodes' & B & M).
    destruct (build_total mean_row3 [0; 0; 0] nodes' cube_elements d) as [m Em]; eauto.
    assert (HB : solid_mesh cube pos d = Ok m) by (unfold solid_mesh, cube; rewrite B; exact Em).
    destruct (built_solid cube_nodes cube_elements G cube_nonempty pos v HP d m ic id HC' HD HB) as (HN & HT & HU & _).
    destruct (built_from cube_nodes cube_elements G cube_nonempty pos v HP d m HB) as (nodes'' & M' & HB' & HR & _).
    destruct (DirichletMeshProofs.mesh_dirichlet mean_row3 [0; 0; 0] nodes'' cube_elements d m 4%nat ic id HR (solid_shape _ _ G) HC' HD HB' 3 f Hf)
      as (_ & _ & _ & _ & conds & _ & HM & HW & _).
    assert (NE' : m_elements m <> []).
    { intros E. assert (L : (0 < List.length (m_nodes m))%nat) by (rewrite HN; cbn; lia).
      destruct (HU 0%nat L) as (e & He & _). rewrite E in He. destruct He. }
    pose proof (dispatch_3d _ _ _ mp None HT NE') as DI. cbv beta iota in DI. rewrite HZ in DI. destruct DI as (ops & HO & PE & _).
    destruct (elasticity ops) as [E|] eqn:EE.
    2:{ destruct PE as [_ PE]. rewrite PE in HE by auto. discriminate. }
    exists m, ops, E, conds. split; auto. cbv zeta. split; auto. split; auto. split; auto. split; auto.
    exact (proj2 (elasticity3_all _ _ _ HT mu la E (elasticity3_is _ _ _ mp None ops HT HO mu la E HE EE))).
  Qed.

  Section On.
    Variables (m : @MeshData (list R) vec) (ops : operators) (E : mat) (conds : list condition).
    Hypothesis HB : solid_mesh cube pos d = Ok m.
    Let N := List.length (m_nodes m).
    Hypothesis HO : reinitialize_matrices N (table_of (m_nodes m)) (m_elements m) mp None = Ok ops.
    Hypothesis EE : elasticity ops = Some E.
    Hypothesis HM : mesh_conditions m 3 "dirichlet" = Ok conds.

    Lemma bottom_twist : exists x, (forall dof w, prescribed conds dof w -> x dof = 0) /\ qform (3 * N) E x = 6 * mu - 11 / 3 * la.
    Proof.
      destruct HC as [ic HC']. pose proof (cube_solid _ _ cube_is_grid) as G.
      destruct (built_solid cube_nodes cube_elements G cube_nonempty pos v HP d m ic id HC' HD HB) as (_ & HT & _).
      exists (fun i => twist (fun k => table_of (m_nodes m) (i mod N) k - v k) (i / N)%nat). split.
      - intros dof w. exact (twisted_bottom pos v HP d m ic id f conds HC' HD Hf HB HM (fun r _ => HI r) dof w).
      - exact (twisted_energy pos v HP d m ic id HC' HD HB mu la E (elastic3_form _ _ _ mp None ops HT HO mu la E HE EE)).
    Qed.

    Lemma bottom_slide : la = 0 -> exists x, (forall dof w, prescribed conds dof w -> x dof = 0) /\
      (exists i, (i < 3 * N)%nat /\ x i <> 0) /\ qform (3 * N) E x = 0.
    Proof.
      intros L0. destruct HC as [ic HC']. pose proof (cube_solid _ _ cube_is_grid) as G.
      destruct (built_solid cube_nodes cube_elements G cube_nonempty pos v HP d m ic id HC' HD HB) as (_ & HT & _ & _ & RW).
      destruct (built_from cube_nodes cube_elements G cube_nonempty pos v HP d m HB) as (nodes' & M & HB' & HR & _).
      exists (fun i => if (i <? N)%nat then table_of (m_nodes m) i 2%nat - v 2%nat else 0). split; [|split].
      - intros dof w Hp.
        destruct (built_prescribed mean_row3 [0; 0; 0] nodes' cube_elements d m 4%nat ic id f HR (solid_shape _ _ G) HC' HD Hf HB'
          conds dof w HM Hp) as (c & n & r & Hc & Hn & -> & Er & Ir). fold N.
        destruct (Nat.ltb_spec (c * N + n) N) as [H|H]; [|reflexivity]. fold N in Hn. assert (c = 0%nat) by nia. subst c. cbn [Nat.mul Nat.add].
        unfold table_of. rewrite (nth_error_nth _ _ _ Er). rewrite (HI r Ir). ring.
      - assert (T : In [0 + v 0%nat; 0 + v 1%nat; 1 + v 2%nat] (m_nodes m)).
        { apply RW. exists [0; 0; 1]. split; [|reflexivity]. apply (cube_points _ _ cube_is_grid). exists 0%nat, 0%nat, 2%nat. repeat split; try lia.
          cbn [INR]. f_equal; [lra|]. f_equal; [lra|]. f_equal. lra. }
        apply In_nth_error in T. destruct T as (n & Hn). assert (Ln : (n < N)%nat) by (apply nth_error_Some; congruence).
        exists n. split; [lia|]. destruct (Nat.ltb_spec n N); [|lia]. unfold table_of. rewrite (nth_error_nth _ _ _ Hn). cbn [nth]. lra.
      - apply (sliding_free N (table_of (m_nodes m)) (m_elements m) mu la E HT (elastic3_form _ _ _ mp None ops HT HO mu la E HE EE) (v 2%nat)); [exact L0|].
        intros i Hi. destruct (Nat.ltb_spec i N); [|lia]. destruct (Nat.ltb_spec (N + i) N); [lia|]. destruct (Nat.ltb_spec (2 * N + i) N); [lia|]. auto.
    Qed.
  End On.

  (* however large the load, the energy has no minimum *)
  Lemma bottom_bottomless : 18 * mu < 11 * la -> exists m ops E conds, solid_mesh cube pos d = Ok m /\
    let N := List.length (m_nodes m) in
    reinitialize_matrices N (table_of (m_nodes m)) (m_elements m) mp None = Ok ops /\
    elasticity ops = Some E /\ mesh_conditions m 3 "dirichlet" = Ok conds /\
    ~ definite_free (3 * N) conds E /\
    forall b u0 bound, exists u, (forall dof w, prescribed conds dof w -> u dof = u0 dof) /\
      qform (3 * N) E u / 2 - dot (3 * N) b u < bound.
  Proof.
    intros HL. destruct bottom_made as (m & ops & E & conds & HB & HO & EE & HM & HW & HS). exists m, ops, E, conds. split; auto. cbv zeta.
    split; auto. split; auto. split; auto.
    destruct (bottom_twist m ops E conds HB HO EE HM) as (x & X0 & XE).
    assert (NEG : qform (3 * List.length (m_nodes m)) E x < 0) by lra. split.
    - intros DF. assert (Z : 0 < qform (3 * List.length (m_nodes m)) E x); [|lra]. apply DF.
      + intros dof w Hp. eapply X0; eauto.
      + destruct (Classical_Prop.classic (exists i, (i < 3 * List.length (m_nodes m))%nat /\ x i <> 0)) as [|NO]; auto. exfalso.
        assert (Q : qform (3 * List.length (m_nodes m)) E x = 0); [|lra].
        rewrite (qform_ext _ _ x (fun _ => 0)).
        * rewrite qform_double. apply sum_0. intros i Hi. apply sum_0. intros; ring.
        * intros i Hi. destruct (Req_dec (x i) 0); auto. exfalso. apply NO. eauto.
    - intros b u0 bound. destruct (bottomless _ E b u0 x HS NEG bound) as (s & Hs). exists (fun i => u0 i + s * x i). split; auto.
      intros dof w Hp. rewrite (X0 dof w Hp). ring.
  Qed.
  Lemma bottom_slides : la = 0 -> exists m ops E conds, solid_mesh cube pos d = Ok m /\
    let N := List.length (m_nodes m) in
    reinitialize_matrices N (table_of (m_nodes m)) (m_elements m) mp None = Ok ops /\
    elasticity ops = Some E /\ mesh_conditions m 3 "dirichlet" = Ok conds /\
    ~ definite_free (3 * N) conds E.
  Proof.
    intros HL. destruct bottom_made as (m & ops & E & conds & HB & HO & EE & HM & HW & HS). exists m, ops, E, conds. split; auto. cbv zeta.
    split; auto. split; auto. split; auto.
    destruct (bottom_slide m ops E conds HB HO EE HM HL) as (x & X0 & XN & XE). intros DF.
    assert (Z : 0 < qform (3 * List.length (m_nodes m)) E x); [|lra]. apply DF; [exact X0|exact XN].
  Qed.
End Bottom.

(* ------------------------------------------------------------- a case *)

Definition bottom (r : list R) : bool := if Req_EM_T (nth 2 r 0) 0 then true else false.
Definition bottom_description : @Description (list R) vec :=
  make_description (fun _ _ => 0) [("dirichlet", (bottom, Some (fun _ _ => 0)))].
Definition soft (mu la : R) : properties :=
  {| mass_density := 1; elastic := Some (mu, la); viscous := None; thermal := None; piezo := None; membrane := None |}.

Lemma bottom_case : placed_by cube_nodes None (fun _ => 0) /\
  (exists c, dict_get (indicators bottom_description) "contact" = Some c) /\
  dict_get (indicators bottom_description) "dirichlet" = Some bottom /\
  (exists f, dict_get (MeshBuildModel.conditions bottom_description) "dirichlet" = Some f) /\
  (forall name, In name (map fst (indicators bottom_description)) -> name <> "contact" -> name <> "dirichlet" ->
    (exists c, dict_get (MeshBuildModel.conditions bottom_description) name = Some c) /\ reserved name = false) /\
  (forall r, bottom r = true -> nth 2 r 0 = 0).
Proof.
  split; [left; auto|]. split; [eexists; reflexivity|]. split; [reflexivity|]. split; [eexists; reflexivity|]. split.
  - intros name H A B. cbn in H. destruct H as [<-|[<-|[]]]; congruence.
  - intros r. unfold bottom. destruct (Req_EM_T (nth 2 r 0) 0); [auto|discriminate].
Qed.

(* the bottom contains a boundary face *)
Lemma bottom_face : boundary_face 4 cube_elements [0; 1; 3]%nat /\
  forall k, In k [0; 1; 3]%nat -> exists q, nth_error cube_nodes k = Some q /\ bottom [nth 0 q 0 + 0; nth 1 q 0 + 0; nth 2 q 0 + 0] = true.
Proof.
  split.
  - apply (cube_faces _ _ cube_is_grid). split; [|split; [reflexivity|split]].
    + repeat constructor.
    + exists [0; 1; 3; 9]%nat. split; [left; reflexivity|]. intros k [<-|[<-|[<-|[]]]]; cbn; auto.
    + exists 2%nat, 0. split; [lia|]. split; [left; reflexivity|]. intros k [<-|[<-|[<-|[]]]]; unfold table_of; cbn; lra.
  - assert (Z : 0 / 2 + 0 = 0) by lra. intros k [<-|[<-|[<-|[]]]]; eexists; (split; [reflexivity|]); unfold bottom; cbn; rewrite Z;
      destruct (Req_EM_T 0 0); congruence.
Qed.
