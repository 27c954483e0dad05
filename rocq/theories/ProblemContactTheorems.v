(* Runs of posed problems with contact: the solvers compute the solutions of the variational
   inequalities, they run, and the solutions are unique. *)
From Coq Require Import Reals List Arith ZArith Bool String Permutation Sorted Lia Lra FunctionalExtensionality Classical.
From Verif Require Import Common PyModel RVec LinAlg MeshModel MeshBuildModel MeshSpec ListLemmas MeshBuildProofs NormalsModel NormalsSpec NormalsProofs NormalsGeomProofs
  DofModel DofSpec DirichletModel DirichletSpec DirichletProofs DirichletMeshProofs
  FemModel FemSpec FemAssemblyProofs FemFormProofs FemBasicProofs FemMeshProofs FemBuildProofs FemOperatorProofs FemPipelineProofs FemFinalProofs FemKornProofs
  ForcesModel ForcesSpec ForcesProofs ForcesLoadProofs
  ContactModel ContactSpec ContactCostProofs ConstrainedSpec SchurModel SchurSpec
  StatementModel StatementSpec StatementProofs StatementValueProofs StatementLawProofs StatementCacheProofs StatementEnergyProofs
  RegistryModel StateModel StateLemmas CopyProofs TimeModel TimeSpec TimeProofs RunProofs HistoryProofs SolveProofs MarchProofs TimeTheorems MethodModel MethodProofs
  RunSpec WholeRunProofs RunTheorems RunTotal StatementMeshProofs CrossBuiltProofs
  OptimisationModel OptimisationProofs ContactRunSpec ContactRunProofs ContactRunTheorems
  ProblemModel ProblemSpec ProblemProofs ProblemReady ProblemTheorems ProblemUnique ProblemTotal ProblemContactModel ProblemContactSpec ProblemContactProofs.
Import ListNotations.
Local Open Scope string_scope.
Local Open Scope list_scope.
Local Open Scope R_scope.

Section Start.
  Context {V : Type}.
  (* a solver just made: fresh zero arrays *)
  Definition fresh {I} (dt : R) (d : driver V I) : Prop :=
    fit d /\ current_time (d_sv d) = 0 /\ dt_of d = dt /\ d_to_do d = 1%nat /\
    held_vec d t_vector = (fun _ => 0) /\ held_vec d p_vector = (fun _ => 0).

  Lemma new_fresh {I} (make : vectors -> R -> result I) dt (m0 m1 : store V) s :
    new_solver make dt m0 = (m1, Ok s) -> fresh dt (mkDriver m1 s 0 1) /\ exists x0, make x0 dt = Ok (inner s).
  Proof.
    intros H. unfold new_solver in H.
    repeat match type of H with context [let '(_, _) := alloc ?mm ?x in _] => unfold alloc at 1 in H; cbv beta iota in H end.
    match type of H with context [make ?xx ?dd] => set (x0 := xx) in H end.
    destruct (make x0 dt) as [i|e] eqn:E; [|discriminate]. injection H as <- <-.
    split; [|exists x0; exact E]. unfold fresh.
    split; [|split; [reflexivity|split; [reflexivity|split; [reflexivity|]]]].
    - unfold fit, solver_refs, room. cbn [d_sv d_mem cells b_vector u_vector v_vector t_vector p_vector].
      rewrite !app_length. cbn [List.length]. split.
      + repeat constructor; cbn [In]; lia.
      + repeat constructor; lia.
    - unfold held_vec, StateModel.load. cbn [d_sv d_mem cells t_vector p_vector].
      rewrite !app_length. cbn [List.length]. rewrite <- !app_assoc. cbn [app].
      split; rewrite app_nth2 by lia;
        [match goal with |- nth ?k _ _ = _ => replace k with 3%nat by lia end
        |match goal with |- nth ?k _ _ = _ => replace k with 4%nat by lia end]; reflexivity.
  Qed.

  Lemma new_total {I} (make : vectors -> R -> result I) dt (m0 : store V) : (forall x, exists i, make x dt = Ok i) ->
    exists m1 s, new_solver make dt m0 = (m1, Ok s).
  Proof.
    intros H. unfold new_solver.
    repeat match goal with |- context [let '(_, _) := alloc ?mm ?x in _] => unfold alloc at 1; cbv beta iota end.
    match goal with |- context [make ?xx ?dd] => destruct (H xx) as (i & ->) end. eauto.
  Qed.
End Start.

Section Runs.
  Context {V W : Type}.
  Variables (pb : problem) (ic id : P2 -> bool) (g : P2 -> R) (fi fo : P2 -> R -> vec) (k : kind) (th ze mu la : R) (law : contact_law).
  Hypothesis CP : contact_posed pb ic id g fi fo k th ze mu la law.
  Variables (bt : built) (density : option (nat -> R)).
  Hypothesis PR : prepared pb bt density.
  Hypothesis PD : positive_density density.
  Let m := bt_mesh bt.
  Let b := bt_body bt.
  Let N := List.length (m_nodes m).
  Let integrate := integrate_forces m (bt_basic bt).
  Let mesh := contact_of bt.
  Let dt := time_step_of pb.
  Notation look := (@look V W).
  Notation J := (contact_cost coord2 zero2 m law (contact_normals m (bt_normals bt)) dt).
  Notation step := (contact_step coord2 zero2 m density id g (mass_density (pr_material pb)) th ze mu la fi fo k).
  Notation loads := (nodal_load m (bt_basic bt) fi fo).
  Notation forceful := (answers m (pr_inner pb) (pr_outer pb) 2).
  Notation p ops := (physics_of N ops (fun _ => 0)).

  (* everything the theorems on runs with contact ask for *)
  Lemma posed_ready : exists ops conds, ready pb bt density ops /\ fixes id g bt conds /\ b_count b = N /\
    contact_setting integrate b k (p ops) loads forceful (fun _ => False) conds mesh law dt /\
    equipped b k (p ops) (fun _ _ _ => 0) forceful (fun _ => False) (bt_world bt) /\
    faces_apart b mesh conds /\ faces_split b mesh conds /\ (mesh_contact_count mesh <= b_count b)%nat.
  Proof.
    destruct CP as [PO LD ST FW CV SE WF]. destruct (prepared_ready pb ic id g PO bt density PR) as (ops & RD).
    destruct (posed_setting pb ic id g PO bt density ops RD fi fo k th ze mu la law dt PD LD ST FW CV) as (conds & HP & HS & EQ).
    exists ops, conds. split; [exact RD|]. split; [exact HP|]. split; [exact (proj1 (proj2 (body_is pb bt density ops RD)))|]. split; [exact HS|].
    split; [exact EQ|]. split; [exact (contact_apart pb ic id g PO bt density ops RD conds SE WF HP)|].
    split; [exact (contact_split pb ic id g PO bt density ops RD conds SE WF HP)|exact (contact_count pb ic id g PO bt density ops RD SE)].
  Qed.

  Variable minimise : route -> nat -> (arr -> result R) -> arr -> arr.
  Variables (name : string) (maxiter : option nat).
  Hypothesis HM : forall n, reliable (minimise (route_of name) n).
  Variable cls : solver_class.
  Notation global := (global_answer (F := forces) b k mesh law minimise name maxiter).
  Notation schur := (schur_answer (F := forces) b k mesh law minimise name maxiter false).
  Notation iterate := (MethodModel.iterate integrate b k cls).
  Notation iterate_schur := (schur_iterate integrate b k mesh cls).

  Section Global.
    Lemma global_new (m0 : store V) d : step_solver pb bt k m0 = Ok d ->
      fresh dt d /\ exists x0, setup integrate b k (bt_world bt) x0 dt = Ok (inner (d_sv d)).
    Proof.
      intros H. unfold step_solver in H. destruct (new_solver _ _ _) as [m1 [s|e]] eqn:E; [|discriminate]. injection H as <-.
      exact (new_fresh _ _ _ _ _ E).
    Qed.
    Lemma global_made (m0 : store V) : exists d, step_solver pb bt k m0 = Ok d.
    Proof.
      destruct posed_ready as (ops & conds & RD & HP & BC & HS & EQ & AP & SP & CN).
      destruct HS as (HB & HC & HW & HK & HMw & HF & SM & SC & SE & ST & KF & KH & Hdt & CV).
      assert (PK : plane_kind k).
      { destruct CP as [_ _ [_ SK] _ _ _ _]. destruct k; try contradiction; [left; reflexivity|right; exact I|right; exact I]. }
      destruct (new_total (V := V) (setup integrate b k (bt_world bt)) dt m0) as (m1 & s & E).
      { intros x. destruct (MethodProofs.setup_updated integrate b k _ _ _ _ _ KF KH conds HC HW (bt_world bt) x dt EQ (forward_steps k dt PK Hdt)) as (i & Ei & _). eauto. }
      unfold step_solver. fold m. fold b. fold integrate. fold dt. rewrite E. eauto.
    Qed.

    Lemma global_posed (m0 : store V) (d d' : driver V (method forces)) n u0 v0 out given (l : list (state W)) :
      velocity_kind k -> renews integrate b k cls ->
      step_solver pb bt k m0 = Ok d -> in_stock (d_mem d) given -> non_decreasing 0 (requested n out) ->
      dynamic_solve (b_dimension b) (b_count b) (start_positions bt) iterate global n u0 v0 out given d = (d', Ok l) ->
      exists u v, contact_motion dt J step u0 v0 (TimeTheorems.last_step n out) u v /\
        List.length l = List.length (requested n out) /\
        forall j q (s : state W), nth_error (requested n out) j = Some q -> nth_error l j = Some s ->
          shows dt u v (Z.to_nat q) (look (d_mem d') s).
    Proof.
      intros VK RN SV GV ND H. destruct posed_ready as (ops & conds & RD & HP & BC & HS & EQ & AP & SP & CN).
      destruct (global_new m0 d SV) as ((Ft & CT & DT & _) & x0 & SU).
      destruct (global_run integrate b k (p ops) loads (fun _ _ _ => 0) forceful (fun _ => False) conds mesh law minimise name maxiter cls (start_positions bt) dt
        HS HM AP n u0 v0 out given d d' l (bt_world bt) x0 VK RN Ft GV ND CT DT EQ SU H) as (u & v & G & LL & SH).
      exists u, v. split; [|split; [exact LL|exact SH]]. rewrite BC in G.
      apply (motion_governed pb ic id g (cp_posed _ _ _ _ _ _ _ _ _ _ _ _ CP) bt density ops RD fi fo conds k th ze mu la law dt) in G; auto. exact (cp_sturdy _ _ _ _ _ _ _ _ _ _ _ _ CP).
    Qed.

    Lemma global_goes n out : velocity_kind k -> renews integrate b k cls -> non_decreasing 0 (requested n out) -> n <> 0%nat ->
      forall m0, exists d : driver V (method forces), step_solver pb bt k m0 = Ok d /\ forall u0 v0, exists d' (l : list (state W)),
      dynamic_solve (b_dimension b) (b_count b) (start_positions bt) iterate global n u0 v0 out [] d = (d', Ok l).
    Proof.
      intros VK RN ND NZ m0. destruct posed_ready as (ops & conds & RD & HP & BC & HS & EQ & AP & SP & CN).
      destruct (global_made m0) as (d & SV). exists d. split; [exact SV|]. intros u0 v0.
      destruct (global_new m0 d SV) as ((Ft & CT & DT & _) & x0 & SU).
      exact (global_total integrate b k (p ops) loads (fun _ _ _ => 0) forceful (fun _ => False) conds mesh law minimise name maxiter cls (start_positions bt) dt
        HS HM AP n u0 v0 out d (bt_world bt) x0 VK RN Ft ND NZ DT EQ SU).
    Qed.

    Lemma global_static_posed (m0 : store V) (d d' : driver V (method forces)) u0 given (s : state W) :
      k = StaticDisplacement -> (forall q, iterate_variables cls q = None) ->
      step_solver pb bt k m0 = Ok d -> in_stock (d_mem d) given ->
      static_solve (b_dimension b) (b_count b) (start_positions bt) iterate global u0 given d = (d', Ok s) ->
      leans coord2 zero2 m density id g mu la (fun p => fi p 0) (fun p => fo p 0) (J u0) (view_displacement (look (d_mem d') s)).
    Proof.
      intros K ID SV GV H. destruct posed_ready as (ops & conds & RD & HP & BC & HS & EQ & AP & SP & CN).
      destruct (global_new m0 d SV) as ((Ft & CT & DT & _) & x0 & SU).
      pose proof (global_static integrate b k (p ops) loads (fun _ _ _ => 0) forceful (fun _ => False) conds mesh law minimise name maxiter cls (start_positions bt) dt
        HS HM AP u0 given d d' s (bt_world bt) x0 K (or_intror ID) Ft GV DT EQ SU H) as G.
      rewrite BC in G.
      apply (static_inequality pb ic id g (cp_posed _ _ _ _ _ _ _ _ _ _ _ _ CP) bt density ops RD fi fo conds mu la _ _ HP (proj1 (cp_sturdy _ _ _ _ _ _ _ _ _ _ _ _ CP))) in G.
      replace (J u0) with (run_contact b mesh law dt u0); [exact G|].
      apply functional_extensionality. intros z. exact (run_cost pb bt density ops RD law dt u0 z).
    Qed.

    Lemma global_static_goes : k = StaticDisplacement -> (forall q, iterate_variables cls q = None) ->
      forall m0, exists d : driver V (method forces), step_solver pb bt k m0 = Ok d /\ forall u0, exists d' (s : state W),
      static_solve (b_dimension b) (b_count b) (start_positions bt) iterate global u0 [] d = (d', Ok s).
    Proof.
      intros K ID m0. destruct posed_ready as (ops & conds & RD & HP & BC & HS & EQ & AP & SP & CN).
      destruct (global_made m0) as (d & SV). exists d. split; [exact SV|]. intros u0.
      destruct (global_new m0 d SV) as ((Ft & CT & DT & TD & _) & x0 & SU).
      refine (global_static_total integrate b k (p ops) loads (fun _ _ _ => 0) forceful (fun _ => False) conds mesh law minimise name maxiter cls (start_positions bt) dt
        HS HM AP u0 d (bt_world bt) x0 K (or_intror ID) Ft _ DT EQ SU). rewrite TD. discriminate.
    Qed.
  End Global.

  Section Schur.
    Variable inv : nat -> mat -> result mat.
    Hypothesis HI : inverts inv.

    Lemma schur_new (m0 : store V) d : schur_step_solver pb bt k inv m0 = Ok d ->
      fresh dt d /\ exists x0, schur_setup integrate b k mesh inv (bt_world bt) x0 dt = Ok (inner (d_sv d)).
    Proof.
      intros H. unfold schur_step_solver in H. destruct (new_solver _ _ _) as [m1 [s|e]] eqn:E; [|discriminate]. injection H as <-.
      exact (new_fresh _ _ _ _ _ E).
    Qed.
    Lemma schur_made (m0 : store V) : exists d, schur_step_solver pb bt k inv m0 = Ok d.
    Proof.
      destruct posed_ready as (ops & conds & RD & HP & BC & HS & EQ & AP & SP & CN).
      destruct HS as (HB & HC & HW & HK & HMw & HF & SM & SC & SE & ST & KF & KH & Hdt & CV).
      assert (PK : plane_kind k).
      { destruct CP as [_ _ [_ SK] _ _ _ _]. destruct k; try contradiction; [left; reflexivity|right; exact I|right; exact I]. }
      set (nf := (b_count b - mesh_contact_count mesh)%nat). assert (HN : b_count b = (mesh_contact_count mesh + nf)%nat) by (unfold nf; lia).
      destruct (new_total (V := V) (schur_setup integrate b k mesh inv (bt_world bt)) dt m0) as (m1 & s & E).
      { intros x. destruct (schur_setup_updated integrate b k (p ops) loads (fun _ _ _ => 0) forceful (fun _ => False) conds mesh HB PK HC HW HMw ST inv HI nf HN KF KH
          (bt_world bt) x dt EQ Hdt) as (i & Ei & _). eauto. }
      unfold schur_step_solver. fold m. fold b. fold integrate. fold mesh. fold dt. rewrite E. eauto.
    Qed.

    Lemma schur_posed (m0 : store V) (d d' : driver V (schur_method forces)) n u0 v0 out given (l : list (state W)) :
      velocity_kind k -> renews integrate b k cls -> schur_class cls ->
      schur_step_solver pb bt k inv m0 = Ok d -> in_stock (d_mem d) given -> non_decreasing 0 (requested n out) ->
      dynamic_solve (b_dimension b) (b_count b) (start_positions bt) iterate_schur schur n u0 v0 out given d = (d', Ok l) ->
      exists u v, contact_motion dt J step u0 v0 (TimeTheorems.last_step n out) u v /\
        List.length l = List.length (requested n out) /\
        forall j q (s : state W), nth_error (requested n out) j = Some q -> nth_error l j = Some s ->
          shows dt u v (Z.to_nat q) (look (d_mem d') s).
    Proof.
      intros VK RN SC SV GV ND H. destruct posed_ready as (ops & conds & RD & HP & BC & HS & EQ & AP & SP & CN).
      destruct (schur_new m0 d SV) as ((Ft & CT & DT & _) & x0 & SU).
      destruct (schur_run integrate b k (p ops) loads (fun _ _ _ => 0) forceful (fun _ => False) conds mesh law minimise name maxiter cls (start_positions bt) dt
        HS HM inv HI SP CN n u0 v0 out given d d' l (bt_world bt) x0 VK RN SC (or_intror AP) Ft GV ND CT DT EQ SU H) as (u & v & G & LL & SH).
      exists u, v. split; [|split; [exact LL|exact SH]]. rewrite BC in G.
      apply (motion_governed pb ic id g (cp_posed _ _ _ _ _ _ _ _ _ _ _ _ CP) bt density ops RD fi fo conds k th ze mu la law dt) in G; auto. exact (cp_sturdy _ _ _ _ _ _ _ _ _ _ _ _ CP).
    Qed.

    Lemma schur_goes n out : velocity_kind k -> renews integrate b k cls -> schur_class cls -> non_decreasing 0 (requested n out) -> n <> 0%nat ->
      forall m0, exists d : driver V (schur_method forces), schur_step_solver pb bt k inv m0 = Ok d /\ forall u0 v0, exists d' (l : list (state W)),
      dynamic_solve (b_dimension b) (b_count b) (start_positions bt) iterate_schur schur n u0 v0 out [] d = (d', Ok l).
    Proof.
      intros VK RN SC ND NZ m0. destruct posed_ready as (ops & conds & RD & HP & BC & HS & EQ & AP & SP & CN).
      destruct (schur_made m0) as (d & SV). exists d. split; [exact SV|]. intros u0 v0.
      destruct (schur_new m0 d SV) as ((Ft & CT & DT & _) & x0 & SU).
      exact (schur_total integrate b k (p ops) loads (fun _ _ _ => 0) forceful (fun _ => False) conds mesh law minimise name maxiter cls (start_positions bt) dt
        HS HM inv HI SP CN n u0 v0 out d (bt_world bt) x0 VK RN SC AP Ft ND NZ DT EQ SU).
    Qed.

    Lemma schur_static_posed (m0 : store V) (d d' : driver V (schur_method forces)) u0 given (s : state W) :
      k = StaticDisplacement -> cls = StaticSchur ->
      schur_step_solver pb bt k inv m0 = Ok d -> in_stock (d_mem d) given ->
      static_solve (b_dimension b) (b_count b) (start_positions bt) iterate_schur schur u0 given d = (d', Ok s) ->
      leans coord2 zero2 m density id g mu la (fun p => fi p 0) (fun p => fo p 0) (J u0) (view_displacement (look (d_mem d') s)).
    Proof.
      intros K ID SV GV H. destruct posed_ready as (ops & conds & RD & HP & BC & HS & EQ & AP & SP & CN).
      destruct (schur_new m0 d SV) as ((Ft & CT & DT & _) & x0 & SU).
      pose proof (schur_static integrate b k (p ops) loads (fun _ _ _ => 0) forceful (fun _ => False) conds mesh law minimise name maxiter cls (start_positions bt) dt
        HS HM inv HI SP CN u0 given d d' s (bt_world bt) x0 K ID (or_intror AP) Ft GV DT EQ SU H) as G.
      rewrite BC in G.
      apply (static_inequality pb ic id g (cp_posed _ _ _ _ _ _ _ _ _ _ _ _ CP) bt density ops RD fi fo conds mu la _ _ HP (proj1 (cp_sturdy _ _ _ _ _ _ _ _ _ _ _ _ CP))) in G.
      replace (J u0) with (run_contact b mesh law dt u0); [exact G|].
      apply functional_extensionality. intros z. exact (run_cost pb bt density ops RD law dt u0 z).
    Qed.

    Lemma schur_static_goes : k = StaticDisplacement -> cls = StaticSchur ->
      forall m0, exists d : driver V (schur_method forces), schur_step_solver pb bt k inv m0 = Ok d /\ forall u0, exists d' (s : state W),
      static_solve (b_dimension b) (b_count b) (start_positions bt) iterate_schur schur u0 [] d = (d', Ok s).
    Proof.
      intros K ID m0. destruct posed_ready as (ops & conds & RD & HP & BC & HS & EQ & AP & SP & CN).
      destruct (schur_made m0) as (d & SV). exists d. split; [exact SV|]. intros u0.
      destruct (schur_new m0 d SV) as ((Ft & CT & DT & TD & _) & x0 & SU).
      refine (schur_static_total integrate b k (p ops) loads (fun _ _ _ => 0) forceful (fun _ => False) conds mesh law minimise name maxiter cls (start_positions bt) dt
        HS HM inv HI SP CN u0 d (bt_world bt) x0 K ID AP Ft _ DT EQ SU). rewrite TD. discriminate.
    Qed.
  End Schur.
End Runs.

(* ------------------------------------------------------------ uniqueness and energy *)

Lemma finite_choice {B : Type} (Q : nat -> B -> Prop) n : (forall i, exists x, Q i x) -> exists f, forall i, (i <= n)%nat -> Q i (f i).
Proof.
  intros H. induction n as [|n (f & IH)].
  - destruct (H 0%nat) as [x Hx]. exists (fun _ => x). intros i Hi. replace i with 0%nat by lia. exact Hx.
  - destruct (H (S n)) as [x Hx]. exists (fun i => if (i =? S n)%nat then x else f i). intros i Hi.
    destruct (i =? S n)%nat eqn:E; [apply Nat.eqb_eq in E; subst; exact Hx|]. apply Nat.eqb_neq in E. apply IH. lia.
Qed.

Lemma no_load {V} (m : @MeshData P2 V) width f h v : (forall q c, f q c = 0) -> (forall q c, h q c = 0) -> load_work coord2 zero2 m width f h v = 0.
Proof.
  intros F H. unfold load_work, volume_work, surface_work. rewrite !sum_0; [ring| |]; intros k _.
  - unfold face_integral. apply lsum_0. intros e _. rewrite (lsum_0 e); [unfold Rdiv; ring|]. intros. unfold at_nodes. rewrite H. ring.
  - unfold integral. apply lsum_0. intros e _. unfold cross_mean, at_nodes.
    rewrite (sum_0 3 (fun i => f _ k)), (sum_0 3 (fun i => _ * f _ k)); [unfold Rdiv; ring| |]; intros i _; rewrite F; ring.
Qed.

Section Law.
  Variables (pb : problem) (ic id : P2 -> bool) (g : P2 -> R) (fi fo : P2 -> R -> vec) (k : kind) (th ze mu la : R) (law : contact_law).
  Hypothesis CP : contact_posed pb ic id g fi fo k th ze mu la law.
  Variables (bt : built) (density : option (nat -> R)).
  Hypothesis PR : prepared pb bt density.
  Hypothesis PD : positive_density density.
  Let m := bt_mesh bt.
  Let b := bt_body bt.
  Let N := List.length (m_nodes m).
  Let dt := time_step_of pb.
  Notation J := (contact_cost coord2 zero2 m law (contact_normals m (bt_normals bt)) dt).
  Notation step := (contact_step coord2 zero2 m density id g (mass_density (pr_material pb)) th ze mu la fi fo k).
  Notation rho := (mass_density (pr_material pb)).
  Notation no := (fun _ : nat => 0).

  Lemma contact_motion_unique u0 v0 n u v u' v' : velocity_kind k ->
    contact_motion dt J step u0 v0 n u v -> contact_motion dt J step u0 v0 n u' v' ->
    forall j, (j <= n)%nat -> veq (2 * N) (u j) (u' j) /\ veq (2 * N) (v j) (v' j).
  Proof.
    intros VK G G'. destruct (posed_ready pb ic id g fi fo k th ze mu la law CP bt density PR PD) as (ops & conds & RD & HP & BC & HS & EQ & AP & SP & CN).
    pose proof (cp_sturdy _ _ _ _ _ _ _ _ _ _ _ _ CP) as SK. pose proof (cp_posed _ _ _ _ _ _ _ _ _ _ _ _ CP) as PO.
    apply (motion_governed pb ic id g PO bt density ops RD fi fo conds k th ze mu la law dt no no no) in G; auto.
    apply (motion_governed pb ic id g PO bt density ops RD fi fo conds k th ze mu la law dt no no no) in G'; auto.
    destruct HS as (HB & HC & HW & HK & HMw & HF & SM & SC & SE & ST & KF & KH & Hdt & CV).
    fold m in BC. fold b in BC. fold N in BC. fold m in G, G'. fold N in G, G'. fold b in ST, HF.
    assert (B2 : (2 * N = 2 * b_count b)%nat) by (rewrite BC; ring). rewrite B2 in G, G' |- *.
    refine (run_unique b k _ _ _ conds (contact_of bt) law dt no no no VK _ (Hdt VK) u0 v0 n u v u' v' ST HF G G').
    exact B2.
  Qed.

  Lemma contact_static_unique J0 u u' : k = StaticDisplacement ->
    leans coord2 zero2 m density id g mu la (fun p => fi p 0) (fun p => fo p 0) J0 u ->
    leans coord2 zero2 m density id g mu la (fun p => fi p 0) (fun p => fo p 0) J0 u' -> veq (2 * N) u u'.
  Proof.
    intros K G G'. destruct (posed_ready pb ic id g fi fo k th ze mu la law CP bt density PR PD) as (ops & conds & RD & HP & BC & HS & EQ & AP & SP & CN).
    pose proof (cp_sturdy _ _ _ _ _ _ _ _ _ _ _ _ CP) as [EL _]. pose proof (cp_posed _ _ _ _ _ _ _ _ _ _ _ _ CP) as PO.
    apply (static_inequality pb ic id g PO bt density ops RD fi fo conds mu la J0 u HP EL) in G.
    apply (static_inequality pb ic id g PO bt density ops RD fi fo conds mu la J0 u' HP EL) in G'.
    destruct HS as (HB & HC & HW & HK & HMw & HF & SM & SC & SE & ST & KF & KH & Hdt & CV).
    rewrite K in ST. cbn [stable_kind ph_n stiffness physics_of] in ST. fold m in G, G'. fold N in G, G'.
    destruct G as [A B]. destruct G' as [A' B']. specialize (B u' A'). specialize (B' u A).
    set (E := some_mat (elasticity ops)) in *. set (z := fun i => u i - u' i).
    assert (Q : dot (2 * N) (fun i => mv (2 * N) E u i - nodal_load m (bt_basic bt) fi fo 0 i) (fun i => u' i - u i)
      + dot (2 * N) (fun i => mv (2 * N) E u' i - nodal_load m (bt_basic bt) fi fo 0 i) (fun i => u i - u' i) = - qform (2 * N) E z).
    { rewrite <- form_q, <- (form_difference (2 * N) E u u' z z (fun i _ => eq_refl)). unfold dot.
      rewrite <- sum_plus, <- sum_minus, <- sum_opp. apply sum_ext. intros i _. unfold z. ring. }
    intros i Hi. destruct (Req_dec (u i) (u' i)) as [|Ne]; [assumption|exfalso].
    assert (0 < qform (2 * N) E z); [|lra]. apply ST.
    - intros d v Hv. unfold z. rewrite (A d v Hv), (A' d v Hv). ring.
    - exists i. split; [exact Hi|]. unfold z. lra.
  Qed.

  Lemma kinetic_form ops v : ready pb bt density ops ->
    kinetic coord2 zero2 m k rho v = qform (2 * N) (inertia k (physics_of N ops no)) v / 2.
  Proof.
    intros RD. pose proof (cp_posed _ _ _ _ _ _ _ _ _ _ _ _ CP) as PO. unfold kinetic, inertia.
    assert (Z : 0 = qform (2 * N) (fun _ _ => 0) v / 2).
    { unfold Rdiv. rewrite <- form_q, sum_0; [ring|]. intros i _. unfold mv. rewrite sum_0 by (intros; ring). ring. }
    destruct (cp_sturdy _ _ _ _ _ _ _ _ _ _ _ _ CP) as [_ SK]. destruct k; try contradiction; auto.
    cbn [mass physics_of]. f_equal. exact (mass_form pb ic id g PO bt density ops RD v v).
  Qed.

  (* energy and losses of a motion are covered by the work of the loads *)
  Lemma contact_motion_work u0 v0 n u v (Gu Gv : nat -> nat -> list nat -> vec) : velocity_kind k -> (forall q, id q = true -> g q = 0) ->
    contact_motion dt J step u0 v0 n u v ->
    (forall j, (j <= n)%nat -> gradients coord2 zero2 m (u j) (Gu j) /\ gradients coord2 zero2 m (v j) (Gv j)) ->
    forall j q, (j <= q <= n)%nat ->
    kinetic coord2 zero2 m k rho (v q) + stored coord2 zero2 m density mu la (Gu q)
      + dt * sum (q - j) (fun i => stress_work coord2 zero2 m density th ze (Gv (S (j + i))) (Gv (S (j + i))))
      + dt * sum (q - j) (fun i => J (u (j + i)%nat) (v (S (j + i))) - J (u (j + i)%nat) (fun _ => 0))
    <= kinetic coord2 zero2 m k rho (v j) + stored coord2 zero2 m density mu la (Gu j)
      + dt * sum (q - j) (fun i => load_work coord2 zero2 m 2 (fun p => fi p (INR (j + i) * dt)) (fun p => fo p (INR (j + i) * dt)) (v (S (j + i)))).
  Proof.
    intros VK G0 G HG j q Hq. destruct (posed_ready pb ic id g fi fo k th ze mu la law CP bt density PR PD) as (ops & conds & RD & HP & BC & HS & EQ & AP & SP & CN).
    pose proof (cp_sturdy _ _ _ _ _ _ _ _ _ _ _ _ CP) as SK. pose proof (cp_posed _ _ _ _ _ _ _ _ _ _ _ _ CP) as PO.
    apply (motion_governed pb ic id g PO bt density ops RD fi fo conds k th ze mu la law dt no no no) in G; auto.
    destruct HS as (HB & HC & HW & HK & HMw & HF & SM & SC & SE & ST & KF & KH & Hdt & CV).
    fold m in BC. fold b in BC. fold N in BC. fold m in G. fold N in G.
    pose proof SK as [EL SK'].
    assert (VI : viscous (pr_material pb) = Some (th, ze)) by (destruct k; try contradiction; apply SK').
    set (p := physics_of N ops no) in *.
    assert (PE : pos_semidef (2 * N) (some_mat (elasticity ops))).
    { apply (elastic_psd pb ic id g PO bt density ops RD PD mu la EL); destruct k; try contradiction; apply SK'. }
    assert (PM : pos_semidef (2 * N) (inertia k p)).
    { unfold inertia. assert (Z : pos_semidef (2 * N) (fun _ _ : nat => 0)).
      { intros x. right. symmetry. apply sum_0. intros i _. unfold mv. rewrite sum_0 by (intros; ring). ring. }
      destruct k; try contradiction; auto. unfold p. cbn [mass physics_of]. destruct SK' as (_ & _ & _ & _ & _ & RM).
      intros x. destruct (classic (exists i, (i < 2 * N)%nat /\ x i <> 0)) as [X|X].
      - left. apply (proj1 (mass_definite pb ic id g PO bt density ops RD [] RM)); [|exact X]. intros d w H. exfalso. destruct H as (sl & c & s & q' & [] & _).
      - right. symmetry. apply sum_0. intros i Hi. destruct (Req_dec (x i) 0) as [->|Ne]; [ring|]. exfalso. apply X. eauto. }
    assert (HO : homogeneous conds).
    { intros d w Hw. apply HP in Hw. destruct Hw as (i & c & r & (_ & r' & Hr' & Ir) & _ & Hr & _ & ->). rewrite Hr in Hr'. injection Hr' as <-. exact (G0 r Ir). }
    assert (SI : symmetric (2 * N) (inertia k p)) by (apply (inertia_symmetric k p); exact SM).
    assert (HL : forall y w t x i, run_forces k p (nodal_load m (bt_basic bt) fi fo) (fun _ _ _ => 0) no no no dt y w t x i =
      mv (2 * N) (inertia k p) (fun j => (x j - w j) / dt) i + mv (2 * N) (some_mat (viscosity ops)) x i
      + mv (2 * N) (some_mat (elasticity ops)) (fun j => y j + dt * x j) i - nodal_load m (bt_basic bt) fi fo t i).
    { intros y w t x i. rewrite (run_forces_form k p _ _ dt no no no VK). unfold run_loads, p. cbn [ph_n damping stiffness physics_of].
      destruct k; try contradiction; ring. }
    pose proof (contact_work (2 * N) (prescribed conds) (inertia k p) (some_mat (viscosity ops)) (some_mat (elasticity ops)) dt (Hdt VK)
      (nodal_load m (bt_basic bt) fi fo) _ (run_contact b (contact_of bt) law dt) HL SI SE PM PE HO u0 v0 n u v G j q Hq) as X.
    assert (EJ : run_contact b (contact_of bt) law dt = J).
    { apply functional_extensionality. intros y. apply functional_extensionality. intros z. exact (run_cost pb bt density ops RD law dt y z). }
    rewrite EJ in X.
    assert (EN : forall i, (i <= n)%nat -> energy (2 * N) (inertia k p) (some_mat (elasticity ops)) (u i) (v i)
      = kinetic coord2 zero2 m k rho (v i) + stored coord2 zero2 m density mu la (Gu i)).
    { intros i Hi. unfold energy. rewrite (kinetic_form ops (v i) RD). unfold stored. f_equal.
      unfold m. rewrite (elastic_form pb ic id g PO bt density ops RD mu la (u i) (u i) (Gu i) (Gu i) EL (proj1 (HG i Hi)) (proj1 (HG i Hi))). reflexivity. }
    rewrite !EN in X by lia.
    rewrite (sum_ext (q - j) (fun i => qform (2 * N) (some_mat (viscosity ops)) (v (S (j + i))))
      (fun i => stress_work coord2 zero2 m density th ze (Gv (S (j + i))) (Gv (S (j + i))))) in X.
    2:{ intros i Hi. symmetry. apply (viscous_form pb ic id g PO bt density ops RD th ze (v (S (j + i))) (v (S (j + i))) _ _ VI); apply HG; lia. }
    rewrite (sum_ext (q - j) (fun i => dot (2 * N) (v (S (j + i))) (nodal_load m (bt_basic bt) fi fo (INR (j + i) * dt)))
      (fun i => load_work coord2 zero2 m 2 (fun p => fi p (INR (j + i) * dt)) (fun p => fo p (INR (j + i) * dt)) (v (S (j + i))))) in X.
    2:{ intros i Hi. apply (loads_work pb ic id g PO bt density ops RD 2 fi fo (INR (j + i) * dt) (v (S (j + i)))). }
    exact X.
  Qed.

  (* without loads, and with a contact that does not push, energy never grows *)
  Lemma contact_motion_decay u0 v0 n u v (Gu : nat -> nat -> list nat -> vec) : velocity_kind k -> (forall q, id q = true -> g q = 0) ->
    (forall q t c, fi q t c = 0 /\ fo q t c = 0) -> resisting_law law dt ->
    contact_motion dt J step u0 v0 n u v -> (forall j, (j <= n)%nat -> gradients coord2 zero2 m (u j) (Gu j)) ->
    forall j q, (j <= q <= n)%nat ->
    kinetic coord2 zero2 m k rho (v q) + stored coord2 zero2 m density mu la (Gu q)
    <= kinetic coord2 zero2 m k rho (v j) + stored coord2 zero2 m density mu la (Gu j).
  Proof.
    intros VK G0 F0 RL G HG j q Hq. destruct (posed_ready pb ic id g fi fo k th ze mu la law CP bt density PR PD) as (ops & conds & RD & _).
    pose proof (cp_sturdy _ _ _ _ _ _ _ _ _ _ _ _ CP) as [_ SK]. pose proof (cp_posed _ _ _ _ _ _ _ _ _ _ _ _ CP) as PO.
    pose proof (cp_forward _ _ _ _ _ _ _ _ _ _ _ _ CP VK) as Hdt. fold dt in Hdt.
    assert (VI : viscous (pr_material pb) = Some (th, ze)) by (destruct k; try contradiction; apply SK).
    assert (PV : pos_semidef (2 * N) (some_mat (viscosity ops))).
    { apply (viscous_psd pb ic id g PO bt density ops RD PD th ze VI); destruct k; try contradiction; try apply SK; left; apply SK. }
    destruct (finite_choice (fun i H => gradients coord2 zero2 m (v i) H) n) as (Gv & HV).
    { intros i. exact (vanishing_gradients pb ic id g PO bt density ops RD (v i)). }
    pose proof (contact_motion_work u0 v0 n u v Gu Gv VK G0 G (fun i Hi => conj (HG i Hi) (HV i Hi)) j q Hq) as X.
    rewrite (sum_0 (q - j) (fun i => load_work _ _ _ _ _ _ _)) in X.
    2:{ intros i _. apply no_load; intros r c; apply F0. }
    assert (S1 : 0 <= sum (q - j) (fun i => stress_work coord2 zero2 m density th ze (Gv (S (j + i))) (Gv (S (j + i))))).
    { apply sum_nonneg. intros i Hi. unfold m. rewrite (viscous_form pb ic id g PO bt density ops RD th ze (v (S (j + i))) (v (S (j + i))) _ _ VI (HV (S (j + i)) ltac:(lia)) (HV (S (j + i)) ltac:(lia))). apply PV. }
    assert (S2 : 0 <= sum (q - j) (fun i => J (u (j + i)%nat) (v (S (j + i))) - J (u (j + i)%nat) (fun _ => 0))).
    { apply sum_nonneg. intros i _. apply Rge_le, Rge_minus, Rle_ge. apply (resisting_energy law _ _ _ dt). exact RL. }
    apply (Rmult_le_pos dt) in S1; [|lra]. apply (Rmult_le_pos dt) in S2; [|lra]. lra.
  Qed.
End Law.

(* ------------------------------------------------------------ both solvers, the same answers *)

Section Same.
  Context {V W V' W' : Type}.
  Variables (pb : problem) (ic id : P2 -> bool) (g : P2 -> R) (fi fo : P2 -> R -> vec) (k : kind) (th ze mu la : R) (law : contact_law).
  Hypothesis CP : contact_posed pb ic id g fi fo k th ze mu la law.
  Variables (bt : built) (density : option (nat -> R)).
  Hypothesis PR : prepared pb bt density.
  Hypothesis PD : positive_density density.
  Variables minimise minimise' : route -> nat -> (arr -> result R) -> arr -> arr.
  Variables (name name' : string) (maxiter maxiter' : option nat).
  Hypothesis HM : forall n, reliable (minimise (route_of name) n).
  Hypothesis HM' : forall n, reliable (minimise' (route_of name') n).
  Variables cls cls' : solver_class.
  Variable inv : nat -> mat -> result mat.
  Hypothesis HI : inverts inv.
  Let m := bt_mesh bt.
  Let b := bt_body bt.
  Let N := List.length (m_nodes m).
  Let integrate := integrate_forces m (bt_basic bt).
  Let mesh := contact_of bt.
  Notation global := (global_answer (F := forces) b k mesh law minimise name maxiter).
  Notation schur := (schur_answer (F := forces) b k mesh law minimise' name' maxiter' false).
  Notation iterate := (MethodModel.iterate integrate b k cls).
  Notation iterate_schur := (schur_iterate integrate b k mesh cls').

  Lemma contact_same (m0 : store V) (m0' : store V') (d1 d1' : driver V (method forces)) (d2 d2' : driver V' (schur_method forces))
      n u0 v0 out given given' (l1 : list (state W)) (l2 : list (state W')) :
    velocity_kind k -> renews integrate b k cls -> renews integrate b k cls' -> schur_class cls' ->
    step_solver pb bt k m0 = Ok d1 -> schur_step_solver pb bt k inv m0' = Ok d2 ->
    in_stock (d_mem d1) given -> in_stock (d_mem d2) given' -> non_decreasing 0 (requested n out) ->
    dynamic_solve (b_dimension b) (b_count b) (start_positions bt) iterate global n u0 v0 out given d1 = (d1', Ok l1) ->
    dynamic_solve (b_dimension b) (b_count b) (start_positions bt) iterate_schur schur n u0 v0 out given' d2 = (d2', Ok l2) ->
    List.length l1 = List.length l2 /\
    forall j (s1 : state W) (s2 : state W'), nth_error l1 j = Some s1 -> nth_error l2 j = Some s2 ->
      let w1 := @look V W (d_mem d1') s1 in let w2 := @look V' W' (d_mem d2') s2 in
      view_time w1 = view_time w2 /\ veq (2 * N) (view_displacement w1) (view_displacement w2) /\ veq (2 * N) (view_velocity w1) (view_velocity w2).
  Proof.
    intros VK R1 R2 SC S1 S2 G1 G2 ND H1 H2.
    destruct (global_posed pb ic id g fi fo k th ze mu la law CP bt density PR PD minimise name maxiter HM cls m0 d1 d1' n u0 v0 out given l1 VK R1 S1 G1 ND H1)
      as (u & v & M1 & L1 & A1).
    destruct (schur_posed pb ic id g fi fo k th ze mu la law CP bt density PR PD minimise' name' maxiter' HM' cls' inv HI m0' d2 d2' n u0 v0 out given' l2 VK R2 SC S2 G2 ND H2)
      as (u' & v' & M2 & L2 & A2).
    pose proof (contact_motion_unique pb ic id g fi fo k th ze mu la law CP bt density PR PD u0 v0 _ u v u' v' VK M1 M2) as UQ.
    split; [congruence|]. intros j s1 s2 E1 E2 w1 w2.
    assert (HJ : (j < List.length (requested n out))%nat) by (rewrite <- L1; apply nth_error_Some; congruence).
    apply nth_error_Some in HJ. destruct (nth_error (requested n out) j) as [q|] eqn:EQ; [|congruence].
    destruct (A1 j q s1 EQ E1) as (T1 & D1 & V1). destruct (A2 j q s2 EQ E2) as (T2 & D2 & V2).
    unfold w1, w2. rewrite T1, T2, D1, D2, V1, V2. split; [reflexivity|]. apply UQ.
    unfold TimeTheorems.last_step. pose proof (non_decreasing_last _ _ _ ND (nth_error_In _ _ EQ)). lia.
  Qed.

  Lemma contact_static_same (m0 : store V) (m0' : store V') (d1 d1' : driver V (method forces)) (d2 d2' : driver V' (schur_method forces))
      u0 given given' (s1 : state W) (s2 : state W') :
    k = StaticDisplacement -> (forall q, iterate_variables cls q = None) -> cls' = StaticSchur ->
    step_solver pb bt k m0 = Ok d1 -> schur_step_solver pb bt k inv m0' = Ok d2 ->
    in_stock (d_mem d1) given -> in_stock (d_mem d2) given' ->
    static_solve (b_dimension b) (b_count b) (start_positions bt) iterate global u0 given d1 = (d1', Ok s1) ->
    static_solve (b_dimension b) (b_count b) (start_positions bt) iterate_schur schur u0 given' d2 = (d2', Ok s2) ->
    veq (2 * N) (view_displacement (@look V W (d_mem d1') s1)) (view_displacement (@look V' W' (d_mem d2') s2)).
  Proof.
    intros K ID SC S1 S2 G1 G2 H1 H2.
    pose proof (global_static_posed pb ic id g fi fo k th ze mu la law CP bt density PR PD minimise name maxiter HM cls m0 d1 d1' u0 given s1 K ID S1 G1 H1) as A1.
    pose proof (schur_static_posed pb ic id g fi fo k th ze mu la law CP bt density PR PD minimise' name' maxiter' HM' cls' inv HI m0' d2 d2' u0 given' s2 K SC S2 G2 H2) as A2.
    exact (contact_static_unique pb ic id g fi fo k th ze mu la law CP bt density PR PD _ _ _ K A1 A2).
  Qed.
End Same.

(* ------------------------------------------------------------ the normals of the contact faces *)

Lemma prepared_init pb bt density : prepared pb bt density ->
  mesh_init2 (pr_nodes pb) (pr_elements pb) (pr_boundaries pb) = Ok (bt_mesh bt, bt_normals bt).
Proof.
  induction 1 as [bt H|bt density w rho bt' _ IH _ H].
  - unfold construct in H. destruct (mesh_init2 _ _ _) as [[m ns]|e]; [|discriminate]. cbn [bind] in H.
    destruct (reinitialize _ _ _ _) as [[[B b] h]|e]; [|discriminate]. injection H as <-. reflexivity.
  - unfold update_density in H. cbn [with_world bt_mesh bt_normals bt_world] in H.
    destruct (reinitialize _ _ _ _) as [[[B b] h]|e]; [|discriminate]. injection H as <-. exact IH.
Qed.

Lemma contact_has_normals pb ic id g bt density : posed pb ic id g -> separate ic id -> prepared pb bt density ->
  List.length (contact_normals (bt_mesh bt) (bt_normals bt)) = List.length (faces_of (bt_mesh bt) "contact").
Proof.
  intros PO SE PR. pose proof (prepared_init _ _ _ PR) as HI. destruct PO as [HR HS HA HC HD _].
  destruct (init2_parts _ _ _ _ _ HI) as [HB HN].
  destruct (normals_total zero2 sub2 dot2 scale2 unoriented2 mean2 _ _ _ (bt_mesh bt) 1 HR HS HB ic id HC HD) as (ns & E & L).
  { intros f _ (ps & P1 & I1) (ps' & P2' & I2). apply (picks_map _ _ _ zero2) in P1, P2'.
    subst ps ps'. rewrite (SE _ I1) in I2. discriminate. }
  unfold mesh_normals2 in HN. rewrite HN in E. injection E as <-.
  unfold contact_normals. rewrite firstn_length, L.
  destruct (faces_filter zero2 mean2 _ _ _ (bt_mesh bt) 1 HR HS HB "contact" (or_introl eq_refl)) as [q Eq]. rewrite Eq.
  assert (F : forall l : list (list nat), (List.length (filter q l) <= List.length l)%nat).
  { induction l as [|x l IH]; cbn; auto. destruct (q x); cbn; lia. }
  apply Nat.min_l, F.
Qed.

(* in bodies whose contact faces are the first boundary faces, they are outer unit normals *)
Lemma contact_outward pb ic id g bt density : posed pb ic id g -> separate ic id -> prepared pb bt density ->
  let m := bt_mesh bt in
  (forall f h, boundary_face 3 (m_elements m) f -> boundary_face 3 (m_elements m) h ->
     face_holds mean2 (m_nodes m) ic f -> ~ face_holds mean2 (m_nodes m) ic h -> lex_lt f h) ->
  forall i f a b oi o, nth_error (faces_of m "contact") i = Some f -> picks f (m_nodes m) [a; b] ->
  opposing (m_elements m) f oi -> nth_error (m_nodes m) oi = Some o -> side2 a b o <> 0 ->
  outward2 a b o (nth i (contact_normals m (bt_normals bt)) zero2).
Proof.
  intros PO SE PR m FF i f a b oi o Hf Hp Ho Hoi Hs.
  pose proof (contact_has_normals pb ic id g bt density PO SE PR) as L. pose proof (prepared_init _ _ _ PR) as HI.
  destruct PO as [HR HS HA HC HD _].
  assert (Hi : (i < List.length (contact_normals m (bt_normals bt)))%nat) by (unfold m; rewrite L; apply nth_error_Some; unfold m in Hf; congruence).
  apply nth_error_Some in Hi. destruct (nth_error (contact_normals m (bt_normals bt)) i) as [n|] eqn:En; [|congruence].
  rewrite (nth_error_nth _ _ _ En).
  exact (normals2_aligned (pr_nodes pb) (pr_elements pb) (pr_boundaries pb) m (bt_normals bt) HR HS HI ic i f n a b oi o HC FF Hf En Hp Ho Hoi Hs).
Qed.
