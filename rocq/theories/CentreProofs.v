(* Proofs of CentreSpec for the meshes of CrossModel and ZooModel. *)
From Coq Require Import Reals List Arith Bool String Lia Lra.
From Verif Require Import Common PyModel RVec MeshModel MeshBuildModel MeshSpec ListLemmas MeshOrderProofs MeshBuildProofs FemSpec
  CrossModel CrossSpec CrossBuiltProofs CrossFinalProofs SolidSpec ZooModel ZooSpec ZooBuilt ImportSpec ImportProofs CentreSpec.
Import ListNotations.
Local Open Scope string_scope.
Local Open Scope list_scope.
Local Open Scope R_scope.

Lemma total_lsum {A} (g : A -> R) l : total (map g l) = lsum l g.
Proof. induction l as [|a l IH]; cbn; auto. fold (total (map g l)). rewrite IH. reflexivity. Qed.

Section Split.
  Variables (w : nat) (mean : list (list R) -> list R) (zero : list R) (nodes : list (list R)) (els : list (list nat)).
  Hypothesis HW : (0 < w)%nat.
  Hypothesis HM : forall ps, List.length (mean ps) = w /\
    forall c, (c < w)%nat -> nth c (mean ps) 0 = lsum ps (fun r => nth c r 0) / INR (List.length ps).
  Hypothesis HR : in_range (List.length nodes) els.
  Hypothesis HS : simplices (S w) els.
  Context {V : Type}.
  Variables (d : @Description (list R) V) (m : @MeshData (list R) V) (ic id : list R -> bool).
  Hypothesis HC : dict_get (indicators d) "contact" = Some ic.
  Hypothesis HD : dict_get (indicators d) "dirichlet" = Some id.
  Hypothesis HB : build mean zero nodes els d = Ok m.

  Lemma picks_lsum f (rows ps : list (list R)) c : picks f rows ps ->
    List.length ps = List.length f /\ lsum ps (fun r => nth c r 0) = lsum f (fun i => table_of rows i c).
  Proof.
    intros K. unfold picks in K. induction K as [|i r f ps E K [IH1 IH2]]; cbn; auto. split; [lia|]. rewrite IH2. f_equal.
    unfold table_of. f_equal. symmetry. now apply nth_error_nth.
  Qed.

  Lemma centre_mean f (rows ps : list (list R)) : (0 < List.length f)%nat -> picks f rows ps -> centre_of w (table_of rows) f (mean ps).
  Proof.
    intros L K. split; [apply HM|]. intros c Hc. destruct (picks_lsum f rows ps c K) as [E1 E2].
    rewrite (proj2 (HM ps) c Hc), E1, E2. field. apply not_0_INR. lia.
  Qed.
  Lemma centre_unique f (x : nat -> vec) p q : (0 < List.length f)%nat -> centre_of w x f p -> centre_of w x f q -> p = q.
  Proof.
    intros L [L1 H1] [L2 H2]. apply (nth_ext _ _ 0 0); [congruence|]. intros c Hc. rewrite L1 in Hc.
    pose proof (H1 c Hc) as A. pose proof (H2 c Hc) as B. rewrite <- B in A. apply Rmult_eq_reg_l in A; auto. apply not_0_INR. lia.
  Qed.

  Lemma face_length f e : boundary_face (S w) e f -> (0 < List.length f)%nat.
  Proof. intros (_ & L & _). lia. Qed.

  Lemma holds_centre f (rows : list (list R)) pred : (0 < List.length f)%nat -> face_holds mean rows pred f ->
    exists p, centre_of w (table_of rows) f p /\ pred p = true.
  Proof. intros L (ps & K & H). exists (mean ps). split; auto. apply centre_mean; auto. Qed.

  Lemma built_picks f : boundary_face (S w) (m_elements m) f -> exists ps, picks f (m_nodes m) ps.
  Proof.
    intros Hf. destruct (face_classes mean zero nodes els d m (S w) ic id HR HS HC HD HB) as (_ & _ & FN & _).
    destruct (build_built mean zero nodes els d m (S w) HR HS HB) as (keep & n1 & e1 & ic' & id' & B).
    pose proof (bt_ren _ _ _ _ _ _ _ _ _ _ _ B) as HREN.
    pose proof (ren_in_range _ _ _ _ _ HREN) as HR2. rewrite <- (ren_nodes_length _ _ _ _ _ HREN) in HR2.
    assert (HF : forall i, In i f -> (i < List.length (m_nodes m))%nat).
    { intros i Hi. eapply boundary_node_lt; eauto. exists f. eauto. }
    exists (map (fun i => nth i (m_nodes m) zero) f).
    apply Forall2_map_r, Forall2_same, Forall_forall. intros i Hi. apply nth_error_nth'. auto.
  Qed.

  Lemma centre_holds f pred p : boundary_face (S w) (m_elements m) f -> centre_of w (table_of (m_nodes m)) f p ->
    (face_holds mean (m_nodes m) pred f <-> pred p = true).
  Proof.
    intros Hf Hp. pose proof (face_length _ _ Hf) as L. split.
    - intros H. destruct (holds_centre _ _ _ L H) as (q & Hq & E). rewrite (centre_unique _ _ _ _ L Hp Hq). auto.
    - intros E. destruct (built_picks f Hf) as (ps & K). exists ps. split; auto.
      rewrite (centre_unique _ _ _ _ L (centre_mean _ _ _ L K) Hp). auto.
  Qed.

  Lemma built_split : split_faces w (m_nodes m) (m_elements m) ic id (faces_of m "contact") (faces_of m "dirichlet") (faces_of m "neumann").
  Proof.
    destruct (face_classes mean zero nodes els d m (S w) ic id HR HS HC HD HB) as (FC & FD & FN & _).
    assert (X : forall f, boundary_face (S w) (m_elements m) f -> exists p, centre_of w (table_of (m_nodes m)) f p).
    { intros f Hf. destruct (built_picks f Hf) as (ps & K). exists (mean ps). apply centre_mean; auto. apply (face_length _ _ Hf). }
    constructor; intros f.
    - rewrite FC. split; intros [Hf H]; split; auto.
      + apply holds_centre; auto. apply (face_length _ _ Hf).
      + destruct H as (p & Hp & E). apply (centre_holds f ic p); auto.
    - rewrite FD. split; intros [Hf H]; split; auto.
      + apply holds_centre; auto. apply (face_length _ _ Hf).
      + destruct H as (p & Hp & E). apply (centre_holds f id p); auto.
    - rewrite FN. split.
      + intros (Hf & N1 & N2). split; auto. destruct (X f Hf) as (p & Hp). exists p. split; auto.
        rewrite (centre_holds f ic p Hf Hp) in N1. rewrite (centre_holds f id p Hf Hp) in N2.
        split; [destruct (ic p)|destruct (id p)]; auto; contradiction.
      + intros (Hf & p & Hp & E1 & E2). split; auto. rewrite (centre_holds f ic p Hf Hp), (centre_holds f id p Hf Hp), E1, E2.
        split; discriminate.
  Qed.
End Split.

Lemma mean_row_spec ps : List.length (mean_row ps) = 2%nat /\
  forall c, (c < 2)%nat -> nth c (mean_row ps) 0 = lsum ps (fun r => nth c r 0) / INR (List.length ps).
Proof. split; auto. intros [|[|c]] Hc; try lia; cbn; rewrite <- total_lsum; reflexivity. Qed.
Lemma mean_row3_spec ps : List.length (mean_row3 ps) = 3%nat /\
  forall c, (c < 3)%nat -> nth c (mean_row3 ps) 0 = lsum ps (fun r => nth c r 0) / INR (List.length ps).
Proof. split; auto. intros [|[|[|c]]] Hc; try lia; cbn; rewrite <- total_lsum; reflexivity. Qed.
Lemma mean_rows_spec w ps : List.length (mean_rows w ps) = w /\
  forall c, (c < w)%nat -> nth c (mean_rows w ps) 0 = lsum ps (fun r => nth c r 0) / INR (List.length ps).
Proof.
  unfold mean_rows. split; [rewrite map_length, seq_length; auto|]. intros c Hc.
  pose (g := fun k => total (map (fun r => nth k r 0) ps) / INR (List.length ps)). fold g.
  rewrite (nth_indep _ 0 (g 0%nat)) by (rewrite map_length, seq_length; auto).
  rewrite map_nth, seq_nth by auto. unfold g. cbn. rewrite total_lsum. reflexivity.
Qed.

Lemma solid_split nodes els : solid_grid nodes els -> els <> [] -> forall pos v, placed_by nodes pos v ->
  forall (d : @Description (list R) vec) (m : @MeshData (list R) vec) ic id,
  dict_get (indicators d) "contact" = Some ic -> dict_get (indicators d) "dirichlet" = Some id ->
  solid_mesh (nodes, els) pos d = Ok m ->
  split_faces 3 (m_nodes m) (m_elements m) ic id (faces_of m "contact") (faces_of m "dirichlet") (faces_of m "neumann").
Proof.
  intros G NE pos v HP d m ic id HC HD HB.
  destruct (built_from nodes els G NE pos v HP d m HB) as (nodes' & M & HB' & HR & _).
  refine (built_split 3 mean_row3 [0; 0; 0] nodes' els _ mean_row3_spec HR (solid_shape _ _ G) d m ic id HC HD HB'). lia.
Qed.

Lemma cross_split lx ly p sx sy : request lx ly p sx sy -> forall pos x y, placed_at pos x y ->
  forall (d : @Description (list R) vec) m ic id,
  dict_get (indicators d) "contact" = Some ic -> dict_get (indicators d) "dirichlet" = Some id ->
  cross_mesh [lx; ly] p pos d = Ok m ->
  split_faces 2 (m_nodes m) (m_elements m) ic id (faces_of m "contact") (faces_of m "dirichlet") (faces_of m "neumann").
Proof.
  intros RQ pos x y HP d m ic id HC HD HB.
  destruct (build_cross_moved lx ly p sx sy RQ pos x y HP) as (nodes & els & nodes' & _ & G & B & M).
  unfold cross_mesh in HB. rewrite B in HB. cbn [bind] in HB.
  refine (built_split 2 mean_row [0; 0] nodes' els _ mean_row_spec _ (grid_shape _ _ _ _ _ _ G) d m ic id HC HD HB); [lia|].
  exact (moved_range sx sy lx ly nodes els G x y nodes' M).
Qed.

Lemma solid_file_split f cells : solid_file f cells -> forall pos v, asked_move 3 (mf_points f) pos v ->
  forall (V : Type) (d : @Description (list R) V) (m : @MeshData (list R) V) ic id,
  dict_get (indicators d) "contact" = Some ic -> dict_get (indicators d) "dirichlet" = Some id ->
  imported_mesh f pos d = Ok m ->
  split_faces 3 (m_nodes m) (m_elements m) ic id (faces_of m "contact") (faces_of m "dirichlet") (faces_of m "neumann").
Proof.
  intros HF pos v HP V d m ic id HC HD HB. destruct (solid_imported f cells HF) as [E W]. unfold imported_mesh in HB. rewrite E, W in HB. cbn [bind] in HB.
  destruct (shift_rows 3 _ cells pos v (sf_rows _ _ HF) (sf_points _ _ HF) HP) as (nodes' & B & SH). rewrite B in HB. cbn [bind] in HB.
  refine (built_split 3 (mean_rows 3) (repeat 0 3) nodes' cells _ (mean_rows_spec 3) _ (sf_shape _ _ HF) d m ic id HC HD HB); [lia|].
  exact (taken_range 3 _ cells v nodes' SH (sf_range _ _ HF)).
Qed.

Lemma plane_file_split f cells : plane_file f cells -> forall pos v, asked_move 2 (mf_points f) pos v ->
  forall (V : Type) (d : @Description (list R) V) (m : @MeshData (list R) V) ic id,
  dict_get (indicators d) "contact" = Some ic -> dict_get (indicators d) "dirichlet" = Some id ->
  imported_mesh f pos d = Ok m ->
  split_faces 2 (m_nodes m) (m_elements m) ic id (faces_of m "contact") (faces_of m "dirichlet") (faces_of m "neumann").
Proof.
  intros HF pos v HP V d m ic id HC HD HB. destruct (plane_shifted f cells pos v HF HP) as (nodes & nodes' & E & W & B & SH).
  unfold imported_mesh in HB. rewrite E, W in HB. cbn [bind] in HB. rewrite B in HB. cbn [bind] in HB.
  refine (built_split 2 (mean_rows 2) (repeat 0 2) nodes' cells _ (mean_rows_spec 2) _ (pf_shape _ _ HF) d m ic id HC HD HB); [lia|].
  exact (taken_range 2 _ cells v nodes' SH (pf_range _ _ HF)).
Qed.
