(* Proofs about meshes read from files. *)
From Coq Require Import Reals List Arith ZArith Bool String Permutation Lia Lra FunctionalExtensionality.
From Verif Require Import Common PyModel RVec LinAlg MeshModel MeshBuildModel MeshSpec MeshTotalProofs
  FemModel FemSpec FemBuildProofs CrossModel CrossSpec CrossTheorems CrossBuiltProofs SolidSpec ZooModel ZooSpec ZooBuilt ImportSpec.
Import ListNotations.
Local Open Scope string_scope.
Local Open Scope list_scope.
Local Open Scope R_scope.

Lemma cells_get f name cells : cells_of f name cells -> dict_get (mf_cells f) name = Some cells.
Proof.
  intros (b & a & E & H). rewrite E. clear E. induction b as [|[n c] b IH]; cbn.
  - rewrite String.eqb_refl. reflexivity.
  - destruct (String.eqb name n) eqn:Q.
    + apply String.eqb_eq in Q. subst. exfalso. apply (H c). left. auto.
    + apply IH. intros c' Hc. apply (H c'). right. auto.
Qed.
Lemma none_get f name : no_cells f name -> dict_get (mf_cells f) name = None.
Proof.
  unfold no_cells. induction (mf_cells f) as [|[n c] l IH]; intros H; cbn; auto.
  destruct (String.eqb name n) eqn:Q.
  - apply String.eqb_eq in Q. subst. exfalso. apply (H c). left. auto.
  - apply IH. intros c' Hc. apply (H c'). right. auto.
Qed.

(* rows of width w moved by v *)
Definition shifted (w : nat) (v : vec) (nodes nodes' : list (list R)) : Prop :=
  Forall2 (fun q r => List.length r = w /\ forall c, (c < w)%nat -> nth c r 0 = nth c q 0 + v c) nodes nodes'.

Lemma shift_rows w nodes els pos v : Forall (fun r => List.length r = w) nodes -> nodes <> [] -> asked_move w nodes pos v ->
  exists nodes', build_raw (nodes, els) pos = Ok (nodes', els) /\ shifted w v nodes nodes'.
Proof.
  intros HR HN HP. unfold build_raw. cbn [fst snd]. destruct HP as [[-> Z]|(p & -> & L & Low)].
  - exists nodes. split; [reflexivity|]. clear HN. induction HR as [|r l H HR IH]; constructor; auto. split; auto.
    intros c Hc. rewrite Z by auto. ring.
  - destruct (translate_to w nodes HR HN p (fun k => nth k p 0)) as (nodes' & o & E & O & F); [auto| |].
    { intros k _. rewrite L, Nat.eqb_refl. reflexivity. }
    exists nodes'. rewrite E. split; [reflexivity|].
    assert (Q : forall k, (k < w)%nat -> nth k p 0 - o k = v k).
    { intros k Hk. pose proof (lowest_unique nodes k _ _ (O k Hk) (Low k Hk)). lra. }
    clear - F Q. induction F as [|r r' l l' [Lr H] F IH]; constructor; auto. split; auto.
    intros c Hc. rewrite <- Q, H by auto. ring.
Qed.
Lemma asked_exists w nodes pos : Forall (fun r => List.length r = w) nodes -> nodes <> [] ->
  (pos = None \/ exists p, pos = Some p /\ List.length p = w) -> exists v, asked_move w nodes pos v.
Proof.
  intros HR HN [->|(p & -> & L)].
  - exists (fun _ => 0). left. auto.
  - destruct (min_rows_lowest w nodes HR HN) as (o & _ & _ & Low). exists (fun c => nth c p 0 - nth c o 0). right. exists p.
    split; auto. split; auto. intros c Hc. replace (nth c p 0 - (nth c p 0 - nth c o 0)) with (nth c o 0) by ring. auto.
Qed.
Lemma shifted_length w v nodes nodes' : shifted w v nodes nodes' -> List.length nodes' = List.length nodes.
Proof. intros H. induction H; cbn; congruence. Qed.
Lemma shifted_table w v nodes nodes' : shifted w v nodes nodes' -> forall i c, (i < List.length nodes)%nat -> (c < w)%nat ->
  table_of nodes' i c = table_of nodes i c + v c.
Proof.
  intros H. unfold table_of. induction H as [|r r' l l' (L & E) H IH]; intros i c Hi Hc; cbn in Hi; [lia|].
  destruct i as [|i]; [apply E; auto|apply IH; auto; lia].
Qed.
Lemma shifted_row w v nodes nodes' i r : shifted w v nodes nodes' -> nth_error nodes' i = Some r ->
  exists q, nth_error nodes i = Some q /\ List.length r = w /\ forall c, (c < w)%nat -> nth c r 0 = nth c q 0 + v c.
Proof.
  intros H. revert i. induction H as [|q r' l l' E H IH]; intros [|i] Hi; try discriminate.
  - injection Hi as ->. exists q. split; auto.
  - apply IH in Hi. exact Hi.
Qed.

Lemma table_zero w rows : node_table row_coord (repeat 0 w) rows = table_of rows.
Proof.
  apply functional_extensionality. intros i. apply functional_extensionality. intros c.
  unfold node_table, table_of, row_coord. destruct (Nat.lt_ge_cases i (List.length rows)) as [H|H].
  - rewrite (nth_indep _ (repeat 0 w) []) by auto. reflexivity.
  - rewrite !nth_overflow with (n := i) by auto. destruct (Nat.lt_ge_cases c w) as [Q|Q].
    + rewrite nth_repeat. destruct c; reflexivity.
    + rewrite nth_overflow by (rewrite repeat_length; auto). destruct c; reflexivity.
Qed.

Lemma relabelled_map old els els' : relabelled_unordered old els els' ->
  Forall2 (fun e e' => Permutation e (map (fun n => nth n old 0%nat) e')) els els'.
Proof.
  intros H. induction H as [|e e' l l' (e0 & P & F) H IH]; constructor; auto.
  rewrite P. clear - F. induction F as [|o n a b E F IH]; cbn; auto. rewrite (nth_error_nth _ _ _ E). auto.
Qed.

Section Taken.
  Variables (w : nat) (points : list (list R)) (cells : list (list nat)) (v : vec) (nodes' : list (list R)) (mean : list (list R) -> list R).
  Hypothesis SH : shifted w v points nodes'.
  Hypothesis HR : in_range (List.length points) cells.
  Variable k : nat.
  Hypothesis HS : simplices (S (S k)) cells.
  Context {V : Type}.
  Variables (d : @Description (list R) V) (m : @MeshData (list R) V) (ic id : list R -> bool).
  Hypothesis HC : dict_get (indicators d) "contact" = Some ic.
  Hypothesis HD : dict_get (indicators d) "dirichlet" = Some id.
  Hypothesis HB : build mean (repeat 0 w) nodes' cells d = Ok m.

  Lemma taken_range : in_range (List.length nodes') cells.
  Proof. rewrite (shifted_length _ _ _ _ SH). exact HR. Qed.
  Lemma taken : takes_over w points cells v (m_nodes m) (m_elements m).
  Proof.
    destruct (built_order mean (repeat 0 w) nodes' cells d m k ic id taken_range HS HC HD HB) as (C & Ne & I & D & [U A K R _ _ _ _ _]).
    exists (C ++ Ne ++ I ++ D). split; auto. split; auto. split; [|apply relabelled_map; auto].
    clear - K SH. unfold picks in K. induction K as [|i r l l' E K IH]; constructor; auto.
    exact (shifted_row _ _ _ _ _ _ SH E).
  Qed.
End Taken.

Section Solid.
  Variables (f : mesh_file) (cells : list (list nat)) (pos : option (list R)) (v : vec).
  Hypothesis HF : solid_file f cells.
  Hypothesis HP : asked_move 3 (mf_points f) pos v.

  Lemma solid_imported : imported f = Ok (mf_points f, cells) /\ file_width f = 3%nat.
  Proof. unfold imported, file_width. rewrite (cells_get _ _ _ (sf_cells _ _ HF)). split; auto. apply (sf_width _ _ HF). Qed.

  Lemma solid_made {V} (zeros : list (list R) -> V) kwargs :
    Forall (fun '(key, (_, cond)) => key = "contact" \/ key = "dirichlet" \/ (cond <> None /\ reserved key = false)) kwargs ->
    exists m, imported_mesh f pos (make_description zeros kwargs) = Ok m.
  Proof.
    intros HK. destruct solid_imported as [E W]. unfold imported_mesh. rewrite E, W. cbn [bind].
    destruct (shift_rows 3 _ cells pos v (sf_rows _ _ HF) (sf_points _ _ HF) HP) as (nodes' & B & _). rewrite B. cbn [bind].
    apply build_from_keywords. auto.
  Qed.

  Lemma solid_read {V} (d : @Description (list R) V) (m : @MeshData (list R) V) :
    (exists c, dict_get (indicators d) "contact" = Some c) -> (exists c, dict_get (indicators d) "dirichlet" = Some c) ->
    imported_mesh f pos d = Ok m ->
    takes_over 3 (mf_points f) cells v (m_nodes m) (m_elements m) /\
    tetrahedra (List.length (m_nodes m)) (table_of (m_nodes m)) (m_elements m) /\
    (forall i, (i < List.length (m_nodes m))%nat -> referenced (m_elements m) i) /\
    lsum (m_elements m) (element_volume (table_of (m_nodes m))) = lsum cells (element_volume (table_of (mf_points f))).
  Proof.
    intros [ic HC] [id HD] HB. destruct solid_imported as [E W]. unfold imported_mesh in HB. rewrite E, W in HB. cbn [bind] in HB.
    destruct (shift_rows 3 _ cells pos v (sf_rows _ _ HF) (sf_points _ _ HF) HP) as (nodes' & B & SH). rewrite B in HB. cbn [bind] in HB.
    pose proof (taken_range 3 _ cells v nodes' SH (sf_range _ _ HF)) as HR.
    assert (DT : forall e, In e cells -> det_3d (corners (table_of nodes') e) = det_3d (corners (table_of (mf_points f)) e)).
    { intros e He. pose proof (sf_range _ _ HF) as R. pose proof (sf_shape _ _ HF) as S. unfold in_range, simplices in R, S. rewrite Forall_forall in R, S.
      pose proof (R e He) as F. destruct (S e He) as [L _]. destruct e as [|a [|b [|c [|q [|]]]]]; try discriminate.
      inversion F as [|? ? Fa F1]; subst. inversion F1 as [|? ? Fb F2]; subst. inversion F2 as [|? ? Fc F3]; subst. inversion F3 as [|? ? Fd _]; subst.
      unfold det_3d, corners. cbn [nth]. rewrite !(shifted_table 3 v _ nodes' SH) by (auto; lia). ring. }
    destruct (built_tetrahedra (mean_rows 3) (repeat 0 3) nodes' cells d m 2%nat ic id row_coord HR (sf_shape _ _ HF) HC HD HB eq_refl) as [HT HA].
    { intros e He. rewrite table_zero, DT by auto. apply (sf_solid _ _ HF); auto. }
    rewrite !table_zero in *. split; [|split; [exact HT|split]].
    - exact (taken 3 _ cells v nodes' (mean_rows 3) SH (sf_range _ _ HF) 2%nat (sf_shape _ _ HF) d m ic id HC HD HB).
    - intros i Hi. exact (built_referenced (mean_rows 3) (repeat 0 3) nodes' cells d m 2%nat ic id HR (sf_shape _ _ HF) HC HD HB i Hi).
    - rewrite HA. apply lsum_ext. intros e He. unfold element_volume, volume. rewrite DT by auto. reflexivity.
  Qed.
End Solid.

Section Plane.
  Variables (f : mesh_file) (cells : list (list nat)) (pos : option (list R)) (v : vec).
  Hypothesis HF : plane_file f cells.
  Hypothesis HP : asked_move 2 (mf_points f) pos v.

  Lemma plane_imported : exists nodes, imported f = Ok (nodes, cells) /\ file_width f = 2%nat /\
    Forall2 (fun q r => List.length r = 2%nat /\ forall c, (c < 2)%nat -> nth c r 0 = nth c q 0) (mf_points f) nodes.
  Proof.
    unfold imported, file_width. rewrite (none_get _ _ (pf_none _ _ HF)), (cells_get _ _ _ (pf_cells _ _ HF)).
    pose proof (pf_rows _ _ HF) as R. destruct (pf_width _ _ HF) as [W|W]; rewrite W in *; cbn [Nat.eqb].
    - exists (mf_points f). split; auto. split; auto. clear - R. induction R as [|r l H R IH]; [constructor|]. constructor; [split; auto|exact IH].
    - exists (map (firstn 2) (mf_points f)). split; auto. split; auto. clear - R. induction R as [|r l H R IH]; cbn [map]; [constructor|]. constructor; [|exact IH].
      destruct r as [|a [|b [|c [|]]]]; try discriminate. split; auto. intros [|[|k]] Hk; [reflexivity|reflexivity|lia].
  Qed.

  Lemma plane_shifted : exists nodes nodes', imported f = Ok (nodes, cells) /\ file_width f = 2%nat /\
    build_raw (nodes, cells) pos = Ok (nodes', cells) /\ shifted 2 v (mf_points f) nodes'.
  Proof.
    destruct plane_imported as (nodes & E & W & F). exists nodes.
    assert (NN : nodes <> []) by (pose proof (pf_points _ _ HF); destruct F; [contradiction|discriminate]).
    assert (NR : Forall (fun r => List.length r = 2%nat) nodes) by (clear - F; induction F as [|q r l l' [L _] F IH]; constructor; auto).
    destruct (shift_rows 2 nodes cells pos v NR NN) as (nodes' & B & SH).
    { destruct HP as [[-> Z]|(p & -> & L & Low)]; [left; auto|right; exists p; split; auto; split; auto].
      intros c Hc. destruct (Low c Hc) as [(q & Hq & Eq) Min]. split.
      - apply In_nth_error in Hq. destruct Hq as (i & Hi). clear - F Hi Eq Hc. revert i Hi.
        induction F as [|a r l l' [_ H] F IH]; intros [|i] Hi; try discriminate.
        + injection Hi as ->. exists r. split; [left; auto|]. rewrite H; auto.
        + destruct (IH i Hi) as (x & Hx & Ex). exists x. split; [right; auto|auto].
      - intros r Hr. apply In_nth_error in Hr. destruct Hr as (i & Hi). clear - F Hi Min Hc. revert i Hi.
        induction F as [|a r' l l' [_ H] F IH]; intros [|i] Hi; try discriminate.
        + injection Hi as ->. rewrite H by auto. apply Min. left; auto.
        + apply (IH (fun q Hq => Min q (or_intror Hq)) i Hi). }
    exists nodes'. split; auto. split; auto. split; auto.
    clear - SH F. revert nodes' SH. induction F as [|q r l l' [L H] F IH]; intros n S; inversion S; subst; constructor.
    - destruct H2 as [L2 E2]. split; auto. intros c Hc. rewrite E2, H; auto.
    - apply IH; auto.
  Qed.

  Lemma plane_made {V} (zeros : list (list R) -> V) kwargs :
    Forall (fun '(key, (_, cond)) => key = "contact" \/ key = "dirichlet" \/ (cond <> None /\ reserved key = false)) kwargs ->
    exists m, imported_mesh f pos (make_description zeros kwargs) = Ok m.
  Proof.
    intros HK. destruct plane_shifted as (nodes & nodes' & E & W & B & _). unfold imported_mesh. rewrite E, W. cbn [bind]. rewrite B. cbn [bind].
    apply build_from_keywords. auto.
  Qed.

  Lemma plane_read {V} (d : @Description (list R) V) (m : @MeshData (list R) V) :
    (exists c, dict_get (indicators d) "contact" = Some c) -> (exists c, dict_get (indicators d) "dirichlet" = Some c) ->
    imported_mesh f pos d = Ok m ->
    takes_over 2 (mf_points f) cells v (m_nodes m) (m_elements m) /\
    (spread_out f cells -> triangles (List.length (m_nodes m)) (table_of (m_nodes m)) (m_elements m)) /\
    (forall i, (i < List.length (m_nodes m))%nat -> referenced (m_elements m) i) /\
    lsum (m_elements m) (element_area (table_of (m_nodes m))) = lsum cells (element_area (table_of (mf_points f))).
  Proof.
    intros [ic HC] [id HD] HB. destruct plane_shifted as (nodes & nodes' & E & W & B & SH). unfold imported_mesh in HB. rewrite E, W in HB.
    cbn [bind] in HB. rewrite B in HB. cbn [bind] in HB.
    pose proof (taken_range 2 _ cells v nodes' SH (pf_range _ _ HF)) as HR.
    assert (DT : forall e, In e cells -> det_2d (corners (table_of nodes') e) = det_2d (corners (table_of (mf_points f)) e)).
    { intros e He. pose proof (pf_range _ _ HF) as R. pose proof (pf_shape _ _ HF) as S. unfold in_range, simplices in R, S. rewrite Forall_forall in R, S.
      pose proof (R e He) as F. destruct (S e He) as [L _]. destruct e as [|a [|b [|c [|]]]]; try discriminate.
      inversion F as [|? ? Fa F1]; subst. inversion F1 as [|? ? Fb F2]; subst. inversion F2 as [|? ? Fc _]; subst.
      unfold det_2d, corners. cbn [nth]. rewrite !(shifted_table 2 v _ nodes' SH) by (auto; lia). ring. }
    split; [|split; [|split]].
    - exact (taken 2 _ cells v nodes' (mean_rows 2) SH (pf_range _ _ HF) 1%nat (pf_shape _ _ HF) d m ic id HC HD HB).
    - intros FL.
      destruct (built_triangles (mean_rows 2) (repeat 0 2) nodes' cells d m 1%nat ic id row_coord HR (pf_shape _ _ HF) HC HD HB eq_refl) as [HT _].
      { intros e He. rewrite table_zero, DT by auto. apply FL; auto. }
      rewrite !table_zero in HT. exact HT.
    - intros i Hi. exact (built_referenced (mean_rows 2) (repeat 0 2) nodes' cells d m 1%nat ic id HR (pf_shape _ _ HF) HC HD HB i Hi).
    - pose proof (built_corners (mean_rows 2) (repeat 0 2) nodes' cells d m 1%nat ic id row_coord HR (pf_shape _ _ HF) HC HD HB) as BC.
      rewrite !table_zero in BC. transitivity (lsum cells (element_area (table_of nodes'))).
      + pose proof (pf_shape _ _ HF) as S. unfold simplices in S. clear - BC S.
        induction BC as [|e e' l l' P BC IH]; [reflexivity|]. inversion S as [|? ? [L _] S']; subst. cbn [lsum]. rewrite IH by auto. f_equal.
        unfold element_area, area. destruct (det2_corners _ _ e e' L P) as [-> | ->]; rewrite ?Rabs_Ropp; reflexivity.
      + apply lsum_ext. intros e He. unfold element_area, area. rewrite DT by auto. reflexivity.
  Qed.
End Plane.

Lemma unknown_file {V} f pos (d : @Description (list R) V) : no_cells f "tetra" -> no_cells f "triangle" ->
  imported_mesh f pos d = Err (KeyError "triangle").
Proof. intros A B. unfold imported_mesh, imported. rewrite (none_get _ _ A), (none_get _ _ B). reflexivity. Qed.

(* the position asked for is that of the lowest point of the file, used or not *)
Lemma read_position w points cells v nodes els p c a b : takes_over w points cells v nodes els ->
  asked_move w points (Some p) v -> (c < w)%nat -> lowest points c a -> lowest_used points cells c b ->
  lowest nodes c (nth c p 0 + (b - a)).
Proof.
  intros (used & _ & U & F & _) [[E _]|(p' & E & _ & Low)] Hc La [(i & q & Hi & Hq & Eq) Min]; [discriminate|]. injection E as <-.
  pose proof (lowest_unique points c _ _ La (Low c Hc)) as Ea.
  split.
  - apply U in Hi. clear - F Hi Hq Eq Ea Hc. induction F as [|j r l l' (q' & E & _ & H) F IH]; [destruct Hi|].
    destruct Hi as [->|Hi].
    + exists r. split; [left; auto|]. rewrite H by auto. assert (q' = q) by congruence. subst q'. lra.
    + destruct (IH Hi) as (x & Hx & Ex). exists x. split; [right; auto|auto].
  - intros r Hr. assert (X : exists j q', In j used /\ nth_error points j = Some q' /\ nth c r 0 = nth c q' 0 + v c).
    { clear - F Hr Hc. induction F as [|j r' l l' (q' & E & _ & H) F IH]; [destruct Hr|]. destruct Hr as [->|Hr].
      - exists j, q'. split; [left; auto|]. split; auto.
      - destruct (IH Hr) as (j' & q'' & A & B & C). exists j', q''. split; [right; auto|auto]. }
    destruct X as (j & q' & Ij & Ej & ->). apply U in Ij. pose proof (Min j q' Ij Ej). lra.
Qed.

(* ------------------------------------------------------------- files *)

Definition none_description : @Description (list R) vec := make_description (fun _ _ => 0) [].

(* a construction point to the left of a triangle *)
Definition stray_file : mesh_file :=
  {| mf_width := 2; mf_points := [[-1; 0]; [0; 0]; [1; 0]; [0; 1]]; mf_cells := [("triangle", [[1; 2; 3]%nat])] |}.
(* a triangle in the plane y = 0 *)
Definition upright_file : mesh_file :=
  {| mf_width := 3; mf_points := [[0; 0; 0]; [1; 0; 0]; [0; 0; 1]]; mf_cells := [("line", [[0; 1]%nat]); ("triangle", [[0; 1; 2]%nat])] |}.
(* a tetrahedron with the faces of its boundary and a point that is not used *)
Definition gmsh_file : mesh_file :=
  {| mf_width := 3; mf_points := [[0; 0; 0]; [5; 5; 5]; [1; 0; 0]; [0; 1; 0]; [0; 0; 1]];
     mf_cells := [("triangle", [[0; 2; 3]; [0; 2; 4]; [0; 3; 4]; [2; 3; 4]]%nat); ("tetra", [[0; 2; 3; 4]%nat])] |}.

Ltac shape := repeat (constructor; [split; [reflexivity|repeat (constructor; [cbn; intuition discriminate|]); constructor]|]); constructor.
Ltac range := repeat (constructor; [repeat (constructor; [cbn; lia|]); constructor|]); constructor.

Lemma stray_plane : plane_file stray_file [[1; 2; 3]%nat].
Proof.
  split; unfold no_cells, cells_of; cbn [stray_file mf_width mf_points mf_cells].
  - left. reflexivity.
  - repeat constructor.
  - discriminate.
  - intros c [H|[]]. discriminate.
  - exists [], []. split; auto.
  - shape.
  - range.
Qed.
Lemma stray_spread : spread_out stray_file [[1; 2; 3]%nat].
Proof. intros e [<-|[]]. unfold det_2d, corners, table_of. cbn. lra. Qed.
Lemma upright_plane : plane_file upright_file [[0; 1; 2]%nat].
Proof.
  split; unfold no_cells, cells_of; cbn [upright_file mf_width mf_points mf_cells].
  - right. reflexivity.
  - repeat constructor.
  - discriminate.
  - intros c [H|[H|[]]]; discriminate.
  - exists [("line", [[0; 1]%nat])], []. split; auto. intros c [H|[]]. discriminate.
  - shape.
  - range.
Qed.
Lemma gmsh_solid : solid_file gmsh_file [[0; 2; 3; 4]%nat].
Proof.
  split; unfold cells_of; cbn [gmsh_file mf_width mf_points mf_cells].
  - reflexivity.
  - repeat constructor.
  - discriminate.
  - eexists [_], []. split; [reflexivity|]. intros c [H|[]]. discriminate.
  - shape.
  - range.
  - intros e [<-|[]]. unfold det_3d, corners, table_of. cbn. lra.
Qed.
Lemma none_indicators : (exists c, dict_get (indicators none_description) "contact" = Some c) /\
  (exists c, dict_get (indicators none_description) "dirichlet" = Some c).
Proof. split; eexists; reflexivity. Qed.

(* nothing of the mesh is at the position asked for *)
Lemma stray_moved : exists m, imported_mesh stray_file (Some [0; 0]) none_description = Ok m /\
  lowest (m_nodes m) 0 1 /\ ~ lowest (m_nodes m) 0 0.
Proof.
  assert (A : asked_move 2 (mf_points stray_file) (Some [0; 0]) (fun c => match c with 0%nat => 1 | _ => 0 end)).
  { right. exists [0; 0]. split; auto. split; auto. intros [|[|c]] Hc; [| |lia]; cbn.
    - split; [exists [-1; 0]; split; [left; auto|cbn; lra]|]. intros r [<-|[<-|[<-|[<-|[]]]]]; cbn; lra.
    - split; [exists [-1; 0]; split; [left; auto|cbn; lra]|]. intros r [<-|[<-|[<-|[<-|[]]]]]; cbn; lra. }
  destruct (plane_made stray_file _ _ _ stray_plane A (fun (_ : list (list R)) (_ : nat) => 0) [] (Forall_nil _)) as (m & Em).
  exists m. split; [exact Em|].
  destruct (plane_read stray_file _ _ _ stray_plane A none_description m (proj1 none_indicators) (proj2 none_indicators) Em) as (T & _).
  assert (L : lowest (m_nodes m) 0 1).
  { replace 1 with (nth 0 [0; 0] 0 + (0 - -1)) by (cbn; lra).
    apply (read_position 2 _ _ _ _ _ [0; 0] 0 (-1) 0 T A); [lia| |].
    - split; [exists [-1; 0]; split; [left; auto|auto]|]. intros r [<-|[<-|[<-|[<-|[]]]]]; cbn; lra.
    - split.
      + exists 1%nat, [0; 0]. split; [exists [1; 2; 3]%nat; cbn; auto|]. split; auto.
      + intros i q (e & [<-|[]] & Hi) Hq. cbn in Hi. destruct Hi as [<-|[<-|[<-|[]]]]; injection Hq as <-; cbn; lra. }
  split; [exact L|]. intros Z. pose proof (lowest_unique _ _ _ _ L Z). lra.
Qed.

(* the area of the mesh is 0 *)
Lemma upright_flat : exists m, imported_mesh upright_file None none_description = Ok m /\
  (forall e, In e [[0; 1; 2]%nat] -> square_in_space (corners (table_of (mf_points upright_file)) e) = 1) /\
  lsum (m_elements m) (element_area (table_of (m_nodes m))) = 0 /\ m_elements m <> [].
Proof.
  assert (A : asked_move 2 (mf_points upright_file) None (fun c => 0)) by (left; auto).
  destruct (plane_made upright_file _ _ _ upright_plane A (fun (_ : list (list R)) (_ : nat) => 0) [] (Forall_nil _)) as (m & Em).
  exists m. split; [exact Em|]. split; [|split].
  - intros e [<-|[]]. unfold square_in_space, corners, table_of, Rsqr. cbn. lra.
  - destruct (plane_read upright_file _ _ _ upright_plane A none_description m (proj1 none_indicators) (proj2 none_indicators) Em) as (_ & _ & _ & E).
    rewrite E. unfold element_area, area, det_2d, corners, table_of. cbn. replace ((1 - 0) * (0 - 0) - (0 - 0) * (0 - 0)) with 0 by ring.
    rewrite Rabs_R0. lra.
  - destruct (plane_read upright_file _ _ _ upright_plane A none_description m (proj1 none_indicators) (proj2 none_indicators) Em) as ((u & _ & _ & _ & F) & _).
    intros Z. rewrite Z in F. inversion F.
Qed.
