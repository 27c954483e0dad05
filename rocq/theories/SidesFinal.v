(* Meshes without overlap have their elements on different sides of the common faces, and so have the meshes
   built from them; outer normals exist. *)
From Coq Require Import Reals List Arith Bool Lia Lra Permutation Sorted String.
From Verif Require Import Common PyModel RVec ListLemmas MeshModel MeshBuildModel MeshSpec MeshFacesProofs FemModel FemSpec ForcesSpec
  FemGeomProofs FemBuildProofs FemFinalProofs StatementSpec CrossModel CrossSpec CrossBuiltProofs CrossFinalProofs SolidSpec ZooSpec ZooModel ZooBuilt
  ImportSpec ImportProofs GaussSpec GaussProofs GaussFinal SidesProofs.
Import ListNotations.
Local Open Scope string_scope.
Local Open Scope list_scope.
Local Open Scope R_scope.

Lemma sided_2d N x els : triangles N x els -> simplices 3 els -> apart_plane x els -> two_sided 2 x els.
Proof.
  intros (HR & HL & HD) HS HA. apply (apart_sided 2 x els (fun e => grad2 (corners x e))); auto.
  - intros e k He Hk. apply grad2_sum; auto.
  - intros e k c' He Hk Hc'. apply (grad2_coord (corners x e)); auto.
  - intros i j e f p Hi Hj (a & A1 & A2 & A3) (b & B1 & B2 & B3). apply (HA i j e f (p 0%nat) (p 1%nat) Hi Hj).
    + exists (a 0%nat), (a 1%nat), (a 2%nat). cbn [sum] in *. rewrite !A3 by lia. repeat split; try (apply A1; lia); lra.
    + exists (b 0%nat), (b 1%nat), (b 2%nat). cbn [sum] in *. rewrite !B3 by lia. repeat split; try (apply B1; lia); lra.
Qed.
Lemma sided_3d N x els : tetrahedra N x els -> simplices 4 els -> apart_solid x els -> two_sided 3 x els.
Proof.
  intros (HR & HL & HD) HS HA. apply (apart_sided 3 x els (fun e => grad3 (corners x e))); auto.
  - intros e k He Hk. apply grad3_sum; auto.
  - intros e k c' He Hk Hc'. apply (grad3_coord (corners x e)); auto.
  - intros i j e f p Hi Hj (a & A1 & A2 & A3) (b & B1 & B2 & B3). apply (HA i j e f p Hi Hj).
    + exists a. repeat split; auto. intros; apply A1; lia.
    + exists b. repeat split; auto. intros; apply B1; lia.
Qed.

(* ------------------------------------------------------------ built meshes *)

Lemma built_sided {P V} (mean : list P -> P) (zero : P) (coord : P -> vec) (nodes : list P) els (d : @Description P V) m w ic id :
  in_range (List.length nodes) els -> simplices (S (S w)) els ->
  dict_get (indicators d) "contact" = Some ic -> dict_get (indicators d) "dirichlet" = Some id ->
  build mean zero nodes els d = Ok m ->
  two_sided (S w) (node_table coord zero nodes) els -> two_sided (S w) (node_table coord zero (m_nodes m)) (m_elements m).
Proof.
  intros HR HS HC HD HB TS.
  destruct (built_order mean zero nodes els d m w ic id HR HS HC HD HB) as (C & N & I & D & [U A K R _ _ _ _ _]).
  set (old := C ++ N ++ I ++ D) in *. clearbody old.
  apply (two_sided_transfer (S w) (node_table coord zero nodes) els _ (m_elements m) (fun n => nth n old 0%nat) (fun _ => 0)); auto.
  - apply relabelled_map; auto.
  - intros n c (e' & He' & Hn) Hc. rewrite Rplus_0_r. unfold node_table.
    assert (LT : (n < List.length (m_nodes m))%nat).
    { pose proof (proj2 (built_shape mean zero nodes els d m w HR HS HB)) as RG. unfold in_range in RG. rewrite Forall_forall in RG.
      specialize (RG e' He'). rewrite Forall_forall in RG. auto. }
    assert (E : nth n (m_nodes m) zero = nth (nth n old 0%nat) nodes zero).
    { clear - K LT. unfold picks in K. revert n LT. induction K as [|i p l l' E K IH]; intros n LT; cbn in LT; [lia|].
      destruct n as [|n]; cbn [nth]; [symmetry; apply nth_error_nth; auto|]. apply IH. lia. }
    rewrite E. reflexivity.
Qed.

Lemma moved_sided d x x' els (v : vec) : simplices (S d) els -> (forall n c, referenced els n -> (c < d)%nat -> x' n c = x n c + v c) ->
  two_sided d x els -> two_sided d x' els.
Proof.
  intros HS HX TS. apply (two_sided_transfer d x els x' els (fun n => n) v); auto.
  clear. induction els; constructor; auto. rewrite map_id. auto.
Qed.

Lemma in_range_lt n els i : in_range n els -> referenced els i -> (i < n)%nat.
Proof.
  unfold in_range. intros H (e & He & Hi). rewrite Forall_forall in H. specialize (H e He). rewrite Forall_forall in H. auto.
Qed.

Lemma cross_sided lx ly p sx sy : request lx ly p sx sy -> forall pos x y, placed_at pos x y ->
  forall (d : @Description (list R) vec) m ic id,
  dict_get (indicators d) "contact" = Some ic -> dict_get (indicators d) "dirichlet" = Some id ->
  cross_mesh [lx; ly] p pos d = Ok m ->
  two_sided 2 (table_of (m_nodes m)) (m_elements m).
Proof.
  intros RQ pos x y HP d m ic id HC HD HB.
  destruct (build_cross_moved lx ly p sx sy RQ pos x y HP) as (nodes & els & nodes' & _ & G & B & M).
  unfold cross_mesh in HB. rewrite B in HB. cbn [bind] in HB.
  pose proof (grid_shape _ _ _ _ _ _ G) as HS. pose proof (grid_range _ _ _ _ _ _ G) as HR.
  rewrite <- (table_zero 2). apply (built_sided mean_row [0; 0] row_coord nodes' els d m 1 ic id); auto.
  - exact (moved_range sx sy lx ly nodes els G x y nodes' M).
  - change [0; 0] with (repeat 0 2). rewrite (table_zero 2).
    apply (moved_sided 2 (table_of nodes) _ els (fun c => match c with 0%nat => x | _ => y end)); auto.
    + intros n c Hn Hc. pose proof (in_range_lt _ _ _ HR Hn) as LT. destruct (moved_table _ _ _ _ M n LT) as [X Y].
      destruct c as [|[|c]]; [auto|auto|lia].
    + apply (sided_2d (List.length nodes)); auto.
      * split; [exact HR|]. split.
        -- unfold simplices in HS. eapply Forall_impl; [|exact HS]. cbn. tauto.
        -- intros e He. pose proof (grid_oriented _ _ _ _ _ _ G e He). lra.
      * exact (tiles_apart _ _ _ _ (grid_tiles _ _ _ _ _ _ G)).
Qed.

Lemma solid_sided nodes els : solid_grid nodes els -> els <> [] -> forall pos v, placed_by nodes pos v ->
  forall (d : @Description (list R) vec) (m : @MeshData (list R) vec) ic id,
  dict_get (indicators d) "contact" = Some ic -> dict_get (indicators d) "dirichlet" = Some id ->
  solid_mesh (nodes, els) pos d = Ok m ->
  two_sided 3 (table_of (m_nodes m)) (m_elements m).
Proof.
  intros G NE pos v HP d m ic id HC HD HB.
  destruct (built_from nodes els G NE pos v HP d m HB) as (nodes' & M & HB' & HR & _).
  pose proof (solid_shape _ _ G) as HS. pose proof (solid_range _ _ G) as HR0.
  rewrite <- (table_zero 3). apply (built_sided mean_row3 [0; 0; 0] row_coord nodes' els d m 2 ic id); auto.
  change [0; 0; 0] with (repeat 0 3). rewrite (table_zero 3).
  apply (moved_sided 3 (table_of nodes) _ els v); auto.
  - intros n c Hn Hc. apply (moved_by_table v nodes nodes' M); auto. apply (in_range_lt _ _ _ HR0 Hn).
  - apply (sided_3d (List.length nodes)); auto.
    + split; [exact HR0|]. split.
      * unfold simplices in HS. eapply Forall_impl; [|exact HS]. cbn. tauto.
      * intros e He. pose proof (solid_oriented _ _ G e He). lra.
    + exact (solid_apart _ _ G).
Qed.

Lemma taken_sided w points cells v nodes els : simplices (S w) cells -> in_range (List.length nodes) els -> takes_over w points cells v nodes els ->
  two_sided w (table_of points) cells -> two_sided w (table_of nodes) els.
Proof.
  intros HS HR (used & U & A & K & R) TS.
  apply (two_sided_transfer w (table_of points) cells _ els (fun n => nth n used 0%nat) v); auto.
  intros n c Hn Hc. pose proof (in_range_lt _ _ _ HR Hn) as LT. clear - K LT Hc. unfold table_of.
  revert n LT. induction K as [|i r l l' (q & E & L & Q) K IH]; intros n LT; cbn in LT; [lia|].
  destruct n as [|n]; cbn [nth]; [|apply IH; lia]. rewrite (nth_error_nth _ _ _ E). auto.
Qed.
Lemma solid_file_sided f cells : solid_file f cells -> two_sided 3 (table_of (mf_points f)) cells -> forall pos v, asked_move 3 (mf_points f) pos v ->
  forall (V : Type) (d : @Description (list R) V) (m : @MeshData (list R) V) ic id,
  dict_get (indicators d) "contact" = Some ic -> dict_get (indicators d) "dirichlet" = Some id ->
  imported_mesh f pos d = Ok m -> two_sided 3 (table_of (m_nodes m)) (m_elements m).
Proof.
  intros HF TS pos v HP V d m ic id HC HD HB. destruct (solid_imported f cells HF) as [E W]. unfold imported_mesh in HB. rewrite E, W in HB. cbn [bind] in HB.
  destruct (shift_rows 3 _ cells pos v (sf_rows _ _ HF) (sf_points _ _ HF) HP) as (nodes' & B & SH). rewrite B in HB. cbn [bind] in HB.
  pose proof (taken_range 3 _ cells v nodes' SH (sf_range _ _ HF)) as TR. pose proof (sf_shape _ _ HF) as HS.
  apply (taken_sided 3 (mf_points f) cells v); auto.
  - exact (proj2 (built_shape (mean_rows 3) (repeat 0 3) nodes' cells d m 2 TR HS HB)).
  - exact (taken 3 _ cells v nodes' (mean_rows 3) SH (sf_range _ _ HF) 2 HS d m ic id HC HD HB).
Qed.
Lemma plane_file_sided f cells : plane_file f cells -> two_sided 2 (table_of (mf_points f)) cells -> forall pos v, asked_move 2 (mf_points f) pos v ->
  forall (V : Type) (d : @Description (list R) V) (m : @MeshData (list R) V) ic id,
  dict_get (indicators d) "contact" = Some ic -> dict_get (indicators d) "dirichlet" = Some id ->
  imported_mesh f pos d = Ok m -> two_sided 2 (table_of (m_nodes m)) (m_elements m).
Proof.
  intros HF TS pos v HP V d m ic id HC HD HB. destruct (plane_shifted f cells pos v HF HP) as (nodes & nodes' & E & W & B & SH).
  unfold imported_mesh in HB. rewrite E, W in HB. cbn [bind] in HB. rewrite B in HB. cbn [bind] in HB.
  pose proof (taken_range 2 _ cells v nodes' SH (pf_range _ _ HF)) as TR. pose proof (pf_shape _ _ HF) as HS.
  apply (taken_sided 2 (mf_points f) cells v); auto.
  - exact (proj2 (built_shape (mean_rows 2) (repeat 0 2) nodes' cells d m 1 TR HS HB)).
  - exact (taken 2 _ cells v nodes' (mean_rows 2) SH (pf_range _ _ HF) 1 HS d m ic id HC HD HB).
Qed.

(* triangles that are turned alike *)
Lemma side_product (w n y : vec) : n 0%nat * w 0%nat + n 1%nat * w 1%nat = 0 ->
  (w 0%nat * w 0%nat + w 1%nat * w 1%nat) * (n 0%nat * y 0%nat + n 1%nat * y 1%nat) =
  (w 0%nat * n 1%nat - w 1%nat * n 0%nat) * (w 0%nat * y 1%nat - w 1%nat * y 0%nat).
Proof.
  intros H. replace ((w 0%nat * w 0%nat + w 1%nat * w 1%nat) * (n 0%nat * y 0%nat + n 1%nat * y 1%nat)) with
    ((n 0%nat * w 0%nat + n 1%nat * w 1%nat) * (w 0%nat * y 0%nat + w 1%nat * y 1%nat) +
     (w 0%nat * n 1%nat - w 1%nat * n 0%nat) * (w 0%nat * y 1%nat - w 1%nat * y 0%nat)) by ring.
  rewrite H. ring.
Qed.

Lemma passes_side x e p q o : List.length e = 3%nat -> NoDup e -> 0 < det_2d (corners x e) -> In p e -> In q e -> In o e -> p <> q -> o <> p -> o <> q ->
  let t := (x q 0%nat - x p 0%nat) * (x o 1%nat - x p 1%nat) - (x q 1%nat - x p 1%nat) * (x o 0%nat - x p 0%nat) in
  (passes e p q /\ 0 < t) \/ (passes e q p /\ t < 0).
Proof.
  intros L ND D Hp Hq Ho N1 N2 N3 t. destruct e as [|a [|b [|c [|]]]]; try discriminate.
  unfold det_2d, corners in D. cbn [nth] in D. unfold t. clear t.
  destruct Hp as [<-|[<-|[<-|[]]]], Hq as [<-|[<-|[<-|[]]]], Ho as [<-|[<-|[<-|[]]]]; try congruence;
    first [left; split; [exists a, b, c; split; auto; tauto|lra]|right; split; [exists a, b, c; split; auto; tauto|lra]].
Qed.

Lemma alike_sided x els : simplices 3 els -> turned_alike x els -> two_sided 2 x els.
Proof.
  intros HS [TD TP] i j e e' f o o' n p NE Hi Hj Lf ND I I' Ho No Ho' No' Hn Hp [P1 P2].
  unfold simplices in HS. rewrite Forall_forall in HS.
  pose proof (nth_error_In _ _ Hi) as He. pose proof (nth_error_In _ _ Hj) as He'.
  destruct (HS e He) as [L1 D1]. destruct (HS e' He') as [L2 D2].
  destruct f as [|a [|b [|]]]; try discriminate. inversion ND as [|? ? NA _]; subst.
  assert (AB : a <> b) by (intros ->; apply NA; left; auto).
  assert (X : exists q, In q [a; b] /\ p <> q) by (destruct Hp as [<-|[<-|[]]]; [exists b|exists a]; cbn; auto).
  destruct X as (q & Hq & PQ).
  pose proof (Hn q p Hq Hp) as NW. unfold dot, minus_vec in *. cbn [sum] in *. rewrite ?Rplus_0_l in *.
  set (w := fun c => x q c - x p c).
  pose proof (side_product w n (fun c => x o c - x p c) NW) as S1. pose proof (side_product w n (fun c => x o' c - x p c) NW) as S2.
  assert (No1 : o <> p /\ o <> q) by (split; intros ->; auto). assert (No2 : o' <> p /\ o' <> q) by (split; intros ->; auto).
  pose proof (passes_side x e p q o L1 D1 (TD e He) (I p Hp) (I q Hq) Ho PQ (proj1 No1) (proj2 No1)) as Q1.
  pose proof (passes_side x e' p q o' L2 D2 (TD e' He') (I' p Hp) (I' q Hq) Ho' PQ (proj1 No2) (proj2 No2)) as Q2.
  cbv zeta in Q1, Q2. unfold w in S1, S2.
  set (t1 := (x q 0%nat - x p 0%nat) * (x o 1%nat - x p 1%nat) - (x q 1%nat - x p 1%nat) * (x o 0%nat - x p 0%nat)) in *.
  set (t2 := (x q 0%nat - x p 0%nat) * (x o' 1%nat - x p 1%nat) - (x q 1%nat - x p 1%nat) * (x o' 0%nat - x p 0%nat)) in *.
  set (s := (x q 0%nat - x p 0%nat) * n 1%nat - (x q 1%nat - x p 1%nat) * n 0%nat) in *.
  set (W := (x q 0%nat - x p 0%nat) * (x q 0%nat - x p 0%nat) + (x q 1%nat - x p 1%nat) * (x q 1%nat - x p 1%nat)) in *.
  assert (W0 : 0 <= W) by (unfold W; pose proof (Rle_0_sqr (x q 0%nat - x p 0%nat)); pose proof (Rle_0_sqr (x q 1%nat - x p 1%nat)); unfold Rsqr in *; lra).
  pose proof (Rmult_le_pos _ _ W0 (Rlt_le _ _ P1)) as R1. pose proof (Rmult_le_pos _ _ W0 (Rlt_le _ _ P2)) as R2. rewrite S1 in R1. rewrite S2 in R2.
  assert (WP : W <> 0).
  { intros WZ. assert (Z : x q 0%nat - x p 0%nat = 0 /\ x q 1%nat - x p 1%nat = 0).
    { unfold W in WZ. pose proof (Rle_0_sqr (x q 0%nat - x p 0%nat)) as A. pose proof (Rle_0_sqr (x q 1%nat - x p 1%nat)) as B.
      assert (A0 : Rsqr (x q 0%nat - x p 0%nat) = 0) by (unfold Rsqr in *; lra). assert (B0 : Rsqr (x q 1%nat - x p 1%nat) = 0) by (unfold Rsqr in *; lra).
      split; apply Rsqr_0_uniq; auto. }
    destruct Z as [Z0 Z1]. assert (t1 = 0) by (unfold t1; rewrite Z0, Z1; ring). destruct Q1 as [[_ Q]|[_ Q]]; lra. }
  assert (WQ : 0 < W) by lra.
  pose proof (Rmult_lt_0_compat _ _ WQ P1) as T1. pose proof (Rmult_lt_0_compat _ _ WQ P2) as T2. rewrite S1 in T1. rewrite S2 in T2.
  destruct Q1 as [[A1 B1]|[A1 B1]], Q2 as [[A2 B2]|[A2 B2]].
  - apply NE. exact (TP i j e e' p q Hi Hj A1 A2).
  - destruct (Rlt_le_dec 0 s) as [|SL].
    + pose proof (Rmult_lt_0_compat s (- t2) ltac:(auto) ltac:(lra)). lra.
    + pose proof (Rmult_le_compat_r t1 s 0 ltac:(lra) SL). lra.
  - destruct (Rlt_le_dec 0 s) as [|SL].
    + pose proof (Rmult_lt_0_compat s (- t1) ltac:(auto) ltac:(lra)). lra.
    + pose proof (Rmult_le_compat_r t2 s 0 ltac:(lra) SL). lra.
  - apply NE. exact (TP i j e e' q p Hi Hj A1 A2).
Qed.
