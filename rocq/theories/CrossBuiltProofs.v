(* Meshes built from the structured cross mesh. *)
From Coq Require Import Reals List Arith ZArith Bool String Permutation Lia Lra FunctionalExtensionality.
From Verif Require Import Common PyModel RVec LinAlg MeshModel MeshBuildModel MeshSpec DofModel DofSpec
  DirichletModel DirichletSpec DirichletProofs DirichletMeshProofs
  FemModel FemSpec FemBuildProofs
  StatementModel StatementSpec StatementMeshProofs
  CrossModel CrossSpec CrossTheorems.
Import ListNotations.
Local Open Scope string_scope.
Local Open Scope list_scope.
Local Open Scope R_scope.

(* ------------------------------------------------------------- renumbered constraints *)

Lemma relabelled_element old els els' e : relabelled_unordered old els els' -> In e els ->
  exists e', In e' els' /\ (forall o, In o e -> exists n, In n e' /\ nth_error old n = Some o).
Proof.
  intros H He. induction H as [|a b l l' (a0 & Hp & HF) H IH]; [destruct He|]. destruct He as [->|He].
  - exists b. split; [left; auto|]. intros o Ho. apply (Permutation_in _ Hp) in Ho. clear Hp.
    induction HF as [|x y u v E HF IH']; [destruct Ho|]. destruct Ho as [->|Ho].
    + exists y. split; [left|]; auto.
    + destruct IH' as (n & Hn & E'); auto. exists n. split; [right|]; auto.
  - destruct IH as (e' & He' & K); auto. exists e'. split; [right|]; auto.
Qed.

Lemma held_relabelled old els els' (pin pin' : nat -> Prop) :
  NoDup old -> relabelled_unordered old els els' ->
  (forall n o, nth_error old n = Some o -> pin o -> pin' n) ->
  forall i, held pin els i -> forall n, nth_error old n = Some i -> held pin' els' n.
Proof.
  intros U HR HP i H. induction H as [i Hi|e i j k He Ii Ij Nij Ik Hi IHi Hj IHj]; intros n Hn.
  - apply held_pin. eauto.
  - destruct (relabelled_element old els els' e HR He) as (e' & He' & K).
    destruct (K i Ii) as (ni & Ini & Ei). destruct (K j Ij) as (nj & Inj & Ej). destruct (K k Ik) as (nk & Ink & Ek).
    assert (n = nk).
    { apply (proj1 (NoDup_nth_error old) U); [apply nth_error_Some; congruence|congruence]. }
    subst nk. apply (held_by pin' els' e' ni nj n); auto. intros ->. congruence.
Qed.

Lemma tied_relabelled old els els' (pin pin' : nat -> Prop) :
  NoDup old -> relabelled_unordered old els els' ->
  (forall n o, nth_error old n = Some o -> pin o -> pin' n) ->
  forall i, tied pin els i -> forall n, nth_error old n = Some i -> tied pin' els' n.
Proof.
  intros U HR HP i H. induction H as [i Hi|e i k He Ii Ik Hi IHi]; intros n Hn.
  - apply tied_pin. eauto.
  - destruct (relabelled_element old els els' e HR He) as (e' & He' & K).
    destruct (K i Ii) as (ni & Ini & Ei). destruct (K k Ik) as (nk & Ink & Ek).
    assert (n = nk).
    { apply (proj1 (NoDup_nth_error old) U); [apply nth_error_Some; congruence|congruence]. }
    subst nk. apply (tied_by pin' els' e' ni n); auto.
Qed.

(* whatever the nodes with a condition hold in the user's mesh, the prescribed ones hold in the
   built mesh *)
Lemma built_held {P} (mean : list P -> P) (zero : P) nodes els (d : @Description P vec) m w ic id f :
  in_range (List.length nodes) els -> simplices w els ->
  dict_get (indicators d) "contact" = Some ic -> dict_get (indicators d) "dirichlet" = Some id ->
  dict_get (conditions d) "dirichlet" = Some f ->
  build mean zero nodes els d = Ok m ->
  (forall i, (i < List.length nodes)%nat -> referenced els i ->
    held (fun i => boundary_node w els i /\ holds_at nodes id i) els i) ->
  exists conds, mesh_conditions m 2 "dirichlet" = Ok conds /\ well_shaped (2 * List.length (m_nodes m)) conds /\
    forall i, (i < List.length (m_nodes m))%nat -> held (clamped (List.length (m_nodes m)) conds) (m_elements m) i.
Proof.
  intros HR HS HC HD Hf HB HH.
  destruct (mesh_dirichlet mean zero nodes els d m w ic id HR HS HC HD HB 2 f Hf)
    as (C & Ne & I & D & conds & HO & HM & HW & HN & HP).
  exists conds. split; [exact HM|]. split; [exact HW|]. cbv zeta in HP.
  set (N := List.length (m_nodes m)) in *. set (first := List.length (C ++ Ne ++ I)) in *.
  assert (Eo : List.length (C ++ Ne ++ I ++ D) = N) by (rewrite HN; unfold first; rewrite !app_length; lia).
  intros n Hn. destruct (nth_error (C ++ Ne ++ I ++ D) n) as [o|] eqn:E; [|apply nth_error_None in E; lia].
  destruct HO as [U A K R NC NN NI ND _].
  assert (Ro : referenced els o) by (apply A; eapply nth_error_In; eauto).
  assert (Lo : (o < List.length nodes)%nat).
  { destruct Ro as (e & He & Hoe). unfold in_range in HR. rewrite Forall_forall in HR. specialize (HR e He).
    rewrite Forall_forall in HR. auto. }
  refine (held_relabelled _ els _ _ _ U R _ o (HH o Lo Ro) n E).
  clear n Hn o E Ro Lo. intros n o E Ho. apply ND in Ho.
  assert (Hn : (first <= n < N)%nat).
  { split; [|rewrite <- Eo; apply nth_error_Some; congruence].
    destruct (Nat.lt_ge_cases n first) as [L|]; auto. exfalso.
    replace (C ++ Ne ++ I ++ D) with ((C ++ Ne ++ I) ++ D) in * by (rewrite <- !app_assoc; auto).
    rewrite nth_error_app1 in E by auto. apply nth_error_In in E.
    clear - U E Ho. induction (C ++ Ne ++ I) as [|x l IH]; [destruct E|]. inversion U; subst. destruct E as [->|E]; auto.
    apply H1. apply in_or_app. auto. }
  split; (eexists; apply HP).
  - exists n, 0%nat. repeat split; try lia.
  - exists n, 1%nat. repeat split; try lia.
Qed.

(* ------------------------------------------------------------- moving a mesh *)

Lemma moved_table x y nodes nodes' : moved x y nodes nodes' -> forall i, (i < List.length nodes)%nat ->
  table_of nodes' i 0%nat = table_of nodes i 0%nat + x /\ table_of nodes' i 1%nat = table_of nodes i 1%nat + y.
Proof.
  intros H. unfold table_of. induction H as [|r r' l l' (a & b & -> & ->) H IH]; intros i Hi; cbn in Hi; [lia|].
  destruct i as [|i]; [cbn; auto|]. apply IH. lia.
Qed.
Lemma moved_length x y nodes nodes' : moved x y nodes nodes' -> List.length nodes' = List.length nodes.
Proof. intros H. induction H; cbn; congruence. Qed.
Lemma moved_det x y nodes nodes' e : moved x y nodes nodes' -> List.length e = 3%nat ->
  Forall (fun i => (i < List.length nodes)%nat) e ->
  det_2d (corners (table_of nodes') e) = det_2d (corners (table_of nodes) e).
Proof.
  intros M L F. destruct e as [|a [|b [|c [|]]]]; try discriminate.
  inversion F as [|? ? Fa F1]; subst. inversion F1 as [|? ? Fb F2]; subst. inversion F2 as [|? ? Fc _]; subst.
  destruct (moved_table _ _ _ _ M a Fa) as [A1 A2], (moved_table _ _ _ _ M b Fb) as [B1 B2], (moved_table _ _ _ _ M c Fc) as [C1 C2].
  unfold det_2d, corners. cbn [nth]. rewrite A1, A2, B1, B2, C1, C2. ring.
Qed.

Definition row_coord (r : list R) : vec := fun c => nth c r 0.
Lemma table_row rows : node_table row_coord [0; 0] rows = table_of rows.
Proof.
  apply functional_extensionality. intros i. apply functional_extensionality. intros c.
  unfold node_table, table_of, row_coord. destruct (Nat.lt_ge_cases i (List.length rows)) as [H|H].
  - rewrite (nth_indep _ [0; 0] []) by auto. reflexivity.
  - rewrite !nth_overflow with (n := i) by auto. destruct c as [|[|c]]; auto. cbn. destruct c; reflexivity.
Qed.

(* ------------------------------------------------------------- the cross mesh, placed *)

Section Placed.
  Variables (sx sy : nat) (lx ly : R).
  Hypothesis Lx : 0 < lx.
  Hypothesis Ly : 0 < ly.
  Hypothesis Nx : (1 <= sx)%nat.
  Hypothesis Ny : (1 <= sy)%nat.
  Variables (nodes : list (list R)) (els : list (list nat)).
  Hypothesis G : cross_grid sx sy lx ly nodes els.

  Lemma grid_pairs : Forall (fun r => exists a b, r = [a; b] /\ 0 <= a /\ 0 <= b) nodes.
  Proof.
    apply Forall_forall. intros r H. apply (grid_points _ _ _ _ _ _ G) in H.
    pose proof (INR_pos sx Nx). pose proof (INR_pos sy Ny).
    assert (0 < lx / INR sx) by (apply Rdiv_lt_0_compat; auto).
    assert (0 < ly / INR sy) by (apply Rdiv_lt_0_compat; auto).
    destruct H as [i j _ _|i j _ _]; (eexists; eexists; split; [reflexivity|]);
      pose proof (pos_INR i); pose proof (pos_INR j); split; apply Rmult_le_pos; lra.
  Qed.
  Lemma grid_origin : In [0; 0] nodes.
  Proof.
    apply (grid_points _ _ _ _ _ _ G). pose proof (grid_corner sx sy (lx / INR sx) (ly / INR sy) 0 0) as H.
    cbn [INR] in H. rewrite !Rmult_0_l in H. apply H; lia.
  Qed.
  Lemma grid_lowest k c : (k < 2)%nat -> lowest nodes k c -> c = 0.
  Proof.
    intros K [(r & Hr & E) B]. pose proof (B _ grid_origin) as B0.
    pose proof grid_pairs as F. rewrite Forall_forall in F. destruct (F r Hr) as (a & b & -> & A0 & B1).
    destruct k as [|[|k]]; cbn in *; try lia; lra.
  Qed.

  Lemma translate_grid x y : exists nodes', translate_nodes nodes (Some [x; y]) = Ok nodes' /\ moved x y nodes nodes'.
  Proof.
    destruct (translate_to 2 nodes) with (position := [x; y]) (target := fun k => nth k [x; y] 0) as (nodes' & o & E & Low & F).
    - eapply Forall_impl; [|exact grid_pairs]. intros r (a & b & -> & _). reflexivity.
    - pose proof grid_origin. destruct nodes; [contradiction|discriminate].
    - left. reflexivity.
    - intros k K. reflexivity.
    - exists nodes'. split; auto.
      assert (O : forall k, (k < 2)%nat -> o k = 0) by (intros k K; apply (grid_lowest k); auto).
      pose proof grid_pairs as P. clear - F O P. induction F as [|r r' l l' [L H] F IH]; constructor.
      + inversion P as [|? ? (a & b & -> & _) _]; subst. exists a, b. split; auto.
        destruct r' as [|c [|d [|]]]; try discriminate.
        pose proof (H 0%nat ltac:(lia)) as H0. pose proof (H 1%nat ltac:(lia)) as H1. cbn in H0, H1.
        rewrite O in H0, H1 by lia. subst. f_equal; [lra|]. f_equal. lra.
      + inversion P; subst. apply IH; auto.
  Qed.
  Lemma moved_self : moved 0 0 nodes nodes.
  Proof.
    pose proof grid_pairs as P. clear G. induction P as [|r l (a & b & -> & _) P IH]; constructor; auto. exists a, b. rewrite !Rplus_0_r. auto.
  Qed.

  Section Built.
    Context (x y : R) (nodes' : list (list R)).
    Hypothesis M : moved x y nodes nodes'.
    Variables (d : @Description (list R) vec) (m : @MeshData (list R) vec) (ic id : list R -> bool).
    Hypothesis HC : dict_get (indicators d) "contact" = Some ic.
    Hypothesis HD : dict_get (indicators d) "dirichlet" = Some id.
    Hypothesis HB : build mean_row [0; 0] nodes' els d = Ok m.

    Lemma moved_range : in_range (List.length nodes') els.
    Proof. rewrite (moved_length _ _ _ _ M). apply (grid_range _ _ _ _ _ _ G). Qed.

    Lemma grid_element e : In e els -> List.length e = 3%nat /\ Forall (fun i => (i < List.length nodes)%nat) e.
    Proof.
      intros He. pose proof (grid_range _ _ _ _ _ _ G) as R. pose proof (grid_shape _ _ _ _ _ _ G) as S.
      unfold in_range, simplices in *. rewrite Forall_forall in R, S. split; [apply S; auto|apply R; auto].
    Qed.

    Lemma built_grid : let N := List.length (m_nodes m) in
      N = (2 * (sx * sy) + (sx + sy) + 1)%nat /\
      triangles N (table_of (m_nodes m)) (m_elements m) /\
      (forall i, (i < N)%nat -> referenced (m_elements m) i) /\
      lsum (m_elements m) (element_area (table_of (m_nodes m))) = lx * ly /\
      forall row, In row (m_nodes m) <-> exists a b, cross_point sx sy (lx / INR sx) (ly / INR sy) [a; b] /\ row = [a + x; b + y].
    Proof.
      cbv zeta. pose proof moved_range as HR. pose proof (grid_shape _ _ _ _ _ _ G) as HS.
      assert (HN : forall e, In e els -> det_2d (corners (node_table row_coord [0; 0] nodes') e) <> 0).
      { intros e He. destruct (grid_element e He) as [L F]. rewrite table_row, (moved_det x y nodes nodes' e M L F).
        pose proof (grid_oriented _ _ _ _ _ _ G e He). lra. }
      destruct (built_triangles mean_row [0; 0] nodes' els d m 1%nat ic id row_coord HR HS HC HD HB eq_refl HN) as [HT HA].
      rewrite !table_row in *.
      destruct (built_order mean_row [0; 0] nodes' els d m 1%nat ic id HR HS HC HD HB) as (C & Ne & I & D & [U A K R NC NN NI ND _]).
      set (old := C ++ Ne ++ I ++ D) in *.
      assert (Po : Permutation old (seq 0 (List.length nodes))).
      { apply NoDup_Permutation; auto; [apply seq_NoDup|]. intros i. rewrite A, in_seq. split.
        - intros (e & He & Hi). split; [lia|]. destruct (grid_element e He) as [_ F]. rewrite Forall_forall in F. cbn. auto.
        - intros [_ Hi]. apply (grid_used _ _ _ _ _ _ G). cbn in Hi. auto. }
      assert (Ln : List.length (m_nodes m) = List.length nodes).
      { transitivity (List.length old); [|rewrite (Permutation_length Po), seq_length; auto].
        clear - K. unfold picks in K. induction K; cbn; congruence. }
      split; [rewrite Ln; apply (grid_count _ _ _ _ _ _ G)|]. split; [exact HT|]. split.
      { intros i Hi. exact (built_referenced mean_row [0; 0] nodes' els d m 1%nat ic id HR HS HC HD HB i Hi). }
      split.
      - rewrite HA. rewrite <- (grid_area _ _ _ _ _ _ G). clear HA HT HN.
        assert (X : forall l, (forall e, In e l -> In e els) -> lsum l (element_area (table_of nodes')) = lsum l (element_area (table_of nodes))).
        { induction l as [|e l IH]; intros S; cbn [lsum]; auto. rewrite IH by (intros; apply S; right; auto). f_equal.
          unfold element_area, area. destruct (grid_element e (S e (or_introl eq_refl))) as [L F].
          rewrite (moved_det x y nodes nodes' e M L F). reflexivity. }
        apply X. auto.
      - intros row. transitivity (In row nodes').
        + split.
          * intros H. apply In_nth_error in H. destruct H as (n & H).
            assert (X : exists o, nth_error nodes' o = Some row).
            { clear - K H. unfold picks in K. revert n H. induction K as [|o r l l' E K IH]; intros [|n] H; try discriminate.
              - injection H as ->. eauto.
              - eauto. }
            destruct X as (o & X). eapply nth_error_In; eauto.
          * intros H. apply In_nth_error in H. destruct H as (o & H).
            assert (Io : In o old).
            { apply (Permutation_in _ (Permutation_sym Po)). apply in_seq. split; [lia|]. cbn.
              rewrite <- (moved_length _ _ _ _ M). apply nth_error_Some. congruence. }
            clear - K H Io. unfold picks in K. induction K as [|o' r l l' E K IH]; [destruct Io|].
            destruct Io as [->|Io]; [left; congruence|right; auto].
        + split.
          * intros H.
            assert (X : exists r, In r nodes /\ exists a b, r = [a; b] /\ row = [a + x; b + y]).
            { clear - M H. induction M as [|r r' l l' E M' IH]; [destruct H|]. destruct H as [->|H].
              - exists r. split; [left|]; auto.
              - destruct IH as (s & Hs & Es); auto. exists s. split; [right|]; auto. }
            destruct X as (r & Hr & a & b & -> & ->). exists a, b. split; auto. apply (grid_points _ _ _ _ _ _ G). auto.
          * intros (a & b & H & ->). apply (grid_points _ _ _ _ _ _ G) in H.
            clear - M H. induction M as [|r r' l l' (a' & b' & -> & ->) M' IH]; [destruct H|]. destruct H as [E|H].
            -- injection E as -> ->. left; auto.
            -- right; auto.
    Qed.

    Lemma moved_holds r a b k : nth_error nodes k = Some r -> r = [a; b] -> id [a + x; b + y] = true -> holds_at nodes' id k.
    Proof.
      intros E -> H. exists [a + x; b + y]. split; auto. clear - M E.
      revert k E. induction M as [|r r' l l' (a' & b' & -> & ->) M' IH]; intros [|k] E; try discriminate.
      - cbn in *. injection E as -> ->. auto.
      - cbn in *. auto.
    Qed.

    Lemma built_clamped f a b a' b' : dict_get (conditions d) "dirichlet" = Some f ->
      outline sx sy (lx / INR sx) (ly / INR sy) [a; b] [a'; b'] ->
      id [a + x; b + y] = true -> id [a' + x; b' + y] = true ->
      exists conds, mesh_conditions m 2 "dirichlet" = Ok conds /\ well_shaped (2 * List.length (m_nodes m)) conds /\
        forall i, (i < List.length (m_nodes m))%nat -> held (clamped (List.length (m_nodes m)) conds) (m_elements m) i.
    Proof.
      intros Hf O I1 I2.
      apply (built_held mean_row [0; 0] nodes' els d m 3%nat ic id f moved_range (grid_shape _ _ _ _ _ _ G) HC HD Hf HB).
      rewrite (moved_length _ _ _ _ M).
      assert (P : In [a; b] nodes /\ In [a'; b'] nodes).
      { assert (X : forall r s, outline sx sy (lx / INR sx) (ly / INR sy) r s ->
          cross_point sx sy (lx / INR sx) (ly / INR sy) r /\ cross_point sx sy (lx / INR sx) (ly / INR sy) s).
        { assert (B : forall i, (i <= sx)%nat -> cross_point sx sy (lx / INR sx) (ly / INR sy) [INR i * (lx / INR sx); 0]).
          { intros i Hi. pose proof (grid_corner sx sy (lx / INR sx) (ly / INR sy) i 0 Hi ltac:(lia)) as H.
            change (INR 0) with 0 in H. rewrite Rmult_0_l in H. exact H. }
          assert (L : forall j, (j <= sy)%nat -> cross_point sx sy (lx / INR sx) (ly / INR sy) [0; INR j * (ly / INR sy)]).
          { intros j Hj. pose proof (grid_corner sx sy (lx / INR sx) (ly / INR sy) 0 j ltac:(lia) Hj) as H.
            change (INR 0) with 0 in H. rewrite Rmult_0_l in H. exact H. }
          intros r s [i Hi|i Hi|j Hj|j Hj].
          - split; apply B; lia.
          - split; apply grid_corner; lia.
          - split; apply L; lia.
          - split; apply grid_corner; lia. }
        apply X in O. split; apply (grid_points _ _ _ _ _ _ G); tauto. }
      destruct P as [P1 P2]. apply In_nth_error in P1, P2. destruct P1 as (k & K), P2 as (l & L).
      assert (KL : k <> l).
      { intros <-. rewrite K in L. injection L as -> ->. 
        assert (Px : 0 < lx / INR sx) by (apply Rdiv_lt_0_compat; auto; apply INR_pos; auto).
        assert (Py : 0 < ly / INR sy) by (apply Rdiv_lt_0_compat; auto; apply INR_pos; auto).
        assert (X : forall n h, 0 < h -> INR n * h = INR (S n) * h -> False).
        { intros n h Hh E. rewrite S_INR in E. lra. }
        remember [a'; b'] as q eqn:Eq in O. assert (Er : q = [a'; b']) by auto. clear Eq.
        revert Er. assert (O2 : exists r, r = q /\ outline sx sy (lx / INR sx) (ly / INR sy) r q) by (exists q; auto).
        destruct O2 as (r & Er & O2). intros _. clear O. destruct O2 as [i Hi|i Hi|j Hj|j Hj]; injection Er; intros; eauto. }
      intros i Hi _.
      assert (B : exists g, boundary_face 3 els g /\ (forall n, In n g <-> n = k \/ n = l)).
      { destruct (Nat.lt_total k l) as [H|[H|H]]; [|contradiction|].
        - exists [k; l]. split; [apply (grid_faces _ _ _ _ _ _ G); exists k, l; eexists; eexists; eauto 10|]. intros n. cbn. intuition.
        - exists [l; k]. split; [apply (grid_faces _ _ _ _ _ _ G); exists l, k; eexists; eexists; eauto 10|]. intros n. cbn. intuition. }
      destruct B as (g & B & Bg).
      apply (grid_rigid _ _ _ _ _ _ G) with (f := g); auto.
      intros n Hn. split.
      - exists g. auto.
      - apply Bg in Hn. destruct Hn as [-> | ->]; [apply (moved_holds [a; b] a b)|apply (moved_holds [a'; b'] a' b')]; auto.
    Qed.
  End Built.
End Placed.
