(* Which conditions a statement applies on a built mesh (C11, C13, C15). *)
From Coq Require Import Reals List Arith ZArith String Bool Lia Lra Sorted
  DecimalString DecimalNat.
From Coq Require Decimal DecimalFacts.
From Verif Require Import Common PyModel MeshModel MeshBuildModel MeshSpec DofModel DofSpec RVec
  ListLemmas MeshFacesProofs MeshOrderProofs MeshBuildProofs DofProofs
  DirichletModel DirichletSpec DirichletProofs.
Import ListNotations.
Local Open Scope string_scope.
Local Open Scope list_scope.

(* ---------------- condition names (C15) ---------------- *)

Lemma append_inj_l a b c : (a ++ b)%string = (a ++ c)%string -> b = c.
Proof. induction a as [|x a IH]; simpl; intros H; auto. inversion H; auto. Qed.

Lemma to_uint_nonnil i : Nat.to_uint i <> Decimal.Nil.
Proof.
  rewrite <- (Unsigned.of_to i) at 1. rewrite Unsigned.to_of. apply DecimalFacts.unorm_nonnil.
Qed.

Lemma numbered_inj name i j : numbered name i = numbered name j -> i = j.
Proof.
  unfold numbered. intros H. do 2 apply append_inj_l in H.
  apply Unsigned.to_uint_inj.
  assert (E : NilZero.uint_of_string (NilZero.string_of_uint (Nat.to_uint i)) =
              NilZero.uint_of_string (NilZero.string_of_uint (Nat.to_uint j))) by congruence.
  rewrite !NilZero.usu in E by apply to_uint_nonnil. congruence.
Qed.

Lemma find_numbered_spec {B} fuel (bnds : dict B) name i :
  exists k, find_numbered fuel bnds name i = map (numbered name) (seq i k) /\ k <= fuel /\
    (forall j, i <= j < i + k -> dict_in bnds (numbered name j) = true) /\
    (k < fuel -> dict_in bnds (numbered name (i + k)) = false).
Proof.
  revert i. induction fuel as [|fuel IH]; intros i; simpl.
  - exists 0. repeat split; auto; intros; lia.
  - destruct (dict_in bnds (numbered name i)) eqn:E.
    + destruct (IH (S i)) as (k & E1 & H1 & H2 & H3). exists (S k). simpl.
      rewrite E1. repeat split; [lia| |].
      * intros j Hj. destruct (Nat.eq_dec j i) as [->|]; auto. apply H2. lia.
      * intros Hk. replace (i + S k) with (S i + k) by lia. apply H3. lia.
    + exists 0. simpl. repeat split; [lia|intros; lia|]. intros _. now rewrite Nat.add_0_r.
Qed.

Lemma dict_in_keys {B} (d : dict B) k : dict_in d k = true -> In k (map fst d).
Proof.
  unfold dict_in. induction d as [|[k' v] d IH]; simpl; [discriminate|].
  destruct (String.eqb_spec k k'); [intros _; left; congruence|]. intros H. right. auto.
Qed.

Lemma numbered_bound {B} (bnds : dict B) name k :
  (forall j, j < k -> dict_in bnds (numbered name j) = true) -> k <= List.length bnds.
Proof.
  intros H. rewrite <- (map_length fst bnds).
  rewrite <- (seq_length k 0), <- (map_length (numbered name) (seq 0 k)).
  apply NoDup_incl_length.
  - apply FinFun.Injective_map_NoDup; [intros a b; apply numbered_inj|apply seq_NoDup].
  - intros x Hx. apply in_map_iff in Hx. destruct Hx as (j & <- & Hj). apply in_seq in Hj.
    apply dict_in_keys, H. lia.
Qed.

(* the loop ends: any fuel larger than the number of boundaries gives the same list *)
Lemma find_conditions_fuel {B} fuel (bnds : dict B) name : List.length bnds < fuel ->
  find_numbered fuel bnds name 0 = find_numbered (S (List.length bnds)) bnds name 0.
Proof.
  intros Hf.
  destruct (find_numbered_spec fuel bnds name 0) as (k & E & K1 & K2 & K3).
  destruct (find_numbered_spec (S (List.length bnds)) bnds name 0) as (k' & E' & K1' & K2' & K3').
  simpl in *.
  assert (k <= List.length bnds) by (apply (numbered_bound bnds name); intros; apply K2; lia).
  assert (k' <= List.length bnds) by (apply (numbered_bound bnds name); intros; apply K2'; lia).
  rewrite E, E'. f_equal. f_equal.
  destruct (lt_eq_lt_dec k k') as [[L| ->]|L]; auto.
  - specialize (K2' k ltac:(lia)). rewrite K3 in K2' by lia. discriminate.
  - specialize (K2 k' ltac:(lia)). rewrite K3' in K2 by lia. discriminate.
Qed.

Lemma find_conditions_spec {B} (bnds : dict B) name :
  (dict_in bnds name = true -> find_conditions bnds name = [name]) /\
  (dict_in bnds name = false ->
     exists k, find_conditions bnds name = map (numbered name) (seq 0 k) /\
       (forall j, j < k -> dict_in bnds (numbered name j) = true) /\
       dict_in bnds (numbered name k) = false).
Proof.
  unfold find_conditions. destruct (dict_in bnds name) eqn:E; split; try discriminate; auto.
  intros _. destruct (find_numbered_spec (S (List.length bnds)) bnds name 0) as (k & Ek & K1 & K2 & K3).
  exists k. simpl in *. split; auto. split; [intros; apply K2; lia|].
  apply K3. assert (k <= List.length bnds); [|lia].
  apply (numbered_bound bnds name). intros; apply K2; lia.
Qed.

(* ---------------- look-ups ---------------- *)

Definition index_nodes (i : node_index) : list nat :=
  match i with
  | ISlice a b => seq (Z.to_nat a) (Z.to_nat b - Z.to_nat a)
  | IArray l => l
  end.

Definition good_index (N : nat) (i : node_index) : Prop :=
  match i with
  | ISlice a b => (0 <= a <= b)%Z /\ (b <= Z.of_nat N)%Z
  | IArray l => l <> [] /\ NoDup l /\ Forall (fun n => n < N) l
  end.

Lemma good_index_nodes N i : good_index N i ->
  NoDup (index_nodes i) /\ Forall (fun n => n < N) (index_nodes i).
Proof.
  destruct i as [a b|l]; simpl; intros H; [|tauto].
  split; [apply seq_NoDup|]. apply Forall_forall. intros n Hn. apply in_seq in Hn. lia.
Qed.

Lemma boundary_slices_good {V} (bd : Boundary V) N dim :
  good_index N (b_indices bd) ->
  exists sl, boundary_slices bd N dim = Ok sl /\ Forall matching sl /\
    (forall dof p, In (dof, p) (flat_map slice_pairs sl) <->
       boundary_dof (index_nodes (b_indices bd)) N dim dof p).
Proof.
  intros HG. unfold boundary_slices. destruct (b_indices bd) as [a b|l] eqn:E; simpl in HG.
  - destruct (dof_slices_slice (Z.to_nat a) (Z.to_nat b) N dim) as (H1 & H2 & _); [lia|].
    eexists. split; [reflexivity|]. split; auto.
  - destruct HG as (H1 & H2 & H3).
    destruct (dof_slices_array l N dim H1) as (out & E1 & M & HP & _). exists out. auto.
Qed.

(* dofs of nodes *)
Lemma boundary_dof_lt l N dim dof p : Forall (fun n => n < N) l ->
  boundary_dof l N dim dof p -> dof < dim * N.
Proof.
  intros HF (k & n & Hk & Hn & ->). rewrite Forall_forall in HF.
  apply nth_error_In in Hn. apply HF in Hn. nia.
Qed.

Lemma boundary_dof_fun l N dim dof p q : NoDup l -> Forall (fun n => n < N) l ->
  boundary_dof l N dim dof p -> boundary_dof l N dim dof q -> p = q.
Proof.
  intros ND HF (k & n & Hk & Hn & E1) (k' & n' & Hk' & Hn' & E2).
  rewrite Forall_forall in HF.
  pose proof (HF _ (nth_error_In _ _ Hn)). pose proof (HF _ (nth_error_In _ _ Hn')).
  assert (k = k' /\ n = n') as [-> ->].
  { apply (Nat.div_mod_unique N k k' n n'); lia. }
  assert (p < List.length l) by (apply nth_error_Some; congruence).
  rewrite NoDup_nth_error in ND. apply ND; auto. congruence.
Qed.

Lemma look_up_good bnds N dim name bd c :
  dict_get bnds name = Some bd -> good_index N (b_indices bd) -> b_condition bd = Some c ->
  exists sl, look_up bnds N dim name = Ok (sl, c) /\
    well_shaped (dim * N) [(sl, c)] /\
    (forall dof v, prescribed [(sl, c)] dof v <->
       exists p, boundary_dof (index_nodes (b_indices bd)) N dim dof p /\ v = c p).
Proof.
  intros HG HI HC. unfold look_up, dict_item. rewrite HG. simpl.
  destruct (boundary_slices_good bd N dim HI) as (sl & E & HM & HP). rewrite E, HC. simpl.
  exists sl. split; auto. split.
  - intros sl' c' s [H|[]] Hs. inversion H; subst sl' c'. rewrite Forall_forall in HM.
    split; [now apply HM|]. intros Hlt.
    assert (HB : boundary_dof (index_nodes (b_indices bd)) N dim (snd (fst s) - 1)
                   (fst (snd s) + (snd (fst s) - 1 - fst (fst s)))).
    { apply HP. apply in_flat_map. exists s. split; auto. pose proof (HM s Hs) as HMs.
      destruct s as [[a e] [c0 c1]]. unfold slice_pairs, matching in *. simpl in *.
      destruct HMs as (M1 & M2 & M3). rewrite <- M3. apply in_combine_seq. lia. }
    apply boundary_dof_lt in HB; [lia|]. now apply good_index_nodes.
  - intros dof v. unfold prescribed. split.
    + intros (sl' & c' & s & p & [H|[]] & H2 & H3 & H4). inversion H; subst.
      exists p. split; auto. apply HP. apply in_flat_map. eauto.
    + intros (p & H1 & H2). apply HP in H1. apply in_flat_map in H1. destruct H1 as (s & Hs & H1).
      exists sl, c, s, p. simpl. auto.
Qed.

Lemma prescribed_cons k conds d v :
  prescribed (k :: conds) d v <-> prescribed [k] d v \/ prescribed conds d v.
Proof.
  unfold prescribed. split.
  - intros (sl & c & s & p & [H|H] & H2).
    + left. exists sl, c, s, p. subst k. simpl. auto.
    + right. exists sl, c, s, p. auto.
  - intros [(sl & c & s & p & [H|[]] & H2)|(sl & c & s & p & H & H2)].
    + exists sl, c, s, p. subst k. simpl. auto.
    + exists sl, c, s, p. simpl. auto.
Qed.

Lemma well_shaped_cons n k conds :
  well_shaped n [k] -> well_shaped n conds -> well_shaped n (k :: conds).
Proof.
  intros H1 H2 sl c s [H|H] Hs; [subst k; eapply H1; eauto; left; reflexivity|eapply H2; eauto].
Qed.

Lemma look_up_all_good bnds N dim names :
  (forall name, In name names -> exists bd c, dict_get bnds name = Some bd /\
     good_index N (b_indices bd) /\ b_condition bd = Some c) ->
  exists conds, look_up_all bnds N dim names = Ok conds /\ well_shaped (dim * N) conds /\
    (forall dof v, prescribed conds dof v <->
       exists name bd c p, In name names /\ dict_get bnds name = Some bd /\
         b_condition bd = Some c /\
         boundary_dof (index_nodes (b_indices bd)) N dim dof p /\ v = c p).
Proof.
  induction names as [|name names IH]; intros H; simpl.
  - exists []. split; auto. split; [intros sl c s []|].
    intros dof v. split.
    + intros (sl & c & s & p & [] & _).
    + intros (name & bd & c & p & [] & _).
  - destruct (H name (or_introl eq_refl)) as (bd & c & G & I & C).
    destruct (look_up_good bnds N dim name bd c G I C) as (sl & E & W & HP).
    destruct IH as (conds & E2 & W2 & HP2); [intros; apply H; right; auto|].
    rewrite E. simpl. rewrite E2. simpl. eexists. split; [reflexivity|].
    split; [now apply well_shaped_cons|].
    intros dof v. rewrite prescribed_cons, HP, HP2. split.
    + intros [(p & H1 & H2)|(nm & bd' & c' & p & H1 & H2)].
      * exists name, bd, c, p. auto.
      * exists nm, bd', c', p. intuition.
    + intros (nm & bd' & c' & p & [<-|H1] & H2 & H3 & H4 & H5).
      * left. exists p. rewrite G in H2. inversion H2; subst bd'.
        rewrite C in H3. inversion H3; subst c'. auto.
      * right. exists nm, bd', c', p. auto.
Qed.

(* ---------------- built meshes ---------------- *)

Section Built.
  Context {P : Type}.
  Variable mean : list P -> P.
  Variable zero : P.
  Variables (nodes0 : list P) (els0 : list (list nat)) (d : @Description P vec)
            (m : @MeshData P vec) (w : nat) (ic id : P -> bool).
  Hypothesis HR : in_range (List.length nodes0) els0.
  Hypothesis HS : simplices w els0.
  Hypothesis HC : dict_get (indicators d) "contact" = Some ic.
  Hypothesis HD : dict_get (indicators d) "dirichlet" = Some id.
  Hypothesis HB : build mean zero nodes0 els0 d = Ok m.

  Let N := List.length (m_nodes m).

  Lemma built_boundaries : exists contact neumann dir f others,
    m_boundaries m =
      ("contact", contact) :: ("neumann", neumann) :: ("dirichlet", dir) :: others /\
    dict_get (conditions d) "dirichlet" = Some f /\
    b_indices dir = ISlice (nodes_count m - dirichlet_nodes_count m) (nodes_count m) /\
    b_condition dir = Some (f (py_slice (nodes_count m - dirichlet_nodes_count m)
                                 (nodes_count m) (m_nodes m))) /\
    other_boundaries mean zero (boundary_surfaces (m_elements m)) (m_nodes m) (conditions d)
      (indicators d) = Ok others.
  Proof.
    clear HS HR. pose proof HB as HB'. unfold build in HB'.
    destruct (remove_unconnected nodes0 els0) as [n1 e1].
    unfold bind, identify_boundaries, dict_item in HB'. rewrite HC, HD in HB'. simpl in HB'.
    destruct (reorder_boundary_nodes zero n1 e1 ic id) as [[[[n2 e2] bc] cc] dc].
    unfold bind in HB'.
    destruct (dict_get (conditions d) "dirichlet") as [f|]; [|discriminate].
    destruct (other_boundaries _ _ _ _ _ _) as [others|] eqn:EO; [|discriminate].
    destruct (existsb _ others); [discriminate|].
    inversion HB'; subst m; clear HB'. simpl.
    eexists _, _, _, _, _. split; [reflexivity|]. split; [reflexivity|].
    unfold nodes_count, dirichlet_nodes_count, count_of. simpl.
    split; [reflexivity|]. split; [reflexivity|].
    unfold boundary_surfaces in *. rewrite boundary_faces_sort. auto.
  Qed.

  Lemma dirichlet_present : dict_in (m_boundaries m) "dirichlet" = true.
  Proof.
    destruct built_boundaries as (c & n & dir & f & o & E & _).
    unfold dict_in. rewrite E. reflexivity.
  Qed.

  Lemma find_dirichlet : find_conditions (m_boundaries m) "dirichlet" = ["dirichlet"].
  Proof. apply find_conditions_spec, dirichlet_present. Qed.

  (* the dofs and values of the mechanical Dirichlet condition *)
  Lemma mesh_dirichlet dim f : dict_get (conditions d) "dirichlet" = Some f ->
    exists C Ne I D conds,
      node_order w nodes0 els0 (m_nodes m) (m_elements m) ic id C Ne I D /\
      mesh_conditions m dim "dirichlet" = Ok conds /\
      well_shaped (dim * N) conds /\
      N = List.length (C ++ Ne ++ I) + List.length D /\
      let first := List.length (C ++ Ne ++ I) in
      forall dof v, prescribed conds dof v <->
        exists n k, first <= n < N /\ k < dim /\ dof = n + k * N /\
          v = f (skipn first (m_nodes m)) (n - first).
  Proof.
    intros Hf.
    destruct (build_spec mean zero nodes0 els0 d m w ic id HR HS HC HD HB)
      as (C & Ne & I & D & CD & HO & _ & _ & Hn & _ & _ & Hd).
    destruct built_boundaries as (bc & bn & dir & f' & o & E & Ef & EI & EC & _).
    rewrite Hf in Ef. inversion Ef; subst f'; clear Ef.
    assert (HN : N = List.length (C ++ Ne ++ I) + List.length D).
    { unfold nodes_count in Hn. unfold N. rewrite !app_length in *. lia. }
    exists C, Ne, I, D.
    set (first := List.length (C ++ Ne ++ I)) in *.
    assert (S1 : (nodes_count m - dirichlet_nodes_count m)%Z = Z.of_nat first).
    { rewrite Hd. unfold nodes_count. fold N. lia. }
    assert (GI : good_index N (b_indices dir)).
    { rewrite EI, S1. simpl. unfold nodes_count. fold N. lia. }
    destruct (look_up_all_good (m_boundaries m) N dim ["dirichlet"]) as (conds & L1 & L2 & L3).
    { intros name [<-|[]]. exists dir. eexists. rewrite E. simpl. split; [reflexivity|].
      split; [exact GI|exact EC]. }
    exists conds. split; auto. split.
    { unfold mesh_conditions. rewrite find_dirichlet. exact L1. }
    split; auto. split; auto. cbv zeta. intros dof v. rewrite L3.
    assert (SL : py_slice (nodes_count m - dirichlet_nodes_count m) (nodes_count m) (m_nodes m)
                 = skipn first (m_nodes m)).
    { rewrite S1. rewrite <- (firstn_skipn first (m_nodes m)) at 1.
      rewrite <- (app_nil_r (skipn first (m_nodes m))) at 1.
      apply py_slice_mid; unfold nodes_count; fold N; rewrite ?firstn_skipn, ?firstn_length; fold N; lia. }
    assert (IX : forall p n, nth_error (index_nodes (b_indices dir)) p = Some n <->
                   (first <= n < N /\ p = n - first)).
    { intros p n. rewrite EI, S1. simpl. unfold nodes_count. fold N. rewrite !Nat2Z.id. split.
      - intros H. assert (p < N - first).
        { rewrite <- (seq_length (N - first) first). apply nth_error_Some. congruence. }
        rewrite nth_error_nth' with (d := 0) in H by (now rewrite seq_length).
        rewrite seq_nth in H by lia. inversion H. lia.
      - intros [H ->]. rewrite nth_error_nth' with (d := 0) by (rewrite seq_length; lia).
        rewrite seq_nth by lia. f_equal. lia. }
    split.
    - intros (nm & bd & c & p & [<-|[]] & H2 & H3 & (k & n & Hk & Hp & ->) & ->).
      rewrite E in H2. simpl in H2. inversion H2; subst bd. rewrite EC in H3.
      inversion H3; subst c. rewrite SL. apply IX in Hp. destruct Hp as [H ->].
      exists n, k. auto.
    - intros (n & k & H & Hk & -> & ->). exists "dirichlet", dir. eexists. exists (n - first).
      split; [left; reflexivity|]. rewrite E. simpl. split; [reflexivity|]. split; [exact EC|].
      split; [|now rewrite SL]. exists k, n. split; auto. split; auto. apply IX. auto.
  Qed.

  Lemma other_boundaries_get surfaces nodes conds inds others name bd :
    other_boundaries mean zero surfaces nodes conds inds = Ok others ->
    In (name, bd) others -> exists ind (cond : list P -> vec),
      In (name, ind) inds /\ dict_get conds name = Some cond /\
      bd = mkBoundary (apply_predicate_to_surfaces mean zero surfaces nodes ind)
             (IArray (extract_unique_indices (apply_predicate_to_surfaces mean zero surfaces nodes ind)))
             (b_count bd)
             (Some (cond (map (fun k => nth k nodes zero)
                (extract_unique_indices (apply_predicate_to_surfaces mean zero surfaces nodes ind))))) /\
      extract_unique_indices (apply_predicate_to_surfaces mean zero surfaces nodes ind) <> [].
  Proof.
    revert others. induction inds as [|[nm ind] inds IH]; intros others H Hin; simpl in H.
    - inversion H; subst. destruct Hin.
    - destruct (String.eqb nm "contact" || String.eqb nm "dirichlet")%bool.
      { destruct (IH _ H Hin) as (i & c & H1 & H2). exists i, c. simpl. tauto. }
      destruct (extract_unique_indices _) as [|i0 l0] eqn:EX in H.
      { destruct (IH _ H Hin) as (i & c & H1 & H2). exists i, c. simpl. tauto. }
      unfold bind, dict_item in H. destruct (dict_get conds nm) as [c|] eqn:EC; [|discriminate].
      destruct (other_boundaries _ _ _ _ _ inds) as [more|] eqn:EM; [|discriminate].
      inversion H; subst others; clear H. destruct Hin as [Hin|Hin].
      + inversion Hin; subst. exists ind, c. rewrite EX. simpl. repeat split; auto. discriminate.
      + destruct (IH _ eq_refl Hin) as (i & c' & H1 & H2). exists i, c'. simpl. tauto.
  Qed.

  Lemma dict_get_In {A} (l : dict A) k v : dict_get l k = Some v -> In (k, v) l.
  Proof.
    induction l as [|[k' v'] l IH]; simpl; [discriminate|].
    destruct (String.eqb_spec k k'); intros H; [inversion H; subst; auto|auto].
  Qed.

  (* every extra named boundary is usable as a Dirichlet condition *)
  Lemma named_good name bd : name <> "contact" -> name <> "neumann" -> name <> "dirichlet" ->
    dict_get (m_boundaries m) name = Some bd ->
    exists ind cond, In (name, ind) (indicators d) /\ dict_get (conditions d) name = Some cond /\
      good_index N (b_indices bd) /\
      (forall n, In n (index_nodes (b_indices bd)) <->
         exists f, boundary_face w (m_elements m) f /\ face_holds mean (m_nodes m) ind f /\ In n f) /\
      StronglySorted lt (index_nodes (b_indices bd)) /\
      b_condition bd = Some (cond (map (fun k => nth k (m_nodes m) zero) (index_nodes (b_indices bd)))).
  Proof.
    intros N1 N2 N3 HG.
    destruct built_boundaries as (bc & bn & dir & f' & o & E & _ & _ & _ & EO).
    rewrite E in HG. simpl in HG.
    destruct (String.eqb_spec name "contact"); [congruence|].
    destruct (String.eqb_spec name "neumann"); [congruence|].
    destruct (String.eqb_spec name "dirichlet"); [congruence|].
    apply dict_get_In in HG.
    destruct (other_boundaries_get _ _ _ _ _ _ _ EO HG) as (ind & cond & H1 & H2 & H3 & H4).
    exists ind, cond. split; auto. split; auto. rewrite H3. simpl.
    destruct (build_built mean zero nodes0 els0 d m w HR HS HB)
      as (keep & nn1 & e1 & ic' & id' & B).
    pose proof (bt_ren _ _ _ _ _ _ _ _ _ _ _ B) as HREN.
    pose proof (ob_simplices _ _ _ _ _ _ w _ _ _ _ _ HS B) as HS1.
    pose proof (ren_simplices _ _ _ _ _ HREN w HS1) as HS2.
    pose proof (ren_in_range _ _ _ _ _ HREN) as HR2.
    rewrite <- (ren_nodes_length _ _ _ _ _ HREN) in HR2.
    assert (HF : forall f, boundary_face w (m_elements m) f ->
              forall i, In i f -> i < List.length (m_nodes m)).
    { intros f Hf i Hi. eapply boundary_node_lt; eauto. exists f; eauto. }
    set (faces := apply_predicate_to_surfaces mean zero (boundary_surfaces (m_elements m)) (m_nodes m) ind) in *.
    assert (HIN : forall n, In n (extract_unique_indices faces) <->
      exists f, boundary_face w (m_elements m) f /\ face_holds mean (m_nodes m) ind f /\ In n f).
    { intros n'. unfold extract_unique_indices. rewrite unique_nat_In, in_concat. unfold faces.
      rewrite apply_predicate_filter. split.
      - intros (f & Hf & Hn). apply filter_In in Hf. destruct Hf as [Hf Hp].
        apply (boundary_surfaces_In w) in Hf; auto. exists f. split; auto. split; auto.
        apply (face_holds_spec mean zero); eauto.
      - intros (f & Hf & Hp & Hn). exists f. split; auto. apply filter_In.
        split; [now apply (boundary_surfaces_In w)|]. apply (face_holds_spec mean zero) in Hp; eauto. }
    split; [|split; [exact HIN|split; [apply unique_nat_sorted|reflexivity]]].
    split; [exact H4|]. split; [apply sorted_lt_NoDup, unique_nat_sorted|].
    apply Forall_forall. intros x Hx. apply HIN in Hx. destruct Hx as (f & Hf & _ & Hx).
    eapply HF; eauto.
  Qed.

  (* the conditions found for a name that is not one of the three built-in boundaries;
     [k] numbered conditions are applied *)
  Lemma mesh_numbered dim name :
    dict_in (m_boundaries m) name = false ->
    (forall i, numbered name i <> "contact" /\ numbered name i <> "neumann" /\
               numbered name i <> "dirichlet") ->
    exists k conds,
      (forall j, j < k -> dict_in (m_boundaries m) (numbered name j) = true) /\
      dict_in (m_boundaries m) (numbered name k) = false /\
      mesh_conditions m dim name = Ok conds /\
      well_shaped (dim * N) conds /\
      forall dof v, prescribed conds dof v <->
        exists j bd c p, j < k /\ dict_get (m_boundaries m) (numbered name j) = Some bd /\
          b_condition bd = Some c /\
          boundary_dof (index_nodes (b_indices bd)) N dim dof p /\ v = c p.
  Proof.
    intros HF HNm. destruct (proj2 (find_conditions_spec (m_boundaries m) name) HF) as (k & E & K1 & K2).
    exists k. unfold mesh_conditions. rewrite E.
    destruct (look_up_all_good (m_boundaries m) N dim (map (numbered name) (seq 0 k)))
      as (conds & L1 & L2 & L3).
    { intros nm Hnm. apply in_map_iff in Hnm. destruct Hnm as (j & <- & Hj). apply in_seq in Hj.
      specialize (K1 j ltac:(lia)). unfold dict_in in K1.
      destruct (dict_get (m_boundaries m) (numbered name j)) as [bd|] eqn:EB; [|discriminate].
      destruct (HNm j) as (X1 & X2 & X3).
      destruct (named_good _ _ X1 X2 X3 EB) as (ind & cond & _ & _ & GI & _ & _ & BC).
      eexists _, _. split; [reflexivity|]. split; [exact GI|exact BC]. }
    exists conds. split; auto. split; auto. split; [exact L1|]. split; auto.
    intros dof v. rewrite L3. split.
    - intros (nm & bd & c & p & Hnm & H2). apply in_map_iff in Hnm.
      destruct Hnm as (j & <- & Hj). apply in_seq in Hj. exists j, bd, c, p.
      split; [lia|]. exact H2.
    - intros (j & bd & c & p & Hj & H2). exists (numbered name j), bd, c, p. split; auto.
      apply in_map. apply in_seq. lia.
  Qed.
End Built.
