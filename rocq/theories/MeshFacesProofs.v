(* Proofs about boundary face identification (C03). *)
From Coq Require Import List Arith Bool Lia Sorted Permutation.
From Verif Require Import Common MeshModel MeshSpec ListLemmas.
Import ListNotations.

Lemma count_one_iff r rows :
  count_row r rows = 1 <->
  exists i, nth_error rows i = Some r /\ forall j, nth_error rows j = Some r -> j = i.
Proof.
  split.
  - intros H. exists (first_index r rows).
    assert (In r rows) by (apply count_row_pos; lia).
    pose proof (first_index_spec r rows H0). split; auto.
    intros j Hj. eapply count_one_unique; eauto.
  - induction rows as [|s rows IH]; intros [i [Hi Hu]]; [destruct i; discriminate|].
    simpl. destruct (row_eqb r s) eqn:E.
    + apply row_eqb_spec in E. subst s.
      assert (i = 0) by (symmetry; apply Hu; reflexivity). subst i.
      assert (N : ~ In r rows).
      { intros Hin. apply In_nth_error in Hin. destruct Hin as [j Hj].
        specialize (Hu (S j) Hj). discriminate. }
      destruct (count_row r rows) eqn:C; auto.
      exfalso. apply N. apply count_row_pos. lia.
    + apply row_eqb_false in E. apply IH. destruct i as [|i]; simpl in Hi; [congruence|].
      exists i. split; auto. intros j Hj. specialize (Hu (S j) Hj). lia.
Qed.

Lemma extract_unique_elements_In surf f o :
  In (f, o) (extract_unique_elements surf) <->
  exists p, nth_error surf p = Some (f, o) /\
            forall q, nth_error (map fst surf) q = Some f -> q = p.
Proof.
  unfold extract_unique_elements. rewrite in_map_iff. split.
  - intros [r [Hr Hin]]. apply filter_In in Hin. destruct Hin as [Hin Hc].
    apply Nat.eqb_eq in Hc. rewrite unique_rows_In in Hin.
    pose proof (first_index_spec r _ Hin) as HF.
    set (p := first_index r (map fst surf)) in *.
    assert (HP : p < length surf).
    { rewrite <- (map_length fst). apply nth_error_Some. rewrite HF. discriminate. }
    pose proof (nth_error_nth' surf ([], 0) HP) as HS. rewrite Hr in HS.
    assert (r = f).
    { rewrite nth_error_map, HS in HF. simpl in HF. congruence. }
    subst r. exists p. split; auto. intros q Hq. eapply count_one_unique; eauto.
  - intros [p [Hp Hu]].
    assert (HF : nth_error (map fst surf) p = Some f) by (rewrite nth_error_map, Hp; reflexivity).
    exists f. split.
    + assert (first_index f (map fst surf) = p).
      { apply Hu. apply first_index_spec. eapply nth_error_In; eauto. }
      rewrite H. now apply nth_error_nth.
    + apply filter_In. split.
      * rewrite unique_rows_In. eapply nth_error_In; eauto.
      * apply Nat.eqb_eq. apply count_one_iff. eauto.
Qed.

Lemma extract_unique_elements_fst surf :
  map fst (extract_unique_elements surf) =
  filter (fun r => count_row r (map fst surf) =? 1) (unique_rows (map fst surf)).
Proof.
  unfold extract_unique_elements. rewrite map_map.
  rewrite <- (map_id (filter _ _)) at 2. apply map_ext_in. intros r Hr.
  apply filter_In in Hr. destruct Hr as [Hr _]. rewrite unique_rows_In in Hr.
  pose proof (first_index_spec r _ Hr) as HF. rewrite nth_error_map in HF.
  destruct (nth_error surf (first_index r (map fst surf))) as [x|] eqn:E; [|discriminate].
  simpl in HF. rewrite (nth_error_nth _ _ _ E). congruence.
Qed.

Lemma nth_error_flat_map_const {A B} (g : nat -> A -> B) (l : list A) a w p x :
  nth_error (flat_map (fun j => map (g j) l) (seq a w)) p = Some x <->
  exists j k e, j < w /\ nth_error l k = Some e /\ p = j * length l + k /\ x = g (a + j) e.
Proof.
  revert a p. induction w as [|w IH]; intros a p; simpl.
  - split; [destruct p; discriminate | intros (j & k & e & H & _); lia].
  - destruct (Nat.lt_ge_cases p (length l)) as [Hp|Hp].
    + rewrite nth_error_app1 by (rewrite map_length; lia). rewrite nth_error_map. split.
      * intros H. destruct (nth_error l p) as [e|] eqn:E; [|discriminate].
        exists 0, p, e. simpl in H. rewrite Nat.add_0_r. simpl. repeat split; auto; try lia. congruence.
      * intros (j & k & e & H & Hk & -> & ->).
        assert (k < length l) by (apply nth_error_Some; congruence).
        destruct j as [|j]; [|simpl in Hp; lia]. simpl. rewrite Hk. simpl. now rewrite Nat.add_0_r.
    + rewrite nth_error_app2 by (rewrite map_length; lia). rewrite map_length, IH. split.
      * intros (j & k & e & H & Hk & Hpp & ->). exists (S j), k, e.
        replace (a + S j) with (S a + j) by lia. repeat split; auto; simpl; lia.
      * intros (j & k & e & H & Hk & -> & ->).
        assert (k < length l) by (apply nth_error_Some; congruence).
        destruct j as [|j]; [simpl in Hp; lia|]. exists j, k, e.
        replace (S a + j) with (a + S j) by lia. repeat split; auto; simpl; lia.
Qed.

(* ------------------------------------------------------ faces of a simplex *)

Lemma remove_nth_In {A} j (l : list A) x : In x (remove_nth j l) -> In x l.
Proof.
  revert j. induction l as [|y l IH]; intros [|j]; simpl; auto.
  intros [->|H]; auto. right. eapply IH; eauto.
Qed.

Lemma remove_nth_sorted j (l : list nat) : StronglySorted lt l -> StronglySorted lt (remove_nth j l).
Proof.
  intros H. revert j. induction H as [|x l Hs IH Hf]; intros [|j]; simpl; try constructor; auto.
  rewrite Forall_forall in *. intros y Hy. apply Hf. eapply remove_nth_In; eauto.
Qed.

Lemma remove_nth_split {A} j (l : list A) d :
  j < length l -> exists a b, l = a ++ nth j l d :: b /\ length a = j /\ remove_nth j l = a ++ b.
Proof.
  revert j. induction l as [|y l IH]; intros [|j] H; simpl in *; try lia.
  - exists [], l. auto.
  - destruct (IH j) as (a & b & E & L & R); [lia|].
    exists (y :: a), b. simpl. repeat split; congruence.
Qed.

Lemma remove_nth_NoDup_notin j (l : list nat) :
  NoDup l -> j < length l -> ~ In (nth j l 0) (remove_nth j l).
Proof.
  intros ND H. destruct (remove_nth_split j l 0 H) as (a & b & E & L & R).
  rewrite R. rewrite E in ND. now apply NoDup_remove_2 in ND.
Qed.

Lemma remove_nth_inj (l : list nat) j j' :
  NoDup l -> j < length l -> j' < length l -> remove_nth j l = remove_nth j' l -> j = j'.
Proof.
  intros ND H H' E. pose proof (remove_nth_NoDup_notin j l ND H) as N.
  destruct (Nat.eq_dec j j') as [|Hne]; auto. exfalso. apply N. rewrite E.
  destruct (remove_nth_split j' l 0 H') as (a & b & El & L & R). rewrite R.
  assert (H0 : In (nth j l 0) l) by (now apply nth_In).
  assert (Hx : nth j l 0 <> nth j' l 0).
  { intros X. apply Hne. apply (proj1 (NoDup_nth l 0) ND); auto. }
  revert H0 Hx. generalize (nth j l 0). intros x H0 Hx. rewrite El in H0.
  apply in_app_or in H0. apply in_or_app.
  destruct H0 as [H0|[H0|H0]]; [left; auto | congruence | right; auto].
Qed.

Lemma remove_nth_incl {A} j (l : list A) : incl (remove_nth j l) l.
Proof. intros x. apply remove_nth_In. Qed.

Lemma exists_outside (f e : list nat) :
  NoDup e -> length f < length e -> exists o, In o e /\ ~ In o f.
Proof.
  intros ND L.
  destruct (existsb (fun o => negb (mem_nat o f)) e) eqn:E.
  - apply existsb_exists in E. destruct E as [o [H1 H2]]. exists o. split; auto.
    apply mem_nat_false. destruct (mem_nat o f); simpl in *; congruence.
  - exfalso. assert (incl e f).
    { intros x Hx. destruct (mem_nat x f) eqn:M; [now apply mem_nat_spec|].
      exfalso. assert (existsb (fun o => negb (mem_nat o f)) e = true).
      { apply existsb_exists. exists x. rewrite M. auto. }
      congruence. }
    pose proof (NoDup_incl_length ND H). lia.
Qed.

(* a face of a sorted simplex is obtained by dropping the opposing node *)
Lemma face_remove_nth f e o :
  StronglySorted lt e -> StronglySorted lt f -> S (length f) = length e -> incl f e ->
  In o e -> ~ In o f ->
  exists j, j < length e /\ remove_nth j e = f /\ nth j e 0 = o.
Proof.
  intros He Hf L I Ho Hn.
  destruct (In_nth e o 0 Ho) as [j [Hj Ej]]. exists j. split; auto. split; auto.
  destruct (remove_nth_split j e 0 Hj) as (a & b & El & La & R).
  pose proof (length_remove_nth j e Hj) as LR.
  apply sorted_lt_unique; auto using remove_nth_sorted.
  assert (I1 : incl f (remove_nth j e)).
  { intros x Hx. specialize (I x Hx). rewrite R. rewrite El in I.
    apply in_app_or in I. apply in_or_app. destruct I as [|[I|I]]; auto.
    exfalso. apply Hn. rewrite Ej in I. congruence. }
  assert (I2 : incl (remove_nth j e) f).
  { apply NoDup_length_incl; auto.
    - now apply sorted_lt_NoDup.
    - lia. }
  intros x. split; auto.
Qed.

Lemma In_sort_nat x l : In x (sort_nat l) <-> In x l.
Proof.
  split; apply Permutation_in; [|apply Permutation_sym]; apply sort_nat_perm.
Qed.

Lemma length_sort_nat l : length (sort_nat l) = length l.
Proof. apply Permutation_length, sort_nat_perm. Qed.

Lemma incl_sort_nat f e : incl f (sort_nat e) <-> incl f e.
Proof. unfold incl. split; intros H x Hx; [apply (In_sort_nat x e)|apply (In_sort_nat x e)]; auto. Qed.

Section Faces.
  Variables (w : nat) (els : list (list nat)).
  Hypothesis Hw : simplices w els.

  Lemma simplices_nth k e : nth_error els k = Some e -> length e = w /\ NoDup e.
  Proof.
    intros H. apply nth_error_In in H. unfold simplices in Hw. rewrite Forall_forall in Hw. auto.
  Qed.

  Lemma width_first : els <> [] -> length (nth 0 (sort_elements els) []) = w.
  Proof.
    intros N. assert (exists e, nth_error els 0 = Some e) as [e He].
    { destruct els as [|e l]; [congruence|]. exists e. reflexivity. }
    pose proof (simplices_nth 0 e He) as [L _].
    rewrite <- L, <- (length_sort_nat e). f_equal. unfold sort_elements.
    apply nth_error_nth. now rewrite nth_error_map, He.
  Qed.

  Lemma identify_surfaces_nth p f o :
    nth_error (identify_surfaces (sort_elements els)) p = Some (f, o) <->
    exists j k e, j < w /\ nth_error els k = Some e /\ p = j * length els + k /\
                  f = remove_nth j (sort_nat e) /\ o = nth j (sort_nat e) 0.
  Proof.
    unfold identify_surfaces.
    rewrite nth_error_flat_map_const with (g := fun j e => (remove_nth j e, nth j e 0)).
    unfold sort_elements at 3. rewrite map_length. split.
    - intros (j & k & e & Hj & Hk & -> & E). unfold sort_elements in Hk.
      rewrite nth_error_map in Hk. destruct (nth_error els k) as [e0|] eqn:K; [|discriminate].
      simpl in Hk. inversion Hk; subst e. clear Hk.
      rewrite width_first in Hj by (intros ->; destruct k; discriminate).
      simpl in E. inversion E. exists j, k, e0. auto.
    - intros (j & k & e & Hj & Hk & -> & -> & ->). exists j, k, (sort_nat e).
      rewrite width_first by (intros N; rewrite N in Hk; destruct k; discriminate).
      repeat split; auto. unfold sort_elements. now rewrite nth_error_map, Hk.
  Qed.

  Lemma surfaces_rows_nth p f :
    nth_error (map fst (identify_surfaces (sort_elements els))) p = Some f <->
    exists j k e, j < w /\ nth_error els k = Some e /\ p = j * length els + k /\
                  f = remove_nth j (sort_nat e).
  Proof.
    rewrite nth_error_map. split.
    - destruct (nth_error _ p) as [[f' o]|] eqn:E; simpl; [|discriminate].
      intros H. inversion H; subst f'. apply identify_surfaces_nth in E.
      destruct E as (j & k & e & ? & ? & ? & ? & ?). exists j, k, e. auto.
    - intros (j & k & e & H1 & H2 & H3 & H4).
      assert (E : nth_error (identify_surfaces (sort_elements els)) p
                  = Some (f, nth j (sort_nat e) 0)).
      { apply identify_surfaces_nth. exists j, k, e. auto. }
      rewrite E. reflexivity.
  Qed.

  (* the faces reported are exactly the boundary faces, with their opposing node *)
  Lemma boundary_faces_In f o :
    In (f, o) (boundary_faces els) <-> boundary_face w els f /\ opposing els f o.
  Proof.
    unfold boundary_faces. rewrite extract_unique_elements_In. split.
    - intros (p & Hp & Hu). apply identify_surfaces_nth in Hp.
      destruct Hp as (j & k & e & Hj & Hk & -> & -> & ->).
      destruct (simplices_nth k e Hk) as [Le Ne].
      pose proof (sort_nat_lt e Ne) as Se.
      assert (Hj' : j < length (sort_nat e)) by (rewrite length_sort_nat; lia).
      assert (Ok : only_element els (remove_nth j (sort_nat e)) k e).
      { split; auto. split.
        - apply incl_sort_nat. apply remove_nth_incl.
        - intros k' e' Hk' I'.
          destruct (simplices_nth k' e' Hk') as [Le' Ne'].
          set (f := remove_nth j (sort_nat e)) in *.
          assert (Lf : S (length f) = length (sort_nat e')).
          { unfold f. rewrite length_remove_nth by assumption. rewrite !length_sort_nat. lia. }
          apply incl_sort_nat in I'.
          destruct (exists_outside f (sort_nat e')) as [o [Ho Hno]].
          { apply sorted_lt_NoDup, sort_nat_lt; auto. }
          { lia. }
          destruct (face_remove_nth f (sort_nat e') o) as (j' & Hj2 & Hf & _); auto.
          { now apply sort_nat_lt. }
          { unfold f. now apply remove_nth_sorted. }
          assert (j' * length els + k' = j * length els + k).
          { apply Hu. apply surfaces_rows_nth. exists j', k', e'.
            rewrite length_sort_nat in Hj2. repeat split; auto. lia. }
          assert (k < length els) by (apply nth_error_Some; congruence).
          assert (k' < length els) by (apply nth_error_Some; congruence).
          apply (Nat.div_mod_unique (length els) j' j k' k); lia. }
      split.
      + split; [now apply remove_nth_sorted|]. split.
        * rewrite length_remove_nth by assumption. now rewrite length_sort_nat.
        * eauto.
      + exists k, e. split; auto. split.
        * apply In_sort_nat. now apply nth_In.
        * apply remove_nth_NoDup_notin; auto. now apply sorted_lt_NoDup.
    - intros [[Sf [Lf _]] (k & e & (Hk & I & U) & Ho & Hno)].
      destruct (simplices_nth k e Hk) as [Le Ne].
      destruct (face_remove_nth f (sort_nat e) o) as (j & Hj & Hf & Hn); auto.
      { now apply sort_nat_lt. }
      { rewrite length_sort_nat. lia. }
      { now apply incl_sort_nat. }
      { now apply In_sort_nat. }
      rewrite length_sort_nat in Hj.
      exists (j * length els + k). split.
      + apply identify_surfaces_nth. exists j, k, e. repeat split; auto. lia.
      + intros q Hq. apply surfaces_rows_nth in Hq.
        destruct Hq as (j' & k' & e' & Hj' & Hk' & -> & Ef).
        assert (k' = k).
        { apply (U k' e'); auto. apply incl_sort_nat. rewrite Ef. apply remove_nth_incl. }
        subst k'. rewrite Hk in Hk'. inversion Hk'; subst e'.
        assert (j' = j).
        { apply (remove_nth_inj (sort_nat e)); rewrite ?length_sort_nat; try lia; try congruence.
          apply sorted_lt_NoDup, sort_nat_lt; auto. }
        now subst.
  Qed.

  Lemma boundary_surfaces_In f : In f (boundary_surfaces els) <-> boundary_face w els f.
  Proof.
    unfold boundary_surfaces. rewrite in_map_iff. split.
    - intros [[f' o] [<- H]]. now apply boundary_faces_In in H.
    - intros H. pose proof H as [Sf [Lf (k & e & HO)]].
      pose proof HO as [Hk [I U]].
      destruct (simplices_nth k e Hk) as [Le Ne].
      destruct (exists_outside f e) as [o [Ho Hno]]; auto; [lia|].
      exists (f, o). split; auto. apply boundary_faces_In. split; auto.
      exists k, e. auto.
  Qed.

  Lemma boundary_surfaces_sorted : StronglySorted lex_lt (boundary_surfaces els).
  Proof.
    unfold boundary_surfaces, boundary_faces. rewrite extract_unique_elements_fst.
    apply sorted_lex_filter, unique_rows_sorted.
  Qed.

  Lemma boundary_indices_In i : In i (boundary_indices els) <-> boundary_node w els i.
  Proof.
    unfold boundary_indices, extract_unique_indices. rewrite unique_nat_In, in_concat. split.
    - intros [f [H1 H2]]. apply boundary_surfaces_In in H1. exists f. auto.
    - intros [f [H1 H2]]. exists f. split; auto. now apply boundary_surfaces_In.
  Qed.

  Lemma boundary_indices_sorted : StronglySorted lt (boundary_indices els).
  Proof. apply unique_nat_sorted. Qed.
End Faces.

Lemma combine_fst_snd {A B} (l : list (A * B)) : combine (map fst l) (map snd l) = l.
Proof. induction l as [|[a b] l IH]; simpl; auto. now rewrite IH. Qed.

Lemma boundary_faces_spec (w : nat) (els : list (list nat)) :
  simplices w els ->
  (forall f o, In (f, o) (combine (boundary_surfaces els) (boundary_internal_indices els)) <->
     boundary_face w els f /\ opposing els f o) /\
  (forall f, In f (boundary_surfaces els) <-> boundary_face w els f) /\
  StronglySorted lex_lt (boundary_surfaces els) /\
  (forall i, In i (boundary_indices els) <-> boundary_node w els i) /\
  StronglySorted lt (boundary_indices els).
Proof.
  intros HS. split; [|split; [|split; [|split]]].
  - intros f o. unfold boundary_surfaces, boundary_internal_indices. rewrite combine_fst_snd.
    now apply boundary_faces_In.
  - intros f. now apply boundary_surfaces_In.
  - apply boundary_surfaces_sorted.
  - intros i. now apply boundary_indices_In.
  - apply boundary_indices_sorted.
Qed.
