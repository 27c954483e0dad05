(* Total load and virtual work of the assembled force vector. *)
From Coq Require Import Reals List Arith Bool String Sorted Lia Lra.
From Verif Require Import Common RVec PyModel MeshModel MeshBuildModel MeshSpec MeshBuildProofs ListLemmas FemModel FemSpec FemAssemblyProofs
  FemFormProofs FemBasicProofs FemMeshProofs FemBuildProofs FemPipelineProofs ForcesModel ForcesSpec ForcesProofs.
Import ListNotations.
Local Open Scope string_scope.
Local Open Scope list_scope.
Local Open Scope R_scope.

Section Load.
  Context {P T : Type}.
  Variable teq : T -> T -> bool.
  Hypothesis teq_sound : forall a b, teq a b = true -> a = b.

  (* a request at time t will not be answered from a wrong cache *)
  Definition up_to_date (fs : field_source P T vec) (f : P -> T -> result vec) (nodes : list P) (t : T) : Prop :=
    source fs = Some f /\
    (timestamp fs = Some t -> exists l, cache fs = Some l /\ values f nodes t l).

  Lemma values_inj {V} (f : P -> T -> result V) nodes t l l' :
    values f nodes t l -> values f nodes t l' -> l = l'.
  Proof.
    unfold values. intros H. revert l'. induction H as [|x y xs ys Hx HF IH]; intros l2 H'; inversion H'; subst; auto.
    f_equal; auto; congruence.
  Qed.

  Lemma up_to_date_request fs f nodes t l : up_to_date fs f nodes t -> values f nodes t l ->
    snd (node_source teq fs nodes t) = Ok (Some l).
  Proof.
    intros [HS HC] HV. unfold node_source. rewrite HS. pose proof (proj2 (evaluate_values f nodes t l) HV) as E.
    rewrite E. destruct (timestamp fs) as [t0|]; auto. destruct (teq t t0) eqn:Et; auto.
    apply teq_sound in Et. subst. destruct (HC eq_refl) as (l' & Hc & Hv). simpl. rewrite Hc. repeat f_equal.
    eapply values_inj; eauto.
  Qed.

  Variables (nodes : list P) (table : nat -> vec) (d : nat) (neumann : list (list nat)) (A : mat).
  Let N := List.length nodes.
  Hypothesis Hd : d = 2%nat \/ d = 3%nat.
  Hypothesis HF : faces_ok d N neumann.

  Lemma integrate_entry bf fi fo t li lo :
    up_to_date (inner bf) fi nodes t -> up_to_date (outer bf) fo nodes t ->
    values fi nodes t li -> values fo nodes t lo ->
    exists r s, snd (integrate teq nodes table d neumann A bf t) = Ok r /\
      surface_per_node d table neumann (fun _ => 0) = Ok s /\
      forall n k, (n < N)%nat -> component N r k n
        = sum N (fun b => A n b * array_of li b k) + s n * array_of lo n k.
  Proof.
    intros UI UO VI VO.
    destruct (surface_spec d N table neumann Hd HF) as (s & Hs & _).
    unfold integrate, integrated_inner, integrated_outer. rewrite Hs.
    pose proof (up_to_date_request _ _ _ _ _ UI VI) as HI.
    pose proof (up_to_date_request _ _ _ _ _ UO VO) as HO.
    destruct (node_source teq (inner bf) nodes t) as [i ri]. simpl in HI. subst ri. cbn [bind outer inner].
    destruct (node_source teq (outer bf) nodes t) as [o ro]. simpl in HO. subst ro. cbn [bind snd].
    eexists; eexists. split; [reflexivity|]. split; [reflexivity|].
    intros n k Hn. unfold component. cbv beta. fold N.
    replace ((k * N + n) mod N)%nat with n by (rewrite Nat.add_comm, Nat.mod_add, Nat.mod_small by lia; reflexivity).
    replace ((k * N + n) / N)%nat with k; [reflexivity|].
    rewrite Nat.add_comm, Nat.div_add, Nat.div_small by lia. reflexivity.
  Qed.

  Variables (els : list (list nat)) (meas : list nat -> R) (G : list nat -> nat -> vec) (B : basic).
  Hypothesis FM : fem d N table els G.
  Hypothesis AS : assembled d els meas G B.
  Hypothesis HA : A = volume_at_nodes B.

  Lemma load_spec bf fi fo t li lo :
    up_to_date (inner bf) fi nodes t -> up_to_date (outer bf) fo nodes t ->
    values fi nodes t li -> values fo nodes t lo ->
    exists r, snd (integrate teq nodes table d neumann A bf t) = Ok r /\
      (forall k, sum N (component N r k)
         = integral meas els (fun e => mean_value d e (fun n => array_of li n k))
           + face_integral d table neumann (fun n => array_of lo n k)) /\
      (forall k v, sum N (fun n => v n * component N r k n)
         = integral meas els (fun e =>
             (sum (S d) (fun i => v (nth i e 0%nat)) * sum (S d) (fun i => array_of li (nth i e 0%nat) k)
              - sum (S d) (fun i => v (nth i e 0%nat) * array_of li (nth i e 0%nat) k)) / (INR (S d) * INR d))
           + face_integral d table neumann (fun n => v n * array_of lo n k)).
  Proof.
    intros UI UO VI VO.
    destruct (integrate_entry bf fi fo t li lo UI UO VI VO) as (r & s & Hr & Hs & He).
    destruct (surface_spec d N table neumann Hd HF) as (s' & Hs' & _ & _ & _ & HG).
    assert (s' = s) by congruence. subst s'.
    assert (D : (0 < d)%nat) by (destruct Hd; lia).
    exists r. split; [exact Hr|]. split.
    - intros k. rewrite (sum_ext N _ _ (fun n Hn => He n k Hn)). rewrite sum_plus, HG. f_equal.
      rewrite <- (vol_form d N table els meas G B FM AS (fun n => array_of li n k) D), <- HA.
      unfold bilinear. apply sum_ext. intros a _. apply sum_ext. intros; ring.
    - intros k v.
      rewrite (sum_ext N _ (fun n => v n * sum N (fun b => A n b * array_of li b k) + s n * (v n * array_of lo n k))).
      2:{ intros n Hn. rewrite He by auto. ring. }
      rewrite sum_plus, HG. f_equal.
      rewrite <- (vol_work d N table els meas G B FM AS v (fun n => array_of li n k) D), <- HA.
      unfold bilinear. apply sum_ext. intros a _. rewrite <- sum_scal. apply sum_ext. intros; ring.
  Qed.

  (* constant volume force: exact work against every displacement *)
  Lemma constant_work bf fi fo t g0 li lo :
    up_to_date (inner bf) fi nodes t -> up_to_date (outer bf) fo nodes t ->
    values fi nodes t li -> values fo nodes t lo ->
    (forall p, In p nodes -> fi p t = Ok g0) ->
    exists r, snd (integrate teq nodes table d neumann A bf t) = Ok r /\
      (forall k v, sum N (fun n => v n * component N r k n)
         = g0 k * integral meas els (fun e => mean_value d e v)
           + face_integral d table neumann (fun n => v n * array_of lo n k)).
  Proof.
    intros UI UO VI VO HC. destruct (load_spec bf fi fo t li lo UI UO VI VO) as (r & Hr & _ & HW).
    exists r. split; [exact Hr|]. intros k v. rewrite HW. f_equal.
    assert (E : forall n, (n < N)%nat -> array_of li n k = g0 k).
    { intros n Hn. unfold array_of.
      assert (X : In (nth n li (fun _ => 0)) li).
      { apply nth_In. unfold values in VI. rewrite <- (Forall2_length' _ _ _ VI). exact Hn. }
      assert (Y : forall y, In y li -> y = g0).
      { clear - VI HC. unfold values in VI. induction VI; simpl; [tauto|].
        intros z [<-|Hz]; [|apply IHVI; auto; intros; apply HC; simpl; auto].
        specialize (HC x (or_introl eq_refl)). congruence. }
      rewrite (Y _ X). reflexivity. }
    unfold integral. rewrite <- lsum_scal. apply lsum_ext. intros e He.
    assert (R0 : forall i, (i < S d)%nat -> array_of li (nth i e 0%nat) k = g0 k).
    { intros i Hi. apply E. destruct FM as [HR HL _ _].
      pose proof (proj1 (Forall_forall _ _) HL e He) as L.
      pose proof (proj1 (Forall_forall _ _) HR e He) as RR.
      cbv beta in L. apply (proj1 (Forall_forall _ _) RR). apply nth_In. rewrite L. exact Hi. }
    rewrite (sum_ext (S d) (fun i => array_of li (nth i e 0%nat) k) (fun _ => g0 k)) by auto.
    rewrite (sum_ext (S d) (fun i => v (nth i e 0%nat) * array_of li (nth i e 0%nat) k)
              (fun i => v (nth i e 0%nat) * g0 k)) by (intros; rewrite R0; auto).
    rewrite sum_const, sum_scal_r. unfold mean_value. rewrite (S_INR d).
    assert (INR d <> 0) by (apply not_0_INR; destruct Hd; lia).
    assert (INR d + 1 <> 0) by (rewrite <- S_INR; apply not_0_INR; lia). field. auto.
  Qed.
End Load.

Lemma load_2d P T (teq : T -> T -> bool) (nodes : list P) table els neumann B bf fi fo t li lo :
  (forall a b, teq a b = true -> a = b) ->
  triangles (List.length nodes) table els -> faces_ok 2 (List.length nodes) neumann ->
  get_basic_matrices table els = Ok B ->
  up_to_date (inner bf) fi nodes t -> up_to_date (outer bf) fo nodes t ->
  values fi nodes t li -> values fo nodes t lo ->
  exists r, snd (integrate teq nodes table 2 neumann (volume_at_nodes B) bf t) = Ok r /\
    (forall k, sum (List.length nodes) (component (List.length nodes) r k)
       = integral (element_area table) els (fun e => mean_value 2 e (fun n => array_of li n k))
         + face_integral 2 table neumann (fun n => array_of lo n k)).
Proof.
  intros HE HT HF HB UI UO VI VO. rewrite (basic2_is _ _ _ _ HT HB).
  destruct (load_spec teq HE nodes table 2 neumann (volume_at_nodes (basic2 table els)) (or_introl eq_refl) HF
    els _ _ _ (triangles_fem _ _ _ HT) (basic2_assembled table els (proj1 (proj2 HT))) eq_refl
    bf fi fo t li lo UI UO VI VO) as (r & Hr & H1 & _).
  exists r. split; [exact Hr|exact H1].
Qed.

Lemma load_3d P T (teq : T -> T -> bool) (nodes : list P) table els neumann B bf fi fo t li lo :
  (forall a b, teq a b = true -> a = b) ->
  tetrahedra (List.length nodes) table els -> faces_ok 3 (List.length nodes) neumann ->
  get_basic_matrices table els = Ok B ->
  up_to_date (inner bf) fi nodes t -> up_to_date (outer bf) fo nodes t ->
  values fi nodes t li -> values fo nodes t lo ->
  exists r, snd (integrate teq nodes table 3 neumann (volume_at_nodes B) bf t) = Ok r /\
    (forall k, sum (List.length nodes) (component (List.length nodes) r k)
       = integral (element_volume table) els (fun e => mean_value 3 e (fun n => array_of li n k))
         + face_integral 3 table neumann (fun n => array_of lo n k)).
Proof.
  intros HE HT HF HB UI UO VI VO. rewrite (basic3_is _ _ _ _ HT HB).
  destruct (load_spec teq HE nodes table 3 neumann (volume_at_nodes (basic3 table els)) (or_intror eq_refl) HF
    els _ _ _ (tetrahedra_fem _ _ _ HT) (basic3_assembled table els (proj1 (proj2 HT))) eq_refl
    bf fi fo t li lo UI UO VI VO) as (r & Hr & H1 & _).
  exists r. split; [exact Hr|exact H1].
Qed.

Lemma work_2d P T (teq : T -> T -> bool) (nodes : list P) table els neumann B bf fi fo t g0 li lo :
  (forall a b, teq a b = true -> a = b) ->
  triangles (List.length nodes) table els -> faces_ok 2 (List.length nodes) neumann ->
  get_basic_matrices table els = Ok B ->
  up_to_date (inner bf) fi nodes t -> up_to_date (outer bf) fo nodes t ->
  values fi nodes t li -> values fo nodes t lo ->
  (forall p, In p nodes -> fi p t = Ok g0) ->
  exists r, snd (integrate teq nodes table 2 neumann (volume_at_nodes B) bf t) = Ok r /\
    (forall k v, sum (List.length nodes) (fun n => v n * component (List.length nodes) r k n)
       = g0 k * integral (element_area table) els (fun e => mean_value 2 e v)
         + face_integral 2 table neumann (fun n => v n * array_of lo n k)).
Proof.
  intros HE HT HF HB UI UO VI VO HC. rewrite (basic2_is _ _ _ _ HT HB).
  exact (constant_work teq HE nodes table 2 neumann (volume_at_nodes (basic2 table els)) (or_introl eq_refl) HF
    els _ _ _ (triangles_fem _ _ _ HT) (basic2_assembled table els (proj1 (proj2 HT))) eq_refl
    bf fi fo t g0 li lo UI UO VI VO HC).
Qed.

Lemma work_3d P T (teq : T -> T -> bool) (nodes : list P) table els neumann B bf fi fo t g0 li lo :
  (forall a b, teq a b = true -> a = b) ->
  tetrahedra (List.length nodes) table els -> faces_ok 3 (List.length nodes) neumann ->
  get_basic_matrices table els = Ok B ->
  up_to_date (inner bf) fi nodes t -> up_to_date (outer bf) fo nodes t ->
  values fi nodes t li -> values fo nodes t lo ->
  (forall p, In p nodes -> fi p t = Ok g0) ->
  exists r, snd (integrate teq nodes table 3 neumann (volume_at_nodes B) bf t) = Ok r /\
    (forall k v, sum (List.length nodes) (fun n => v n * component (List.length nodes) r k n)
       = g0 k * integral (element_volume table) els (fun e => mean_value 3 e v)
         + face_integral 3 table neumann (fun n => v n * array_of lo n k)).
Proof.
  intros HE HT HF HB UI UO VI VO HC. rewrite (basic3_is _ _ _ _ HT HB).
  exact (constant_work teq HE nodes table 3 neumann (volume_at_nodes (basic3 table els)) (or_intror eq_refl) HF
    els _ _ _ (tetrahedra_fem _ _ _ HT) (basic3_assembled table els (proj1 (proj2 HT))) eq_refl
    bf fi fo t g0 li lo UI UO VI VO HC).
Qed.

(* the Neumann faces of a constructed mesh are faces in the sense of the specification *)
Lemma sorted_nodup (l : list nat) : StronglySorted lt l -> NoDup l.
Proof.
  induction 1; constructor; auto. intros H1. apply (proj1 (Forall_forall _ _) H0) in H1. lia.
Qed.

Lemma built_faces (P V : Type) (mean : list P -> P) (zero : P) (nodes0 : list P) (els0 : list (list nat))
    (d : @Description P V) (m : @MeshData P V) (w : nat) ic id :
  in_range (List.length nodes0) els0 -> simplices (S (S w)) els0 ->
  dict_get (indicators d) "contact" = Some ic -> dict_get (indicators d) "dirichlet" = Some id ->
  build mean zero nodes0 els0 d = Ok m ->
  forall which, In which ["contact"; "dirichlet"; "neumann"] ->
  faces_ok (S w) (List.length (m_nodes m)) (faces_of m which).
Proof.
  intros HR HS HC HD HB which Hw.
  destruct (face_classes mean zero nodes0 els0 d m (S (S w)) ic id HR HS HC HD HB) as (F1 & F2 & F3 & _).
  destruct (built_shape mean zero nodes0 els0 d m w HR HS HB) as (_ & HI).
  apply Forall_forall. intros f Hf.
  assert (BF : boundary_face (S (S w)) (m_elements m) f).
  { destruct Hw as [<-|[<-|[<-|[]]]]; [apply F1 in Hf|apply F2 in Hf|apply F3 in Hf]; tauto. }
  destruct BF as (B1 & B2 & k & e & (E1 & E2 & _)). split; [lia|]. split; [apply sorted_nodup; auto|].
  apply Forall_forall. intros i Hi. apply E2 in Hi. apply nth_error_In in E1.
  apply (proj1 (Forall_forall _ _) HI) in E1. apply (proj1 (Forall_forall _ _) E1). exact Hi.
Qed.

Lemma fresh_up_to_date {P T} (f : P -> T -> result vec) nodes t : up_to_date (fresh_source (Some f)) f nodes t.
Proof. split; [reflexivity|]. simpl. discriminate. Qed.

(* constant forces on a constructed mesh *)
Lemma lsum_const_face (f : list nat) (c : R) : lsum f (fun _ => c) = INR (List.length f) * c.
Proof. induction f as [|x f IH]; [simpl; ring|]. cbn [lsum List.length]. rewrite IH, S_INR. ring. Qed.

Lemma face_integral_const d N table faces g (c : R) : (0 < d)%nat -> faces_ok d N faces ->
  (forall n, (n < N)%nat -> g n = c) ->
  face_integral d table faces g = c * lsum faces (face_measure d table).
Proof.
  intros Hd HF Hg. unfold face_integral. rewrite <- lsum_scal. apply lsum_ext. intros f Hf.
  apply (proj1 (Forall_forall _ _) HF) in Hf. destruct Hf as (L & _ & Hr).
  rewrite (lsum_ext f g (fun _ => c)), lsum_const_face, L.
  - field. apply not_0_INR; lia.
  - intros n Hn. apply Hg. apply (proj1 (Forall_forall _ _) Hr); auto.
Qed.

Lemma constant_values {P T} (f : P -> T -> result vec) nodes t g : (forall p, In p nodes -> f p t = Ok g) ->
  values f nodes t (repeat g (List.length nodes)).
Proof.
  unfold values. induction nodes as [|p nodes IH]; intros H; cbn [List.length repeat]; constructor.
  - apply H; simpl; auto.
  - apply IH. intros; apply H; simpl; auto.
Qed.

Lemma repeat_entry (g : vec) N n k : (n < N)%nat -> array_of (repeat g N) n k = g k.
Proof.
  intros H. unfold array_of. rewrite (nth_indep _ _ g) by (rewrite repeat_length; auto).
  rewrite nth_repeat. reflexivity.
Qed.

Lemma built_load_2d (P V T : Type) (mean : list P -> P) (zero : P) (coord : P -> vec) (teq : T -> T -> bool)
    (nodes0 : list P) (els0 : list (list nat)) (d : @Description P V) (m : @MeshData P V) ic id B
    (fi fo : P -> T -> result vec) t gi go :
  (forall a b, teq a b = true -> a = b) ->
  in_range (List.length nodes0) els0 -> simplices 3 els0 ->
  dict_get (indicators d) "contact" = Some ic -> dict_get (indicators d) "dirichlet" = Some id ->
  build mean zero nodes0 els0 d = Ok m ->
  (forall e, In e els0 -> det_2d (corners (node_table coord zero nodes0) e) <> 0) ->
  let nodes := m_nodes m in
  let table := node_table coord zero nodes in
  get_basic_matrices table (m_elements m) = Ok B ->
  (forall p, fi p t = Ok gi) -> (forall p, fo p t = Ok go) ->
  exists r, snd (integrate teq nodes table 2 (faces_of m "neumann") (volume_at_nodes B)
                   (mkForces (fresh_source (Some fi)) (fresh_source (Some fo))) t) = Ok r /\
    forall k, sum (List.length nodes) (component (List.length nodes) r k)
      = gi k * lsum els0 (element_area (node_table coord zero nodes0))
        + go k * lsum (faces_of m "neumann") (face_measure 2 table).
Proof.
  intros HE HR HS HC HD HB HN nodes table HM HI HO.
  destruct (built_triangles mean zero nodes0 els0 d m 1%nat ic id coord HR HS HC HD HB eq_refl HN) as [HT HA].
  pose proof (built_faces P V mean zero nodes0 els0 d m 1%nat ic id HR HS HC HD HB "neumann"
                (or_intror (or_intror (or_introl eq_refl)))) as HF.
  destruct (work_2d P T teq nodes table (m_elements m) (faces_of m "neumann") B
      (mkForces (fresh_source (Some fi)) (fresh_source (Some fo))) fi fo t gi
      (repeat gi (List.length nodes)) (repeat go (List.length nodes)) HE HT HF HM
      (fresh_up_to_date fi nodes t) (fresh_up_to_date fo nodes t)
      (constant_values fi nodes t gi (fun p _ => HI p)) (constant_values fo nodes t go (fun p _ => HO p))
      (fun p _ => HI p)) as (r & Hr & Hw).
  exists r. split; [exact Hr|]. intros k.
  rewrite (sum_ext _ _ (fun n => 1 * component (List.length nodes) r k n)) by (intros; ring).
  rewrite (Hw k (fun _ => 1)). f_equal.
  - f_equal. etransitivity; [|exact HA]. unfold integral. apply lsum_ext. intros e _.
    unfold mean_value. rewrite sum_const. unfold table, nodes. simpl INR. field.
  - apply face_integral_const with (N := List.length nodes); [lia|exact HF|].
    intros n Hn. rewrite repeat_entry by auto. ring.
Qed.

Lemma built_load_3d (P V T : Type) (mean : list P -> P) (zero : P) (coord : P -> vec) (teq : T -> T -> bool)
    (nodes0 : list P) (els0 : list (list nat)) (d : @Description P V) (m : @MeshData P V) ic id B
    (fi fo : P -> T -> result vec) t gi go :
  (forall a b, teq a b = true -> a = b) ->
  in_range (List.length nodes0) els0 -> simplices 4 els0 ->
  dict_get (indicators d) "contact" = Some ic -> dict_get (indicators d) "dirichlet" = Some id ->
  build mean zero nodes0 els0 d = Ok m ->
  (forall e, In e els0 -> det_3d (corners (node_table coord zero nodes0) e) <> 0) ->
  let nodes := m_nodes m in
  let table := node_table coord zero nodes in
  get_basic_matrices table (m_elements m) = Ok B ->
  (forall p, fi p t = Ok gi) -> (forall p, fo p t = Ok go) ->
  exists r, snd (integrate teq nodes table 3 (faces_of m "neumann") (volume_at_nodes B)
                   (mkForces (fresh_source (Some fi)) (fresh_source (Some fo))) t) = Ok r /\
    forall k, sum (List.length nodes) (component (List.length nodes) r k)
      = gi k * lsum els0 (element_volume (node_table coord zero nodes0))
        + go k * lsum (faces_of m "neumann") (face_measure 3 table).
Proof.
  intros HE HR HS HC HD HB HN nodes table HM HI HO.
  destruct (built_tetrahedra mean zero nodes0 els0 d m 2%nat ic id coord HR HS HC HD HB eq_refl HN) as [HT HA].
  pose proof (built_faces P V mean zero nodes0 els0 d m 2%nat ic id HR HS HC HD HB "neumann"
                (or_intror (or_intror (or_introl eq_refl)))) as HF.
  destruct (work_3d P T teq nodes table (m_elements m) (faces_of m "neumann") B
      (mkForces (fresh_source (Some fi)) (fresh_source (Some fo))) fi fo t gi
      (repeat gi (List.length nodes)) (repeat go (List.length nodes)) HE HT HF HM
      (fresh_up_to_date fi nodes t) (fresh_up_to_date fo nodes t)
      (constant_values fi nodes t gi (fun p _ => HI p)) (constant_values fo nodes t go (fun p _ => HO p))
      (fun p _ => HI p)) as (r & Hr & Hw).
  exists r. split; [exact Hr|]. intros k.
  rewrite (sum_ext _ _ (fun n => 1 * component (List.length nodes) r k n)) by (intros; ring).
  rewrite (Hw k (fun _ => 1)). f_equal.
  - f_equal. etransitivity; [|exact HA]. unfold integral. apply lsum_ext. intros e _.
    unfold mean_value. rewrite sum_const. unfold table, nodes. simpl INR. field.
  - apply face_integral_const with (N := List.length nodes); [lia|exact HF|].
    intros n Hn. rewrite repeat_entry by auto. ring.
Qed.

(* ------------------------------------------------- reuse of the caches *)

Lemma node_source_again P T V (teq : T -> T -> bool) (fs fs' : field_source P T V) nodes t l g :
  teq t t = true -> node_source teq fs nodes t = (fs', Ok l) ->
  snd (node_source teq (set_source fs' g) nodes t) = Ok l.
Proof.
  intros HR. unfold node_source.
  destruct (match timestamp fs with Some t0 => teq t t0 | None => false end) eqn:Eh.
  - intros H. injection H as <- <-. unfold set_source. cbn [timestamp cache]. rewrite Eh. reflexivity.
  - destruct (evaluate (source fs) nodes t) as [x|e]; intros H; [|congruence].
    injection H as <- <-. cbn [set_source timestamp cache snd]. rewrite HR. reflexivity.
Qed.

Lemma integrate_again P T (teq : T -> T -> bool) (nodes : list P) table d neumann A (bf bf' : body_forces P T) t r g h :
  teq t t = true ->
  integrate teq nodes table d neumann A bf t = (bf', Ok r) ->
  snd (integrate teq nodes table d neumann A
         (mkForces (set_source (inner bf') g) (set_source (outer bf') h)) t) = Ok r.
Proof.
  intros HR. unfold integrate, integrated_inner.
  destruct (node_source teq (inner bf) nodes t) as [i ri] eqn:Ei.
  destruct ri as [[li|]|e]; cbn [bind]; [|discriminate|discriminate].
  unfold integrated_outer. destruct (surface_per_node d table neumann (fun _ => 0)) as [s|e] eqn:Es; [|discriminate].
  cbn [inner outer].
  destruct (node_source teq (outer bf) nodes t) as [o ro] eqn:Eo.
  destruct ro as [[lo|]|e]; cbn [bind]; [|discriminate|discriminate].
  intros H. injection H as <- <-. cbn [inner outer].
  pose proof (node_source_again _ _ _ teq (inner bf) i nodes t (Some li) g HR Ei) as Hi.
  pose proof (node_source_again _ _ _ teq (outer bf) o nodes t (Some lo) h HR Eo) as Ho.
  destruct (node_source teq (set_source i g) nodes t) as [i' ri']. cbn [snd] in Hi. subst ri'. cbn [bind inner outer].
  destruct (node_source teq (set_source o h) nodes t) as [o' ro']. cbn [snd] in Ho. subst ro'. rewrite ?Es. reflexivity.
Qed.
