(* C49 (relaxation cache) and C53 (in-place operators). *)
From Coq Require Import Reals List Arith Bool String Lia Lra.
From Verif Require Import Common PyModel RVec DofModel DirichletModel FemModel
  StatementModel StatementProofs StatementValueProofs.
Import ListNotations.
Local Open Scope list_scope.
Local Open Scope R_scope.

Section Cache.
  Context {F : Type}.
  Variable integrate : F -> R -> F * result (nat * vec).
  Variable b : body.
  Notation world := (world F).
  Notation M := (@M F).
  Notation relax_ok := (relax_ok b).
  (* get_relaxation_tensor always succeeds (2D) *)
  Hypothesis total : forall tn, exists A, b_relaxation_matrix b tn = Ok A.

  (* the cache is coherent and does not use address a *)
  Definition guarded (o : option nat) (w : world) : Prop :=
    relax_ok w /\
    match o with None => True | Some a => apart w a /\ (a < List.length (mats (hp w)))%nat end.

  Definition safe (o : option nat) {A} (m : M A) (Q : world -> A -> Prop) : Prop :=
    forall w, guarded o w -> guarded o (fst (m w)) /\ match snd (m w) with Ok a => Q (fst (m w)) a | Err _ => True end.

  Definition any {A} : world -> A -> Prop := fun _ _ => True.
  (* a new matrix is never the cached one *)
  Definition separate : world -> mref -> Prop := fun w r =>
    apart w (m_addr r) /\ (m_addr r < List.length (mats (hp w)))%nat.

  Lemma s_bind o {A B} (m : M A) (f : A -> M B) Q Q' :
    safe o m Q -> (forall a, safe o (f a) Q') -> safe o (mbind m f) Q'.
  Proof.
    intros H1 H2 w Hw. unfold mbind. destruct (H1 w Hw) as [E P]. destruct (m w) as [w1 [a|e]]; simpl in *; auto.
    apply H2; auto.
  Qed.
  Lemma s_ret o {A} (a : A) : safe o (ret a) any.
  Proof. intros w Hw. split; simpl; auto. exact I. Qed.
  Lemma s_raise o {A} e (Q : world -> A -> Prop) : safe o (raise e) Q.
  Proof. intros w Hw. simpl. auto. Qed.
  Lemma s_any o {A} (m : M A) Q : safe o m Q -> safe o m any.
  Proof. intros H w Hw. destruct (H w Hw) as [E P]. split; auto. destruct (snd (m w)); auto. exact I. Qed.
  Lemma s_need o {A} e (x : option A) : safe o (need e x) any.
  Proof. destruct x; [apply s_ret|apply s_raise]. Qed.
  Lemma s_inverse o x : safe o (inverse x) any.
  Proof. unfold inverse. destruct (Req_EM_T x 0); [apply s_raise|apply s_ret]. Qed.
  Lemma s_get_m o r : safe o (get_m r) any.
  Proof. intros w Hw. split; simpl; auto. exact I. Qed.
  Lemma s_get_v o r : safe o (get_v r) any.
  Proof. intros w Hw. split; simpl; auto. exact I. Qed.

  Lemma guarded_ext o w w' : guarded o w -> hext (hp w) (hp w') -> w_tensor w' = w_tensor w ->
    w_relaxation w' = w_relaxation w -> guarded o w'.
  Proof.
    intros [H1 H2] X T Y. split; [eapply relax_ok_step; eauto|]. destruct o as [a|]; auto. destruct H2 as [H2 H3].
    split; [|destruct X; lia]. intros tn s Q1 Q2. rewrite T in Q1. rewrite Y in Q2. eapply H2; eauto.
  Qed.

  Lemma s_new_m o n m A : safe o (new_m n m A) separate.
  Proof.
    intros w Hw. simpl. split.
    - eapply guarded_ext; [exact Hw|apply hext_new_m|reflexivity|reflexivity].
    - split; simpl.
      + intros tn s Q1 Q2. simpl in Q1, Q2. destruct Hw as [HR _]. destruct (HR tn Q1) as (s' & A' & G1 & _ & _ & G2 & _).
        rewrite G1 in Q2. inversion Q2; subst. lia.
      + rewrite app_length. simpl. lia.
  Qed.
  Lemma s_new_v o n x : safe o (new_v n x) any.
  Proof.
    intros w Hw. simpl. split; [|exact I].
    eapply guarded_ext; [exact Hw|apply hext_new_v|reflexivity|reflexivity].
  Qed.
  Lemma guarded_vecs o w w' : guarded o w -> mats (hp w') = mats (hp w) -> w_tensor w' = w_tensor w ->
    w_relaxation w' = w_relaxation w -> guarded o w'.
  Proof.
    intros [H1 H2] EM T Y. split.
    - intros tn Ht. rewrite T in Ht. destruct (H1 tn Ht) as (s & A & G1 & G2 & G3 & G4 & G5 & G6 & G7).
      exists s, A. rewrite Y. split; auto. split; auto. split; auto. repeat split; auto.
      + rewrite EM; auto.
      + unfold load_m. rewrite EM. exact G7.
    - destruct o as [a|]; auto. destruct H2 as [H2 H3]. split; [|rewrite EM; auto].
      intros tn s Q1 Q2. rewrite T in Q1. rewrite Y in Q2. eapply H2; eauto.
  Qed.
  Lemma s_put_v o r x : safe o (put_v r x) any.
  Proof.
    intros w Hw. simpl. split; [|exact I]. eapply guarded_vecs; [exact Hw| | |]; reflexivity.
  Qed.
  Lemma s_put_m r A : safe (Some (m_addr r)) (put_m r A) any.
  Proof.
    intros w [H1 [H2 H3]]. simpl. split; [|exact I]. split.
    - intros tn Ht. simpl in Ht. destruct (H1 tn Ht) as (s' & A' & G1 & G2 & G3 & G4 & G5 & G6 & G7).
      exists s', A'. split; auto. split; auto. split; auto. pose proof (H2 tn s' Ht G1) as Hne.
      repeat split; auto; simpl.
      + rewrite set_nth_length. auto.
      + unfold load_m, store_m. simpl. rewrite set_nth_other by auto. exact G7.
    - split.
      + intros tn s Q1 Q2. simpl in Q1, Q2. eapply H2; eauto.
      + simpl. rewrite set_nth_length. auto.
  Qed.

  Ltac sb := eapply s_bind; [|intros ?].
  Ltac prim := first [apply s_get_m | apply s_get_v | apply s_new_m | apply s_new_v | apply s_put_v | apply s_raise
    | apply s_ret | apply s_need | apply s_inverse].
  Ltac crush := repeat (first [prim | sb]).

  Lemma s_scale_array o c a : safe o (scale_array c a) separate. Proof. unfold scale_array. crush. Qed.
  Lemma s_add_arrays o a a' : safe o (add_arrays a a') separate.
  Proof. unfold add_arrays. destruct (_ && _); crush. Qed.
  Lemma s_copy_array o a : safe o (copy_array a) separate. Proof. unfold copy_array. crush. Qed.
  Lemma s_matmul o a x : safe o (matmul a x) any.
  Proof. unfold matmul. destruct (_ =? _)%nat; crush. Qed.
  Lemma s_matmul_T o a x : safe o (matmul_T a x) any.
  Proof. unfold matmul_T. destruct (_ =? _)%nat; crush. Qed.
  Lemma s_add_vectors o x y : safe o (add_vectors x y) any.
  Proof. unfold add_vectors. destruct (_ =? _)%nat; crush. Qed.
  Lemma s_sub_vectors o x y : safe o (sub_vectors x y) any.
  Proof. unfold sub_vectors. destruct (_ =? _)%nat; crush. Qed.
  Lemma s_iadd o x y : safe o (iadd_vector x y) any.
  Proof. unfold iadd_vector. destruct (_ =? _)%nat; crush. Qed.

  Definition separate_sm : world -> smat -> Prop := fun w s => separate w (sm_data s).
  Lemma s_wrap o (m : M mref) (f : mref -> smat) : (forall r, sm_data (f r) = r) ->
    safe o m separate -> safe o (mbind m (fun r => ret (f r))) separate_sm.
  Proof.
    intros Hf H w Hw. unfold mbind. destruct (H w Hw) as [E P]. destruct (m w) as [w1 [a|e]]; simpl in *; auto.
    split; auto. unfold separate_sm. rewrite Hf. exact P.
  Qed.
  Lemma s_sm_add o a a' : safe o (sm_add a a') separate_sm.
  Proof. unfold sm_add. destruct (_ && _); [|apply s_raise]. apply s_wrap; [reflexivity|apply s_add_arrays]. Qed.
  Lemma s_sm_scale o c a : safe o (sm_scale c a) separate_sm.
  Proof. unfold sm_scale. apply s_wrap; [reflexivity|apply s_scale_array]. Qed.
  Lemma s_sm_copy o a : safe o (sm_copy a) separate_sm.
  Proof. unfold sm_copy. apply s_wrap; [reflexivity|apply s_copy_array]. Qed.
  Lemma s_sm_SM1 o a : safe o (sm_SM1 a) any.
  Proof. unfold sm_SM1. destruct (_ || _); crush. Qed.
  Lemma s_force o t : safe o (force_integrate integrate t) any.
  Proof.
    intros w Hw. unfold force_integrate. destruct (integrate (w_force w) t) as [f' [[n x]|e]]; simpl.
    - split; [|exact I]. eapply guarded_ext; [exact Hw|apply hext_new_v|reflexivity|reflexivity].
    - split; auto.
  Qed.
  Lemma s_temperature o t : safe o (temperature_integrate integrate t) any.
  Proof.
    intros w Hw. unfold temperature_integrate. destruct (integrate (w_temperature w) t) as [f' [[n x]|e]]; simpl.
    - split; [|exact I]. eapply guarded_ext; [exact Hw|apply hext_new_v|reflexivity|reflexivity].
    - split; auto.
  Qed.

  Lemma s_relaxation o t : safe o (relaxation b t) any.
  Proof.
    intros w Hw. unfold relaxation. destruct (b_relaxation b) as [f|]; [|simpl; auto].
    destruct (f t) as [tn|e]; [|simpl; auto].
    destruct (match w_tensor w with None => true | Some old => tensor_neq tn old end).
    - destruct (total tn) as [A EA]. rewrite EA. simpl. split; [|exact I].
      split.
      + intros tn' Ht. simpl in Ht. inversion Ht; subst. eexists; exists A. split; [reflexivity|]. split; auto.
        split; [reflexivity|]. repeat split; simpl.
        * rewrite app_length. simpl. lia.
        * intros i j _ _. unfold load_m. simpl. rewrite app_nth2, Nat.sub_diag by lia. reflexivity.
      + destruct o as [a|]; auto. destruct Hw as [_ [H1 H2]]. split; simpl.
        * intros tn' s Q1 Q2. simpl in Q2. inversion Q2; subst. simpl. lia.
        * rewrite app_length. lia.
    - destruct (w_relaxation w); simpl; split; auto. exact I.
  Qed.

  Ltac sstep := first
    [ apply s_ret | apply s_raise
    | apply s_sm_add | apply s_sm_copy | apply s_sm_scale | apply s_sm_SM1 | apply s_need
    | apply s_inverse | apply s_scale_array | apply s_add_arrays | apply s_matmul | apply s_matmul_T
    | apply s_add_vectors | apply s_sub_vectors | apply s_force | apply s_temperature | apply s_relaxation
    | apply s_iadd ].

  Lemma s_lhs o k var : safe o (left_hand_side b k var) separate_sm.
  Proof.
    destruct k; unfold left_hand_side;
      repeat (first [sstep | apply s_wrap; [reflexivity|] | sb]).
  Qed.
  Lemma s_quasi o var : safe o (quasistatic_rhs integrate b var) any.
  Proof. unfold quasistatic_rhs, sm_matmul. repeat (first [sstep | sb]). Qed.
  Lemma s_dynamic o var : safe o (dynamic_rhs integrate b var) any.
  Proof. unfold dynamic_rhs, sm_matmul. repeat (first [sstep | sb]). Qed.
  Lemma s_rhs o k var : safe o (right_hand_side integrate b k var) any.
  Proof.
    destruct k; unfold right_hand_side, sm_matmul, sm_matmul_T;
      repeat (first [sstep | apply s_quasi | apply s_dynamic | sb]).
  Qed.

  (* an update, successful or not, keeps the cache coherent *)
  Lemma update_cache k var w : relax_ok w -> relax_ok (fst (update integrate b k var w)).
  Proof.
    intros HR. unfold update. unfold mbind at 1.
    destruct (s_lhs None k var w (conj HR I)) as [[E1 _] P1].
    destruct (left_hand_side b k var w) as [w1 [l|e]]; simpl in *; auto.
    unfold mbind at 1.
    assert (G1 : guarded (Some (m_addr (sm_data l))) w1) by (split; auto).
    destruct (s_rhs (Some (m_addr (sm_data l))) k var w1 G1) as [G2 _].
    destruct (right_hand_side integrate b k var w1) as [w2 [r|e]]; simpl in *; [|apply G2].
    assert (S : safe (Some (m_addr (sm_data l))) (apply_dirichlet_condition b k l r) any).
    { unfold apply_dirichlet_condition. destruct (b_conditions b _ _); [|apply s_raise].
      sb; [apply s_get_m|]. sb; [apply s_get_v|]. cbv zeta. sb; [apply s_put_m|apply s_put_v]. }
    unfold mbind. destruct (S w2 G2) as [G3 _].
    destruct (apply_dirichlet_condition b k l r w2) as [w3 [u|e]]; simpl in *; apply G3.
  Qed.

  Lemma relaxation_cache t (w : world) : relax_ok w -> relax_ok (fst (relaxation b t w)).
  Proof. intros HR. apply (s_relaxation None t w (conj HR I)). Qed.

  (* worlds reached from an empty cache by any sequence of updates and direct requests,
     interleaved with changes that keep the arrays (new loads, new arrays) *)
  Inductive reached : world -> Prop :=
  | reached_empty w : w_tensor w = None -> reached w
  | reached_update w k var : reached w -> reached (fst (update integrate b k var w))
  | reached_request w t : reached w -> reached (fst (relaxation b t w))
  | reached_other w w' : reached w -> hext (hp w) (hp w') -> w_tensor w' = w_tensor w ->
      w_relaxation w' = w_relaxation w -> reached w'.

  Lemma reached_ok w : reached w -> relax_ok w.
  Proof.
    induction 1 as [w H|w k var _ IH|w t _ IH|w w' _ IH X T Y].
    - intros tn Ht. congruence.
    - apply update_cache; auto.
    - apply relaxation_cache; auto.
    - eapply relax_ok_step; eauto.
  Qed.

  Hypothesis entries : entrywise b.

  Lemma cache_coherent w f t tn A : reached w -> b_relaxation b = Some f -> f t = Ok tn ->
    b_relaxation_matrix b tn = Ok A ->
    exists w' s, relaxation b t w = (w', Ok s) /\ sm_type s = (2, 2)%nat /\
      m_rows (sm_data s) = (2 * b_count b)%nat /\ m_cols (sm_data s) = (2 * b_count b)%nat /\
      meq (2 * b_count b) (2 * b_count b) (load_m (hp w') (sm_data s)) A.
  Proof.
    intros HW Hf Ht HA.
    destruct (ev_relaxation b f t tn A w
      (fun w' s => sval (hp w') s (2, 2)%nat (2 * b_count b) (2 * b_count b) A) entries (reached_ok w HW) Hf Ht HA)
      as (w' & s & E & V).
    { intros w' s _ _ _ _ _ V. exact V. }
    exists w', s. split; auto. destruct V as (V0 & V1 & V2 & V3 & V4). auto.
  Qed.
End Cache.

(* the operator assembled by the finite element model only uses the entries of the tensor *)
Lemma tensor_neq_false t1 t2 : tensor_neq t1 t2 = false ->
  forall i j k, (i < 2)%nat -> (j < 2)%nat -> (k < 2)%nat -> t1 i j k = t2 i j k.
Proof.
  intros H. unfold tensor_neq in H. simpl in H.
  repeat match type of H with (_ || _)%bool = false => apply orb_false_iff in H; destruct H as [?H H] end.
  intros i j k Hi Hj Hk.
  destruct i as [|[|?]]; [| |lia]; destruct j as [|[|?]]; try lia; destruct k as [|[|?]]; try lia;
  match goal with
  | G : (if Req_EM_T (t1 ?a ?b0 ?c) _ then false else true) = false |- t1 ?a ?b0 ?c = _ =>
      destruct (Req_EM_T (t1 a b0 c) (t2 a b0 c)); [assumption|discriminate]
  end.
Qed.

Lemma relaxation2_entries N W t1 t2 : tensor_neq t1 t2 = false -> relaxation2 N W t1 = relaxation2 N W t2.
Proof.
  intros H. pose proof (tensor_neq_false _ _ H) as E. unfold relaxation2. cbv zeta.
  rewrite !E by lia. reflexivity.
Qed.

(* C53 *)
Lemma iadd_effect {F} a a' ty n m A B (w : world F) :
  sval (hp w) a ty n m A -> sval (hp w) a' ty n m B ->
  exists w', sm_iadd a a' w = (w', Ok None) /\
    sval (hp w') a ty n m (fun i j => A i j + B i j).
Proof.
  intros [T1 V1] [T2 V2]. pose proof V1 as (P1 & P2 & P3 & P4). pose proof V2 as (R1 & R2 & R3 & R4).
  assert (E : ev (sm_iadd a a') w (fun w' r => r = None /\ sval (hp w') a ty n m (fun i j => A i j + B i j))).
  { unfold sm_iadd. rewrite T1, T2, !Nat.eqb_refl, P2, P3, R2, R3, !Nat.eqb_refl. cbn [andb].
    apply ev_bind, ev_get_m, ev_bind, ev_get_m, ev_bind.
    eapply (ev_put_m (mkHeap [] [])); [|unfold mfresh; simpl; lia|exact V1|].
    { repeat split; simpl; intros; try lia. }
    intros w' X S EV V. apply ev_ret. split; auto. split; auto. eapply mval_meq; [exact V|].
    intros i j Hi Hj. rewrite P4, R4; auto. }
  destruct E as (w' & r & E & -> & V). exists w'. auto.
Qed.

Lemma imul_effect {F} a ty n m A c (w : world F) :
  sval (hp w) a ty n m A ->
  exists w', sm_imul a c w = (w', Ok None) /\ sval (hp w') a ty n m (fun i j => A i j * c).
Proof.
  intros [T1 V1]. pose proof V1 as (P1 & P2 & P3 & P4).
  assert (E : ev (sm_imul a c) w (fun w' r => r = None /\ sval (hp w') a ty n m (fun i j => A i j * c))).
  { unfold sm_imul. apply ev_bind, ev_get_m, ev_bind.
    eapply (ev_put_m (mkHeap [] [])); [|unfold mfresh; simpl; lia|exact V1|].
    { repeat split; simpl; intros; try lia. }
    intros w' X S EV V. apply ev_ret. split; auto. split; auto. eapply mval_meq; [exact V|].
    intros i j Hi Hj. rewrite P4; auto. }
  destruct E as (w' & r & E & -> & V). exists w'. auto.
Qed.
