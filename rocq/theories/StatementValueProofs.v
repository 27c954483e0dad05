(* Values computed by Statement.update, class by class. *)
From Coq Require Import Reals List Arith Bool String Lia Lra.
From Verif Require Import Common PyModel RVec DofModel DofSpec DirichletModel DirichletSpec DirichletProofs
  StatementModel StatementSpec StatementProofs.
Import ListNotations.
Local Open Scope list_scope.
Local Open Scope R_scope.

(* ---------------------------------------- elimination and pointwise equality *)

Lemma subtract_ext n s c A A' b0 b1 k : matching s -> (fst (fst s) < snd (fst s) -> snd (fst s) <= n)%nat ->
  meq n n A A' -> veq n b0 b1 -> (k < n)%nat -> subtract_columns s c A b0 k = subtract_columns s c A' b1 k.
Proof.
  destruct s as [[a e] [c0 c1]]. simpl. intros M H HA Hb Hk. unfold subtract_columns. rewrite Hb by auto.
  f_equal. apply sum_ext. intros t Ht. rewrite HA; auto; lia.
Qed.

Lemma eliminate_slice_ext n c s s1 s2 : matching s -> (fst (fst s) < snd (fst s) -> snd (fst s) <= n)%nat ->
  meq n n (lhs s1) (lhs s2) -> veq n (rhs s1) (rhs s2) ->
  meq n n (lhs (eliminate_slice c s1 s)) (lhs (eliminate_slice c s2 s)) /\
  veq n (rhs (eliminate_slice c s1 s)) (rhs (eliminate_slice c s2 s)).
Proof.
  intros M H HA Hb. split; unfold eliminate_slice; simpl.
  - intros i j Hi Hj. unfold set_identity, zero_rows, zero_columns. rewrite (HA i j) by auto. reflexivity.
  - intros i Hi. pose proof (subtract_ext n s c _ _ _ _ i M H HA Hb Hi) as E.
    destruct s as [[a e] [c0 c1]]. unfold overwrite. rewrite E. reflexivity.
Qed.

Lemma apply_dirichlet_ext n conds : well_shaped n conds -> forall s1 s2,
  meq n n (lhs s1) (lhs s2) -> veq n (rhs s1) (rhs s2) ->
  meq n n (lhs (apply_dirichlet conds s1)) (lhs (apply_dirichlet conds s2)) /\
  veq n (rhs (apply_dirichlet conds s1)) (rhs (apply_dirichlet conds s2)).
Proof.
  unfold apply_dirichlet. induction conds as [|[sl c] conds IH]; intros W s1 s2 HA Hb; simpl; auto.
  assert (W1 : forall s, In s sl -> matching s /\ (fst (fst s) < snd (fst s) -> snd (fst s) <= n)%nat).
  { intros s Hs. apply (W sl c s); simpl; auto. }
  assert (W2 : well_shaped n conds) by (intros sl' c' s' H1 H2; apply (W sl' c' s'); simpl; auto).
  assert (G : meq n n (lhs (eliminate s1 (sl, c))) (lhs (eliminate s2 (sl, c))) /\
              veq n (rhs (eliminate s1 (sl, c))) (rhs (eliminate s2 (sl, c)))).
  { unfold eliminate. simpl. clear IH W W2. revert s1 s2 HA Hb.
    induction sl as [|s sl IHs]; intros s1 s2 HA Hb; simpl; auto.
    destruct (W1 s (or_introl eq_refl)) as [M H].
    destruct (eliminate_slice_ext n c s s1 s2 M H HA Hb) as [HA' Hb'].
    apply IHs; auto. intros s' Hs'. apply W1. right; auto. }
  destruct G as [G1 G2]. apply IH; auto.
Qed.

Section Values.
  Context {F : Type}.
  Variable integrate : F -> R -> F * result (nat * vec).
  Variable b : body.
  Notation world := (world F).

  Definition has_op (h : heap) (o : option smat) ty n m A : Prop :=
    exists s, o = Some s /\ sval h s ty n m A.
  Definition has_vec (h : heap) (o : option vref) n x : Prop :=
    exists r, o = Some r /\ vval h r n x.

  Lemma has_op_ext h h' o ty n m A : hext h h' -> has_op h o ty n m A -> has_op h' o ty n m A.
  Proof. intros E (s & H1 & H2). exists s. split; auto. eapply sval_ext; eauto. Qed.
  Lemma has_vec_ext h h' o n x : hext h h' -> has_vec h o n x -> has_vec h' o n x.
  Proof. intros E (s & H1 & H2). exists s. split; auto. eapply vval_ext; eauto. Qed.

  (* -------------------------------------------------- relaxation cache *)

  Definition relax_ok (w : world) : Prop :=
    forall tn, w_tensor w = Some tn ->
    exists s A, w_relaxation w = Some s /\ b_relaxation_matrix b tn = Ok A /\
                sval (hp w) s (2, 2)%nat (2 * b_count b) (2 * b_count b) A.

  Lemma relax_ok_step w w' : relax_ok w -> hext (hp w) (hp w') ->
    w_tensor w' = w_tensor w -> w_relaxation w' = w_relaxation w -> relax_ok w'.
  Proof.
    intros H E T X tn Ht. rewrite T in Ht. destruct (H tn Ht) as (s & A & H1 & H2 & H3).
    exists s, A. rewrite X. split; auto. split; auto. eapply sval_ext; eauto.
  Qed.

  (* the cached matrix does not live at address a *)
  Definition apart (w : world) (a : nat) : Prop :=
    forall tn s, w_tensor w = Some tn -> w_relaxation w = Some s -> m_addr (sm_data s) <> a.

  (* the assembled matrix depends on the entries of the tensor only *)
  Definition entrywise : Prop :=
    forall t1 t2, tensor_neq t1 t2 = false -> b_relaxation_matrix b t1 = b_relaxation_matrix b t2.

  Lemma ev_relaxation f t tn A w (Q : world -> smat -> Prop) : entrywise -> relax_ok w ->
    b_relaxation b = Some f -> f t = Ok tn -> b_relaxation_matrix b tn = Ok A ->
    (forall w' s, hext (hp w) (hp w') -> relax_ok w' -> w_force w' = w_force w ->
       w_temperature w' = w_temperature w ->
       (forall a, (a < List.length (mats (hp w)))%nat -> apart w a -> apart w' a) ->
       sval (hp w') s (2, 2)%nat (2 * b_count b) (2 * b_count b) A -> Q w' s) ->
    ev (relaxation b t) w Q.
  Proof.
    intros HE HR Hf Ht HA H. unfold ev, relaxation. rewrite Hf, Ht.
    destruct (w_tensor w) as [old|] eqn:HT.
    - destruct (tensor_neq tn old) eqn:HN.
      + rewrite HA. eexists; eexists. split; [reflexivity|].
        destruct (@ev_new_m F (2 * b_count b) (2 * b_count b) A
          (mkWorld (hp w) (w_force w) (w_temperature w) (Some tn) (w_relaxation w))
          (fun w' r => hext (hp w) (hp w') /\ mval (hp w') r (2 * b_count b) (2 * b_count b) A))
          as (w' & r & E & X & V).
        { intros w' r X _ _ V. split; auto. }
        unfold new_m, with_heap in E. simpl in E. inversion E; subst. clear E. simpl in X, V.
        apply H; simpl; auto.
        * intros tn' Htn. simpl in Htn. inversion Htn; subst. eexists; exists A. simpl.
          split; [reflexivity|]. split; auto. split; auto.
        * intros a Ha _ tn' s _ Hs. simpl in Hs. inversion Hs; subst. simpl. lia.
        * split; auto.
      + destruct (HR old HT) as (s & A' & H1 & H2 & H3). rewrite H1.
        exists w, s. split; auto. apply H; auto using hext_refl.
        rewrite (HE _ _ HN), H2 in HA. inversion HA; subst; auto.
    - rewrite HA. eexists; eexists. split; [reflexivity|].
        destruct (@ev_new_m F (2 * b_count b) (2 * b_count b) A
          (mkWorld (hp w) (w_force w) (w_temperature w) (Some tn) (w_relaxation w))
          (fun w' r => hext (hp w) (hp w') /\ mval (hp w') r (2 * b_count b) (2 * b_count b) A))
          as (w' & r & E & X & V).
        { intros w' r X _ _ V. split; auto. }
        unfold new_m, with_heap in E. simpl in E. inversion E; subst. clear E. simpl in X, V.
        apply H; simpl; auto.
        * intros tn' Htn. simpl in Htn. inversion Htn; subst. eexists; exists A. simpl.
          split; [reflexivity|]. split; auto. split; auto.
        * intros a Ha _ tn' s _ Hs. simpl in Hs. inversion Hs; subst. simpl. lia.
        * split; auto.
  Qed.

  (* -------------------------------------------------- what a class reads *)

  Variable var : variables.
  Variable p : physics.
  Let N := b_count b.
  Let d := b_dimension b.
  Let n := (d * N)%nat.
  Let ops := b_ops b.

  Definition sized : Prop := ph_N p = N /\ ph_n p = n.
  Definition timed : Prop := time_step var = Some (ph_dt p) /\ ph_dt p <> 0.
  Definition force_at (w : world) (t : R) (len : nat) : Prop :=
    snd (integrate (w_force w) t) = Ok (len, load p).

  Definition dynamic_inputs (w : world) : Prop :=
    timed /\ (exists t, time var = Some t /\ force_at w t n) /\
    has_vec (hp w) (displacement var) n (ph_u p) /\ has_vec (hp w) (velocity var) n (ph_v p) /\
    sval (hp w) (o_acceleration ops) (d, d) n n (mass p) /\
    has_op (hp w) (o_viscosity ops) (d, d) n n (damping p) /\
    has_op (hp w) (o_elasticity ops) (d, d) n n (stiffness p).

  Definition quasistatic_inputs (w : world) : Prop :=
    timed /\ (exists t, time var = Some t /\ force_at w t n) /\
    has_vec (hp w) (displacement var) n (ph_u p) /\
    has_op (hp w) (o_viscosity ops) (d, d) n n (damping p) /\
    has_op (hp w) (o_elasticity ops) (d, d) n n (stiffness p).

  (* everything the update of class k reads is present, of the right shape, and has the
     values of p *)
  Definition reads (k : kind) (w : world) : Prop :=
    sized /\
    match k with
    | StaticPoisson =>
        has_op (hp w) (o_poisson ops) (1, 1)%nat N N (laplace p) /\
        snd (integrate (w_temperature w) 0) = Ok (N, heat p)
    | Wave =>
        (d = 2 \/ d = 3)%nat /\ timed /\ (exists t, time var = Some t /\ force_at w t N) /\
        (exists len, (N <= len)%nat /\ has_vec (hp w) (displacement var) len (ph_u p)) /\
        (exists len, (N <= len)%nat /\ has_vec (hp w) (velocity var) len (ph_v p)) /\
        sval (hp w) (o_acceleration ops) (d, d) n n (mass p) /\
        has_op (hp w) (o_poisson ops) (1, 1)%nat N N (laplace p)
    | StaticDisplacement =>
        has_op (hp w) (o_elasticity ops) (d, d) n n (stiffness p) /\ force_at w 0 n
    | QuasistaticRelaxation =>
        d = 2%nat /\ timed /\ entrywise /\ relax_ok w /\
        (exists t f tn, time var = Some t /\ force_at w t n /\ b_relaxation b = Some f /\
           f (Some t) = Ok tn /\ b_relaxation_matrix b tn = Ok (memory p)) /\
        has_vec (hp w) (absement var) n (ph_b p) /\
        has_op (hp w) (o_elasticity ops) (d, d) n n (stiffness p)
    | QuasistaticVelocity => quasistatic_inputs w
    | DynamicVelocity => dynamic_inputs w
    | DynamicVelocityWithTemperature =>
        dynamic_inputs w /\ has_vec (hp w) (temperature var) N (ph_th p) /\
        (exists ty, has_op (hp w) (o_thermal_expansion ops) ty N n (expansion p))
    | Temperature =>
        timed /\ (1 <= d)%nat /\
        has_vec (hp w) (velocity var) n (ph_v p) /\ has_vec (hp w) (temperature var) N (ph_th p) /\
        (exists ty, has_op (hp w) (o_thermal_expansion ops) ty N n (expansion p)) /\
        (exists ty, sval (hp w) (o_acceleration ops) ty n n (mass p)) /\
        (exists ty, has_op (hp w) (o_thermal_conductivity ops) ty N N (conduction p))
    | Piezoelectric =>
        has_op (hp w) (o_permittivity ops) (1, 1)%nat N N (dielectric p) /\
        (exists ty, has_op (hp w) (o_piezoelectricity ops) ty N n (coupling p)) /\
        has_vec (hp w) (displacement var) n (ph_u p)
    | QuasistaticVelocityWithPiezoelectric =>
        quasistatic_inputs w /\ has_vec (hp w) (electric_potential var) N (ph_phi p) /\
        (exists ty, has_op (hp w) (o_piezoelectricity ops) ty N n (coupling p))
    | DynamicVelocityWithPiezoelectric =>
        dynamic_inputs w /\ has_vec (hp w) (electric_potential var) N (ph_phi p) /\
        (exists ty, has_op (hp w) (o_piezoelectricity ops) ty N n (coupling p))
    end.

  (* number of unknowns *)
  Definition unknowns (k : kind) : nat :=
    match k with
    | StaticPoisson | Wave | Temperature | Piezoelectric => N
    | _ => n
    end.

  (* the system before the Dirichlet conditions *)
  Definition lmat (k : kind) : mat := fun i j =>
    let dt := ph_dt p in
    match k with
    | StaticPoisson => laplace p i j
    | Wave => mass p i j * (1 / dt) + laplace p i j * dt
    | StaticDisplacement => stiffness p i j
    | QuasistaticRelaxation => stiffness p i j + memory p i j * dt
    | QuasistaticVelocity | QuasistaticVelocityWithPiezoelectric => damping p i j + stiffness p i j * dt
    | DynamicVelocity | DynamicVelocityWithTemperature | DynamicVelocityWithPiezoelectric =>
        damping p i j + mass p i j * (1 / dt) + stiffness p i j * dt
    | Temperature => mass p i j * (1 / dt) + conduction p i j
    | Piezoelectric => dielectric p i j
    end.

  Definition qvec : vec := fun i => load p i - mv n (stiffness p) (ph_u p) i.
  Definition dvec : vec := fun i =>
    load p i + (- mv n (stiffness p) (ph_u p) i + mv n (mass p) (ph_v p) i / ph_dt p).

  Definition rvec (k : kind) : vec := fun i =>
    let dt := ph_dt p in
    match k with
    | StaticPoisson => heat p i
    | Wave => load p i + (- mv N (laplace p) (ph_u p) i + mv N (mass p) (ph_v p) i / dt)
    | StaticDisplacement => load p i
    | QuasistaticRelaxation => load p i - mv n (memory p) (ph_b p) i
    | QuasistaticVelocity => qvec i
    | DynamicVelocity => dvec i
    | DynamicVelocityWithTemperature => dvec i + mv N (mT (expansion p)) (ph_th p) i
    | Temperature => - mv n (expansion p) (ph_v p) i + mv N (mass p) (ph_th p) i / dt
    | Piezoelectric => mv n (coupling p) (ph_u p) i
    | QuasistaticVelocityWithPiezoelectric => qvec i - mv N (mT (coupling p)) (ph_phi p) i
    | DynamicVelocityWithPiezoelectric => dvec i + mv N (mT (coupling p)) (ph_phi p) i
    end.

  Ltac opens :=
    repeat match goal with
    | H : has_op _ _ _ _ _ _ |- _ => destruct H as (? & ? & ?)
    | H : has_vec _ _ _ _ |- _ => destruct H as (? & ? & ?)
    | H : exists _, _ |- _ => destruct H as [? H]
    | H : _ /\ _ |- _ => destruct H
    end.

  (* move all known facts to the newer heap *)
  Ltac carry E :=
    match type of E with hext ?h ?h' =>
      repeat match goal with
      | H : sval h _ _ _ _ _ |- _ => apply (sval_ext h h' _ _ _ _ _ E) in H
      | H : mval h _ _ _ _ |- _ => apply (mval_ext h h' _ _ _ _ E) in H
      | H : vval h _ _ _ |- _ => apply (vval_ext h h' _ _ _ E) in H
      end
    end.

  (* the world reached so far: hext (hp w) (hp wc) and same w wc are kept up to date *)
  Ltac start w := pose proof (hext_refl (hp w)) as X0; pose proof (@same_refl F w) as S0.
  Ltac advance E S :=
    carry E;
    match goal with X : hext ?a ?b0 |- _ =>
      lazymatch type of E with hext b0 ?c =>
        let Y := fresh "X" in
        pose proof (hext_trans a b0 c X E) as Y; clear X E; try clear E; rename Y into X end end;
    match goal with T : same ?w0 ?w1 |- _ =>
      lazymatch type of S with same w1 ?w2 =>
        let Y := fresh "T" in
        pose proof (same_trans w0 w1 w2 T S) as Y; clear T S; rename Y into T end end.
  Ltac need := apply ev_bind; eapply ev_need; [eassumption|].
  Ltac inv := apply ev_bind; apply ev_inverse; [assumption|].

  Lemma apart_fresh w w' l : relax_ok w -> w_tensor w' = w_tensor w -> w_relaxation w' = w_relaxation w ->
    sfresh (hp w) l -> apart w' (m_addr (sm_data l)).
  Proof.
    intros H E1 E2 Fr tn s H1 H2. rewrite E1 in H1. rewrite E2 in H2.
    destruct (H tn H1) as (s' & A & G1 & _ & _ & G2 & _). rewrite G1 in H2. inversion H2; subst.
    unfold sfresh, mfresh in Fr. lia.
  Qed.

  Definition lhs_post (k : kind) (w w' : world) (l : smat) : Prop :=
    hext (hp w) (hp w') /\ w_force w' = w_force w /\ w_temperature w' = w_temperature w /\
    (relax_ok w -> relax_ok w' /\ apart w' (m_addr (sm_data l))) /\ sfresh (hp w) l /\
    mval (hp w') (sm_data l) (unknowns k) (unknowns k) (lmat k).

  Lemma lhs_post_same k w w' l A : hext (hp w) (hp w') -> same w w' -> sfresh (hp w) l ->
    mval (hp w') (sm_data l) (unknowns k) (unknowns k) A ->
    meq (unknowns k) (unknowns k) A (lmat k) -> lhs_post k w w' l.
  Proof.
    intros X (S1 & S2 & S3 & S4) Fr V E. unfold lhs_post.
    split; [exact X|]. split; [exact S1|]. split; [exact S2|]. split.
    { intros HR. split; [eapply relax_ok_step; eauto|eapply apart_fresh; eauto]. }
    split; [exact Fr|]. eapply mval_meq; eauto.
  Qed.

  (* name the outcome of an allocation *)
  Ltac got w' r V :=
    let E := fresh "E" in let S := fresh "S" in let Fr := fresh "Fr" in
    intros w' r E S Fr V; cbv beta in V;
    match goal with X : hext ?a ?b0 |- _ =>
      lazymatch type of E with hext b0 _ =>
        first [apply (mfresh_ext a b0 _ X) in Fr | apply (vfresh_ext a b0 _ X) in Fr] end end;
    advance E S.

  Ltac finish :=
    match goal with V : sval (hp ?w') ?l _ _ _ _ |- lhs_post _ _ ?w' ?l =>
      eapply lhs_post_same; [eassumption|eassumption|eassumption|exact (proj2 V)|
        intros ? ? ? ?; cbv [lmat]; try reflexivity; try ring] end.

  Lemma lhs_value k w : reads k w -> ev (left_hand_side b k var) w (lhs_post k w).
  Proof.
    intros [[HN Hn] H]. start w.
    destruct k; unfold left_hand_side; cbv [quasistatic_inputs dynamic_inputs timed] in H;
      opens; try need; try inv.
    - (* StaticPoisson *)
      eapply ev_sm_copy; [eassumption|]. got w1 l V. finish.
    - (* Wave *)
      apply ev_bind. eapply ev_sm_SM1 with (d := d) (N := N); [assumption|eassumption|]. intros m Vm.
      apply ev_bind. eapply ev_sm_scale; [exact Vm|]. got w1 cm V1.
      need. apply ev_bind. eapply ev_sm_scale; [eassumption|]. got w2 pt V2.
      eapply ev_sm_add; [exact V1|exact V2|]. got w3 l V. finish.
    - (* StaticDisplacement *)
      eapply ev_sm_copy; [eassumption|]. got w1 l V. finish.
    - (* QuasistaticRelaxation *)
      match goal with H : d = 2%nat |- _ => rename H into Hd end.
      assert (Hn2 : n = (2 * b_count b)%nat) by (unfold n; rewrite Hd; reflexivity).
      need. apply ev_bind. eapply ev_sm_copy; [eassumption|]. got w1 ec V1.
      match goal with T : same w w1 |- _ => destruct T as (S1 & S2 & S3 & S4) end.
      match goal with H : time var = Some _ |- _ => rewrite H end.
      apply ev_bind. eapply ev_relaxation; try eassumption.
      { eapply relax_ok_step; eauto. }
      intros w2 r E HR F2 T2 _ V2. rewrite <- Hn2 in V2.
      pose proof (sval_ext _ _ _ _ _ _ _ E V1) as V1'.
      pose proof (hext_trans _ _ _ X0 E) as X2.
      apply ev_bind. eapply ev_sm_scale; [exact V2|]. intros w3 rt E3 (A1 & A2 & A3 & A4) Fr3 V3.
      pose proof (sval_ext _ _ _ _ _ _ _ E3 V1') as V1''.
      pose proof (hext_trans _ _ _ X2 E3) as X3.
      rewrite Hd in V1''.
      eapply ev_sm_add; [exact V1''|exact V3|]. intros w4 l E4 (B1 & B2 & B3 & B4) Fr4 V4.
      assert (HR3 : relax_ok w3) by (eapply relax_ok_step; eauto).
      split; [exact (hext_trans _ _ _ X3 E4)|]. split; [congruence|]. split; [congruence|]. split.
      { intros _. split; [eapply (relax_ok_step w3); eauto|eapply (apart_fresh w3); eauto]. }
      split; [eapply mfresh_ext; [exact X3|exact Fr4]|].
      eapply mval_meq; [exact (proj2 V4)|]. intros i j _ _. reflexivity.
    - (* QuasistaticVelocity *)
      need. need. apply ev_bind. eapply ev_sm_scale; [eassumption|]. got w1 et V1.
      eapply ev_sm_add; [eassumption|eassumption|]. got w3 l V. finish.
    - (* DynamicVelocity *)
      need. inv. apply ev_bind. eapply ev_sm_scale; [eassumption|]. got w1 m V1.
      apply ev_bind. eapply ev_sm_add; [eassumption|exact V1|]. got w2 cm V2.
      need. apply ev_bind. eapply ev_sm_scale; [eassumption|]. got w3 et V3.
      eapply ev_sm_add; [exact V2|exact V3|]. got w4 l V. finish.
    - (* DynamicVelocityWithTemperature *)
      need. inv. apply ev_bind. eapply ev_sm_scale; [eassumption|]. got w1 m V1.
      apply ev_bind. eapply ev_sm_add; [eassumption|exact V1|]. got w2 cm V2.
      need. apply ev_bind. eapply ev_sm_scale; [eassumption|]. got w3 et V3.
      eapply ev_sm_add; [exact V2|exact V3|]. got w4 l V. finish.
    - (* Temperature *)
      assert (Hle : (N <= n)%nat) by (unfold n; nia).
      match goal with H : sval (hp w) (o_acceleration ops) _ _ _ _ |- _ => destruct H as [_ Va] end.
      pose proof (mval_top_left _ _ _ _ _ N N Va Hle Hle) as Vm.
      apply ev_bind. eapply ev_scale_array; [exact Vm|]. got w1 m V1.
      need. match goal with H : sval (hp w1) ?c _ _ _ (conduction p) |- context [sm_data ?c] => destruct H as [_ Vc] end.
      pose proof (mval_top_left _ _ _ _ _ N N Vc (le_n _) (le_n _)) as Vk.
      apply ev_bind. eapply ev_add_arrays; [exact V1|exact Vk|]. got w2 l V2. apply ev_ret.
      eapply lhs_post_same; [eassumption|eassumption|eassumption|exact V2|].
      intros i j _ _. reflexivity.
    - (* Piezoelectric *)
      eapply ev_sm_copy; [eassumption|]. got w1 l V. finish.
    - need. need. apply ev_bind. eapply ev_sm_scale; [eassumption|]. got w1 et V1.
      eapply ev_sm_add; [eassumption|eassumption|]. got w3 l V. finish.
    - need. inv. apply ev_bind. eapply ev_sm_scale; [eassumption|]. got w1 m V1.
      apply ev_bind. eapply ev_sm_add; [eassumption|exact V1|]. got w2 cm V2.
      need. apply ev_bind. eapply ev_sm_scale; [eassumption|]. got w3 et V3.
      eapply ev_sm_add; [exact V2|exact V3|]. got w4 l V. finish.
  Qed.

  (* ------------------------------------------------------ right-hand sides *)

  Definition force_time (k : kind) : option R :=
    match k with
    | StaticDisplacement => Some 0
    | StaticPoisson | Temperature | Piezoelectric => None
    | _ => time var
    end.

  Definition rhs_post (k : kind) (w w' : world) (r : vref) (x : vec) : Prop :=
    hext (hp w) (hp w') /\
    w_force w' = match force_time k with None => w_force w | Some t => fst (integrate (w_force w) t) end /\
    w_temperature w' = match k with StaticPoisson => fst (integrate (w_temperature w) 0) | _ => w_temperature w end /\
    (relax_ok w -> relax_ok w' /\
       forall a, (a < List.length (mats (hp w)))%nat -> apart w a -> apart w' a) /\
    vfresh (hp w) r /\ vval (hp w') r (unknowns k) x.

  Lemma relax_same w w' : hext (hp w) (hp w') -> w_tensor w' = w_tensor w -> w_relaxation w' = w_relaxation w ->
    relax_ok w -> relax_ok w' /\ forall a, (a < List.length (mats (hp w)))%nat -> apart w a -> apart w' a.
  Proof.
    intros X T Y HR. split; [eapply relax_ok_step; eauto|].
    intros a _ H tn s H1 H2. rewrite T in H1. rewrite Y in H2. eapply H; eauto.
  Qed.

  Lemma rhs_post_same k w w' r x y : hext (hp w) (hp w') ->
    w_force w' = match force_time k with None => w_force w | Some t => fst (integrate (w_force w) t) end ->
    w_temperature w' = match k with StaticPoisson => fst (integrate (w_temperature w) 0) | _ => w_temperature w end ->
    w_tensor w' = w_tensor w -> w_relaxation w' = w_relaxation w ->
    vfresh (hp w) r -> vval (hp w') r (unknowns k) x -> veq (unknowns k) x y -> rhs_post k w w' r y.
  Proof.
    intros X A1 A2 A3 A4 Fr V E. split; [exact X|]. split; [exact A1|]. split; [exact A2|]. split.
    { intros HR. apply relax_same; auto. }
    split; [exact Fr|]. eapply vval_veq; eauto.
  Qed.

  Ltac now_time := match goal with H : time var = Some _ |- _ => rewrite H end.

  Lemma quasi_value w : sized -> quasistatic_inputs w ->
    ev (quasistatic_rhs integrate b var) w (fun w' r => rhs_post QuasistaticVelocity w w' r qvec).
  Proof.
    intros [HN Hn] H. start w. unfold quasistatic_rhs. cbv [quasistatic_inputs timed] in H. opens.
    need. need. apply ev_bind. eapply ev_force; [eassumption|].
    intros w1 f E Fr Vf T1 T2 T3 T4. carry E. need.
    apply ev_bind. eapply ev_sm_matmul; [eassumption|eassumption|].
    intros w2 eu E2 (S1 & S2 & S3 & S4) Fr2 V2. carry E2.
    eapply ev_sub_vectors; [eassumption|eassumption|].
    intros w3 r E3 (A1 & A2 & A3 & A4) Fr3 V3.
    pose proof (hext_trans _ _ _ E E2) as X2.
    eapply rhs_post_same; [exact (hext_trans _ _ _ X2 E3)| | | | | |exact V3|].
    - cbn [force_time]. now_time. congruence.
    - congruence.
    - congruence.
    - congruence.
    - eapply vfresh_ext; [exact X2|exact Fr3].
    - intros i Hi. reflexivity.
  Qed.

  Lemma mv_opp m A x i : mv m (fun i j => A i j * -1) x i = - mv m A x i.
  Proof. unfold mv. rewrite <- sum_opp. apply sum_ext. intros; ring. Qed.
  Lemma mv_div m A c x i : mv m (fun i j => A i j * (1 / c)) x i = mv m A x i / c.
  Proof. unfold mv, Rdiv at 2. rewrite <- sum_scal_r. apply sum_ext. intros; unfold Rdiv; ring. Qed.

  Lemma dynamic_value w : sized -> dynamic_inputs w ->
    ev (dynamic_rhs integrate b var) w (fun w' r => rhs_post DynamicVelocity w w' r dvec).
  Proof.
    intros [HN Hn] H. start w. unfold dynamic_rhs. cbv [dynamic_inputs timed] in H. opens.
    need. need. need. need. need. apply ev_bind. eapply ev_sm_scale; [eassumption|]. got w1 me V1.
    apply ev_bind. eapply ev_sm_matmul; [exact V1|eassumption|]. got w2 A V2.
    inv. apply ev_bind. eapply ev_sm_scale; [eassumption|]. got w3 m V3.
    apply ev_bind. eapply ev_sm_matmul; [exact V3|eassumption|]. got w4 mvv V4.
    apply ev_bind. eapply (ev_iadd (hp w)); [eassumption|eassumption|exact V2|exact V4|].
    intros w5 X5 S5 M5 V5.
    assert (T5 : same w w5) by (eapply same_trans; eassumption).
    destruct T5 as (F5 & T5 & R5 & Q5).
    apply ev_bind. eapply ev_force.
    { rewrite F5. eassumption. }
    intros w6 f E6 Fr6 V6 A1 A2 A3 A4. carry E6.
    eapply ev_add_vectors; [exact V6|exact V5|].
    intros w7 r E7 (B1 & B2 & B3 & B4) Fr7 V7.
    pose proof (hext_trans _ _ _ X5 E6) as X6.
    eapply rhs_post_same; [exact (hext_trans _ _ _ X6 E7)| | | | | |exact V7|].
    - cbn [force_time]. now_time. congruence.
    - congruence.
    - congruence.
    - congruence.
    - eapply vfresh_ext; [exact X6|exact Fr7].
    - intros i Hi. unfold dvec. rewrite mv_opp, mv_div. reflexivity.
  Qed.

  (* adding a coupling load in place *)
  Lemma add_load k0 k w w1 r x y A w2 : rhs_post k0 w w1 r x -> unknowns k0 = unknowns k -> force_time k0 = force_time k ->
    k <> StaticPoisson -> k0 <> StaticPoisson ->
    hext (hp w1) (hp w2) -> same w1 w2 -> vval (hp w2) A (unknowns k) y ->
    ev (iadd_vector r A) w2 (fun w' _ => rhs_post k w w' r (fun i => x i + y i)).
  Proof.
    intros (X & F1 & T1 & HR & Fr & V) EU EF Hk Hk0 E (S1 & S2 & S3 & S4) VA.
    rewrite EU in V. pose proof (hext_trans _ _ _ X E) as X2.
    eapply (ev_iadd (hp w)); [exact X2|exact Fr|eapply vval_ext; [exact E|exact V]|exact VA|].
    intros w' X' (A1 & A2 & A3 & A4) HM V'. split; [exact X'|]. split; [rewrite <- EF; congruence|]. split.
    { rewrite A2, S2, T1. destruct k0, k; congruence. }
    split; [|split; [exact Fr|exact V']].
    intros H0. destruct (HR H0) as [H1 H2].
    assert (R2 : relax_ok w2) by (eapply relax_ok_step; eauto).
    split.
    - intros tn Ht. rewrite A3 in Ht. destruct (R2 tn Ht) as (s & B & G1 & G2 & G3 & G4 & G5 & G6 & G7).
      exists s, B. rewrite A4. split; auto. split; auto. split; auto. repeat split; auto.
      + rewrite HM; auto.
      + unfold load_m. rewrite HM. exact G7.
    - intros a Ha Hap tn s Q1 Q2. rewrite A3, S3 in Q1. rewrite A4, S4 in Q2. eapply (H2 a Ha Hap); eauto.
  Qed.

  Lemma rhs_value k w : reads k w ->
    ev (right_hand_side integrate b k var) w (fun w' r => rhs_post k w w' r (rvec k)).
  Proof.
    intros [HS H]. pose proof HS as [HN Hn]. start w. destruct k; unfold right_hand_side; cbv iota beta in H.
    - (* StaticPoisson *)
      opens. eapply ev_temperature; [eassumption|]. intros w1 r E Fr V A1 A2 A3 A4.
      eapply rhs_post_same; [exact E|exact A1|exact A4|exact A2|exact A3|exact Fr|exact V|].
      intros i _. reflexivity.
    - (* Wave *)
      opens. match goal with H : timed |- _ => destruct H as [Hts Hdt] end.
      need. need. need. need. need. apply ev_bind. eapply ev_sm_scale; [eassumption|]. got w1 mp V1.
      match goal with
      | Hu : vval (hp w1) ?u _ (ph_u p), Hv : vval (hp w1) ?v _ (ph_v p) |- _ =>
          eapply (vval_beginning _ _ _ _ N) in Hu; [|eassumption];
          eapply (vval_beginning _ _ _ _ N) in Hv; [|eassumption]
      end.
      apply ev_bind. eapply ev_sm_matmul; [exact V1|eassumption|]. got w2 A V2.
      inv. apply ev_bind. eapply ev_sm_SM1 with (d := d) (N := N); [assumption|eassumption|]. intros m0 Vm.
      apply ev_bind. eapply ev_sm_scale; [exact Vm|]. got w3 m V3.
      apply ev_bind. eapply ev_sm_matmul; [exact V3|eassumption|]. got w4 mvv V4.
      apply ev_bind. eapply (ev_iadd (hp w)); [eassumption|eassumption|exact V2|exact V4|].
      intros w5 X5 S5 M5 V5.
      assert (T5 : same w w5) by (eapply same_trans; eassumption).
      destruct T5 as (F5 & T5 & R5 & Q5).
      apply ev_bind. eapply ev_force.
      { rewrite F5. eassumption. }
      intros w6 f E6 Fr6 V6 A1 A2 A3 A4. carry E6.
      eapply ev_add_vectors; [exact V6|exact V5|].
      intros w7 r E7 (B1 & B2 & B3 & B4) Fr7 V7.
      pose proof (hext_trans _ _ _ X5 E6) as X6.
      eapply rhs_post_same; [exact (hext_trans _ _ _ X6 E7)| | | | | |exact V7|].
      + cbn [force_time]. now_time. congruence.
      + congruence.
      + congruence.
      + congruence.
      + eapply vfresh_ext; [exact X6|exact Fr7].
      + intros i Hi. unfold rvec. rewrite mv_opp, mv_div. reflexivity.
    - (* StaticDisplacement *)
      opens. eapply ev_force; [eassumption|]. intros w1 r E Fr V A1 A2 A3 A4.
      eapply rhs_post_same; [exact E|exact A4|exact A1|exact A2|exact A3|exact Fr|exact V|].
      intros i _. reflexivity.
    - (* QuasistaticRelaxation *)
      opens. match goal with H : d = 2%nat |- _ => rename H into Hd end.
      match goal with H : relax_ok w |- _ => rename H into HR0 end.
      assert (Hn2 : n = (2 * b_count b)%nat) by (unfold n; rewrite Hd; reflexivity).
      need. need. apply ev_bind. eapply ev_force; [eassumption|]. intros w1 f E Fr V A1 A2 A3 A4. carry E.
      apply ev_bind. eapply ev_relaxation; try eassumption.
      { eapply relax_ok_step; eauto. }
      intros w2 s E2 HR F2 T2 HA V2. rewrite <- Hn2 in V2. carry E2.
      apply ev_bind. eapply ev_sm_matmul; [exact V2|eassumption|].
      intros w3 ra E3 (B1 & B2 & B3 & B4) Fr3 V3. carry E3.
      eapply ev_sub_vectors; [eassumption|exact V3|].
      intros w4 r E4 (C1 & C2 & C3 & C4) Fr4 V4.
      pose proof (hext_trans _ _ _ E E2) as X2. pose proof (hext_trans _ _ _ X2 E3) as X3.
      pose proof (hext_trans _ _ _ E3 E4) as X4.
      split; [exact (hext_trans _ _ _ X3 E4)|]. split; [cbn [force_time]; now_time; congruence|].
      split; [congruence|]. split.
      { intros _. destruct (relax_same w2 w4 X4) as [G1 G2]; [congruence|congruence|exact HR|].
        split; [exact G1|]. intros a Ha Hap. apply G2.
        { destruct X2 as [L _]. lia. }
        apply HA.
        { destruct E as [L _]. lia. }
        intros tn s' Q1 Q2. rewrite A2 in Q1. rewrite A3 in Q2. eapply Hap; eauto. }
      split; [eapply vfresh_ext; [exact X3|exact Fr4]|].
      eapply vval_veq; [exact V4|]. intros i _. reflexivity.
    - exact (quasi_value w HS H).
    - exact (dynamic_value w HS H).
    - (* DynamicVelocityWithTemperature *)
      destruct H as (H1 & H2 & H3).
      apply ev_bind. eapply ev_conseq; [exact (dynamic_value w HS H1)|]. intros w1 r P.
      pose proof P as (X & _). apply (has_vec_ext _ _ _ _ _ X) in H2. destruct H3 as [ty H3].
      apply (has_op_ext _ _ _ _ _ _ _ X) in H3. opens.
      need. need. apply ev_bind. eapply ev_sm_matmul_T; [eassumption|eassumption|].
      intros w2 A E2 S2 Fr2 V2. apply ev_bind.
      eapply ev_conseq; [eapply (add_load _ DynamicVelocityWithTemperature _ _ _ _ _ _ _ P); try reflexivity; try discriminate; try eassumption|].
      intros w3 [] P3. apply ev_ret. exact P3.
    - (* Temperature *)
      opens. match goal with H : timed |- _ => destruct H as [Hts Hdt] end.
      assert (Hle : (N <= n)%nat) by (unfold n; nia).
      need. need. need. need. apply ev_bind. eapply ev_sm_scale; [eassumption|]. got w1 mt V1.
      apply ev_bind. eapply ev_sm_matmul; [exact V1|eassumption|]. got w2 tv V2.
      inv.
      match goal with H : sval (hp w2) (o_acceleration ops) _ _ _ _ |- _ => destruct H as [_ Va] end.
      pose proof (mval_top_left _ _ _ _ _ N N Va Hle Hle) as Vm.
      apply ev_bind. eapply ev_scale_array; [exact Vm|]. got w3 m V3.
      apply ev_bind. eapply ev_matmul; [exact V3|eassumption|]. got w4 mth V4.
      apply ev_bind. eapply (ev_iadd (hp w)); [eassumption|eassumption|exact V2|exact V4|].
      intros w5 X5 S5 M5 V5. apply ev_ret.
      assert (T5 : same w w5) by (eapply same_trans; eassumption).
      destruct T5 as (F5 & T5 & R5 & Q5).
      eapply rhs_post_same; [exact X5|exact F5|exact T5|exact R5|exact Q5|eassumption|exact V5|].
      intros i Hi. unfold rvec. rewrite mv_opp, mv_div. reflexivity.
    - (* Piezoelectric *)
      opens. need. need. eapply ev_sm_matmul; [eassumption|eassumption|]. got w1 r V1.
      match goal with T : same w w1 |- _ => destruct T as (F5 & T5 & R5 & Q5) end.
      eapply rhs_post_same; [eassumption|exact F5|exact T5|exact R5|exact Q5|eassumption|exact V1|].
      intros i Hi. reflexivity.
    - (* QuasistaticVelocityWithPiezoelectric *)
      destruct H as (H1 & H2 & H3).
      apply ev_bind. eapply ev_conseq; [exact (quasi_value w HS H1)|]. intros w1 r P.
      pose proof P as (X & _). apply (has_vec_ext _ _ _ _ _ X) in H2. destruct H3 as [ty H3].
      apply (has_op_ext _ _ _ _ _ _ _ X) in H3. opens.
      need. need. match goal with H : sval (hp w1) ?c _ _ _ (coupling p) |- _ => destruct H as [_ Vc] end.
      apply ev_bind. eapply ev_scale_array; [exact Vc|].
      intros w2 mp E2 S2 Fr2 V2. carry E2. apply ev_bind. eapply ev_matmul_T; [exact V2|eassumption|].
      intros w3 A E3 S3 Fr3 V3. apply ev_bind.
      eapply ev_conseq; [eapply (add_load _ QuasistaticVelocityWithPiezoelectric _ _ _ _ _ _ _ P); try reflexivity; try discriminate; try eassumption|].
      { exact (hext_trans _ _ _ E2 E3). }
      { exact (same_trans _ _ _ S2 S3). }
      intros w4 [] P4. apply ev_ret.
      destruct P4 as (Q1 & Q2 & Q3 & Q4 & Q5 & Q6). repeat (split; [assumption|]).
      eapply vval_veq; [exact Q6|]. intros i _. unfold rvec. unfold Rminus. f_equal.
      unfold mv, mT. rewrite <- sum_opp. apply sum_ext. intros; ring.
    - (* DynamicVelocityWithPiezoelectric *)
      destruct H as (H1 & H2 & H3).
      apply ev_bind. eapply ev_conseq; [exact (dynamic_value w HS H1)|]. intros w1 r P.
      pose proof P as (X & _). apply (has_vec_ext _ _ _ _ _ X) in H2. destruct H3 as [ty H3].
      apply (has_op_ext _ _ _ _ _ _ _ X) in H3. opens.
      need. need. apply ev_bind. eapply ev_sm_matmul_T; [eassumption|eassumption|].
      intros w2 A E2 S2 Fr2 V2. apply ev_bind.
      eapply ev_conseq; [eapply (add_load _ DynamicVelocityWithPiezoelectric _ _ _ _ _ _ _ P); try reflexivity; try discriminate; try eassumption|].
      intros w3 [] P3. apply ev_ret. exact P3.
  Qed.

  (* ------------------------------------------------------------- update *)

  Lemma ev_put_m_at h0 s n0 m0 A B w (Q : world -> unit -> Prop) :
    hext h0 (hp w) -> mfresh h0 (sm_data s) -> mval (hp w) (sm_data s) n0 m0 A ->
    (forall w', hext h0 (hp w') -> same w w' -> vecs (hp w') = vecs (hp w) ->
       mval (hp w') (sm_data s) n0 m0 B ->
       (relax_ok w -> apart w (m_addr (sm_data s)) -> relax_ok w') -> Q w' tt) ->
    ev (put_m (sm_data s) B) w Q.
  Proof.
    intros E Fr V H. eexists; exists tt. split; [reflexivity|]. apply H; simpl.
    - apply hext_store_m; auto.
    - repeat split.
    - reflexivity.
    - eapply store_m_val; eauto.
    - intros HR HA tn Ht. simpl in Ht. destruct (HR tn Ht) as (s' & A' & G1 & G2 & G3 & G4 & G5 & G6 & G7).
      exists s', A'. split; auto. split; auto. split; auto. pose proof (HA tn s' Ht G1) as Hne.
      repeat split; auto.
      + simpl. rewrite set_nth_length. auto.
      + unfold load_m, store_m. simpl. rewrite set_nth_other by auto. exact G7.
  Qed.

  Definition conditions (k : kind) : result (list condition) :=
    b_conditions b (dimension_in k d) (dirichlet_cond_name k).

  Definition final (k : kind) (conds : list condition) : system :=
    apply_dirichlet conds (mkSystem (lmat k) (rvec k)).

  Definition update_post (k : kind) (conds : list condition) (w w' : world) (lr : smat * vref) : Prop :=
    hext (hp w) (hp w') /\
    w_force w' = match force_time k with None => w_force w | Some t => fst (integrate (w_force w) t) end /\
    w_temperature w' = match k with StaticPoisson => fst (integrate (w_temperature w) 0) | _ => w_temperature w end /\
    (relax_ok w -> relax_ok w') /\
    mval (hp w') (sm_data (fst lr)) (unknowns k) (unknowns k) (lhs (final k conds)) /\
    vval (hp w') (snd lr) (unknowns k) (rhs (final k conds)).

  (* reads only looks at arrays, sources and the cache *)
  Lemma reads_step k w w' : reads k w -> hext (hp w) (hp w') -> (relax_ok w -> relax_ok w') ->
    (forall t, force_time k = Some t -> snd (integrate (w_force w') t) = snd (integrate (w_force w) t)) ->
    (k = StaticPoisson -> snd (integrate (w_temperature w') 0) = snd (integrate (w_temperature w) 0)) ->
    reads k w'.
  Proof.
    intros [HS H] X HR HF HT. split; [exact HS|].
    assert (O : forall o ty n0 m0 A, has_op (hp w) o ty n0 m0 A -> has_op (hp w') o ty n0 m0 A)
      by (intros; eapply has_op_ext; eauto).
    assert (V : forall o n0 x, has_vec (hp w) o n0 x -> has_vec (hp w') o n0 x)
      by (intros; eapply has_vec_ext; eauto).
    assert (G : forall o ty n0 m0 A, sval (hp w) o ty n0 m0 A -> sval (hp w') o ty n0 m0 A)
      by (intros; eapply sval_ext; eauto).
    assert (FF : forall len, match force_time k with Some t => force_at w t len -> force_at w' t len | None => True end).
    { intros len. destruct (force_time k) as [t|] eqn:E; auto. unfold force_at. intros <-. apply HF. reflexivity. }
    destruct k; cbv iota beta delta [quasistatic_inputs dynamic_inputs force_time] in *.
    - destruct H as [H1 H2]. rewrite HT by auto. auto.
    - destruct H as (H0 & H1 & (t & H2 & H3) & (l1 & L1 & H4) & (l2 & L2 & H5) & H6 & H7).
      rewrite H2 in FF. eauto 20.
    - destruct H as [H1 H2]. auto.
    - destruct H as (H0 & H1 & H2 & H3 & (t & f & tn & G1 & G2 & G3 & G4 & G5) & H4 & H5).
      rewrite G1 in FF. eauto 20.
    - destruct H as (H0 & (t & H2 & H3) & H). rewrite H2 in FF. decompose [and] H. eauto 20.
    - destruct H as (H0 & (t & H2 & H3) & H). rewrite H2 in FF. decompose [and] H. eauto 20.
    - destruct H as ((H0 & (t & H2 & H3) & H) & K1 & ty & K2). rewrite H2 in FF. decompose [and] H. eauto 20.
    - destruct H as (H0 & H1 & H2 & H3 & (t1 & H4) & (t2 & H5) & (t3 & H6)). eauto 20.
    - destruct H as (H0 & (t1 & H1) & H2). eauto 20.
    - destruct H as ((H0 & (t & H2 & H3) & H) & K1 & ty & K2). rewrite H2 in FF. decompose [and] H. eauto 20.
    - destruct H as ((H0 & (t & H2 & H3) & H) & K1 & ty & K2). rewrite H2 in FF. decompose [and] H. eauto 20.
  Qed.

  Lemma update_value k w conds : reads k w -> conditions k = Ok conds -> well_shaped (unknowns k) conds ->
    ev (update integrate b k var) w (update_post k conds w).
  Proof.
    intros HRd HC HW. unfold update.
    apply ev_bind. eapply ev_conseq; [apply lhs_value; exact HRd|].
    intros w1 l (X1 & F1 & T1 & R1 & Fl & Vl).
    apply ev_bind. eapply ev_conseq; [apply rhs_value|].
    { apply (reads_step k w); auto.
      - intros HR. apply R1; auto.
      - intros; rewrite F1; auto.
      - intros; rewrite T1; auto. }
    intros w2 r (X2 & F2 & T2 & R2 & Fr & Vr).
    pose proof (hext_trans _ _ _ X1 X2) as X12.
    pose proof (mval_ext _ _ _ _ _ _ X2 Vl) as Vl2.
    unfold apply_dirichlet_condition. fold d. change (b_conditions b (dimension_in k d) (dirichlet_cond_name k)) with (conditions k).
    rewrite HC.
    apply ev_bind, ev_bind, ev_get_m, ev_bind, ev_get_v. cbv zeta.
    set (sys := apply_dirichlet conds _).
    assert (ES : meq (unknowns k) (unknowns k) (lhs sys) (lhs (final k conds)) /\
                 veq (unknowns k) (rhs sys) (rhs (final k conds))).
    { apply apply_dirichlet_ext; auto; simpl.
      - apply Vl2.
      - apply Vr. }
    destruct ES as [ES1 ES2].
    apply ev_bind. eapply ev_put_m_at; [exact X12|exact Fl|exact Vl2|].
    intros w3 X3 (A1 & A2 & A3 & A4) E3 V3 R3.
    assert (Vr3 : vval (hp w3) r (unknowns k) (rvec k)).
    { destruct Vr as (P1 & P2 & P3). unfold load_v in P3. repeat split; auto.
      - rewrite E3. auto.
      - unfold load_v. rewrite E3. exact P3. }
    assert (Fr0 : vfresh (hp w) r) by exact (vfresh_ext _ _ _ X1 Fr).
    eapply ev_put_v; [exact X3|exact Fr0|exact Vr3|].
    intros w4 X4 (B1 & B2 & B3 & B4) E4 V4. apply ev_ret.
    split; [exact X4|]. split; [rewrite B1, A1, F2, F1; reflexivity|].
    split; [rewrite B2, A2, T2, T1; reflexivity|]. split.
    - intros HR. destruct (R1 HR) as [HR1 HA1]. destruct (R2 HR1) as [HR2 HA2].
      assert (HR3 : relax_ok w3).
      { apply R3; auto. apply HA2; auto. apply Vl. }
      intros tn Ht. rewrite B3 in Ht. destruct (HR3 tn Ht) as (s' & A' & G1 & G2 & G3 & G4 & G5 & G6 & G7).
      exists s', A'. rewrite B4. split; auto. split; auto. split; auto. repeat split; auto.
      + rewrite E4. auto.
      + unfold load_m. rewrite E4. exact G7.
    - cbn [fst snd]. split.
      + assert (V3' : mval (hp w4) (sm_data l) (unknowns k) (unknowns k) (lhs sys)).
        { destruct V3 as (P1 & P2 & P3 & P4). repeat split; auto.
          - rewrite E4; auto.
          - unfold load_m in *. rewrite E4. exact P4. }
        eapply mval_meq; [exact V3'|exact ES1].
      + eapply vval_veq; [exact V4|exact ES2].
  Qed.
End Values.
