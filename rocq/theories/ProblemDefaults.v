(* Problems that keep the default sources. *)
From Coq Require Import Reals List Arith ZArith Bool String Lia Lra.
From Verif Require Import Common PyModel RVec LinAlg MeshModel MeshBuildModel MeshSpec NormalsModel
  FemModel FemSpec FemPipelineProofs ForcesModel ForcesSpec ForcesProofs ForcesLoadProofs
  DirichletModel DirichletSpec StatementModel StatementSpec StatementProofs StatementValueProofs RegistryModel StateModel TimeModel MethodModel MethodProofs
  ProblemModel ProblemSpec ProblemProofs ProblemReady ProblemTheorems ProblemTotal.
Import ListNotations.
Local Open Scope string_scope.
Local Open Scope list_scope.
Local Open Scope R_scope.

(* computations that keep the forces, computations that raise because of them *)
Section Blocked.
  Context {F : Type}.
  Variable integrate : F -> R -> F * result (nat * vec).
  Variable b : body.
  Variable Q : F -> Prop.
  Hypothesis QI : forall f t, Q f -> exists e, snd (integrate f t) = Err e.
  Definition mute {A} (x : @M F A) : Prop := forall w, Q (w_force w) -> Q (w_force (fst (x w))).
  Definition blocked {A} (x : @M F A) : Prop := forall w, Q (w_force w) -> exists e, snd (x w) = Err e.

  Lemma blocked_first {A B} (x : @M F A) (f : A -> M B) : blocked x -> blocked (mbind x f).
  Proof. intros H w Hw. destruct (H w Hw) as (e & E). unfold mbind. destruct (x w) as [w' r]. cbn in E. subst r. exists e. reflexivity. Qed.
  Lemma blocked_then {A B} (x : @M F A) (f : A -> M B) : mute x -> (forall a, blocked (f a)) -> blocked (mbind x f).
  Proof.
    intros H HF w Hw. specialize (H w Hw). unfold mbind. destruct (x w) as [w' [a|e]]; cbn in *; [apply HF; exact H|exists e; reflexivity].
  Qed.
  Lemma mute_bind {A B} (x : @M F A) (f : A -> M B) : mute x -> (forall a, mute (f a)) -> mute (mbind x f).
  Proof. intros H HF w Hw. specialize (H w Hw). unfold mbind. destruct (x w) as [w' [a|e]]; cbn in *; [apply HF; exact H|exact H]. Qed.
  Lemma mute_ret {A} (a : A) : mute (ret a). Proof. intros w H. exact H. Qed.
  Lemma mute_raise {A} e : mute (@raise F A e). Proof. intros w H. exact H. Qed.
  Lemma mute_new_m r c A : mute (@new_m F r c A). Proof. intros w H. exact H. Qed.
  Lemma mute_new_v n x : mute (@new_v F n x). Proof. intros w H. exact H. Qed.
  Lemma mute_get_m r : mute (@get_m F r). Proof. intros w H. exact H. Qed.
  Lemma mute_get_v r : mute (@get_v F r). Proof. intros w H. exact H. Qed.
  Lemma mute_put_m r A : mute (@put_m F r A). Proof. intros w H. exact H. Qed.
  Lemma mute_put_v r A : mute (@put_v F r A). Proof. intros w H. exact H. Qed.
  Lemma mute_need {A} e (o : option A) : mute (@need F A e o).
  Proof. destruct o; [apply mute_ret|apply mute_raise]. Qed.
  Lemma mute_if {A} (c : bool) (x y : @M F A) : mute x -> mute y -> mute (if c then x else y).
  Proof. destruct c; auto. Qed.
  Lemma mute_inverse x : mute (@inverse F x).
  Proof. unfold inverse. destruct (Req_EM_T x 0); [apply mute_raise|apply mute_ret]. Qed.
  Ltac mute := repeat first [apply mute_bind; [|intros ?] | apply mute_if | apply mute_ret | apply mute_raise | apply mute_new_m | apply mute_new_v
    | apply mute_get_m | apply mute_get_v | apply mute_put_m | apply mute_put_v | apply mute_need | apply mute_inverse].
  Lemma mute_add_arrays x y : mute (@add_arrays F x y). Proof. unfold add_arrays. mute. Qed.
  Lemma mute_sm_add x y : mute (@sm_add F x y). Proof. unfold sm_add. mute. Qed.
  Lemma mute_sm_scale c x : mute (@sm_scale F c x). Proof. unfold sm_scale, scale_array. mute. Qed.
  Lemma mute_sm_copy x : mute (@sm_copy F x). Proof. unfold sm_copy, copy_array. mute. Qed.
  Lemma mute_sm_SM1 x : mute (@sm_SM1 F x). Proof. unfold sm_SM1. cbv zeta. mute. Qed.
  Lemma mute_sm_matmul x v : mute (@sm_matmul F x v). Proof. unfold sm_matmul, matmul. mute. Qed.
  Lemma mute_iadd x v : mute (@iadd_vector F x v). Proof. unfold iadd_vector. mute. Qed.
  Lemma mute_relaxation t : mute (@relaxation F b t).
  Proof.
    intros w H. unfold relaxation. destruct (b_relaxation b) as [f|]; [|exact H]. destruct (f t) as [tn|]; [|exact H].
    cbv zeta. match goal with |- context [if ?c then _ else _] => destruct c end.
    - destruct (b_relaxation_matrix b tn); exact H.
    - destruct (w_relaxation w); exact H.
  Qed.
  Ltac mute2 := repeat first [apply mute_bind; [|intros ?] | apply mute_if | apply mute_ret | apply mute_raise | apply mute_new_m | apply mute_new_v
    | apply mute_get_m | apply mute_get_v | apply mute_put_m | apply mute_put_v | apply mute_need | apply mute_inverse
    | apply mute_sm_add | apply mute_sm_scale | apply mute_sm_copy | apply mute_sm_SM1 | apply mute_sm_matmul | apply mute_iadd | apply mute_relaxation | apply mute_add_arrays].

  Lemma mute_lhs k var : mute (@left_hand_side F b k var).
  Proof. destruct k; cbn [left_hand_side]; unfold scale_array; mute2. Qed.

  Lemma blocked_force t : blocked (@force_integrate F integrate t).
  Proof. intros w H. unfold force_integrate. destruct (QI (w_force w) t H) as (e & E). destruct (integrate _ _) as [f' r]. cbn in E. subst r. exists e. reflexivity. Qed.

  Ltac block := repeat first [apply blocked_force | apply blocked_first; apply blocked_force | apply blocked_then; [solve [mute2]|intros ?]].
  Lemma blocked_quasistatic var : blocked (@quasistatic_rhs F integrate b var).
  Proof. unfold quasistatic_rhs. block. Qed.
  Lemma blocked_dynamic var : blocked (@dynamic_rhs F integrate b var).
  Proof. unfold dynamic_rhs. block. Qed.
  Lemma blocked_rhs k var : asks_force k -> blocked (@right_hand_side F integrate b k var).
  Proof.
    intros H. destruct k; cbn in H; try contradiction; cbn [right_hand_side]; block; 
      try apply blocked_quasistatic; try apply blocked_dynamic; apply blocked_first; try apply blocked_quasistatic; apply blocked_dynamic.
  Qed.
  Lemma blocked_update k var : asks_force k -> blocked (@update F integrate b k var).
  Proof. intros H. apply blocked_then; [apply mute_lhs|]. intros l. apply blocked_first. apply blocked_rhs. exact H. Qed.
  Lemma blocked_setup k w x dt : asks_force k -> Q (w_force w) -> exists e, setup integrate b k w x dt = Err e.
  Proof.
    intros H HQ. unfold setup.
    assert (B : blocked (mbind (@hand_over F b x dt 0) (fun g => update integrate b k (initial_variables g)))).
    { apply blocked_then; [unfold hand_over; mute2|]. intros a. apply blocked_update. exact H. }
    destruct (B w HQ) as (e & E). destruct (mbind _ _ w) as [w' r]. cbn in E. subst r. eauto.
  Qed.
End Blocked.

(* computations that succeed and keep the sources *)
Section Plain.
  Context {F : Type}.
  Variables f0 h0 : F.
  Definition sources (w : StatementModel.world F) : Prop := w_force w = f0 /\ w_temperature w = h0.
  Definition easy {A} (x : @M F A) (post : A -> Prop) : Prop :=
    forall w, sources w -> exists w' a, x w = (w', Ok a) /\ sources w' /\ post a.
  Lemma easy_bind {A B} (x : @M F A) (f : A -> M B) p q : easy x p -> (forall a, p a -> easy (f a) q) -> easy (mbind x f) q.
  Proof.
    intros H HF w Hw. destruct (H w Hw) as (w1 & a & E & H1 & HP). destruct (HF a HP w1 H1) as (w2 & c & E2 & H2 & HQ).
    exists w2, c. unfold mbind. rewrite E. auto.
  Qed.
  Lemma easy_ret {A} (a : A) (p : A -> Prop) : p a -> easy (ret a) p.
  Proof. intros H w Hw. exists w, a. split; [reflexivity|auto]. Qed.
  Lemma easy_new_v n x : easy (@new_v F n x) (fun r => v_len r = n).
  Proof. intros w Hw. eexists _, _. split; [reflexivity|]. split; [exact Hw|reflexivity]. Qed.
  Lemma easy_copy a : easy (@sm_copy F a) (fun l => m_rows (sm_data l) = m_rows (sm_data a) /\ m_cols (sm_data l) = m_cols (sm_data a)).
  Proof. intros w Hw. eexists _, _. split; [reflexivity|]. split; [exact Hw|split; reflexivity]. Qed.
  Lemma easy_hand_over b x dt t : easy (@hand_over F b x dt t) (fun _ => True).
  Proof.
    unfold hand_over. cbv zeta.
    repeat (eapply easy_bind; [apply easy_new_v|intros ? _]). apply easy_ret. exact Logic.I.
  Qed.
  Lemma easy_apply b k conds l r : b_conditions b (dimension_in k (b_dimension b)) (dirichlet_cond_name k) = Ok conds ->
    easy (@apply_dirichlet_condition F b k l r) (fun _ => True).
  Proof.
    intros E. unfold apply_dirichlet_condition. rewrite E. intros w Hw.
    unfold mbind, get_m, get_v, put_m, put_v. eexists _, tt. split; [reflexivity|]. split; [exact Hw|exact Logic.I].
  Qed.
End Plain.

Lemma static_setup_error {F} (integrate : F -> R -> F * result (nat * vec)) b w x dt e : o_elasticity (b_ops b) <> None ->
  (forall t, snd (integrate (w_force w) t) = Err e) -> setup integrate b StaticDisplacement w x dt = Err e.
Proof.
  intros HE HI. unfold setup.
  destruct (easy_hand_over (w_force w) (w_temperature w) b x dt 0 w (conj eq_refl eq_refl)) as (w1 & g & E1 & S1 & _).
  unfold mbind at 1. rewrite E1. unfold update. cbn [left_hand_side right_hand_side].
  destruct (o_elasticity (b_ops b)) as [el|]; [|contradiction]. cbn [need].
  assert (X : exists w2 l, mbind (ret el) (fun e0 => sm_copy e0) w1 = (w2, Ok l) /\ sources (w_force w) (w_temperature w) w2).
  { destruct (easy_copy (w_force w) (w_temperature w) el w1 S1) as (w2 & l & E2 & S2 & _). exists w2, l. split; [exact E2|exact S2]. }
  destruct X as (w2 & l & E2 & S2). unfold mbind at 1. rewrite E2. destruct S2 as (EF & _).
  unfold mbind at 1, force_integrate. rewrite EF. specialize (HI 0). destruct (integrate (w_force w) 0) as [f r]. cbn [snd] in HI. subst r. reflexivity.
Qed.

Lemma poisson_setup {F} (integrate : F -> R -> F * result (nat * vec)) b w x dt n y po conds : o_poisson (b_ops b) = Some po ->
  snd (integrate (w_temperature w) 0) = Ok (n, y) ->
  b_conditions b (dimension_in StaticPoisson (b_dimension b)) (dirichlet_cond_name StaticPoisson) = Ok conds ->
  exists i, setup integrate b StaticPoisson w x dt = Ok i /\ v_len (m_rhs i) = n /\
    m_rows (sm_data (m_lhs i)) = m_rows (sm_data po) /\ m_cols (sm_data (m_lhs i)) = m_cols (sm_data po).
Proof.
  intros HE HI HC. unfold setup.
  destruct (easy_hand_over (w_force w) (w_temperature w) b x dt 0 w (conj eq_refl eq_refl)) as (w1 & g & E1 & S1 & _).
  unfold mbind at 1. rewrite E1. unfold update. cbn [left_hand_side right_hand_side]. rewrite HE. cbn [need].
  destruct (easy_copy (w_force w) (w_temperature w) po w1 S1) as (w2 & l & E2 & S2 & RL & CL).
  assert (X : mbind (ret po) (fun e0 => sm_copy e0) w1 = (w2, Ok l)) by exact E2.
  unfold mbind at 1. rewrite X. destruct S2 as (EF & EH).
  unfold mbind at 1, temperature_integrate. rewrite EH. destruct (integrate (w_temperature w) 0) as [f r]. cbn [snd] in HI. subst r.
  cbv zeta. set (w3 := StatementModel.mkWorld _ _ _ _ _). destruct (easy_new_v (w_force w3) (w_temperature w3) n y w3 (conj eq_refl eq_refl)) as (w4 & v & E4 & S4 & LV).
  rewrite E4. unfold mbind at 1.
  destruct (easy_apply (w_force w3) (w_temperature w3) b StaticPoisson conds l v HC w4 S4) as (w5 & u & E5 & _). rewrite E5.
  eexists. split; [reflexivity|]. cbn [m_rhs m_lhs]. auto.
Qed.

Section Defaults.
  Variables (pb : problem) (ic id : P2 -> bool) (g : P2 -> R).
  Hypothesis PO : posed pb ic id g.

  Lemma fails_integrate m B so width f t : m_nodes m <> [] -> answers m default_forces so width f ->
    snd (integrate_forces m B f t) = Err TypeError.
  Proof.
    intros NE (E & CI & _). destruct f as [w bf]. cbn [fst snd] in *.
    unfold integrate_forces, ForcesModel.integrate, integrated_inner.
    assert (X : snd (node_source same_time (ForcesModel.inner bf) (m_nodes m) t) = Err TypeError).
    { destruct CI as [HS HC]. unfold node_source. destruct (m_nodes m) as [|p l] eqn:EN; [contradiction|].
      assert (T : match timestamp (ForcesModel.inner bf) with Some t0 => same_time t t0 | None => false end = false).
      { destruct (timestamp (ForcesModel.inner bf)) as [t0|] eqn:ET; [|reflexivity].
        destruct (HC t0 eq_refl) as (l0 & _ & V). inversion V as [|? ? ? ? Q]. discriminate Q. }
      rewrite T, HS. reflexivity. }
    destruct (node_source same_time (ForcesModel.inner bf) (m_nodes m) t) as [i r]. cbn in X. subst r. reflexivity.
  Qed.

  Variables (bt : built) (density : option (nat -> R)).
  Hypothesis PR : prepared pb bt density.
  Hypothesis NE : pr_elements pb <> [].

  Lemma prepared_nodes : m_nodes (bt_mesh bt) <> [].
  Proof.
    destruct (prepared_ready pb ic id g PO bt density PR) as (ops & HB & _).
    pose proof (built_nonempty pb ic id g PO _ NE HB) as X. destruct (built_plane pb ic id g PO _ HB) as ((HR & HL & _) & _).
    intros E. rewrite E in HR. destruct (m_elements (bt_mesh bt)) as [|e l]; [contradiction|].
    inversion HR as [|? ? Q]. inversion HL as [|? ? Q']. destruct e as [|i e]; [discriminate|]. inversion Q. cbn in *. lia.
  Qed.

  Lemma default_blocked {V} k (m0 : store V) : pr_inner pb = default_forces -> asks_force k ->
    exists e, step_solver pb bt k m0 = Err e.
  Proof.
    intros DF AS. destruct (prepared_ready pb ic id g PO bt density PR) as (ops & _ & _ & _ & _ & AN & _).
    rewrite DF in AN.
    unfold step_solver, new_solver.
    repeat match goal with |- context [let '(_, _) := alloc ?mm ?x in _] => unfold alloc at 1; cbv beta iota end.
    match goal with |- context [setup ?a1 ?a2 ?a3 ?a4 ?xx ?dd] => destruct (blocked_setup a1 a2 (answers (bt_mesh bt) default_forces (pr_outer pb) (pr_width pb))
      (fun f t H => ex_intro _ TypeError (fails_integrate _ _ _ _ f t prepared_nodes H)) k a4 xx dd AS AN) as (e & E) end.
    rewrite E. eauto.
  Qed.

  Lemma default_static {V} mu la (m0 : store V) : pr_inner pb = default_forces -> elastic (pr_material pb) = Some (mu, la) ->
    step_solver pb bt StaticDisplacement m0 = Err TypeError.
  Proof.
    intros DF EL. destruct (prepared_ready pb ic id g PO bt density PR) as (ops & RD).
    pose proof RD as (_ & _ & _ & (refs & EB & IP) & AN & _).
    pose proof (elastic_some pb ic id g PO bt density ops RD mu la EL) as X.
    rewrite DF in AN. unfold step_solver, new_solver.
    repeat match goal with |- context [let '(_, _) := alloc ?mm ?x in _] => unfold alloc at 1; cbv beta iota end.
    rewrite (static_setup_error _ _ _ _ _ TypeError); [reflexivity| |intros t; apply (fails_integrate _ _ (pr_outer pb) (pr_width pb)); [exact prepared_nodes|exact AN]].
    rewrite EB. cbn [b_ops]. destruct IP as (_ & P1 & _). destruct (elasticity ops) as [A|]; [|contradiction].
    destruct (P1 A eq_refl) as (r & Q & _). rewrite Q. discriminate.
  Qed.

  (* the default sources of a Poisson problem: a right-hand side for two components per node *)
  Lemma default_poisson {V} c (m0 : store V) : membrane (pr_material pb) = Some c ->
    pr_heat pb = Some (fst default_temperature, snd default_temperature, snd default_temperature) ->
    exists d, step_solver pb bt StaticPoisson m0 = Ok d /\
    let i := inner (d_sv d) in let N := List.length (m_nodes (bt_mesh bt)) in
    v_len (m_rhs i) = (2 * N)%nat /\ m_rows (sm_data (m_lhs i)) = N /\ m_cols (sm_data (m_lhs i)) = N /\ (N <> 2 * N)%nat.
  Proof.
    intros ME HE. destruct (prepared_ready pb ic id g PO bt density PR) as (ops & RD).
    pose proof (membrane_some pb ic id g PO bt density ops RD c ME) as X.
    destruct (plane pb ic id g PO bt density ops RD) as (_ & HF & _).
    destruct (fixed_conds pb ic id g PO bt density ops RD 1) as (conds & MC & _).
    pose proof RD as (_ & _ & _ & (refs & EB & IP) & _ & AH). specialize (AH _ _ _ HE).
    destruct IP as (_ & _ & _ & _ & _ & _ & _ & P7). destruct (poisson_operator ops) as [A|]; [|contradiction].
    destruct (P7 A eq_refl) as (po & EP & SV). clear P7. destruct SV as (_ & (_ & R1 & R2 & _)).
    pose proof prepared_nodes as PN.
    destruct (integrate_answers (bt_mesh bt) (bt_basic bt) (fun _ _ _ => 0) (fun _ _ _ => 0) (snd default_temperature) (snd default_temperature)
      (fun _ _ => eq_refl) (fun _ _ => eq_refl) HF 2 _ 0 AH) as (IA & _).
    unfold step_solver, new_solver.
    repeat match goal with |- context [let '(_, _) := alloc ?mm ?x in _] => unfold alloc at 1; cbv beta iota end.
    match goal with |- context [setup ?a1 ?a2 ?a3 ?a4 ?xx ?dd] =>
      edestruct (poisson_setup a1 a2 a4 xx dd) as (i & Ei & L1 & L2 & L3) end;
      [rewrite EB; exact EP|exact IA|rewrite EB; exact MC|].
    rewrite Ei. eexists. split; [reflexivity|]. cbv zeta. cbn [d_sv inner].
    split; [exact L1|]. split; [rewrite L2; exact R1|]. split; [rewrite L3; exact R2|].
    destruct (m_nodes (bt_mesh bt)); [contradiction|]. cbn [List.length]. lia.
  Qed.
End Defaults.
