(* C105: where the passes of a coupled step lead to. *)
From Coq Require Import Reals List Arith ZArith Bool String Lia Lra.
From Verif Require Import Common PyModel RVec LinAlg MeshModel MeshBuildModel MeshSpec NormalsModel
  DofModel DofSpec DirichletModel DirichletSpec DirichletProofs
  FemModel FemSpec FemAssemblyProofs FemFormProofs FemBasicProofs FemMeshProofs FemPipelineProofs ForcesModel ForcesSpec
  StatementModel StatementSpec StatementProofs StatementValueProofs StatementLawProofs TimeSpec
  ProblemModel ProblemSpec ProblemProofs ProblemReady ProblemTheorems ProblemUnique ProblemFinal
  CoupledSpec CoupledProblemSpec ElectrodeProofs ElectrodeUserProofs CoupledProblemTheorems CoupledProblemTotal AlternationProofs CoupledLimitSpec CoupledLimitProofs.
Import ListNotations.
Local Open Scope string_scope.
Local Open Scope list_scope.
Local Open Scope R_scope.

Lemma integral_scal w els c f : integral w els (fun e => c * f e) = c * integral w els f.
Proof. unfold integral. rewrite <- lsum_scal. apply lsum_ext. intros; ring. Qed.
Lemma integral_plus w els f h : integral w els (fun e => f e + h e) = integral w els f + integral w els h.
Proof. unfold integral. rewrite <- lsum_plus. apply lsum_ext. intros; ring. Qed.
Lemma integral_ext w els f h : (forall e, In e els -> f e = h e) -> integral w els f = integral w els h.
Proof. intros H. unfold integral. apply lsum_ext. intros e I. rewrite (H e I). reflexivity. Qed.
Lemma integral_le w els f h : (forall e, In e els -> 0 <= w e) -> (forall e, In e els -> f e <= h e) -> integral w els f <= integral w els h.
Proof. intros W H. unfold integral. apply lsum_le. intros e I. apply Rmult_le_compat_l; auto. Qed.

Lemma first_determined n k A T gx s1 F F' y y' x x' : free_definite n A gx -> (forall z, F z = F' z) -> veq k y y' ->
  first_eq n k A T gx s1 F y x -> first_eq n k A T gx s1 F' y' x' -> veq n x x'.
Proof.
  intros D FF Y (G & E) (G' & E').
  assert (Z : forall i v, gx i v -> minus x x' i = 0) by (intros i v X; unfold minus; rewrite (G i v X), (G' i v X); ring).
  assert (Q : qform n A (minus x x') <= 0).
  { right. rewrite <- bilinear_q, bilinear_minus_r, (E _ Z), (E' _ Z), FF, (bilinear_vec k n T y y' _ _ Y (fun _ _ => eq_refl)). ring. }
  intros i Hi. assert (R0 := free_zero n A gx _ D Z Q i Hi). unfold minus in R0. lra.
Qed.
Lemma second_determined n k B T gy s2 H H' x x' y y' : free_definite k B gy -> (forall z, H z = H' z) -> veq n x x' ->
  second_eq n k B T gy s2 H x y -> second_eq n k B T gy s2 H' x' y' -> veq k y y'.
Proof.
  intros D FF X (G & E) (G' & E').
  assert (Z : forall i v, gy i v -> minus y y' i = 0) by (intros i v V; unfold minus; rewrite (G i v V), (G' i v V); ring).
  assert (Q : qform k B (minus y y') <= 0).
  { right. rewrite <- bilinear_q, bilinear_minus_r, (E _ Z), (E' _ Z), FF, (bilinear_vec k n T _ _ x x' (fun _ _ => eq_refl) X). ring. }
  intros i Hi. assert (R0 := free_zero k B gy _ D Z Q i Hi). unfold minus in R0. lra.
Qed.

(* a motion whose passes are determined is determined *)
Section Determined.
  Variables (size nodes : nat).
  Variable first : R -> vec -> vec -> vec -> vec -> Prop.
  Variable second : vec -> vec -> vec -> vec -> Prop.
  Variable dt : R.
  Hypothesis D1 : forall t u v y x u' v' y' x', veq size u u' -> veq size v v' -> veq nodes y y' ->
    first t u v y x -> first t u' v' y' x' -> veq size x x'.
  Hypothesis D2 : forall u u' x e y x' e' y', veq size u u' -> veq size x x' -> veq nodes e e' ->
    second (fun c => u c + dt * x c) x e y -> second (fun c => u' c + dt * x' c) x' e' y' -> veq nodes y y'.

  Lemma turns_unique t u v e u' v' e' r r' x y x' y' : veq size u u' -> veq size v v' -> veq nodes e e' ->
    turns first second dt t u v e r x y -> turns first second dt t u' v' e' r' x' y' ->
    forall i, (i <= r)%nat -> (i <= r')%nat -> veq nodes (y i) (y' i) /\ (i <> 0%nat -> veq size (x i) (x' i)).
  Proof.
    intros U V E (Y0 & T) (Y0' & T'). induction i as [|i IH]; intros L L'; [rewrite Y0, Y0'; split; [exact E|lia]|].
    destruct (IH ltac:(lia) ltac:(lia)) as (IY & _). destruct (T i ltac:(lia)) as (F & S1). destruct (T' i ltac:(lia)) as (F' & S1').
    assert (X := D1 _ _ _ _ _ _ _ _ _ U V IY F F'). split; [|intros _; exact X]. exact (D2 u u' _ _ _ _ _ _ U X E S1 S1').
  Qed.

  Lemma change_same x y x' y' k : veq size (x (S k)) (x' (S k)) -> veq size (x k) (x' k) -> veq nodes (y (S k)) (y' (S k)) -> veq nodes (y k) (y' k) ->
    change size nodes x y k = change size nodes x' y' k.
  Proof.
    intros H1 H2 H3 H4. unfold change. f_equal. f_equal; apply sum_ext; intros c Hc; [rewrite (H1 c Hc), (H2 c Hc)|rewrite (H3 c Hc), (H4 c Hc)]; reflexivity.
  Qed.

  Lemma passes_count r r' x y x' y' : (forall i, (i <= r)%nat -> (i <= r')%nat -> veq nodes (y i) (y' i) /\ (i <> 0%nat -> veq size (x i) (x' i))) ->
    stops size nodes r x y -> stops size nodes r' x' y' -> r = r'.
  Proof.
    intros H (B1 & P1 & L1) (B2 & P2 & L2).
    assert (SAME : forall k, (5 <= k)%nat -> (k <= r)%nat -> (k <= r')%nat -> change size nodes x y (k - 1) = change size nodes x' y' (k - 1)).
    { intros k K1 K2 K3. destruct (H k K2 K3) as (Y1 & X1). destruct (H (k - 1)%nat ltac:(lia) ltac:(lia)) as (Y0 & X0).
      replace k with (S (k - 1)) in X1, Y1 by lia. assert (N1 : S (k - 1) <> 0%nat) by lia. assert (N0 : (k - 1)%nat <> 0%nat) by lia. exact (change_same _ _ _ _ _ (X1 N1) (X0 N0) Y1 Y0). }
    destruct (Nat.lt_trichotomy r r') as [C|[C|C]]; [|exact C|].
    - destruct L1 as [L1|L1]; [lia|]. assert (Q := P2 r ltac:(lia)). rewrite <- (SAME r) in Q by lia. lra.
    - destruct L2 as [L2|L2]; [lia|]. assert (Q := P1 r' ltac:(lia)). rewrite (SAME r') in Q by lia. lra.
  Qed.

  Lemma coupled_unique u0 v0 e0 n u v e u' v' e' :
    coupled_motion size nodes first second dt u0 v0 e0 n u v e -> coupled_motion size nodes first second dt u0 v0 e0 n u' v' e' ->
    forall j, (j <= n)%nat -> veq size (u j) (u' j) /\ veq size (v j) (v' j) /\ veq nodes (e j) (e' j).
  Proof.
    intros (U0 & V0 & E0 & H) (U0' & V0' & E0' & H'). induction j as [|j IH]; intros L.
    - rewrite U0, V0, E0, U0', V0', E0'. repeat split; intros i _; reflexivity.
    - destruct (IH ltac:(lia)) as (IU & IV & IE). destruct (H j ltac:(lia)) as (UJ & r & x & y & T & S1 & VX & EY).
      destruct (H' j ltac:(lia)) as (UJ' & r' & x' & y' & T' & S1' & VX' & EY').
      assert (A := turns_unique _ _ _ _ _ _ _ _ _ _ _ _ _ IU IV IE T T'). assert (RR := passes_count r r' x y x' y' A S1 S1'). subst r'.
      destruct (A r (le_n r) (le_n r)) as (YY & XX). assert (R0 : r <> 0%nat) by (destruct S1; lia). specialize (XX R0).
      rewrite VX, EY, VX', EY'. split; [|split; assumption]. intros i Hi. rewrite UJ, UJ', VX, VX', (IU i Hi), (XX i Hi). reflexivity.
  Qed.
End Determined.

Section Final.
  Variables (pb : problem) (ic id : P2 -> bool) (g : P2 -> R).
  Hypothesis PO : posed pb ic id g.
  Variable bt : built.
  Hypothesis PR : construct pb = Ok bt.
  Notation m := (bt_mesh bt).
  Notation N := (List.length (m_nodes m)).
  Notation points := (node_table coord2 zero2 (m_nodes m)).
  Notation els := (m_elements m).
  Notation dt := (time_step_of pb).
  Notation rho := (mass_density (pr_material pb)).
  Variables fi fo : P2 -> R -> vec.
  Variables (th ze mu la : R).
  Hypothesis EL : elastic (pr_material pb) = Some (mu, la).
  Hypothesis VI : viscous (pr_material pb) = Some (th, ze).
  Hypothesis M : 0 <= mu.
  Hypothesis L : 0 <= la.
  Hypothesis T : 0 <= th.
  Hypothesis Z : 0 <= ze.
  Hypothesis DT : 0 < dt.

  Section Ready.
  Variable ops : FemModel.operators.
  Hypothesis RD : ready pb bt None ops.
  Notation MM := (motion_matrix pb ops).
  Notation CM := (creep_matrix pb ops).
  Notation HM := (heat_matrix pb ops).
  Notation Ex := (some_mat (thermal_expansion ops)).
  Notation Pz := (some_mat (piezoelectricity ops)).
  Notation Pm := (some_mat (permittivity ops)).
  Notation fixed := (fixed_dof id g bt).

  Lemma motion_definite : 0 < rho -> free_definite (2 * N) MM (fixed 2) /\ pos_semidef (2 * N) MM.
  Proof.
    intros RM. destruct (fixed_conds pb ic id g PO bt None ops RD 2) as (conds & MC & _).
    assert (DM := proj1 (mass_definite pb ic id g PO bt None ops RD conds RM)).
    assert (P1 := elastic_psd pb ic id g PO bt None ops RD I mu la EL M L). assert (P2 := viscous_psd pb ic id g PO bt None ops RD I th ze VI T Z).
    assert (Q : 0 < 1 / dt) by (apply Rdiv_lt_0_compat; lra).
    assert (PM : pos_semidef (2 * N) (acceleration_operator ops)).
    { intros z. rewrite <- form_q, <- (mass_form pb ic id g PO bt None ops RD). unfold inertia_work. apply Rmult_le_pos; [lra|]. apply sum_nonneg. intros c _.
      unfold integral. apply lsum_nonneg. intros e _. apply Rmult_le_pos; [apply area_nonneg|]. eapply Rle_trans; [|apply mean_square]. apply pow2_ge_0. }
    split.
    - apply (definite_dof pb ic id g PO bt ops RD 2 conds _ MC). unfold motion_matrix.
      apply df_plus; [apply df_plus; [apply df_scale; assumption|exact P2]|apply pos_semidef_scale; [lra|exact P1]].
    - intros z. unfold motion_matrix. rewrite !qform_plus, !qform_scale. specialize (PM z). specialize (P1 z). specialize (P2 z).
      assert (0 <= 1 / dt * qform (2 * N) (acceleration_operator ops) z) by (apply Rmult_le_pos; lra).
      assert (0 <= dt * qform (2 * N) (some_mat (elasticity ops)) z) by (apply Rmult_le_pos; lra). lra.
  Qed.

  Lemma creep_definite : clamped_mesh pb id -> 0 < th -> free_definite (2 * N) CM (fixed 2).
  Proof.
    intros HU T0. destruct (clamped_body pb ic id g PO bt None ops RD HU) as (conds & MC & HH).
    assert (P1 := elastic_psd pb ic id g PO bt None ops RD I mu la EL M L).
    apply (definite_dof pb ic id g PO bt ops RD 2 conds _ MC). unfold creep_matrix.
    apply df_plus; [exact (viscous_definite_free pb ic id g PO bt None ops RD I conds th ze HH VI T0 Z)|apply pos_semidef_scale; [lra|exact P1]].
  Qed.
  Lemma creep_psd : pos_semidef (2 * N) CM.
  Proof.
    intros z. unfold creep_matrix. rewrite qform_plus, qform_scale.
    assert (P1 := elastic_psd pb ic id g PO bt None ops RD I mu la EL M L z). assert (P2 := viscous_psd pb ic id g PO bt None ops RD I th ze VI T Z z).
    assert (0 <= dt * qform (2 * N) (some_mat (elasticity ops)) z) by (apply Rmult_le_pos; lra). lra.
  Qed.
  Lemma heat_definite ex co : thermal (pr_material pb) = Some (ex, co) -> 0 < rho ->
    (forall v, 0 <= sum 2 (fun k => sum 2 (fun l => co k l * (v k * v l)))) -> free_definite N HM (fixed 1) /\ pos_semidef N HM.
  Proof.
    intros TH RM PC. destruct (fixed_conds pb ic id g PO bt None ops RD 1) as (conds & MC & _).
    assert (DM := proj2 (mass_definite pb ic id g PO bt None ops RD conds RM)).
    assert (P1 := conduction_psd pb ic id g PO bt ops RD ex co TH PC).
    assert (Q : 0 < 1 / dt) by (apply Rdiv_lt_0_compat; lra).
    assert (PM : pos_semidef N (acceleration_operator ops)).
    { intros z. rewrite <- form_q, <- (mass_form_scalar pb ic id g PO bt None ops RD). unfold inertia_work. apply Rmult_le_pos; [lra|]. apply sum_nonneg. intros c _.
      unfold integral. apply lsum_nonneg. intros e _. apply Rmult_le_pos; [apply area_nonneg|]. eapply Rle_trans; [|apply mean_square]. apply pow2_ge_0. }
    split.
    - replace N with (1 * N)%nat at 1 by lia. apply (definite_dof pb ic id g PO bt ops RD 1 conds _ MC). replace (1 * N)%nat with N by lia. unfold heat_matrix.
      apply df_plus; [apply df_scale; assumption|exact P1].
    - intros z. unfold heat_matrix. rewrite qform_plus, qform_scale. specialize (PM z). specialize (P1 z).
      assert (0 <= 1 / dt * qform N (acceleration_operator ops) z) by (apply Rmult_le_pos; lra). lra.
  Qed.

  (* strain power of a field *)
  Lemma strain_integral H : stress_work coord2 zero2 m None th ze H H + dt * stress_work coord2 zero2 m None mu la H H
    = integral (element_area points) els (fun e => elastic_density 2 th ze (fun c => H c e) (fun c => H c e) + dt * elastic_density 2 mu la (fun c => H c e) (fun c => H c e)).
  Proof. rewrite integral_plus, integral_scal. reflexivity. Qed.

  Lemma heated_dominated ex co ka : thermal (pr_material pb) = Some (ex, co) -> 0 < rho -> 0 <= ka ->
    (forall v, 0 <= sum 2 (fun k => sum 2 (fun l => co k l * (v k * v l)))) ->
    expansion_bounded ex th ze mu la dt ka ->
    forall y z, bilinear N (2 * N) Ex y z ^ 2 <= ka * dt / rho * qform (2 * N) MM z * qform N HM y.
  Proof.
    intros TH RM K0 PC XB y z. destruct (grads pb ic id g PO bt ops RD z) as (H & HH).
    rewrite (expansion_is pb ic id g PO bt ops RD ex co y z H TH HH). unfold expansion_work.
    set (D := fun e => elastic_density 2 th ze (fun c => H c e) (fun c => H c e) + dt * elastic_density 2 mu la (fun c => H c e) (fun c => H c e)).
    assert (ND : forall e, 0 <= D e).
    { intros e. unfold D. assert (P1 := elastic_nonneg th ze (fun c => H c e) T Z). assert (P2 := elastic_nonneg mu la (fun c => H c e) M L).
      assert (0 <= dt * elastic_density 2 mu la (fun c => H c e) (fun c => H c e)) by (apply Rmult_le_pos; lra). lra. }
    destruct (integral_cs (element_area points) (fun e => mean_value 2 e y * sum 2 (fun c => sum 2 (fun l => ex c l * H c e l))) (fun e => ka * D e)
      (fun e => mean_value 2 e y ^ 2) els) as (CS & PA & PB).
    { intros e I. split; [apply area_nonneg|]. split; [apply Rmult_le_pos; auto|]. split; [apply pow2_ge_0|]. rewrite Rpow_mult_distr, Rmult_comm.
      apply Rmult_le_compat_r; [apply pow2_ge_0|]. exact (XB (fun c => H c e)). }
    eapply Rle_trans; [exact CS|]. rewrite integral_scal in *.
    assert (SI := strain_integral H). fold D in SI. rewrite <- SI in *. clear CS.
    set (S1 := stress_work coord2 zero2 m None th ze H H + dt * stress_work coord2 zero2 m None mu la H H) in *.
    assert (S0 : 0 <= S1). { rewrite SI. apply lsum_nonneg. intros e _. apply Rmult_le_pos; [apply area_nonneg|apply ND]. }
    set (b := integral (element_area points) els (fun e => mean_value 2 e y ^ 2)) in *.
    assert (IB : rho * b <= inertia_work coord2 zero2 m 1 rho y y).
    { unfold inertia_work. apply Rmult_le_compat_l; [lra|]. cbn [sum]. rewrite Rplus_0_l. apply integral_le; [intros; apply area_nonneg|]. intros e _. exact (mean_square e y). }
    assert (QM : S1 <= qform (2 * N) MM z).
    { assert (E := proj1 (motion_energy_is pb ic id g PO bt ops RD th ze mu la EL VI z _) (ex_intro _ H (conj HH eq_refl))). rewrite <- E.
      assert (0 <= inertia_work coord2 zero2 m 2 rho z z / dt); [|unfold S1; lra]. apply Rmult_le_pos; [|left; apply Rinv_0_lt_compat; exact DT].
      unfold inertia_work. apply Rmult_le_pos; [lra|]. apply sum_nonneg. intros c _. apply lsum_nonneg. intros e _. apply Rmult_le_pos; [apply area_nonneg|].
      eapply Rle_trans; [|apply mean_square]. apply pow2_ge_0. }
    assert (QH : rho / dt * b <= qform N HM y).
    { destruct (grad pb ic id g PO bt ops RD y) as (G & HG). assert (E := proj1 (heat_energy_is pb ic id g PO bt ops RD ex co TH y _) (ex_intro _ G (conj HG eq_refl))). rewrite <- E.
      assert (0 <= conduction_work coord2 zero2 m co G G). { unfold conduction_work. apply lsum_nonneg. intros e _. apply Rmult_le_pos; [apply area_nonneg|apply PC]. }
      assert (rho / dt * b <= inertia_work coord2 zero2 m 1 rho y y / dt); [|lra]. unfold Rdiv. rewrite Rmult_assoc, (Rmult_comm (/ dt)), <- Rmult_assoc.
      apply Rmult_le_compat_r; [left; apply Rinv_0_lt_compat; exact DT|exact IB]. }
    replace (ka * S1 * b) with (ka * dt / rho * S1 * (rho / dt * b)) by (field; lra).
    assert (C0 : 0 <= ka * dt / rho) by (apply Rmult_le_pos; [apply Rmult_le_pos; lra|left; apply Rinv_0_lt_compat; exact RM]).
    apply Rmult_le_compat; [apply Rmult_le_pos; assumption| |apply Rmult_le_compat_l; assumption|exact QH].
    apply Rmult_le_pos; [|exact PB]. apply Rmult_le_pos; [lra|left; apply Rinv_0_lt_compat; exact DT].
  Qed.

  Lemma polarised_dominated pz pm ka : piezo (pr_material pb) = Some (pz, pm) -> 0 <= ka ->
    (forall v, 0 <= sum 2 (fun k => sum 2 (fun l => pm k l * (v k * v l)))) ->
    piezo_bounded pz pm th ze mu la dt ka ->
    forall y z, bilinear N (2 * N) Pz y z ^ 2 <= ka * qform (2 * N) CM z * qform N Pm y.
  Proof.
    intros PZ K0 PC XB y z. destruct (grads pb ic id g PO bt ops RD z) as (H & HH). destruct (grad pb ic id g PO bt ops RD y) as (G & HG).
    rewrite (piezo_is pb ic id g PO bt ops RD pz pm y z G H PZ HG HH). unfold piezo_work.
    rewrite <- (proj1 (creep_energy_is pb ic id g PO bt ops RD th ze mu la EL VI z _) (ex_intro _ H (conj HH eq_refl))).
    rewrite <- (proj1 (potential_energy_is pb ic id g PO bt ops RD pz pm PZ y _) (ex_intro _ G (conj HG eq_refl))).
    rewrite strain_integral, <- integral_scal. unfold conduction_work.
    apply (integral_cs (element_area points) (fun e => sum 2 (fun c => sum 2 (fun k => sum 2 (fun l => pz c k l * (G e k * H c e l)))))).
    intros e I. split; [apply area_nonneg|].
    assert (P1 := elastic_nonneg th ze (fun c => H c e) T Z). assert (P2 := elastic_nonneg mu la (fun c => H c e) M L).
    assert (0 <= dt * elastic_density 2 mu la (fun c => H c e) (fun c => H c e)) by (apply Rmult_le_pos; lra).
    split; [apply Rmult_le_pos; lra|]. split; [apply PC|]. exact (XB (G e) (fun c => H c e)).
  Qed.
  End Ready.
End Final.
