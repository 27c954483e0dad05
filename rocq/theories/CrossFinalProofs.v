(* The structured cross mesh from its description to the statements solved on it. *)
From Coq Require Import Reals List Arith ZArith Bool String Lia Lra.
From Verif Require Import Common PyModel RVec LinAlg MeshModel MeshBuildModel MeshSpec MeshTotalProofs DofModel DofSpec
  DirichletModel DirichletSpec DirichletProofs DirichletMeshProofs
  FemModel FemSpec FemPipelineProofs FemFinalProofs FemBuildProofs FemKornProofs
  StatementModel StatementSpec StatementProofs StatementValueProofs StatementLawProofs StatementMeshProofs
  CrossModel CrossSpec CrossProofs CrossElementProofs CrossTheorems CrossBuiltProofs.
Import ListNotations.
Local Open Scope string_scope.
Local Open Scope list_scope.
Local Open Scope R_scope.

Section Request.
  Variables (lx ly p : R) (sx sy : nat).
  Hypothesis RQ : request lx ly p sx sy.

  Lemma request_grid : exists nodes els, cross_rectangle [lx; ly] p = Ok (nodes, els) /\ cross_grid sx sy lx ly nodes els.
  Proof. destruct RQ. apply cross_rectangle_grid; auto. Qed.

  Lemma build_cross_moved pos x y : placed_at pos x y ->
    exists nodes els nodes', cross_rectangle [lx; ly] p = Ok (nodes, els) /\ cross_grid sx sy lx ly nodes els /\
      build_cross [lx; ly] p pos = Ok (nodes', els) /\ moved x y nodes nodes'.
  Proof.
    intros HP. destruct request_grid as (nodes & els & E & G).
    destruct RQ as [X Y P [Nx Sx] [Ny Sy] _ _]. exists nodes, els. unfold build_cross. rewrite E. cbn [bind].
    destruct HP as [->|(-> & -> & ->)].
    - destruct (translate_grid sx sy lx ly X Y Nx Ny nodes els G x y) as (nodes' & T & M).
      exists nodes'. rewrite T. auto.
    - exists nodes. cbn. split; auto. split; auto. split; auto. apply (moved_self sx sy lx ly X Y Nx Ny nodes els G).
  Qed.

  Lemma cross_mesh_total pos x y (zeros : list (list R) -> vec) kwargs : placed_at pos x y ->
    Forall (fun '(key, (_, cond)) => key = "contact" \/ key = "dirichlet" \/ (cond <> None /\ reserved key = false)) kwargs ->
    exists m, cross_mesh [lx; ly] p pos (make_description zeros kwargs) = Ok m.
  Proof.
    intros HP HK. destruct (build_cross_moved pos x y HP) as (nodes & els & nodes' & _ & _ & B & _).
    unfold cross_mesh. rewrite B. cbn [bind]. apply build_from_keywords. auto.
  Qed.

  Section Built.
    Variables (pos : option (list R)) (x y : R).
    Hypothesis HP : placed_at pos x y.
    Variables (d : @Description (list R) vec) (m : @MeshData (list R) vec) (ic id : list R -> bool).
    Hypothesis HC : dict_get (indicators d) "contact" = Some ic.
    Hypothesis HD : dict_get (indicators d) "dirichlet" = Some id.
    Hypothesis HB : cross_mesh [lx; ly] p pos d = Ok m.

    Lemma cross_mesh_built : let N := List.length (m_nodes m) in
      N = (2 * (sx * sy) + (sx + sy) + 1)%nat /\
      triangles N (table_of (m_nodes m)) (m_elements m) /\
      (forall i, (i < N)%nat -> referenced (m_elements m) i) /\
      lsum (m_elements m) (element_area (table_of (m_nodes m))) = lx * ly /\
      forall row, In row (m_nodes m) <-> exists a b, cross_point sx sy (lx / INR sx) (ly / INR sy) [a; b] /\ row = [a + x; b + y].
    Proof.
      destruct (build_cross_moved pos x y HP) as (nodes & els & nodes' & _ & G & B & M).
      unfold cross_mesh in HB. rewrite B in HB. cbn [bind] in HB.
      exact (built_grid sx sy lx ly (proj1 (rq_sx _ _ _ _ _ RQ)) (proj1 (rq_sy _ _ _ _ _ RQ)) nodes els G x y nodes' M d m ic id HC HD HB).
    Qed.

    Lemma cross_mesh_clamped f a b a' b' : dict_get (MeshBuildModel.conditions d) "dirichlet" = Some f ->
      outline sx sy (lx / INR sx) (ly / INR sy) [a; b] [a'; b'] ->
      id [a + x; b + y] = true -> id [a' + x; b' + y] = true ->
      exists conds, mesh_conditions m 2 "dirichlet" = Ok conds /\ well_shaped (2 * List.length (m_nodes m)) conds /\
        forall i, (i < List.length (m_nodes m))%nat -> held (clamped (List.length (m_nodes m)) conds) (m_elements m) i.
    Proof.
      destruct (build_cross_moved pos x y HP) as (nodes & els & nodes' & _ & G & B & M).
      unfold cross_mesh in HB. rewrite B in HB. cbn [bind] in HB.
      destruct RQ as [X Y P [Nx Sx] [Ny Sy] _ _].
      exact (built_clamped sx sy lx ly X Y Nx Ny nodes els G x y nodes' M d m ic id HC HD HB f a b a' b').
    Qed.

    (* the static and quasistatic problems on it *)
    Lemma cross_mesh_stable f a b a' b' mp density ops ph mu la : dict_get (MeshBuildModel.conditions d) "dirichlet" = Some f ->
      outline sx sy (lx / INR sx) (ly / INR sy) [a; b] [a'; b'] ->
      id [a + x; b + y] = true -> id [a' + x; b' + y] = true ->
      reinitialize_matrices (List.length (m_nodes m)) (table_of (m_nodes m)) (m_elements m) mp density = Ok ops ->
      ph_n ph = (2 * List.length (m_nodes m))%nat ->
      positive_density density -> elastic mp = Some (mu, la) -> 0 < mu -> 0 <= la ->
      elasticity ops = Some (stiffness ph) ->
      exists conds, mesh_conditions m 2 "dirichlet" = Ok conds /\ well_shaped (2 * List.length (m_nodes m)) conds /\
        stable_kind ph conds StaticDisplacement /\
        (forall k th ze, quasistatic_kind k -> viscous mp = Some (th, ze) -> 0 < th -> 0 <= ze ->
           viscosity ops = Some (damping ph) -> stable_kind ph conds k).
    Proof.
      intros Hf O I1 I2 HO Hn HPd HE Hmu Hla E.
      destruct (cross_mesh_clamped f a b a' b' Hf O I1 I2) as (conds & C1 & C2 & C3).
      destruct cross_mesh_built as (_ & HT & _).
      exists conds. split; auto. split; auto. split.
      - exact (static_2d _ _ _ mp density ops ph conds HT HO Hn mu la C3 HPd HE Hmu Hla E).
      - intros k th ze Hk HV Ht Hz HD'.
        exact (quasistatic_2d _ _ _ mp density ops ph conds HT HO Hn k th ze mu la Hk C3 HPd HV Ht Hz HE (Rlt_le _ _ Hmu) Hla HD' E).
    Qed.
  End Built.

  (* from the description to a definite system, nothing assumed to succeed *)
  Lemma cross_whole pos x y (d : @Description (list R) vec) id f a b a' b' mp density mu la :
    placed_at pos x y ->
    (exists c, dict_get (indicators d) "contact" = Some c) ->
    dict_get (indicators d) "dirichlet" = Some id -> dict_get (MeshBuildModel.conditions d) "dirichlet" = Some f ->
    (forall name, In name (map fst (indicators d)) -> name <> "contact" -> name <> "dirichlet" ->
       (exists c, dict_get (MeshBuildModel.conditions d) name = Some c) /\ reserved name = false) ->
    outline sx sy (lx / INR sx) (ly / INR sy) [a; b] [a'; b'] ->
    id [a + x; b + y] = true -> id [a' + x; b' + y] = true ->
    elastic mp = Some (mu, la) -> 0 < mu -> 0 <= la -> positive_density density ->
    exists m ops E conds, cross_mesh [lx; ly] p pos d = Ok m /\
      let N := List.length (m_nodes m) in
      reinitialize_matrices N (table_of (m_nodes m)) (m_elements m) mp density = Ok ops /\
      elasticity ops = Some E /\ mesh_conditions m 2 "dirichlet" = Ok conds /\ well_shaped (2 * N) conds /\
      symmetric (2 * N) E /\ definite_free (2 * N) conds E.
  Proof.
    intros HP [ic HC] HD Hf HK O I1 I2 HE Hmu Hla HPd.
    destruct (build_cross_moved pos x y HP) as (nodes & els & nodes' & E0 & G & B & M).
    destruct (build_total mean_row [0; 0] nodes' els d) as [m Em]; eauto.
    assert (HB : cross_mesh [lx; ly] p pos d = Ok m) by (unfold cross_mesh; rewrite B; exact Em).
    destruct (cross_mesh_built pos x y HP d m ic id HC HD HB) as (HN & HT & _ & HA & _).
    destruct (cross_mesh_clamped pos x y HP d m ic id HC HD HB f a b a' b' Hf O I1 I2) as (conds & C1 & C2 & C3).
    assert (NE : m_elements m <> []).
    { intros E. rewrite E in HA. cbn in HA. destruct RQ. assert (0 < lx * ly) by (apply Rmult_lt_0_compat; auto). lra. }
    destruct (dispatch_2d _ _ _ mp density HT NE) as (ops & HO & PE & _).
    destruct (elasticity ops) as [E|] eqn:EE.
    2:{ destruct PE as [_ PE]. rewrite PE in HE by auto. discriminate. }
    exists m, ops, E, conds. split; auto. cbv zeta. split; auto. split; auto. split; auto. split; auto.
    destruct (elasticity2_all _ _ _ mp density ops HT HO mu la _ HE EE) as (HF & HS & _). split; [exact HS|].
    exact (elastic_free _ _ _ density conds HT mu la E C3 HPd Hmu Hla HF).
  Qed.

  (* no element is wider or higher than the bound *)
  Lemma step_bound l n : 0 < p -> steps l p n -> 0 <= l / INR n <= p \/ l < 0.
  Proof.
    intros P (N & A & _). pose proof (INR_pos n N). destruct (Rlt_dec l 0); [right; auto|left]. split.
    - apply Rmult_le_pos; [lra|]. apply Rlt_le, Rinv_0_lt_compat. auto.
    - apply Rmult_le_reg_r with (INR n); auto. replace (l / INR n * INR n) with l by (field; lra). lra.
  Qed.
  Lemma cross_extent nodes els e i j c : cross_rectangle [lx; ly] p = Ok (nodes, els) -> In e els ->
    (i < 3)%nat -> (j < 3)%nat -> (c < 2)%nat ->
    corners (table_of nodes) e i c - corners (table_of nodes) e j c <= p.
  Proof.
    intros E He Hi Hj Hc. destruct RQ as [X Y P SX SY TX TY].
    pose proof (rectangle_with lx ly p sx sy X Y P SX SY) as F. cbv zeta in F.
    destruct (step_bound lx sx P SX) as [BX|]; [|lra]. destruct (step_bound ly sy P SY) as [BY|]; [|lra].
    destruct SX as [Nx _], SY as [Ny _].
    set (hx := lx / INR sx) in *. set (hy := ly / INR sy) in *.
    rewrite <- (elements_length sx sy), set_elements in F by auto. cbn [bind] in F.
    rewrite F in E. injection E as <- <-.
    apply in_elements in He; auto. destruct He as (a & b & q & A & B & C & ->).
    pose proof (corners_at sx sy Nx Ny hx hy a b q A B) as K.
    assert (T1 : 0 < 1 / 10000) by lra.
    assert (G : exists u v, forall n m, (n < 3)%nat -> (m < 2)%nat -> exists t, 0 <= t <= 1 /\
      corners (table_of (map (at_point hx hy) (points sx sy))) (element sx sy a b q) n m
        = (if (m =? 0)%nat then u + t * hx else v + t * hy)).
    { exists (INR a * hx), (INR b * hy). intros n m Hn Hm.
      destruct q as [|[|[|[|]]]]; [| | | |lia]; cbn [triangle] in K; unfold lb, centre in K; rewrite !at_corner, at_centre in K;
        specialize (K m); destruct K as (K1 & K2 & K3);
        (destruct n as [|[|[|]]]; [rewrite K1|rewrite K2|rewrite K3|lia]);
        (destruct m as [|[|]]; [| |lia]); cbn [nth Nat.eqb]; rewrite ?S_INR;
        first [exists 0; split; [lra|ring] | exists 1; split; [lra|ring] | exists (1 / 2); split; [lra|field]]. }
    destruct G as (u & v & G). destruct (G i c Hi Hc) as (t & Ht & ->). destruct (G j c Hj Hc) as (t' & Ht' & ->).
    destruct (c =? 0)%nat; nra.
  Qed.
End Request.

(* although the parameter is called a perimeter *)
Lemma unit_request : request 1 1 1 1 1.
Proof.
  assert (S1 : steps 1 1 1).
  { split; [lia|]. split; [cbn; lra|]. intros [|m] H; [cbn in H; lra|lia]. }
  constructor; auto; cbn; lra.
Qed.
Lemma unit_perimeter : exists nodes els e, cross_rectangle [1; 1] 1 = Ok (nodes, els) /\ In e els /\
  1 < perimeter (corners (table_of nodes) e).
Proof.
  destruct unit_request as [X Y P SX SY TX TY].
  pose proof (rectangle_with 1 1 1 1 1 X Y P SX SY) as F. cbv zeta in F.
  set (hx := 1 / INR 1) in *. assert (Hh : hx = 1) by (unfold hx; cbn; lra).
  change (4 * (1 * 1))%nat with (List.length (elements 1 1)) in F.
  rewrite set_elements in F by (auto; unfold tolerance; lra). cbn [bind] in F.
  eexists. eexists. exists (element 1 1 0 0 0). split; [exact F|]. split; [left; reflexivity|].
  pose proof (corners_at 1 1 (le_n 1) (le_n 1) hx hx 0 0 0 (le_n 1) (le_n 1)) as K.
  cbn [triangle] in K. unfold lb, centre in K. rewrite !at_corner, at_centre in K.
  destruct (K 0%nat) as (A1 & A2 & A3). destruct (K 1%nat) as (B1 & B2 & B3). cbn [nth] in *.
  unfold perimeter, side. rewrite A1, A2, A3, B1, B2, B3, Hh. cbn [INR].
  replace ((0 * 1 - 1 * 1)² + (0 * 1 - 0 * 1)²) with 1 by (unfold Rsqr; ring). rewrite sqrt_1.
  assert (S1 : 0 < sqrt ((1 * 1 - (0 + 1 / 2) * 1)² + (0 * 1 - (0 + 1 / 2) * 1)²)) by (apply sqrt_lt_R0; unfold Rsqr; lra).
  assert (S2 : 0 < sqrt (((0 + 1 / 2) * 1 - 0 * 1)² + ((0 + 1 / 2) * 1 - 0 * 1)²)) by (apply sqrt_lt_R0; unfold Rsqr; lra).
  lra.
Qed.
