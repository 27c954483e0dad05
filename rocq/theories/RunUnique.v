(* A law with a definite mass matrix determines the motion. *)
From Coq Require Import Reals List Arith ZArith Bool String Lia Lra.
From Verif Require Import Common PyModel RVec LinAlg DofModel DofSpec DirichletModel DirichletSpec DirichletProofs
  StatementModel StatementSpec StatementProofs StatementValueProofs StatementLawProofs StatementEnergyProofs StateModel TimeModel TimeSpec StateLemmas CopyProofs TimeProofs
  RegistryModel RunProofs HistoryProofs SolveProofs MarchProofs TimeTheorems TimeCorollaries MethodModel MethodProofs RunSpec WholeRunProofs RunTheorems.
Import ListNotations.
Local Open Scope list_scope.
Local Open Scope R_scope.

Section Unique.
  Variable n : nat.
  Variable conds : list condition.
  Hypothesis HW : well_shaped n conds.
  Variables M C E : mat.
  Hypothesis DM : definite_free n conds M.
  Hypothesis PC : pos_semidef n C.
  Hypothesis PE : pos_semidef n E.
  Variable dt : R.
  Hypothesis Hdt : 0 < dt.
  Variable loads : R -> vec.
  Variable law : vec -> vec -> R -> vec -> nat -> Prop.
  Hypothesis HL : forall u v t x i, law u v t x i ->
    mv n M (fun j => (x j - v j) / dt) i + mv n C x i + mv n E (fun j => u j + dt * x j) i = loads t i.

  Lemma one_answer u v u' v' t x y : veq n u u' -> veq n v v' ->
    obeys n (prescribed conds) (law u v t) x -> obeys n (prescribed conds) (law u' v' t) y -> veq n x y.
  Proof.
    intros HU HV [PX OX] [PY OY].
    set (z := fun i => x i - y i).
    assert (ZP : forall i v0, prescribed conds i v0 -> z i = 0).
    { intros i v0 H. unfold z. rewrite (PX i v0 H), (PY i v0 H). ring. }
    assert (ROW : forall i, (i < n)%nat -> (forall v0, ~ prescribed conds i v0) ->
      mv n M z i / dt + mv n C z i + dt * mv n E z i = 0).
    { intros i Hi Hf. pose proof (HL _ _ _ _ _ (OX i Hi Hf)) as A. pose proof (HL _ _ _ _ _ (OY i Hi Hf)) as B.
      assert (E1 : mv n M (fun j => (x j - v j) / dt) i - mv n M (fun j => (y j - v' j) / dt) i = mv n M z i / dt).
      { unfold mv. rewrite <- sum_minus. unfold Rdiv at 3. rewrite <- sum_scal_r. apply sum_ext. intros j Hj.
        unfold z. rewrite (HV j Hj). field. lra. }
      assert (E2 : mv n C x i - mv n C y i = mv n C z i).
      { unfold mv. rewrite <- sum_minus. apply sum_ext. intros j Hj. unfold z. ring. }
      assert (E3 : mv n E (fun j => u j + dt * x j) i - mv n E (fun j => u' j + dt * y j) i = dt * mv n E z i).
      { unfold mv. rewrite <- sum_minus, <- sum_scal. apply sum_ext. intros j Hj. unfold z. rewrite (HU j Hj). ring. }
      lra. }
    assert (Q : qform n M z / dt + qform n C z + dt * qform n E z = 0).
    { unfold qform, dot, Rdiv. rewrite <- sum_scal_r, <- sum_scal, <- !sum_plus. apply sum_0. intros i Hi.
      assert (CS : (exists v0, prescribed conds i v0) \/ (forall v0, ~ prescribed conds i v0)).
      { destruct (pinned (sequence conds) i) eqn:PB; [left|right].
        - apply (pinned_prescribed n) in PB; auto.
        - intros v0 Hv. assert (pinned (sequence conds) i = true) by (apply (pinned_prescribed n); eauto). congruence. }
      destruct CS as [(v0 & H)|H].
      - rewrite (ZP i v0 H). ring.
      - pose proof (ROW i Hi H) as R0. unfold Rdiv in R0. 
        transitivity (z i * (mv n M z i * / dt + mv n C z i + dt * mv n E z i)); [ring|]. rewrite R0. ring. }
    intros i Hi. destruct (Req_dec (x i) (y i)) as [|Ne]; [assumption|]. exfalso.
    assert (0 < qform n M z).
    { apply DM; [exact ZP|]. exists i. split; [exact Hi|]. unfold z. lra. }
    assert (0 < qform n M z / dt) by (apply Rdiv_lt_0_compat; lra).
    pose proof (PC z). pose proof (PE z). assert (0 <= dt * qform n E z) by (apply Rmult_le_pos; lra). lra.
  Qed.

  Lemma governed_unique u0 v0 m u v u' v' :
    governed n (prescribed conds) law dt u0 v0 m u v -> governed n (prescribed conds) law dt u0 v0 m u' v' ->
    forall j, (j <= m)%nat -> veq n (u j) (u' j) /\ veq n (v j) (v' j).
  Proof.
    intros (U0 & V0 & G) (U0' & V0' & G') j. induction j as [|j IH]; intros Hj.
    - rewrite U0, V0, U0', V0'. split; intros i _; reflexivity.
    - destruct (IH ltac:(lia)) as [IU IV].
      destruct (G j ltac:(lia)) as [GU GV]. destruct (G' j ltac:(lia)) as [GU' GV'].
      assert (X : veq n (v (S j)) (v' (S j))) by exact (one_answer _ _ _ _ _ _ _ IU IV GV GV').
      split; [|exact X]. intros i Hi. rewrite GU, GU', (IU i Hi), (X i Hi). reflexivity.
  Qed.
End Unique.

(* two runs of the same problem with whatever solvers *)
Section TwoRuns.
  Context {V W V' W' F F' : Type}.
  Variable integrate : F -> R -> F * result (nat * vec).
  Variable integrate' : F' -> R -> F' * result (nat * vec).
  Variables b b' : body.
  Variable p : physics.
  Variables relaxations relaxations' : R -> mat.
  Variable loads : R -> vec.
  Variables forceful heated : F -> Prop.
  Variables forceful' heated' : F' -> Prop.
  Variable conds : list condition.
  Variables c c' : solver_class.
  Variable answer : method F -> vec -> vec -> vec -> R -> result (nat * vec).
  Variable answer' : method F' -> vec -> vec -> vec -> R -> result (nat * vec).
  Variables nodes nodes' : vec.
  Notation k := DynamicVelocity.
  Hypothesis HK : consistent (prescribed conds).
  Hypothesis KF : keeps_force integrate b k loads forceful.
  Hypothesis KF' : keeps_force integrate' b' k loads forceful'.
  Hypothesis KH : keeps_heat integrate b p heated.
  Hypothesis KH' : keeps_heat integrate' b' p heated'.
  Hypothesis HC : conditions b k = Ok conds.
  Hypothesis HC' : conditions b' k = Ok conds.
  Hypothesis HW : well_shaped (ph_n p) conds.
  Hypothesis RN : renews integrate b k c.
  Hypothesis RN' : renews integrate' b' k c'.
  Hypothesis HA : solves_held integrate b k p loads relaxations forceful heated conds answer.
  Hypothesis HA' : solves_held integrate' b' k p loads relaxations' forceful' heated' conds answer'.
  Hypothesis DM : definite_free (ph_n p) conds (mass p).
  Hypothesis PC : pos_semidef (ph_n p) (damping p).
  Hypothesis PE : pos_semidef (ph_n p) (stiffness p).

  Theorem dynamic_run_unique n u0 v0 out given given' d d' e e' l l' :
    fit d -> in_stock (d_mem d) given -> fit e -> in_stock (d_mem e) given' ->
    non_decreasing 0 (requested n out) -> current_time (d_sv d) = 0 -> current_time (d_sv e) = 0 ->
    equipped b k p relaxations forceful heated (m_world (inner (d_sv d))) ->
    equipped b' k p relaxations' forceful' heated' (m_world (inner (d_sv e))) ->
    0 < dt_of d -> dt_of e = dt_of d ->
    @dynamic_solve V W (method F) (b_dimension b) (b_count b) nodes (iterate integrate b k c) answer n u0 v0 out given d = (d', Ok l) ->
    @dynamic_solve V' W' (method F') (b_dimension b') (b_count b') nodes' (iterate integrate' b' k c') answer' n u0 v0 out given' e = (e', Ok l') ->
    forall j s s', nth_error l j = Some s -> nth_error l' j = Some s' ->
    view_time (look (d_mem d') s) = view_time (look (d_mem e') s') /\
    veq (ph_n p) (view_displacement (look (d_mem d') s)) (view_displacement (look (d_mem e') s')) /\
    veq (ph_n p) (view_velocity (look (d_mem d') s)) (view_velocity (look (d_mem e') s')).
  Proof.
    intros Fd Gd Fe Ge ND Td Te Ed Ee Hdt Dt Hd He j s s' Hs Hs'.
    assert (N : unknowns b k = ph_n p) by (destruct Ed as (_ & E & _); rewrite E; reflexivity).
    assert (N' : unknowns b' k = ph_n p) by (destruct Ee as (_ & E & _); rewrite E; reflexivity).
    assert (S : can_step k (dt_of d)) by (cbn; lra). assert (S' : can_step k (dt_of e)) by (cbn; lra).
    assert (HWb : well_shaped (unknowns b k) conds) by (rewrite N; exact HW).
    assert (HWb' : well_shaped (unknowns b' k) conds) by (rewrite N'; exact HW).
    destruct (dynamic_governed integrate b k p loads relaxations forceful heated conds c answer nodes KF KH HC HWb
      HK HA RN n u0 v0 out given d d' l Fd Gd ND Td Ed S Hd) as (u & v & G & LL & SH).
    destruct (dynamic_governed integrate' b' k p loads relaxations' forceful' heated' conds c' answer' nodes' KF' KH' HC' HWb'
      HK HA' RN' n u0 v0 out given' e e' l' Fe Ge ND Te Ee S' He) as (u' & v' & G' & LL' & SH').
    rewrite N in G. rewrite N', Dt in G'. 
    set (law := fun u v t x i => dynamic_law (moment k p loads relaxations (mkVectors (fun _ => 0) u v (fun _ => 0) (fun _ => 0)) (dt_of d) t)
      (fun _ => 0) x i).
    assert (A : governed (ph_n p) (prescribed conds) law (dt_of d) u0 v0 (last_step n out) u v) by exact G.
    assert (B : governed (ph_n p) (prescribed conds) law (dt_of d) u0 v0 (last_step n out) u' v') by exact G'.
    destruct (nth_error (requested n out) j) as [q|] eqn:Q.
    2:{ apply nth_error_None in Q. assert (nth_error l j <> None) as X by congruence. apply nth_error_Some in X. lia. }
    destruct (SH j q s Q Hs) as (T1 & U1 & V1). destruct (SH' j q s' Q Hs') as (T2 & U2 & V2).
    rewrite T1, T2, U1, U2, V1, V2, Dt. split; [reflexivity|].
    apply (governed_unique (ph_n p) conds HW (mass p) (damping p) (stiffness p) DM PC PE (dt_of d) Hdt loads law) with
      (u0 := u0) (v0 := v0) (m := last_step n out); auto.
    - intros u1 v1 t x i L. unfold law, dynamic_law in L. rewrite Rplus_0_r in L. exact L.
    - unfold last_step. pose proof (non_decreasing_last _ _ _ ND (nth_error_In _ _ Q)). lia.
  Qed.
End TwoRuns.
