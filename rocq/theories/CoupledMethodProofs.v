(* Coupled step solvers with their statements: what an update leaves, and the steps of a history. *)
From Coq Require Import Reals List Arith ZArith Bool String Lia Lra FunctionalExtensionality.
From Verif Require Import Common PyModel RVec DofModel DofSpec DirichletModel DirichletSpec DirichletProofs
  StatementModel StatementSpec StatementProofs StatementValueProofs StatementLawProofs StatementEnergyProofs
  RegistryModel RegistrySpec RegistryProofs DispatchProofs StateModel TimeModel TimeSpec StateLemmas CopyProofs TimeProofs RunProofs
  HistoryProofs SolveProofs UzawaProofs MarchProofs TimeTheorems CoupledTheorems CoupledTotal MethodModel MethodProofs
  ProblemModel CoupledMethodModel CoupledSpec.
Import ListNotations.
Local Open Scope list_scope.
Local Open Scope R_scope.

Section One.
  Context {F : Type}.
  Variable integrate : F -> R -> F * result (nat * vec).
  Variable b : body.
  Variable k : kind.
  Variable p : physics.
  Variable loads : R -> vec.
  Variable relaxations : R -> mat.
  Variables forceful heated : F -> Prop.
  Variable conds : list condition.
  Hypothesis KF : keeps_force integrate b k loads forceful.
  Hypothesis KH : keeps_heat integrate b p heated.
  Hypothesis HC : conditions b k = Ok conds.
  Hypothesis HW : well_shaped (unknowns b k) conds.
  Notation equipped := (equipped b k p relaxations forceful heated).
  Notation updated := (updated integrate b k p loads relaxations forceful heated conds).
  Let N := b_count b.
  Let n := (b_dimension b * b_count b)%nat.

  (* kinds that do not ask for the absement; kinds that do not ask for the time either *)
  Definition momentary : Prop := k <> QuasistaticRelaxation.
  Definition timeless : Prop := k = Temperature \/ k = Piezoelectric.

  Lemma momentary_update ru rv rt rp dt t w : momentary ->
    update integrate b k (mkVariables None (Some ru) (Some rv) (Some rt) (Some rp) (Some dt) (Some t)) w
    = update integrate b k (initial_variables (mkGiven ru ru rv rt rp dt t)) w.
  Proof. intros M. unfold momentary in M. destruct k; try reflexivity. contradiction. Qed.

  Lemma timeless_update ru rv rt rp dt w : timeless ->
    update integrate b k (mkVariables None (Some ru) (Some rv) (Some rt) (Some rp) (Some dt) None) w
    = update integrate b k (initial_variables (mkGiven ru ru rv rt rp dt 0)) w.
  Proof. intros [M|M]; destruct k; try discriminate; reflexivity. Qed.

  Lemma told_is var i w1 x w2 l r : var (m_world i) = (w1, Ok x) -> update integrate b k x w1 = (w2, Ok (l, r)) ->
    told integrate b k var i = Ok (mkMethod w2 l r).
  Proof. intros H U. unfold told, mbind. rewrite H, U. reflexivity. Qed.

  Lemma renew_updated i u v y dt t : momentary -> equipped (m_world i) -> can_step k dt ->
    exists i', renew integrate b k i u v y dt t = Ok i' /\ updated (mkVectors u u v y y) dt t i'.
  Proof.
    intros M E Hdt. unfold renew. cbv zeta. fold N. fold n.
    set (w := m_world i) in *.
    assert (HO : ev (mbind (new_v n u) (fun ru => mbind (new_v n v) (fun rv => mbind (new_v N y) (fun ry =>
          ret (mkVariables None (Some ru) (Some rv) (Some ry) (Some ry) (Some dt) (Some t)))))) w
          (fun w' var => exists g, handed b (mkVectors u u v y y) dt t w w' g /\
             forall w0, update integrate b k var w0 = update integrate b k (initial_variables g) w0)).
    { apply ev_bind, ev_new_v. intros w1 r1 E1 S1 _ V1.
      apply ev_bind, ev_new_v. intros w2 r2 E2 S2 _ V2.
      apply ev_bind, ev_new_v. intros w3 r3 E3 S3 _ V3.
      apply ev_ret. exists (mkGiven r1 r1 r2 r3 r3 dt t). split; [|intros w0; apply momentary_update; exact M].
      assert (X13 := hext_trans _ _ _ E2 E3). assert (X03 := hext_trans _ _ _ E1 X13).
      unfold handed. cbn [g_dt g_time g_b g_u g_v g_t g_p vec_b vec_u vec_v vec_t vec_p].
      split; [exact X03|]. split; [exact (same_trans _ _ _ S1 (same_trans _ _ _ S2 S3))|].
      split; [reflexivity|]. split; [reflexivity|].
      split; [exact (vval_ext _ _ _ _ _ X13 V1)|]. split; [exact (vval_ext _ _ _ _ _ X13 V1)|].
      split; [exact (vval_ext _ _ _ _ _ E3 V2)|]. split; exact V3. }
    destruct HO as (w1 & var & G & g & H & UE).
    destruct (update_updated integrate b k p loads relaxations forceful heated KF KH conds HC HW _ _ _ _ _ _ E Hdt H) as (w2 & l & r & U & P).
    exists (mkMethod w2 l r). split; [|exact P]. apply (told_is _ _ _ _ _ _ _ G). rewrite UE. exact U.
  Qed.

  Lemma second_renew_updated j u v th ph dt : timeless -> equipped (m_world j) -> can_step k dt ->
    exists j', second_renew integrate b k j u v th ph dt = Ok j' /\ updated (mkVectors u u v th ph) dt 0 j'.
  Proof.
    intros M E Hdt. unfold second_renew. cbv zeta. fold N. fold n.
    set (w := m_world j) in *.
    assert (HO : ev (mbind (new_v n u) (fun ru => mbind (new_v n v) (fun rv => mbind (new_v N th) (fun rt => mbind (new_v N ph) (fun rp =>
          ret (mkVariables None (Some ru) (Some rv) (Some rt) (Some rp) (Some dt) None)))))) w
          (fun w' var => exists g, handed b (mkVectors u u v th ph) dt 0 w w' g /\
             forall w0, update integrate b k var w0 = update integrate b k (initial_variables g) w0)).
    { apply ev_bind, ev_new_v. intros w1 r1 E1 S1 _ V1.
      apply ev_bind, ev_new_v. intros w2 r2 E2 S2 _ V2.
      apply ev_bind, ev_new_v. intros w3 r3 E3 S3 _ V3.
      apply ev_bind, ev_new_v. intros w4 r4 E4 S4 _ V4.
      apply ev_ret. exists (mkGiven r1 r1 r2 r3 r4 dt 0). split; [|intros w0; apply timeless_update; exact M].
      assert (X24 := hext_trans _ _ _ E3 E4). assert (X14 := hext_trans _ _ _ E2 X24). assert (X04 := hext_trans _ _ _ E1 X14).
      unfold handed. cbn [g_dt g_time g_b g_u g_v g_t g_p vec_b vec_u vec_v vec_t vec_p].
      split; [exact X04|]. split; [exact (same_trans _ _ _ S1 (same_trans _ _ _ S2 (same_trans _ _ _ S3 S4)))|].
      split; [reflexivity|]. split; [reflexivity|].
      split; [exact (vval_ext _ _ _ _ _ X14 V1)|]. split; [exact (vval_ext _ _ _ _ _ X14 V1)|].
      split; [exact (vval_ext _ _ _ _ _ X24 V2)|]. split; [exact (vval_ext _ _ _ _ _ E4 V3)|exact V4]. }
    destruct HO as (w1 & var & G & g & H & UE).
    destruct (update_updated integrate b k p loads relaxations forceful heated KF KH conds HC HW _ _ _ _ _ _ E Hdt H) as (w2 & l & r & U & P).
    exists (mkMethod w2 l r). split; [|exact P]. apply (told_is _ _ _ _ _ _ _ G). rewrite UE. exact U.
  Qed.
End One.

(* two solvers *)
Section Two.
  Context {V W F : Type}.
  Variable integrate : F -> R -> F * result (nat * vec).
  Variable b : body.
  Variables k k2 : kind.
  Variables p p2 : physics.
  Variables loads loads2 : R -> vec.
  Variables relaxations relaxations2 : R -> mat.
  Variables forceful heated forceful2 heated2 : F -> Prop.
  Variables conds conds2 : list condition.
  Variables answer second_answer : method F -> vec -> vec -> vec -> R -> result (nat * vec).
  Variable thermal : bool.
  Notation size := (b_dimension b * b_count b)%nat.
  Notation N := (b_count b).
  Notation equipped := (equipped b k p relaxations forceful heated).
  Notation equipped2 := (MethodProofs.equipped b k2 p2 relaxations2 forceful2 heated2).
  Notation updated := (updated integrate b k p loads relaxations forceful heated conds).
  Notation updated2 := (MethodProofs.updated integrate b k2 p2 loads2 relaxations2 forceful2 heated2 conds2).
  Notation renew := (renew integrate b k).
  Notation second_renew := (second_renew integrate b k2).
  Notation coupled_history := (coupled_history size N renew second_renew answer second_answer).
  Notation alternation := (alternation size N renew second_renew answer second_answer).
  Hypothesis KF : keeps_force integrate b k loads forceful.
  Hypothesis KH : keeps_heat integrate b p heated.
  Hypothesis HC : conditions b k = Ok conds.
  Hypothesis HW : well_shaped (unknowns b k) conds.
  Hypothesis KF2 : keeps_force integrate b k2 loads2 forceful2.
  Hypothesis KH2 : keeps_heat integrate b p2 heated2.
  Hypothesis HC2 : conditions b k2 = Ok conds2.
  Hypothesis HW2 : well_shaped (unknowns b k2) conds2.
  Hypothesis MO : momentary k.
  Hypothesis TL : timeless k2.

  (* what is known of the answers: the solver, its old velocity and displacement, its time step *)
  Variables accepts accepts2 : method F -> vec -> vec -> R -> vec -> Prop.
  Hypothesis HA : forall x dt t i g v u len y, updated x dt t i -> answer i g v u dt = Ok (len, y) -> accepts i v u dt y.
  Hypothesis HA2 : forall x dt t i g v u len y, updated2 x dt t i -> second_answer i g v u dt = Ok (len, y) -> accepts2 i v u dt y.

  Definition first_by (dt t : R) (u v y x : vec) : Prop :=
    exists i, updated (mkVectors u u v y y) dt t i /\ accepts i v u dt x.
  (* the second statement is told the second field before the step as temperature or as potential *)
  Definition second_by (dt : R) (u x e y : vec) : Prop :=
    exists j th ph old_v old_u, (if thermal then th else ph) = e /\
      updated2 (mkVectors u u x th ph) dt 0 j /\ accepts2 j old_v old_u dt y.

  Lemma alternation_turns a dt t n i j x y : alternation a dt dt t n i j x y -> can_step k dt -> can_step k2 dt ->
    equipped (m_world (one a)) -> equipped2 (m_world (two a)) ->
    (if thermal then one_t a else one_p a) = guess_y a ->
    (forall c, (c <= n)%nat -> equipped (m_world (i c)) /\ equipped2 (m_world (j c))) /\
    turns (first_by dt) (second_by dt) dt t (one_u a) (one_v a) (guess_y a) n x y.
  Proof.
    intros (I0 & J0 & X0 & Y0 & A) S1 S2 E1 E2 EY.
    assert (EE : forall c, (c <= n)%nat -> equipped (m_world (i c)) /\ equipped2 (m_world (j c))).
    { induction c as [|c IH]; intros L; [rewrite I0, J0; auto|].
      destruct (IH ltac:(lia)) as [Q1 Q2]. destruct (A c ltac:(lia)) as (R1 & _ & R2 & _).
      destruct (renew_updated integrate b k p loads relaxations forceful heated conds KF KH HC HW (i c) (one_u a) (one_v a) (y c) dt t MO Q1 S1) as (i' & B1 & B2).
      destruct (second_renew_updated integrate b k2 p2 loads2 relaxations2 forceful2 heated2 conds2 KF2 KH2 HC2 HW2 (j c)
        (fun c0 => one_u a c0 + dt * x (S c) c0) (x (S c)) (one_t a) (one_p a) dt TL Q2 S2) as (j' & B3 & B4).
      rewrite B1 in R1. rewrite B3 in R2. injection R1 as <-. injection R2 as <-. split; [apply B2|apply B4]. }
    split; [exact EE|]. split; [exact Y0|]. intros c L.
    destruct (EE c ltac:(lia)) as [Q1 Q2]. destruct (A c L) as (R1 & R2 & R3 & R4).
    destruct (renew_updated integrate b k p loads relaxations forceful heated conds KF KH HC HW (i c) (one_u a) (one_v a) (y c) dt t MO Q1 S1) as (i' & B1 & B2).
    destruct (second_renew_updated integrate b k2 p2 loads2 relaxations2 forceful2 heated2 conds2 KF2 KH2 HC2 HW2 (j c)
        (fun c0 => one_u a c0 + dt * x (S c) c0) (x (S c)) (one_t a) (one_p a) dt TL Q2 S2) as (j' & B3 & B4).
    rewrite B1 in R1. rewrite B3 in R3. injection R1 as R1. injection R3 as R3. subst i' j'.
    split.
    - exists (i (S c)). split; [exact B2|]. exact (HA _ _ _ _ _ _ _ _ _ B2 R2).
    - exists (j (S c)), (one_t a), (one_p a), (two_v a), (two_u a). split; [exact EY|]. split; [exact B4|].
      exact (HA2 _ _ _ _ _ _ _ _ _ B4 R4).
  Qed.

  Lemma history_motion dt n h : coupled_history dt dt 0 0 n h -> can_step k dt -> can_step k2 dt ->
    equipped (m_world (one (h O))) -> equipped2 (m_world (two (h O))) ->
    (if thermal then one_t (h O) else one_p (h O)) = guess_y (h O) -> shift (h O) = one_u (h O) ->
    coupled_motion size N (first_by dt) (second_by dt) dt (one_u (h O)) (one_v (h O)) (guess_y (h O)) n
      (fun c => one_u (h c)) (fun c => one_v (h c)) (fun c => guess_y (h c)) /\
    forall c, (c <= n)%nat -> shift (h c) = one_u (h c) /\ (0 < c -> guess_x (h c) = one_v (h c))%nat.
  Proof.
    intros H S1 S2 E1 E2 EY ES.
    assert (INV : forall c, (c <= n)%nat -> equipped (m_world (one (h c))) /\ equipped2 (m_world (two (h c))) /\
      (if thermal then one_t (h c) else one_p (h c)) = guess_y (h c) /\ shift (h c) = one_u (h c) /\ (0 < c -> guess_x (h c) = one_v (h c))%nat).
    { induction c as [|c IH]; intros L; [split; [exact E1|]; split; [exact E2|]; split; [exact EY|]; split; [exact ES|]; lia|].
      destruct (IH ltac:(lia)) as (Q1 & Q2 & Q3 & Q4 & _).
      destruct (H c ltac:(lia)) as (r & i & j & x & y & AL & _ & ->).
      destruct (alternation_turns _ _ _ _ _ _ _ _ AL S1 S2 Q1 Q2 Q3) as (EE & _). destruct (EE r (le_n _)) as [R1 R2].
      cbn [one two one_t one_p guess_y shift one_u guess_x one_v]. split; [exact R1|]. split; [exact R2|].
      split; [destruct thermal; reflexivity|]. split; [|reflexivity].
      apply functional_extensionality. intros a. rewrite Q4. unfold behind. destruct c; ring. }
    split; [|intros c L; destruct (INV c L) as (_ & _ & _ & Q); exact Q].
    split; [reflexivity|]. split; [reflexivity|]. split; [reflexivity|]. intros c L.
    destruct (INV c ltac:(lia)) as (Q1 & Q2 & Q3 & Q4 & _).
    destruct (H c L) as (r & i & j & x & y & AL & ST & ->). cbn [one_u one_v guess_y].
    split; [reflexivity|]. exists r, x, y.
    destruct (alternation_turns _ _ _ _ _ _ _ _ AL S1 S2 Q1 Q2 Q3) as (_ & TU).
    replace (INR (S c) * dt) with (instant 0 dt (S c)) by (unfold instant; ring).
    split; [exact TU|]. split; [exact ST|]. split; reflexivity.
  Qed.

  (* a whole run *)
  Variable cls : solver_class.
  Variable nodes : vec.
  Notation iterate := (MethodModel.iterate integrate b k cls).
  Notation second_iterate := (MethodModel.iterate integrate b k2 cls).
  Notation coupled_solve := (@coupled_solve V W (method F) (method F) (b_dimension b) (b_count b) nodes thermal iterate second_iterate
    renew second_renew answer second_answer).

  Definition prompt (k0 : kind) : Prop := renews integrate b k0 cls \/ (forall g, iterate_variables cls g = None).

  Lemma coupled_governed n u0 v0 e0 out m s1 s2 w' l : apart_solvers m s1 s2 -> non_decreasing 0 (requested n out) ->
    time_step s1 = time_step s2 -> current_time s1 = 0 -> can_step k (time_step s1) -> can_step k2 (time_step s1) ->
    equipped (m_world (inner s1)) -> equipped2 (m_world (inner s2)) -> prompt k -> prompt k2 ->
    coupled_solve n u0 v0 e0 out m s1 s2 = Some (w', Ok l) ->
    exists u v e, coupled_motion size N (first_by (time_step s1)) (second_by (time_step s1)) (time_step s1) u0 v0 e0 (last_step n out) u v e /\
      List.length l = List.length (requested n out) /\
      forall c q (s : state W), nth_error (requested n out) c = Some q -> nth_error l c = Some s ->
        shows_coupled (time_step s1) u v e (Z.to_nat q) (look (p_mem w') s) (map (StateModel.load (p_mem w')) (extra_refs (extra s))).
  Proof.
    intros AP ND TS CT S1 S2 E1 E2 P1 P2 H.
    destruct (coupled_answers _ _ _ _ _ _ _ _ _ _ _ _ _ _ _ _ _ _ _ _ AP ND H) as (i & j & h & I1 & I2 & H0 & HH & LL & SH).
    rewrite <- TS, CT in HH. rewrite CT in SH.
    assert (EI : equipped (m_world i)).
    { destruct P1 as [P1|P1].
      - destruct (iterate_updated integrate b k p loads relaxations forceful heated KF KH conds HC HW cls (inner s1)
          (first_vectors thermal m s1 u0 v0 e0) (time_step s1) (current_time s1) P1 E1 S1) as (i' & Q1 & Q2).
        rewrite Q1 in I1. injection I1 as <-. apply Q2.
      - rewrite (iterate_idle integrate b k cls _ _ _ _ P1) in I1. injection I1 as <-. exact E1. }
    assert (EJ : equipped2 (m_world j)).
    { rewrite <- TS in I2. destruct P2 as [P2|P2].
      - destruct (iterate_updated integrate b k2 p2 loads2 relaxations2 forceful2 heated2 KF2 KH2 conds2 HC2 HW2 cls (inner s2)
          (first_vectors thermal m s2 u0 v0 e0) (time_step s1) (current_time s2) P2 E2 S2) as (i' & Q1 & Q2).
        rewrite Q1 in I2. injection I2 as <-. apply Q2.
      - rewrite (iterate_idle integrate b k2 cls _ _ _ _ P2) in I2. injection I2 as <-. exact E2. }
    destruct (history_motion (time_step s1) (last_step n out) h HH S1 S2) as (CM & SS); rewrite ?H0; try assumption.
    { cbn [first_fields one_t one_p guess_y]. destruct thermal; reflexivity. }
    { reflexivity. }
    rewrite H0 in CM. cbn [first_fields one_u one_v guess_y] in CM.
    exists (fun c => one_u (h c)), (fun c => one_v (h c)), (fun c => guess_y (h c)).
    split; [|split; [exact LL|]].
    { destruct CM as (C1 & C2 & C3 & CM). unfold first_fields in C1, C2, C3. cbn [one_u one_v guess_y] in C1, C2, C3.
      split; [rewrite H0; reflexivity|]. split; [rewrite H0; reflexivity|]. split; [rewrite H0; reflexivity|]. exact CM. }
    intros c q s Hq Hs. destruct (SH c q s Hq Hs) as (V1 & _).
    assert (LQ : (Z.to_nat q <= last_step n out)%nat).
    { unfold last_step. pose proof (non_decreasing_last _ _ _ ND (nth_error_In _ _ Hq)). lia. }
    destruct (SS (Z.to_nat q) LQ) as (S3 & _).
    unfold coupled_view in V1. unfold shows_coupled. injection V1 as V1 V2. rewrite V1, V2.
    destruct (Z.to_nat q) as [|c']; cbn [view_time view_displacement view_velocity]; rewrite S3.
    - split; [cbn [INR]; ring|]. split; [reflexivity|split; reflexivity].
    - split; [unfold instant; ring|]. split; [reflexivity|split; reflexivity].
  Qed.
End Two.
