(* Two linear equations that are solved in turn. *)
From Coq Require Import Reals List Arith Bool Lia Lra Classical.
From Verif Require Import RVec DirichletSpec LinAlg FemSpec FemAssemblyProofs.
Local Open Scope R_scope.

Definition minus (x y : vec) : vec := fun i => x i - y i.

Lemma bilinear_minus_r n m A z x y : bilinear n m A z (minus x y) = bilinear n m A z x - bilinear n m A z y.
Proof.
  unfold bilinear, minus. rewrite <- sum_minus. apply sum_ext. intros i _. rewrite <- sum_minus. apply sum_ext. intros j _. ring.
Qed.
Lemma bilinear_minus_l n m A z x y : bilinear n m A (minus x y) z = bilinear n m A x z - bilinear n m A y z.
Proof.
  unfold bilinear, minus. rewrite <- sum_minus. apply sum_ext. intros i _. rewrite <- sum_minus. apply sum_ext. intros j _. ring.
Qed.
Lemma bilinear_q n A z : bilinear n n A z z = qform n A z.
Proof. rewrite bilinear_dot. reflexivity. Qed.

(* a linear equation on the free unknowns, with values on the others *)
Definition weakly (n : nat) (A : mat) (given : nat -> R -> Prop) (F : vec -> R) (x : vec) : Prop :=
  (forall i v, given i v -> x i = v) /\ forall z, (forall i v, given i v -> z i = 0) -> bilinear n n A z x = F z.

Definition free_definite (n : nat) (A : mat) (given : nat -> R -> Prop) : Prop :=
  forall x, (forall d v, given d v -> x d = 0) -> (exists i, (i < n)%nat /\ x i <> 0) -> 0 < qform n A x.

Lemma choose_flags (n : nat) (D : nat -> Prop) : exists fix_ : nat -> bool, forall i, (i < n)%nat -> (fix_ i = true <-> D i).
Proof.
  induction n as [|n (f & H)]; [exists (fun _ => true); lia|]. destruct (classic (D n)) as [X|X].
  - exists (fun i => if (i =? n)%nat then true else f i). intros i Hi. destruct (Nat.eqb_spec i n); [subst; tauto|]. apply H. lia.
  - exists (fun i => if (i =? n)%nat then false else f i). intros i Hi. destruct (Nat.eqb_spec i n); [subst; split; [discriminate|contradiction]|]. apply H. lia.
Qed.
Lemma choose_values (n : nat) (given : nat -> R -> Prop) : exists gv : vec, forall i, (i < n)%nat -> (exists v, given i v) -> given i (gv i).
Proof.
  induction n as [|n (f & H)]; [exists (fun _ => 0); lia|]. destruct (classic (exists v, given n v)) as [[v X]|X].
  - exists (fun i => if (i =? n)%nat then v else f i). intros i Hi E. destruct (Nat.eqb_spec i n); [subst; exact X|]. apply H; [lia|exact E].
  - exists f. intros i Hi E. destruct (Nat.eq_dec i n); [subst; contradiction|]. apply H; [lia|exact E].
Qed.

(* such an equation has a solution *)
Lemma weakly_solvable n A (given : nat -> R -> Prop) (r : vec) : (forall i v, given i v -> (i < n)%nat) -> (forall i v w, given i v -> given i w -> v = w) ->
  free_definite n A given -> exists x, weakly n A given (fun z => dot n z r) x.
Proof.
  intros RG FN FD. destruct (choose_flags n (fun i => exists v, given i v)) as (fx & HF). destruct (choose_values n given) as (gv & HG).
  set (M := fun i j => if fx i then delta i j else if fx j then 0 else A i j).
  set (rr := fun i => if fx i then gv i else r i - sum n (fun j => if fx j then A i j * gv j else 0)).
  assert (PM : pos_def n M).
  { intros x (i & Hi & X). set (y := fun i => if fx i then 0 else x i).
    assert (E : qform n M x = sum n (fun i => if fx i then x i * x i else 0) + qform n A y).
    { unfold qform, dot, mv. rewrite <- sum_plus. apply sum_ext. intros a Ha. unfold M, y. destruct (fx a).
      - rewrite sum_delta_l by exact Ha. ring.
      - rewrite (sum_ext n (fun j => (if fx j then 0 else A a j) * x j) (fun j => A a j * (if fx j then 0 else x j))); [ring|].
        intros j _. destruct (fx j); ring. }
    assert (NN : forall a, (a < n)%nat -> 0 <= (if fx a then x a * x a else 0)) by (intros a _; destruct (fx a); [nra|lra]).
    assert (S0 := sum_nonneg n _ NN).
    rewrite E. destruct (classic (exists j, (j < n)%nat /\ y j <> 0)) as [Y|Y].
    - assert (0 < qform n A y); [|lra]. apply FD; [|exact Y]. intros d v G. unfold y.
      assert (X1 : fx d = true) by (apply HF; eauto). rewrite X1. reflexivity.
    - assert (Q : qform n A y = 0).
      { unfold qform, dot. apply sum_0. intros a Ha. destruct (Req_dec (y a) 0) as [->|N]; [ring|]. exfalso. apply Y. eauto. }
      rewrite Q, Rplus_0_r.
      assert (FI : fx i = true). { destruct (fx i) eqn:F; [reflexivity|]. exfalso. apply Y. exists i. split; [exact Hi|]. unfold y. rewrite F. exact X. }
      destruct (Req_dec (sum n (fun i => if fx i then x i * x i else 0)) 0) as [Z|Z]; [|lra]. exfalso. apply X.
      assert (ZZ := sum_nonneg_0 n _ NN Z i Hi). cbv beta in ZZ. rewrite FI in ZZ. nra. }
  destruct (pos_def_solvable n M rr PM) as (x & SX). exists x.
  assert (XF : forall i, (i < n)%nat -> fx i = true -> x i = gv i).
  { intros i Hi F. assert (E := SX i Hi). unfold M, rr in E. rewrite F in E. unfold mv in E. rewrite sum_delta_l in E by exact Hi. exact E. }
  split.
  - intros i v G. assert (Hi := RG i v G). assert (F : fx i = true) by (apply HF; eauto). rewrite (XF i Hi F). apply (FN i); [apply HG; eauto|exact G].
  - intros z VZ. rewrite bilinear_dot. unfold dot. apply sum_ext. intros i Hi. destruct (fx i) eqn:F.
    + apply HF in F; [|exact Hi]. destruct F as (v & G). rewrite (VZ i v G). ring.
    + f_equal. assert (E := SX i Hi). unfold M, rr in E. rewrite F in E.
      assert (SP : mv n A x i = mv n (fun i j => if fx j then 0 else A i j) x i + sum n (fun j => if fx j then A i j * gv j else 0)).
      { unfold mv. rewrite <- sum_plus. apply sum_ext. intros j Hj. destruct (fx j) eqn:FJ; [rewrite (XF j Hj FJ)|]; ring. }
      rewrite SP. unfold mv. lra.
Qed.

Lemma sum_join n k f : sum (n + k) f = sum n f + sum k (fun j => f (n + j)%nat).
Proof. induction k as [|l IH]; [rewrite Nat.add_0_r; cbn; ring|]. rewrite Nat.add_succ_r. cbn. rewrite IH. ring. Qed.

(* two equations *)
Section Pair.
  Variables (n k : nat) (A B T : mat) (gx gy : nat -> R -> Prop) (s1 s2 : R).
  Definition first_eq (F : vec -> R) (y x : vec) : Prop := weakly n A gx (fun z => F z + s1 * bilinear k n T y z) x.
  Definition second_eq (H : vec -> R) (x y : vec) : Prop := weakly k B gy (fun z => H z + s2 * bilinear k n T z x) y.

  Lemma first_gap F y x y' x' : first_eq F y x -> first_eq F y' x' ->
    qform n A (minus x x') = s1 * bilinear k n T (minus y y') (minus x x').
  Proof.
    intros (G & E) (G' & E'). rewrite <- bilinear_q, bilinear_minus_r.
    assert (Z : forall i v, gx i v -> minus x x' i = 0) by (intros i v X; unfold minus; rewrite (G i v X), (G' i v X); ring).
    rewrite (E _ Z), (E' _ Z), bilinear_minus_l. ring.
  Qed.
  Lemma second_gap H x y x' y' : second_eq H x y -> second_eq H x' y' ->
    qform k B (minus y y') = s2 * bilinear k n T (minus y y') (minus x x').
  Proof.
    intros (G & E) (G' & E'). rewrite <- bilinear_q, bilinear_minus_r.
    assert (Z : forall i v, gy i v -> minus y y' i = 0) by (intros i v X; unfold minus; rewrite (G i v X), (G' i v X); ring).
    rewrite (E _ Z), (E' _ Z), bilinear_minus_r. ring.
  Qed.

  (* a coupling that is dominated by both *)
  Section Dominated.
    Variable c : R.
    Hypothesis CS : forall y z, (bilinear k n T y z) ^ 2 <= c * qform n A z * qform k B y.
    Hypothesis PA : pos_semidef n A.
    Hypothesis PB : pos_semidef k B.

    Lemma first_bound F y x y' x' : 0 <= c -> first_eq F y x -> first_eq F y' x' -> qform n A (minus x x') <= s1 ^ 2 * c * qform k B (minus y y').
    Proof.
      intros C0 H1 H2. assert (E := first_gap F y x y' x' H1 H2). assert (Q := CS (minus y y') (minus x x')).
      assert (P := PA (minus x x')). assert (P' := PB (minus y y')).
      set (t := bilinear _ _ _ _ _) in *. set (a := qform n A _) in *. set (b := qform k B _) in *.
      assert (D : a * a <= s1 ^ 2 * c * b * a) by (rewrite E at 1 2; nra).
      destruct P as [P|P]; [apply (Rmult_le_reg_r a); lra|]. rewrite <- P. apply Rmult_le_pos; [apply Rmult_le_pos; [nra|exact C0]|exact P'].
    Qed.
    Lemma second_bound H x y x' y' : 0 <= c -> second_eq H x y -> second_eq H x' y' -> qform k B (minus y y') <= s2 ^ 2 * c * qform n A (minus x x').
    Proof.
      intros C0 H1 H2. assert (E := second_gap H x y x' y' H1 H2). assert (Q := CS (minus y y') (minus x x')).
      assert (P := PA (minus x x')). assert (P' := PB (minus y y')).
      set (t := bilinear _ _ _ _ _) in *. set (a := qform n A _) in *. set (b := qform k B _) in *.
      assert (D : b * b <= s2 ^ 2 * c * a * b) by (rewrite E at 1 2; nra).
      destruct P' as [P'|P']; [apply (Rmult_le_reg_r b); lra|]. rewrite <- P'. apply Rmult_le_pos; [apply Rmult_le_pos; [nra|exact C0]|exact P].
    Qed.
  End Dominated.

  (* passes from y 0 *)
  Lemma passes_settle c F H xs ys (x y : nat -> vec) r :
    (forall y z, (bilinear k n T y z) ^ 2 <= c * qform n A z * qform k B y) -> pos_semidef n A -> pos_semidef k B -> 0 <= c ->
    first_eq F ys xs -> second_eq H xs ys ->
    (forall i, (i < r)%nat -> first_eq F (y i) (x (S i)) /\ second_eq H (x (S i)) (y (S i))) ->
    let q := s1 ^ 2 * c * (s2 ^ 2 * c) in
    forall i, (i <= r)%nat -> qform k B (minus (y i) ys) <= q ^ i * qform k B (minus (y O) ys) /\
      ((i < r)%nat -> qform n A (minus (x (S i)) xs) <= s1 ^ 2 * c * (q ^ i * qform k B (minus (y O) ys))).
  Proof.
    intros CS PA PB C0 E1 E2 E q.
    assert (Q1 : 0 <= s1 ^ 2 * c) by (apply Rmult_le_pos; [nra|exact C0]).
    assert (Q2 : 0 <= s2 ^ 2 * c) by (apply Rmult_le_pos; [nra|exact C0]).
    assert (ST : forall i, (i < r)%nat -> qform n A (minus (x (S i)) xs) <= s1 ^ 2 * c * qform k B (minus (y i) ys) /\
      qform k B (minus (y (S i)) ys) <= q * qform k B (minus (y i) ys)).
    { intros i L. destruct (E i L) as (Fi & Si). assert (B1 := first_bound c CS PA PB F _ _ _ _ C0 Fi E1). assert (B2 := second_bound c CS PA PB H _ _ _ _ C0 Si E2).
      split; [exact B1|]. eapply Rle_trans; [exact B2|]. replace (q * qform k B (minus (y i) ys)) with (s2 ^ 2 * c * (s1 ^ 2 * c * qform k B (minus (y i) ys))) by (unfold q; ring).
      apply Rmult_le_compat_l; [exact Q2|exact B1]. }
    assert (Q : 0 <= q) by (apply Rmult_le_pos; assumption).
    assert (IN : forall i, (i <= r)%nat -> qform k B (minus (y i) ys) <= q ^ i * qform k B (minus (y O) ys)).
    { induction i as [|i IH]; intros L; [cbn; lra|]. destruct (ST i ltac:(lia)) as (_ & B2). eapply Rle_trans; [exact B2|].
      cbn [pow]. rewrite Rmult_assoc. apply Rmult_le_compat_l; [exact Q|apply IH; lia]. }
    intros i L. split; [apply IN; exact L|]. intros L'. destruct (ST i L') as (B1 & _). eapply Rle_trans; [exact B1|].
    apply Rmult_le_compat_l; [exact Q1|apply IN; exact L].
  Qed.

  (* both equations at once *)
  Section Both.
    Variables al be : R.
    Hypothesis AL : 0 < al.
    Hypothesis BE : 0 < be.
    Hypothesis OP : al * s1 + be * s2 = 0.
    Hypothesis DA : free_definite n A gx.
    Hypothesis DB : free_definite k B gy.

    Lemma free_zero m M gv z : free_definite m M gv -> (forall i v, gv i v -> z i = 0) -> qform m M z <= 0 -> forall i, (i < m)%nat -> z i = 0.
    Proof.
      intros D V Q i Hi. destruct (Req_dec (z i) 0) as [|X]; [assumption|]. exfalso. assert (0 < qform m M z); [|lra]. apply D; eauto.
    Qed.
    Lemma free_nonneg m M gv z : free_definite m M gv -> (forall i v, gv i v -> z i = 0) -> 0 <= qform m M z.
    Proof.
      intros D V. destruct (classic (exists i, (i < m)%nat /\ z i <> 0)) as [X|X]; [left; apply D; auto|]. right. symmetry.
      unfold qform, dot. apply sum_0. intros i Hi. destruct (Req_dec (z i) 0) as [->|N]; [ring|]. exfalso. apply X. eauto.
    Qed.

    Lemma both_unique F H x y x' y' : first_eq F y x -> second_eq H x y -> first_eq F y' x' -> second_eq H x' y' ->
      veq n x x' /\ veq k y y'.
    Proof.
      intros H1 H2 H1' H2'. assert (E1 := first_gap F y x y' x' H1 H1'). assert (E2 := second_gap H x y x' y' H2 H2').
      assert (ZX : forall i v, gx i v -> minus x x' i = 0) by (intros i v X; unfold minus; rewrite (proj1 H1 i v X), (proj1 H1' i v X); ring).
      assert (ZY : forall i v, gy i v -> minus y y' i = 0) by (intros i v X; unfold minus; rewrite (proj1 H2 i v X), (proj1 H2' i v X); ring).
      assert (N1 := free_nonneg n A gx _ DA ZX). assert (N2 := free_nonneg k B gy _ DB ZY).
      set (t := bilinear _ _ _ _ _) in *.
      assert (SZ : al * qform n A (minus x x') + be * qform k B (minus y y') = 0) by (rewrite E1, E2; transitivity ((al * s1 + be * s2) * t); [ring|rewrite OP; ring]).
      assert (P1 := Rmult_le_pos _ _ (Rlt_le _ _ AL) N1). assert (P2 := Rmult_le_pos _ _ (Rlt_le _ _ BE) N2).
      split; intros i Hi.
      - assert (Z := free_zero n A gx _ DA ZX ltac:(apply (Rmult_le_reg_l al); lra) i Hi). unfold minus in Z. lra.
      - assert (Z := free_zero k B gy _ DB ZY ltac:(apply (Rmult_le_reg_l be); lra) i Hi). unfold minus in Z. lra.
    Qed.

    Definition block : mat := fun i j =>
      if (i <? n)%nat then if (j <? n)%nat then al * A i j else - (al * s1) * T (j - n)%nat i
      else if (j <? n)%nat then - (be * s2) * T (i - n)%nat j else be * B (i - n)%nat (j - n)%nat.

    Lemma block_form z w : bilinear (n + k) (n + k) block z w =
      al * (bilinear n n A z w - s1 * bilinear k n T (fun j => w (n + j)%nat) z)
      + be * (bilinear k k B (fun j => z (n + j)%nat) (fun j => w (n + j)%nat) - s2 * bilinear k n T (fun j => z (n + j)%nat) w).
    Proof.
      unfold bilinear at 1. rewrite sum_join.
      assert (S1 : sum n (fun a => sum (n + k) (fun b => z a * block a b * w b)) = al * (bilinear n n A z w - s1 * bilinear k n T (fun j => w (n + j)%nat) z)).
      { unfold bilinear. rewrite (sum_swap k n). rewrite Rmult_minus_distr_l, <- Rmult_assoc, <- !sum_scal, <- sum_minus. apply sum_ext. intros a Ha.
        rewrite sum_join, <- !sum_scal. unfold block at 1 2. rewrite (proj2 (Nat.ltb_lt a n) Ha). unfold Rminus. f_equal.
        - apply sum_ext. intros b Hb. rewrite (proj2 (Nat.ltb_lt b n) Hb). ring.
        - rewrite <- sum_opp. apply sum_ext. intros b Hb. rewrite (proj2 (Nat.ltb_ge (n + b) n)) by lia. replace (n + b - n)%nat with b by lia. ring. }
      assert (S2 : sum k (fun j => sum (n + k) (fun b => z (n + j)%nat * block (n + j)%nat b * w b)) =
        be * (bilinear k k B (fun j => z (n + j)%nat) (fun j => w (n + j)%nat) - s2 * bilinear k n T (fun j => z (n + j)%nat) w)).
      { unfold bilinear. rewrite Rmult_minus_distr_l, <- Rmult_assoc, <- !sum_scal, <- sum_minus. apply sum_ext. intros a Ha.
        rewrite sum_join, <- !sum_scal, Rplus_comm. unfold block at 1 2. rewrite (proj2 (Nat.ltb_ge (n + a) n)) by lia. unfold Rminus. f_equal.
        - apply sum_ext. intros b Hb. rewrite (proj2 (Nat.ltb_ge (n + b) n)) by lia. replace (n + b - n)%nat with b by lia. replace (n + a - n)%nat with a by lia. ring.
        - rewrite <- sum_opp. apply sum_ext. intros b Hb. rewrite (proj2 (Nat.ltb_lt b n) Hb). replace (n + a - n)%nat with a by lia. ring. }
      rewrite S1, S2. reflexivity.
    Qed.

    Hypothesis RX : forall i v, gx i v -> (i < n)%nat.
    Hypothesis RY : forall i v, gy i v -> (i < k)%nat.
    Hypothesis UX : forall i v w, gx i v -> gx i w -> v = w.
    Hypothesis UY : forall i v w, gy i v -> gy i w -> v = w.

    Lemma both_solvable f h : exists x y, first_eq (fun z => dot n z f) y x /\ second_eq (fun z => dot k z h) x y.
    Proof.
      set (gw := fun i v => ((i < n)%nat /\ gx i v) \/ ((n <= i)%nat /\ gy (i - n)%nat v)).
      set (r := fun i => if (i <? n)%nat then al * f i else be * h (i - n)%nat).
      assert (PART : forall z, (forall d v, gw d v -> z d = 0) -> (forall i v, gx i v -> z i = 0) /\ (forall i v, gy i v -> z (n + i)%nat = 0)).
      { intros z H. split; intros i v G; apply (H _ v); [left; split; [exact (RX i v G)|exact G]|]. right. split; [lia|]. replace (n + i - n)%nat with i by lia. exact G. }
      assert (DW : free_definite (n + k) block gw).
      { intros z VZ (i & Hi & X). destruct (PART z VZ) as (V1 & V2). rewrite <- bilinear_q, block_form, !bilinear_q.
        set (z2 := fun j => z (n + j)%nat) in *.
        assert (E : al * (qform n A z - s1 * bilinear k n T z2 z) + be * (qform k B z2 - s2 * bilinear k n T z2 z) = al * qform n A z + be * qform k B z2).
        { transitivity (al * qform n A z + be * qform k B z2 - (al * s1 + be * s2) * bilinear k n T z2 z); [ring|rewrite OP; ring]. }
        rewrite E. assert (P1 := free_nonneg n A gx z DA V1). assert (P2 := free_nonneg k B gy z2 DB V2).
        destruct (Nat.lt_ge_cases i n) as [L|L].
        - assert (P3 : 0 < qform n A z) by (apply DA; eauto). apply Rplus_lt_le_0_compat; [apply Rmult_lt_0_compat; lra|apply Rmult_le_pos; lra].
        - assert (P3 : 0 < qform k B z2) by (apply DB; [exact V2|]; exists (i - n)%nat; split; [lia|]; unfold z2; replace (n + (i - n))%nat with i by lia; exact X).
          apply Rplus_le_lt_0_compat; [apply Rmult_le_pos; lra|apply Rmult_lt_0_compat; lra]. }
      destruct (weakly_solvable (n + k) block gw r) as (w & G & E); [| |exact DW|].
      { intros i v [[L _]|[L G]]; [lia|]. specialize (RY _ _ G). lia. }
      { intros i v v' [[L G]|[L G]] [[L' G']|[L' G']]; try lia; [exact (UX _ _ _ G G')|exact (UY _ _ _ G G')]. }
      exists w, (fun j => w (n + j)%nat). assert (PW : (forall i v, gx i v -> w i = v) /\ (forall i v, gy i v -> w (n + i)%nat = v)).
      { split; intros i v X; apply G; [left; split; [exact (RX i v X)|exact X]|]. right. split; [lia|]. replace (n + i - n)%nat with i by lia. exact X. }
      destruct PW as (W1 & W2). split; (split; [assumption|]); intros z VZ.
      - set (z' := fun i => if (i <? n)%nat then z i else 0).
        assert (Z' : forall i v, gw i v -> z' i = 0) by (intros i v [[L X]|[L X]]; unfold z'; [rewrite (proj2 (Nat.ltb_lt i n) L); eauto|rewrite (proj2 (Nat.ltb_ge i n) L); reflexivity]).
        assert (EQ := E z' Z'). rewrite block_form in EQ.
        assert (K0 : forall j, z' (n + j)%nat = 0) by (intros j; unfold z'; rewrite (proj2 (Nat.ltb_ge (n + j) n)) by lia; reflexivity).
        assert (ZE : veq n z' z) by (intros j Hj; unfold z'; rewrite (proj2 (Nat.ltb_lt j n) Hj); reflexivity).
        rewrite (bilinear_vec n n A z' z w w ZE (fun _ _ => eq_refl)) in EQ.
        rewrite (bilinear_vec k n T _ _ z' z (fun j _ => eq_refl) ZE) in EQ.
        rewrite (bilinear_vec k k B _ (fun _ => 0) _ (fun j => w (n + j)%nat) (fun j _ => K0 j) (fun _ _ => eq_refl)) in EQ.
        rewrite (bilinear_vec k n T (fun j => z' (n + j)%nat) (fun _ => 0) w w (fun j _ => K0 j) (fun _ _ => eq_refl)) in EQ.
        assert (B0 : forall l M x, bilinear k l M (fun _ => 0) x = 0) by (intros l M x; apply sum_0; intros a _; apply sum_0; intros; ring).
        rewrite !B0 in EQ.
        assert (DR : dot (n + k) z' r = al * dot n z f).
        { unfold dot. rewrite sum_join, (sum_0 k) by (intros j _; rewrite K0; ring). rewrite Rplus_0_r, <- sum_scal. apply sum_ext. intros j Hj.
          unfold r. rewrite (ZE j Hj), (proj2 (Nat.ltb_lt j n) Hj). ring. }
        rewrite DR in EQ. apply (Rmult_eq_reg_l al); [|lra]. lra.
      - set (z' := fun i => if (i <? n)%nat then 0 else z (i - n)%nat).
        assert (Z' : forall i v, gw i v -> z' i = 0) by (intros i v [[L X]|[L X]]; unfold z'; [rewrite (proj2 (Nat.ltb_lt i n) L); reflexivity|rewrite (proj2 (Nat.ltb_ge i n) L); eauto]).
        assert (EQ := E z' Z'). rewrite block_form in EQ.
        assert (K0 : veq n z' (fun _ => 0)) by (intros j Hj; unfold z'; rewrite (proj2 (Nat.ltb_lt j n) Hj); reflexivity).
        assert (ZE : veq k (fun j => z' (n + j)%nat) z) by (intros j Hj; unfold z'; rewrite (proj2 (Nat.ltb_ge (n + j) n)) by lia; f_equal; lia).
        rewrite (bilinear_vec n n A z' (fun _ => 0) w w K0 (fun _ _ => eq_refl)) in EQ.
        rewrite (bilinear_vec k n T _ _ z' (fun _ => 0) (fun j _ => eq_refl) K0) in EQ.
        rewrite (bilinear_vec k k B _ z _ (fun j => w (n + j)%nat) ZE (fun _ _ => eq_refl)) in EQ.
        rewrite (bilinear_vec k n T (fun j => z' (n + j)%nat) z w w ZE (fun _ _ => eq_refl)) in EQ.
        assert (B0 : forall x, bilinear n n A (fun _ => 0) x = 0) by (intros x; apply sum_0; intros a _; apply sum_0; intros; ring).
        assert (B1 : forall x, bilinear k n T x (fun _ => 0) = 0) by (intros x; apply sum_0; intros a _; apply sum_0; intros; ring).
        rewrite B0, B1 in EQ.
        assert (DR : dot (n + k) z' r = be * dot k z h).
        { unfold dot. rewrite sum_join, (sum_0 n) by (intros j Hj; rewrite (K0 j Hj); ring). rewrite Rplus_0_l, <- sum_scal. apply sum_ext. intros j Hj.
          unfold r. specialize (ZE j Hj). cbv beta in ZE. rewrite ZE, (proj2 (Nat.ltb_ge (n + j) n)) by lia. replace (n + j - n)%nat with j by lia. ring. }
        rewrite DR in EQ. apply (Rmult_eq_reg_l be); [|lra]. lra.
    Qed.
  End Both.
End Pair.
