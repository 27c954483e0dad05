(* The distance that error_estimates.py computes: when it is zero, the triangle inequality, constant differences. *)
From Coq Require Import Reals List Arith Bool Lra Lia Psatz.
From Verif Require Import RVec PyModel MeshSpec FemSpec FemPipelineProofs StressModel StressSpec StressProofs EstimateModel EstimateSpec EstimateProofs.
Import ListNotations.
Local Open Scope R_scope.

Lemma cauchy5 a b c d e a' b' c' d' e' :
  (a * a' + b * b' + c * c' + d * d' + e * e') ^ 2 <= (a ^ 2 + b ^ 2 + c ^ 2 + d ^ 2 + e ^ 2) * (a' ^ 2 + b' ^ 2 + c' ^ 2 + d' ^ 2 + e' ^ 2).
Proof.
  assert (S : forall x, 0 <= x ^ 2) by (intros; apply pow2_ge_0).
  assert (Q : (a ^ 2 + b ^ 2 + c ^ 2 + d ^ 2 + e ^ 2) * (a' ^ 2 + b' ^ 2 + c' ^ 2 + d' ^ 2 + e' ^ 2) - (a * a' + b * b' + c * c' + d * d' + e * e') ^ 2
    = (a * b' - b * a') ^ 2 + (a * c' - c * a') ^ 2 + (a * d' - d * a') ^ 2 + (a * e' - e * a') ^ 2 + (b * c' - c * b') ^ 2
      + (b * d' - d * b') ^ 2 + (b * e' - e * b') ^ 2 + (c * d' - d * c') ^ 2 + (c * e' - e * c') ^ 2 + (d * e' - e * d') ^ 2) by ring.
  assert (P1 := S (a * b' - b * a')). assert (P2 := S (a * c' - c * a')). assert (P3 := S (a * d' - d * a')). assert (P4 := S (a * e' - e * a')).
  assert (P5 := S (b * c' - c * b')). assert (P6 := S (b * d' - d * b')). assert (P7 := S (b * e' - e * b')). assert (P8 := S (c * d' - d * c')).
  assert (P9 := S (c * e' - e * c')). assert (P0 := S (d * e' - e * d')). lra.
Qed.
Lemma minkowski5 a b c d e a' b' c' d' e' :
  sqrt ((a + a') ^ 2 + (b + b') ^ 2 + (c + c') ^ 2 + (d + d') ^ 2 + (e + e') ^ 2)
  <= sqrt (a ^ 2 + b ^ 2 + c ^ 2 + d ^ 2 + e ^ 2) + sqrt (a' ^ 2 + b' ^ 2 + c' ^ 2 + d' ^ 2 + e' ^ 2).
Proof.
  assert (C := cauchy5 a b c d e a' b' c' d' e').
  set (X := a ^ 2 + b ^ 2 + c ^ 2 + d ^ 2 + e ^ 2) in *. set (Y := a' ^ 2 + b' ^ 2 + c' ^ 2 + d' ^ 2 + e' ^ 2) in *.
  set (Z := a * a' + b * b' + c * c' + d * d' + e * e') in *.
  assert (X0 : 0 <= X) by (unfold X; assert (S := pow2_ge_0); assert (S1 := S a); assert (S2 := S b); assert (S3 := S c); assert (S4 := S d); assert (S5 := S e); lra).
  assert (Y0 : 0 <= Y) by (unfold Y; assert (S := pow2_ge_0); assert (S1 := S a'); assert (S2 := S b'); assert (S3 := S c'); assert (S4 := S d'); assert (S5 := S e'); lra).
  assert (ZB : Z <= sqrt X * sqrt Y).
  { rewrite <- sqrt_mult by assumption. apply Rle_trans with (Rabs Z); [apply Rle_abs|]. rewrite <- sqrt_Rsqr_abs. apply sqrt_le_1_alt. unfold Rsqr. lra. }
  replace ((a + a') ^ 2 + (b + b') ^ 2 + (c + c') ^ 2 + (d + d') ^ 2 + (e + e') ^ 2) with (X + Y + 2 * Z) by (unfold X, Y, Z; ring).
  assert (SX := sqrt_pos X). assert (SY := sqrt_pos Y). assert (QX := sqrt_sqrt X X0). assert (QY := sqrt_sqrt Y Y0).
  rewrite <- (sqrt_Rsqr (sqrt X + sqrt Y)) by lra. apply sqrt_le_1_alt. unfold Rsqr. nra.
Qed.

Lemma size_pos w G e : 0 <= size_on w G e.
Proof. apply sqrt_pos. Qed.
Lemma size_zero w G e : size_on w G e = 0 ->
  corner_total e w 0 = 0 /\ corner_total e w 1 = 0 /\ G 0%nat 0%nat = 0 /\ G 1%nat 1%nat = 0 /\ G 0%nat 1%nat + G 1%nat 0%nat = 0.
Proof.
  unfold size_on. intros H. assert (S := pow2_ge_0). assert (S1 := S (corner_total e w 0)). assert (S2 := S (corner_total e w 1)).
  assert (S3 := S (G 0%nat 0%nat)). assert (S4 := S (G 1%nat 1%nat)). assert (S5 := S (G 0%nat 1%nat + G 1%nat 0%nat)).
  apply sqrt_eq_0 in H; [|lra].
  assert (Z : forall x, x ^ 2 = 0 -> x = 0) by (intros x; nra). repeat split; apply Z; lra.
Qed.
Lemma size_add w G w' G' w'' G'' e : (forall n c, In n e -> w'' n c = w n c + w' n c) -> (forall c k, (c < 2)%nat -> (k < 2)%nat -> G'' c k = G c k + G' c k) -> List.length e = 3%nat ->
  size_on w'' G'' e <= size_on w G e + size_on w' G' e.
Proof.
  intros W V L. unfold size_on.
  assert (C : forall c, corner_total e w'' c = corner_total e w c + corner_total e w' c).
  { intros c. unfold corner_total. rewrite <- sum_plus. apply sum_ext. intros k K. apply W. apply nth_In. lia. }
  rewrite !C, !V by lia.
  replace (G 0%nat 1%nat + G' 0%nat 1%nat + (G 1%nat 0%nat + G' 1%nat 0%nat)) with ((G 0%nat 1%nat + G 1%nat 0%nat) + (G' 0%nat 1%nat + G' 1%nat 0%nat)) by ring.
  apply minkowski5.
Qed.

Lemma gradient_unique x f g g' : det_2d x <> 0 -> affine_gradient 2 x f g -> affine_gradient 2 x f g' -> forall k, (k < 2)%nat -> g k = g' k.
Proof.
  intros D H H'. assert (A := dx_dy_minus _ _ _ D H). assert (B := dx_dy_minus _ _ _ D H'). rewrite A in B. injection B as B0 B1.
  intros [|[|k]] K; [lra|lra|lia].
Qed.

Section Mesh.
  Variables (N : nat) (nodes : nat -> vec) (els : list (list nat)).
  Hypothesis TR : triangles N nodes els.
  Hypothesis NE : els <> [].

  Lemma some_gradient w : exists G, rows_gradient nodes els w G.
  Proof.
    destruct (gradient2_ex N nodes els (fun n => w n 0%nat) TR) as (g0 & H0). destruct (gradient2_ex N nodes els (fun n => w n 1%nat) TR) as (g1 & H1).
    exists (fun c => match c with O => g0 | _ => g1 end). intros [|[|c]] C; [exact H0|exact H1|lia].
  Qed.
  Lemma count_pos : 0 < INR (List.length els).
  Proof. apply lt_0_INR. destruct els; [contradiction|cbn; lia]. Qed.

  Lemma mean_pos w G : 0 <= mean_size els w G.
  Proof. unfold mean_size. apply Rmult_le_pos; [apply lsum_nonneg; intros; apply size_pos|]. left. apply Rinv_0_lt_compat, count_pos. Qed.
  Lemma mean_zero w G : mean_size els w G = 0 -> forall e, In e els -> size_on w (fun c => G c e) e = 0.
  Proof.
    unfold mean_size. intros H. assert (P := count_pos). apply lsum_nonneg_0; [intros; apply size_pos|].
    unfold Rdiv in H. apply Rmult_integral in H. destruct H as [H|H]; [exact H|]. exfalso. apply (Rinv_neq_0_compat (INR (List.length els))); [lra|exact H].
  Qed.

  Lemma rigid_on w G e n : rows_gradient nodes els w G -> In e els -> In n e -> size_on w (fun c => G c e) e = 0 ->
    w n 0%nat = G 0%nat e 1%nat * (nodes n 1%nat - centre_of nodes e 1%nat) /\ w n 1%nat = - G 0%nat e 1%nat * (nodes n 0%nat - centre_of nodes e 0%nat).
  Proof.
    intros HG I M Z. apply size_zero in Z. destruct Z as (T0 & T1 & Z0 & Z1 & Z2).
    destruct (element_shape N nodes els TR e I) as (i & j & k & E & _ & _ & _ & D).
    assert (H0 := HG 0%nat ltac:(lia) e I). assert (H1 := HG 1%nat ltac:(lia) e I). subst e.
    unfold affine_gradient in H0, H1.
    assert (A01 := H0 0%nat 1%nat ltac:(lia) ltac:(lia)). assert (A02 := H0 0%nat 2%nat ltac:(lia) ltac:(lia)).
    assert (B01 := H1 0%nat 1%nat ltac:(lia) ltac:(lia)). assert (B02 := H1 0%nat 2%nat ltac:(lia) ltac:(lia)).
    unfold corners in *. unfold corner_total, centre_of in *. cbn [sum nth] in *.
    rewrite Z0 in A01, A02. rewrite Z1 in B01, B02.
    assert (ZZ : G 1%nat [i; j; k] 0%nat = - G 0%nat [i; j; k] 1%nat) by lra. rewrite ZZ in B01, B02.
    set (g := G 0%nat [i; j; k] 1%nat) in *.
    cbn [In] in M. destruct M as [<-|[<-|[<-|[]]]]; split; lra.
  Qed.

  Lemma zero_same w G : neighboured nodes els -> rows_gradient nodes els w G -> mean_size els w G = 0 ->
    forall e n c, In e els -> In n e -> (c < 2)%nat -> w n c = 0.
  Proof.
    intros NB HG Z e n c I M C. assert (SZ := mean_zero w G Z).
    destruct (NB e I) as (f & p & q & F & Pe & Qe & Pf & Qf & AW & AC).
    destruct (rigid_on w G e p HG I Pe (SZ e I)) as (P0 & P1). destruct (rigid_on w G e q HG I Qe (SZ e I)) as (Q0 & Q1).
    destruct (rigid_on w G f p HG F Pf (SZ f F)) as (P2 & P3). destruct (rigid_on w G f q HG F Qf (SZ f F)) as (Q2 & Q3).
    destruct (rigid_on w G e n HG I M (SZ e I)) as (N0 & N1).
    set (g := G 0%nat e 1%nat) in *. set (g' := G 0%nat f 1%nat) in *.
    assert (gg : g = g').
    { assert (E1 : (g - g') * (nodes p 1%nat - nodes q 1%nat) = 0) by lra. assert (E0 : (g - g') * (nodes p 0%nat - nodes q 0%nat) = 0) by lra.
      destruct AW as [A|A].
      - apply Rmult_integral in E0. destruct E0 as [E0|E0]; [lra|exfalso; apply A; lra].
      - apply Rmult_integral in E1. destruct E1 as [E1|E1]; [lra|exfalso; apply A; lra]. }
    assert (g0 : g = 0).
    { rewrite <- gg in *. assert (E1 : g * (centre_of nodes e 1%nat - centre_of nodes f 1%nat) = 0) by lra.
      assert (E0 : g * (centre_of nodes e 0%nat - centre_of nodes f 0%nat) = 0) by lra.
      destruct AC as [A|A].
      - apply Rmult_integral in E0. destruct E0 as [E0|E0]; [lra|exfalso; apply A; lra].
      - apply Rmult_integral in E1. destruct E1 as [E1|E1]; [lra|exfalso; apply A; lra]. }
    rewrite g0 in N0, N1. destruct c as [|[|c]]; [lra|lra|lia].
  Qed.

  (* constant on the nodes in use *)
  Lemma mean_constant w G d : rows_gradient nodes els w G -> (forall e n c, In e els -> In n e -> (c < 2)%nat -> w n c = d c) ->
    mean_size els w G = 3 * sqrt (d 0%nat ^ 2 + d 1%nat ^ 2).
  Proof.
    intros HG W. assert (P := count_pos). unfold mean_size.
    assert (Q : forall e, In e els -> size_on w (fun c => G c e) e = 3 * sqrt (d 0%nat ^ 2 + d 1%nat ^ 2)).
    { intros e I. destruct (element_shape N nodes els TR e I) as (i & j & k & E & _ & _ & _ & D).
      assert (K : forall c, (c < 2)%nat -> forall m, (m < 2)%nat -> G c e m = 0).
      { intros c C m Hm. apply (gradient_unique (corners nodes e) (fun k => w (nth k e 0%nat) c) (G c e) (fun _ => 0) D (HG c C e I)); [|exact Hm].
        intros a b A B. cbn [sum]. rewrite !W with (e := e) by (auto; apply nth_In; subst e; cbn; lia). ring. }
      unfold size_on. rewrite !K by lia.
      assert (T : forall c, (c < 2)%nat -> corner_total e w c = 3 * d c).
      { intros c C. unfold corner_total. cbn [sum]. rewrite !W with (e := e) by (auto; apply nth_In; subst e; cbn; lia). ring. }
      rewrite !T by lia. replace ((3 * d 0%nat) ^ 2 + (3 * d 1%nat) ^ 2 + 0 ^ 2 + 0 ^ 2 + (0 + 0) ^ 2) with (9 * (d 0%nat ^ 2 + d 1%nat ^ 2)) by ring.
      rewrite sqrt_mult_alt by lra. f_equal. replace 9 with (3 * 3) by ring. apply sqrt_square. lra. }
    rewrite (lsum_ext els _ (fun _ => 3 * sqrt (d 0%nat ^ 2 + d 1%nat ^ 2)) Q).
    assert (LC : forall (l : list (list nat)) c, lsum l (fun _ => c) = INR (List.length l) * c).
    { induction l as [|x l IH]; intros c; cbn [lsum]; [cbn; ring|]. rewrite IH. cbn [List.length]. rewrite S_INR. ring. }
    rewrite LC. field. lra.
  Qed.

  Lemma mean_triangle w G w' G' w'' G'' : rows_gradient nodes els w G -> rows_gradient nodes els w' G' -> rows_gradient nodes els w'' G'' ->
    (forall e n c, In e els -> In n e -> w'' n c = w n c + w' n c) -> mean_size els w'' G'' <= mean_size els w G + mean_size els w' G'.
  Proof.
    intros H H' H'' W. assert (P := count_pos). unfold mean_size, Rdiv. rewrite <- Rmult_plus_distr_r, <- lsum_plus.
    apply Rmult_le_compat_r; [left; apply Rinv_0_lt_compat; exact P|]. apply lsum_le. intros e I.
    destruct (element_shape N nodes els TR e I) as (i & j & k & E & _ & _ & _ & D).
    apply size_add; [intros n c M; exact (W e n c I M)| |subst e; reflexivity].
    intros c m C Hm. apply (gradient_unique (corners nodes e) (fun k => w'' (nth k e 0%nat) c) (G'' c e) (fun m => G c e m + G' c e m) D (H'' c C e I)); [|exact Hm].
    intros a b A B. assert (X := H c C e I a b A B). assert (X' := H' c C e I a b A B). cbn [sum] in *.
    rewrite !W with (e := e) by (auto; apply nth_In; subst e; cbn; lia). lra.
  Qed.

  (* the statements about the program *)
  Lemma estimate_number u h i1 i2 : samples nodes els i1 (fun n => h n 0%nat) -> samples nodes els i2 (fun n => h n 1%nat) ->
    exists G, rows_gradient nodes els (differ u h) G /\ estimate N nodes u els i1 i2 = Ok (Number (mean_size els (differ u h) G)).
  Proof. intros S1 S2. destruct (some_gradient (differ u h)) as (G & HG). exists G. split; [exact HG|]. apply estimate_value; assumption. Qed.

  Lemma estimate_zero u h i1 i2 : neighboured nodes els -> samples nodes els i1 (fun n => h n 0%nat) -> samples nodes els i2 (fun n => h n 1%nat) ->
    (estimate N nodes u els i1 i2 = Ok (Number 0) <-> same_on els u h).
  Proof.
    intros NB S1 S2. destruct (estimate_number u h i1 i2 S1 S2) as (G & HG & ->). split.
    - intros Q. injection Q as Q. intros e n c I M C. assert (Z := zero_same (differ u h) G NB HG Q e n c I M C). unfold differ in Z. lra.
    - intros SA. do 2 f_equal. rewrite (mean_constant (differ u h) G (fun _ => 0) HG); [replace (0 ^ 2 + 0 ^ 2) with 0 by ring; rewrite sqrt_0; ring|].
      intros e n c I M C. unfold differ. rewrite (SA e n c I M C). ring.
  Qed.
  Lemma estimate_same u h i1 i2 : samples nodes els i1 (fun n => h n 0%nat) -> samples nodes els i2 (fun n => h n 1%nat) ->
    same_on els u h -> estimate N nodes u els i1 i2 = Ok (Number 0).
  Proof.
    intros S1 S2 SA. destruct (estimate_number u h i1 i2 S1 S2) as (G & HG & ->). do 2 f_equal.
    rewrite (mean_constant (differ u h) G (fun _ => 0) HG); [replace (0 ^ 2 + 0 ^ 2) with 0 by ring; rewrite sqrt_0; ring|].
    intros e n c I M C. unfold differ. rewrite (SA e n c I M C). ring.
  Qed.
  Lemma estimate_constant u h i1 i2 d : samples nodes els i1 (fun n => h n 0%nat) -> samples nodes els i2 (fun n => h n 1%nat) ->
    (forall e n c, In e els -> In n e -> (c < 2)%nat -> u n c = h n c + d c) ->
    estimate N nodes u els i1 i2 = Ok (Number (3 * sqrt (d 0%nat ^ 2 + d 1%nat ^ 2))).
  Proof.
    intros S1 S2 SA. destruct (estimate_number u h i1 i2 S1 S2) as (G & HG & ->). do 2 f_equal. apply mean_constant; [exact HG|].
    intros e n c I M C. unfold differ. rewrite (SA e n c I M C). ring.
  Qed.
  Lemma estimate_triangle u v h i1 i2 j1 j2 : samples nodes els i1 (fun n => h n 0%nat) -> samples nodes els i2 (fun n => h n 1%nat) ->
    samples nodes els j1 (fun n => v n 0%nat) -> samples nodes els j2 (fun n => v n 1%nat) ->
    exists a b c, estimate N nodes u els i1 i2 = Ok (Number a) /\ estimate N nodes u els j1 j2 = Ok (Number b) /\ estimate N nodes v els i1 i2 = Ok (Number c) /\
      0 <= a /\ a <= b + c.
  Proof.
    intros S1 S2 T1 T2. destruct (estimate_number u h i1 i2 S1 S2) as (G & HG & E). destruct (estimate_number u v j1 j2 T1 T2) as (G' & HG' & E').
    destruct (estimate_number v h i1 i2 S1 S2) as (G'' & HG'' & E''). exists (mean_size els (differ u h) G), (mean_size els (differ u v) G'), (mean_size els (differ v h) G'').
    repeat split; try assumption; [apply mean_pos|]. apply mean_triangle; try assumption. intros e n c I M. unfold differ. ring.
  Qed.
End Mesh.

(* a first point without a value: nothing comes out; a later one: the sum fails *)
Lemma estimate_first N nodes u e els i1 i2 : triangles N nodes (e :: els) -> gap_at nodes i1 e \/ gap_at nodes i2 e ->
  estimate N nodes u (e :: els) i1 i2 = Ok Empty.
Proof.
  intros TR GA. unfold estimate, compare. cbn [add_errors]. rewrite (element_lost N nodes (e :: els) TR u i1 i2 e (or_introl eq_refl) GA). cbn [bind add_error].
  rewrite (errors_empty N nodes (e :: els) u i1 i2 els); [reflexivity|intros x X; right; exact X|].
  intros x X. apply (element_goes N nodes (e :: els) TR u i1 i2 x). right. exact X.
Qed.
Lemma estimate_later N nodes u done e els i1 i2 h : triangles N nodes (done ++ e :: els) -> done <> [] ->
  samples nodes done i1 (fun n => h n 0%nat) -> samples nodes done i2 (fun n => h n 1%nat) -> gap_at nodes i1 e \/ gap_at nodes i2 e ->
  estimate N nodes u (done ++ e :: els) i1 i2 = Err ValueError.
Proof.
  intros TR ND S1 S2 GA. unfold estimate, compare.
  assert (X : forall l t, incl l done -> add_errors N nodes u i1 i2 (l ++ e :: els) (Number t) = Err ValueError).
  { induction l as [|f l IH]; intros t SU; cbn [app add_errors].
    - rewrite (element_lost N nodes _ TR u i1 i2 e); [reflexivity|apply in_or_app; right; left; reflexivity|exact GA].
    - assert (FI : In f done) by (apply SU; left; reflexivity).
      destruct (some_gradient N nodes _ TR (differ u h)) as (G & HG).
      rewrite (element_value N nodes _ TR u h i1 i2 f (fun c => G c f)); [| |intros n M; exact (S1 f n FI M)|intros n M; exact (S2 f n FI M)|].
      + cbn [bind add_error]. apply IH. intros x Hx. apply SU. right. exact Hx.
      + apply in_or_app. left. exact FI.
      + intros c C. apply (HG c C f). apply in_or_app. left. exact FI. }
  destruct done as [|f l]; [contradiction|]. assert (FI : In f (f :: l)) by (left; reflexivity).
  cbn [app add_errors]. destruct (some_gradient N nodes _ TR (differ u h)) as (G & HG).
  rewrite (element_value N nodes _ TR u h i1 i2 f (fun c => G c f)); [| |intros n M; exact (S1 f n FI M)|intros n M; exact (S2 f n FI M)|].
  - cbn [bind add_error]. rewrite X; [reflexivity|]. intros x Hx. right. exact Hx.
  - left. reflexivity.
  - intros c C. apply (HG c C f). left. reflexivity.
Qed.
Lemma estimate_nothing N nodes u i1 i2 : estimate N nodes u [] i1 i2 = Err ZeroDivision.
Proof. reflexivity. Qed.
