(* Contact problems with prescribed values: concrete cases. *)
From Coq Require Import Reals List Arith Bool Lia Lra Psatz.
From Verif Require Import Common PyModel RVec LinAlg DofModel DofSpec DirichletModel DirichletSpec DirichletProofs
  ForcesSpec FemSpec ContactModel ContactSpec ContactProofs ContactLawProofs ConvexMin ContactCostProofs ContactWitness
  SchurModel SchurSpec SchurProofs SchurMinProofs ConstrainedSpec ConstrainedProofs ConstrainedSchurProofs.
Import ListNotations.
Local Open Scope R_scope.

(* the second of two nodes has the value (0, v) *)
Definition held (v : R) : list condition :=
  [([((1, 2), (0, 1)); ((3, 4), (1, 2))]%nat, fun p => if (p =? 1)%nat then v else 0)].

Lemma held_shaped v : well_shaped 4 (held v).
Proof. intros sl c s [E|[]] Hs; inversion E; subst; destruct Hs as [<-|[<-|[]]]; simpl; unfold matching; simpl; lia. Qed.

Lemma held_prescribed v d w : prescribed (held v) d w <-> (d = 1%nat /\ w = 0) \/ (d = 3%nat /\ w = v).
Proof.
  split.
  - intros (sl & c & s & q & [E|[]] & Hs & Hp & ->). inversion E; subst.
    destruct Hs as [<-|[<-|[]]]; cbn in Hp; destruct Hp as [P|[]]; injection P as <- <-; [left|right]; split; reflexivity.
  - intros [[-> ->]|[-> ->]]; eexists _, _, _, _; (split; [left; reflexivity|]).
    + split; [left; reflexivity|]. split; [left; reflexivity|reflexivity].
    + split; [right; left; reflexivity|]. split; [left; reflexivity|reflexivity].
Qed.
Lemma held_consistent v : consistent (prescribed (held v)).
Proof.
  intros d x y Hx Hy. apply held_prescribed in Hx, Hy. destruct Hx as [[D ->]|[D ->]], Hy as [[D' ->]|[D' ->]]; auto; lia.
Qed.
Lemma held_admissible v x : admissible (prescribed (held v)) x <-> x 1%nat = 0 /\ x 3%nat = v.
Proof.
  split.
  - intros H. split; apply H; apply held_prescribed; auto.
  - intros [H1 H3] d w Hp. apply held_prescribed in Hp. destruct Hp as [[-> ->]|[-> ->]]; assumption.
Qed.
Lemma held_overwritten v x : overwrite_all (held v) x = fun k => if (k =? 1)%nat then 0 else if (k =? 3)%nat then v else x k.
Proof.
  apply FunctionalExtensionality.functional_extensionality. intros k. unfold overwrite_all, held. cbn [fold_left fst snd overwrite].
  unfold inside. cbn [fst snd].
  destruct (Nat.eq_dec k 1) as [->|N1]; [reflexivity|]. destruct (Nat.eq_dec k 3) as [->|N3]; [reflexivity|].
  destruct (Nat.eqb_spec k 1); [contradiction|]. destruct (Nat.eqb_spec k 3); [contradiction|].
  destruct (Nat.leb_spec 3 k), (Nat.ltb_spec k 4); try lia; cbn [andb];
    destruct (Nat.leb_spec 1 k), (Nat.ltb_spec k 2); try lia; reflexivity.
Qed.

Lemma held_eliminated v b : meq 4 4 (lhs (apply_dirichlet (held v) (mkSystem unit4 b))) unit4 /\
  veq 4 (rhs (apply_dirichlet (held v) (mkSystem unit4 b))) (vec4 (b 0%nat) 0 (b 2%nat) v).
Proof.
  split.
  - intros i j Hi Hj. do 4 (destruct i as [|i]; [do 4 (destruct j as [|j]; [reflexivity|]); exfalso; lia|]); exfalso; lia.
  - intros i Hi. do 4 (destruct i as [|i]; [cbn; unfold unit4; cbn; try reflexivity; ring|]). exfalso; lia.
Qed.

Definition stiff_law : contact_law := make_slope_contact_law (12 / 5).
Definition pull4 : vec := vec4 0 0 1 0.

Lemma max_square p q : 0 <= q -> 2 * q * p - q ^ 2 <= Rmax 0 p ^ 2.
Proof. intros Hq. unfold Rmax. destruct (Rle_dec 0 p) as [P|P].
  - pose proof (pow2_ge_0 (p - q)). lra.
  - assert (0 <= q * - p) by (apply Rmult_le_pos; lra). pose proof (pow2_ge_0 q). lra.
Qed.

Lemma bar_cost A b x old u dt : meq 4 4 A unit4 ->
  loss stiff_law 2 2 bar 2 up (mkSized 4 4 A) (4%nat, b) (4%nat, x) (4%nat, old) (4%nat, u) bar_faces dt
  = Ok (quadratic 4 unit4 b x + 2 / 5 * (Rmax 0 ((x 2%nat + x 3%nat) / 2) ^ 2 + Rmax 0 (x 2%nat) ^ 2 + Rmax 0 (x 3%nat) ^ 2)).
Proof.
  intros HA. pose proof (bar_loss (12 / 5) b x old u dt) as H.
  pose proof (loss_value stiff_law bar up bar_faces 2 unit4 b x 2 old u dt bar_faces_ok) as E.
  pose proof (loss_value stiff_law bar up bar_faces 2 A b x 2 old u dt bar_faces_ok) as E'.
  change (2 * 2)%nat with 4%nat in E, E'. fold stiff_law in H. rewrite E in H. rewrite E'.
  rewrite (quadratic_meq 4 A unit4 b b x HA) by (intros ? ?; reflexivity). rewrite H. apply (f_equal Ok). lra.
Qed.

Definition apart_answer : vec := vec4 0 0 (30 / 59) (- (5 / 59)).

Lemma touching_eliminated old u dt :
  let sys := apply_dirichlet (held 0) (mkSystem unit4 pull4) in
  minimises (fun y => loss stiff_law 2 2 bar 2 up (mkSized 4 4 (lhs sys)) (4%nat, rhs sys) (4%nat, y) (4%nat, old) (4%nat, u)
    bar_faces dt) apart_answer.
Proof.
  intros sys. destruct (held_eliminated 0 pull4) as [HA HB]. fold sys in HA, HB.
  assert (V : forall y, loss stiff_law 2 2 bar 2 up (mkSized 4 4 (lhs sys)) (4%nat, rhs sys) (4%nat, y) (4%nat, old) (4%nat, u) bar_faces dt
    = Ok (quadratic 4 unit4 pull4 y + 2 / 5 * (Rmax 0 ((y 2%nat + y 3%nat) / 2) ^ 2 + Rmax 0 (y 2%nat) ^ 2 + Rmax 0 (y 3%nat) ^ 2))).
  { intros y. rewrite bar_cost by exact HA. do 2 f_equal. apply quadratic_meq; [intros ? ? ? ?; reflexivity|].
    intros i Hi. rewrite HB by exact Hi. do 4 (destruct i as [|i]; [reflexivity|]). lia. }
  rewrite (minimises_iff _ _ apart_answer V). intros y. unfold quadratic. rewrite !unit4_qform. unfold dot, apart_answer, pull4.
  cbn [sum vec4].
  rewrite (Rmax_right 0 ((30 / 59 + - (5 / 59)) / 2)), (Rmax_right 0 (30 / 59)), (Rmax_left 0 (- (5 / 59))) by lra.
  pose proof (max_square ((y 2%nat + y 3%nat) / 2) (25 / 118) ltac:(lra)).
  pose proof (max_square (y 2%nat) (30 / 59) ltac:(lra)).
  pose proof (pow2_ge_0 (Rmax 0 (y 3%nat))).
  pose proof (pow2_ge_0 (y 0%nat)). pose proof (pow2_ge_0 (y 1%nat)).
  pose proof (pow2_ge_0 (y 2%nat - 30 / 59)). pose proof (pow2_ge_0 (y 3%nat + 5 / 59)). lra.
Qed.

Lemma touching_not_least old u dt : ~ minimises_among (prescribed (held 0)) (fun y =>
    loss stiff_law 2 2 bar 2 up (mkSized 4 4 unit4) (4%nat, pull4) (4%nat, y) (4%nat, old) (4%nat, u) bar_faces dt)
  (overwrite_all (held 0) apart_answer).
Proof.
  intros M. apply (minimises_among_iff _ _ _ _ (fun y => bar_cost unit4 pull4 y old u dt ltac:(intros ? ? ? ?; reflexivity))) in M.
  destruct M as [_ M]. specialize (M (vec4 0 0 (1 / 2) 0) ltac:(apply held_admissible; split; reflexivity)).
  rewrite held_overwritten in M. unfold quadratic in M. rewrite !unit4_qform in M. unfold dot, apart_answer, pull4 in M.
  cbn [sum vec4 Nat.eqb] in M.
  rewrite (Rmax_right 0 ((30 / 59 + 0) / 2)), (Rmax_right 0 (30 / 59)), (Rmax_right 0 0), (Rmax_right 0 ((1 / 2 + 0) / 2)),
    (Rmax_right 0 (1 / 2)) in M by lra. lra.
Qed.

Lemma stiff_law_convex dt : convex_law stiff_law dt.
Proof. apply slope_law_convex. lra. Qed.

(* C84 for faces that touch prescribed dofs, overwriting included *)
Theorem touching_refuted : ~ (forall law nodes normals faces N A b old u dt conds x,
  faces_ok 2 N faces -> well_shaped (2 * N) conds -> consistent (prescribed conds) ->
  symmetric (2 * N) A -> pos_def (2 * N) A -> convex_law law dt -> (forall d v, prescribed conds d v -> v = 0) ->
  let sys := apply_dirichlet conds (mkSystem A b) in
  minimises (fun y => loss law 2 2 nodes 2 normals (mkSized (2 * N) (2 * N) (lhs sys)) (2 * N, rhs sys)%nat
    (2 * N, y)%nat (2 * N, old)%nat (2 * N, u)%nat faces dt) x ->
  minimises_among (prescribed conds) (fun y => loss law 2 2 nodes 2 normals (mkSized (2 * N) (2 * N) A) (2 * N, b)%nat
    (2 * N, y)%nat (2 * N, old)%nat (2 * N, u)%nat faces dt) (overwrite_all conds x)).
Proof.
  intros H. apply (touching_not_least (fun _ => 0) (fun _ => 0) 1).
  apply (H stiff_law bar up bar_faces 2%nat unit4 pull4 (fun _ => 0) (fun _ => 0) 1 (held 0) apart_answer).
  - exact bar_faces_ok.
  - apply held_shaped.
  - apply held_consistent.
  - exact unit4_symmetric.
  - exact unit4_pos.
  - apply stiff_law_convex.
  - intros d v Hp. apply held_prescribed in Hp. destruct Hp as [[_ ->]|[_ ->]]; reflexivity.
  - apply touching_eliminated.
Qed.

(* ------------------------------------------------------ Schur *)

Lemma held_block v b : free_block 2 1 1 (lhs (apply_dirichlet (held v) (mkSystem unit4 b))) delta.
Proof.
  intros k i l j Hk Hi Hl Hj. rewrite (proj1 (held_eliminated v b)) by lia. unfold delta, unit4.
  destruct (Nat.eqb_spec (k * 1 + i) (l * 1 + j)), (Nat.eqb_spec (k * (1 + 1) + 1 + i) (l * (1 + 1) + 1 + j)); try reflexivity; lia.
Qed.

Lemma held_state inv v b : inverts inv -> let sys := apply_dirichlet (held v) (mkSystem unit4 b) in
  exists s, init inv 2 1 2 (mkSized 4 4 (lhs sys)) (4%nat, rhs sys) = Ok s.
Proof.
  intros HI sys. apply (init_ok inv 2 1 1 HI ltac:(lia) (lhs sys) (rhs sys) delta (held_block v b)).
  exists delta. intros i j Hi Hj. split; unfold delta.
  - rewrite (sum_single _ i); auto; [rewrite Nat.eqb_refl; ring|]. intros m _ Hne. destruct (Nat.eqb_spec i m); [congruence|ring].
  - rewrite (sum_single _ i); auto; [rewrite Nat.eqb_refl; ring|]. intros m _ Hne. destruct (Nat.eqb_spec i m); [congruence|ring].
Qed.

(* its reduced system *)
Lemma held_reduced v b s : reduces 2 1 1 (lhs (apply_dirichlet (held v) (mkSystem unit4 b))) (rhs (apply_dirichlet (held v) (mkSystem unit4 b))) s ->
  exists R f, node_relations s = mkSized 2 2 R /\ node_forces s = (2%nat, f) /\ meq 2 2 R delta /\ veq 2 f (fun i => if (i =? 0)%nat then b 0%nat else b 2%nat) /\
    forall xc, exists r, complement_free_nodes s (2%nat, xc) = Ok (2%nat, r) /\ veq 2 r (fun i => if (i =? 0)%nat then 0 else v).
Proof.
  intros HR.
  destruct (held_eliminated v b) as [HA HB].
  set (A := lhs (apply_dirichlet (held v) (mkSystem unit4 b))) in *. set (bb := rhs (apply_dirichlet (held v) (mkSystem unit4 b))) in *. clearbody A bb.
  assert (CF : forall i j, (i < 2)%nat -> (j < 2)%nat -> get_sliced 2 A (0%nat, 1%nat) (1%nat, 1%nat) i j = 0).
  { intros i j Hi Hj. unfold get_sliced, matrix_split. cbn [fst snd]. destruct i as [|[|i]], j as [|[|j]]; try lia; cbn; rewrite HA by lia; reflexivity. }
  assert (FC : forall i j, (i < 2)%nat -> (j < 2)%nat -> get_sliced 2 A (1%nat, 1%nat) (0%nat, 1%nat) i j = 0).
  { intros i j Hi Hj. unfold get_sliced, matrix_split. cbn [fst snd]. destruct i as [|[|i]], j as [|[|j]]; try lia; cbn; rewrite HA by lia; reflexivity. }
  assert (CC : forall i j, (i < 2)%nat -> (j < 2)%nat -> get_sliced 2 A (0%nat, 1%nat) (0%nat, 1%nat) i j = delta i j).
  { intros i j Hi Hj. unfold get_sliced, matrix_split. cbn [fst snd]. destruct i as [|[|i]], j as [|[|j]]; try lia; cbn; rewrite HA by lia; reflexivity. }
  assert (FF : forall i j, (i < 2)%nat -> (j < 2)%nat -> get_sliced 2 A (1%nat, 1%nat) (1%nat, 1%nat) i j = delta i j).
  { intros i j Hi Hj. unfold get_sliced, matrix_split. cbn [fst snd]. destruct i as [|[|i]], j as [|[|j]]; try lia; cbn; rewrite HA by lia; reflexivity. }
  assert (INV : forall B, is_inverse 2 (get_sliced 2 A (1%nat, 1%nat) (1%nat, 1%nat)) B -> meq 2 2 B delta).
  { intros B HB' i j Hi Hj. destruct (HB' i j Hi Hj) as [H _]. rewrite <- H.
    rewrite (sum_ext 2 _ (fun m => delta i m * B m j)) by (intros m Hm; rewrite FF by auto; reflexivity).
    rewrite (sum_single _ i); auto.
    - unfold delta. rewrite Nat.eqb_refl. ring.
    - intros m _ Hne. unfold delta. destruct (Nat.eqb_spec i m); [congruence|ring]. }
  destruct HR as (B & bc & bf & HI & HP & E1 & E2 & E3 & E4 & E5 & E6).
  change (2 * 1)%nat with 2%nat in *. change (1 + 1)%nat with 2%nat in *.
  eexists _, _. split; [exact E1|]. split; [exact E5|]. split; [|split].
  - intros i j Hi Hj. cbv beta. rewrite CC by auto. unfold product.
    rewrite (sum_0 2) ; [ring|]. intros m Hm. rewrite CF by auto. ring.
  - intros i Hi. cbv beta. unfold mv at 1. rewrite (sum_0 2) by (intros m Hm; rewrite CF by auto; ring).
    destruct HP as [HP _]. destruct i as [|[|i]]; [| |lia].
    + rewrite Rminus_0_r. change 0%nat with (0 * 1 + 0)%nat at 1. rewrite HP by lia. rewrite HB by lia. reflexivity.
    + rewrite Rminus_0_r. change 1%nat with (1 * 1 + 0)%nat at 1. rewrite HP by lia. rewrite HB by lia. reflexivity.
  - intros xc. unfold complement_free_nodes. rewrite E2, E4, E6. unfold sized_mv at 1. cbn [rows cols data fst snd].
    rewrite Nat.eqb_refl. cbn [bind fst snd]. unfold broadcast. cbn [fst snd]. rewrite Nat.eqb_refl. cbn [bind].
    unfold sized_mv. cbn [rows cols data fst snd]. rewrite Nat.eqb_refl. eexists. split; [reflexivity|].
    intros i Hi. unfold mv at 1. rewrite (sum_ext 2 _ (fun m => delta i m * bf m)).
    + rewrite (sum_single _ i); auto.
      * unfold delta. rewrite Nat.eqb_refl. destruct HP as [_ HP]. destruct i as [|[|i]]; [| |lia].
        -- change 0%nat with (0 * 1 + 0)%nat at 1. rewrite HP by lia. rewrite HB by lia. cbn. ring.
        -- change 1%nat with (1 * 1 + 0)%nat at 1. rewrite HP by lia. rewrite HB by lia. cbn. ring.
      * intros m _ Hne. unfold delta. destruct (Nat.eqb_spec i m); [congruence|ring].
    + intros m Hm. rewrite (INV B HI) by auto. f_equal. unfold mv. rewrite (sum_0 2) by (intros q Hq; rewrite FC by auto; ring). ring.
Qed.

Definition half : vec := fun i => if (i =? 0)%nat then 0 else 1 / 2.

Lemma corner_reduced_least inv v s u dt : inverts inv ->
  let sys := apply_dirichlet (held v) (mkSystem unit4 pull4) in
  init inv 2 1 2 (mkSized 4 4 (lhs sys)) (4%nat, rhs sys) = Ok s ->
  minimises (fun y => loss stiff_law 2 2 bar 2 up (node_relations s) (node_forces s) (2%nat, y) (4%nat, fun _ => 0) (4%nat, u) bar_faces dt) half.
Proof.
  intros HI sys E. apply (init_reduces inv 2 1 1 HI ltac:(lia)) in E.
  destruct (held_reduced v pull4 s E) as (R & f & E1 & E2 & HR & Hf & _).
  set (J := fun y : vec => contact_energy stiff_law bar up bar_faces dt (nodal 2 u) (mixed 1 y 2 (fun _ => 0))).
  assert (V : forall y, loss stiff_law 2 2 bar 2 up (node_relations s) (node_forces s) (2%nat, y) (4%nat, fun _ => 0) (4%nat, u) bar_faces dt
    = Ok (quadratic 2 R f y + J y)).
  { intros y. unfold loss. rewrite E1, E2. 
    change (2%nat, y) with ((2 * 1)%nat, y). rewrite cost_bind. 
    change (4%nat, fun _ : nat => 0) with ((2 * 2)%nat, fun _ : nat => 0). change (4%nat, u) with ((2 * 2)%nat, u).
    rewrite (contact_value _ _ _ _ bar up 2 bar_faces 1 y 2 (fun _ => 0) u dt bar_faces_ok). cbn [bind data snd]. reflexivity. }
  assert (JV : forall y, J y = 2 / 5 * (Rmax 0 (y 1%nat / 2) ^ 2 + Rmax 0 (y 1%nat) ^ 2)).
  { intros y. set (z := vec4 (y 0%nat) 0 (y 1%nat) 0).
    pose proof (bar_cost unit4 pull4 z (fun _ => 0) u dt ltac:(intros ? ? ? ?; reflexivity)) as B.
    pose proof (loss_value stiff_law bar up bar_faces 2 unit4 pull4 z 2 (fun _ => 0) u dt bar_faces_ok) as L.
    change (2 * 2)%nat with 4%nat in L. rewrite L in B. injection B as B.
    assert (T : J y = contact_energy stiff_law bar up bar_faces dt (nodal 2 u) (nodal 2 z)).
    { unfold J. apply contact_energy_ext. intros e a k [<-|[]] Ha Hk. 
      destruct Ha as [<-|[<-|[]]]; destruct k as [|[|k]]; try lia; reflexivity. }
    rewrite T. unfold contact_energy. cbn in B. unfold z in *. cbn [vec4] in B.
    replace ((y 1%nat + 0) / 2) with (y 1%nat / 2) in B by lra. rewrite (Rmax_right 0 0) in B by lra.
    apply Rplus_eq_reg_l in B. etransitivity; [exact B|]. ring. }
  rewrite (minimises_iff _ _ half V). intros y. rewrite !JV.
  rewrite !(quadratic_meq 2 R delta f (fun i => if (i =? 0)%nat then 0 else 1)) by
    (auto; intros i Hi; rewrite Hf by auto; destruct i as [|[|i]]; try lia; reflexivity).
  unfold quadratic, qform, dot, mv, delta, half. cbn [sum Nat.eqb].
  rewrite (Rmax_right 0 (1 / 2 / 2)), (Rmax_right 0 (1 / 2)) by lra.
  pose proof (max_square (y 1%nat / 2) (1 / 4) ltac:(lra)). pose proof (max_square (y 1%nat) (1 / 2) ltac:(lra)).
  pose proof (pow2_ge_0 (y 0%nat)). pose proof (pow2_ge_0 (y 1%nat - 1 / 2)). lra.
Qed.

(* a corner node held at a value that it does not have yet *)
Theorem corner_refuted inv : inverts inv -> ~ (forall law nodes normals faces nc nf A b old u dt conds s optimise x0 x,
  let N := (nc + nf)%nat in
  faces_ok 2 N faces -> well_shaped (2 * N) conds -> consistent (prescribed conds) ->
  symmetric (2 * N) A -> pos_def (2 * N) A -> convex_law law dt ->
  let sys := apply_dirichlet conds (mkSystem A b) in
  init inv 2 nc N (mkSized (2 * N) (2 * N) (lhs sys)) (2 * N, rhs sys)%nat = Ok s ->
  (forall e a k, In e faces -> In a e -> (k < 2)%nat ->
    (a < nc)%nat /\ ~ fixed_dof (prescribed conds) N a k \/ (nc <= a)%nat /\ fixed_dof (prescribed conds) N a k) ->
  (forall g, exists xc, optimise (2 * nc, g)%nat = (2 * nc, xc)%nat /\
     minimises (fun y => loss law 2 2 nodes 2 normals (node_relations s) (node_forces s)
       (2 * nc, y)%nat (2 * N, old)%nat (2 * N, u)%nat faces dt) xc) ->
  solve_impl 2 nc false optimise s (2 * N, x0)%nat = Ok (2 * N, x)%nat ->
  minimises_among (prescribed conds) (fun y => loss law 2 2 nodes 2 normals (mkSized (2 * N) (2 * N) A) (2 * N, b)%nat
    (2 * N, y)%nat (2 * N, old)%nat (2 * N, u)%nat faces dt) x).
Proof.
  intros HI H. destruct (held_state inv 1 pull4 HI) as (s & E). cbv zeta in E.
  pose proof (init_reduces inv 2 1 1 HI ltac:(lia) _ _ _ E) as HR.
  destruct (held_reduced 1 pull4 s HR) as (R & f & _ & _ & _ & _ & HC).
  destruct (HC half) as (r & Hr & Er).
  destruct (merge_layout 2 1 1 half r ltac:(auto)) as (x & Ex & HX).
  assert (M : minimises_among (prescribed (held 1)) (fun y => loss stiff_law 2 2 bar 2 up (mkSized 4 4 unit4) (4, pull4)%nat
    (4, y)%nat (4%nat, fun _ => 0) (4%nat, fun _ => 0) bar_faces 1) x).
  { apply (H stiff_law bar up bar_faces 1%nat 1%nat unit4 pull4 (fun _ => 0) (fun _ => 0) 1 (held 1) s
      (fun _ => (2%nat, half)) (fun _ => 0) x).
    - exact bar_faces_ok.
    - apply held_shaped.
    - apply held_consistent.
    - exact unit4_symmetric.
    - exact unit4_pos.
    - apply stiff_law_convex.
    - exact E.
    - intros e a k [<-|[]] Ha Hk. destruct Ha as [<-|[<-|[]]].
      + left. split; [lia|]. intros (v & Hv). apply held_prescribed in Hv. destruct k as [|[|k]]; lia.
      + right. split; [lia|]. destruct k as [|[|k]]; [| |lia].
        * exists 0. apply held_prescribed. auto.
        * exists 1. apply held_prescribed. auto.
    - intros g. exists half. split; [reflexivity|]. exact (corner_reduced_least inv 1 s (fun _ => 0) 1 HI E).
    - unfold solve_impl. destruct (truncate_layout 2 1 1 (fun _ => 0) ltac:(auto)) as (g & -> & _). cbn [bind].
      change (2%nat, half) with ((2 * 1)%nat, half) in Hr. change (2 * 1)%nat with 2%nat in *. rewrite Hr. cbn [bind]. exact Ex. }
  apply (minimises_among_iff _ _ _ _ (fun y => bar_cost unit4 pull4 y (fun _ => 0) (fun _ => 0) 1 ltac:(intros ? ? ? ?; reflexivity))) in M.
  destruct M as [AD M]. apply held_admissible in AD. destruct AD as [X1 X3].
  destruct HX as [C _].
  assert (X0 : x 0%nat = 0) by (symmetry; exact (C 0%nat 0%nat ltac:(lia) ltac:(lia))).
  assert (X2 : x 2%nat = 1 / 2) by (symmetry; exact (C 1%nat 0%nat ltac:(lia) ltac:(lia))).
  specialize (M (vec4 0 0 (2 / 5) 1) ltac:(apply held_admissible; split; reflexivity)).
  unfold quadratic in M. rewrite !unit4_qform in M. unfold dot, pull4 in M. cbn [sum vec4] in M. rewrite X0, X1, X2, X3 in M.
  rewrite (Rmax_right 0 ((1 / 2 + 1) / 2)), (Rmax_right 0 (1 / 2)), (Rmax_right 0 1), (Rmax_right 0 ((2 / 5 + 1) / 2)),
    (Rmax_right 0 (2 / 5)) in M by lra. lra.
Qed.

(* ------------------------------------------------------ cases that meet the hypotheses *)

(* three nodes, the third is held *)
Definition corner (i : nat) : vec := fun k =>
  if (i =? 1)%nat then (if (k =? 0)%nat then 1 else 0) else if (i =? 2)%nat then (if (k =? 1)%nat then 1 else 0) else 0.
Definition roof (v : R) : list condition :=
  [([((2, 3), (0, 1)); ((5, 6), (1, 2))]%nat, fun p => if (p =? 1)%nat then v else 0)].

Lemma roof_prescribed v d w : prescribed (roof v) d w <-> (d = 2%nat /\ w = 0) \/ (d = 5%nat /\ w = v).
Proof.
  split.
  - intros (sl & c & s & q & [E|[]] & Hs & Hp & ->). inversion E; subst.
    destruct Hs as [<-|[<-|[]]]; cbn in Hp; destruct Hp as [P|[]]; injection P as <- <-; [left|right]; split; reflexivity.
  - intros [[-> ->]|[-> ->]]; eexists _, _, _, _; (split; [left; reflexivity|]).
    + split; [left; reflexivity|]. split; [left; reflexivity|reflexivity].
    + split; [right; left; reflexivity|]. split; [left; reflexivity|reflexivity].
Qed.

Lemma delta_pos n : symmetric n delta /\ pos_def n delta.
Proof.
  split.
  - intros i j _ _. unfold delta. rewrite Nat.eqb_sym. reflexivity.
  - intros x (i & Hi & Hx). unfold qform, dot.
    rewrite (sum_ext n _ (fun i => x i * x i)).
    + apply (sum_pos n _ i); auto; [intros; apply Rle_0_sqr|]. apply Rsqr_pos_lt. exact Hx.
    + intros j Hj. f_equal. unfold mv. rewrite (sum_single n j); auto.
      * unfold delta. rewrite Nat.eqb_refl. ring.
      * intros m _ Hne. unfold delta. destruct (Nat.eqb_spec j m); [congruence|ring].
Qed.

Lemma roof_facts v : faces_ok 2 3 bar_faces /\ well_shaped 6 (roof v) /\ consistent (prescribed (roof v)) /\
  (exists d w, prescribed (roof v) d w) /\
  (forall e a k, In e bar_faces -> In a e -> (k < 2)%nat -> ~ fixed_dof (prescribed (roof v)) 3 a k).
Proof.
  split; [|split; [|split; [|split]]].
  - constructor; [|constructor]. split; [reflexivity|]. split.
    + repeat constructor; simpl; intros H; repeat destruct H as [H|H]; try discriminate; auto.
    + repeat constructor; lia.
  - intros sl c s [E|[]] Hs; inversion E; subst; destruct Hs as [<-|[<-|[]]]; simpl; unfold matching; simpl; lia.
  - intros d x y Hx Hy. apply roof_prescribed in Hx, Hy. destruct Hx as [[D ->]|[D ->]], Hy as [[D' ->]|[D' ->]]; auto; lia.
  - exists 5%nat, v. apply roof_prescribed. auto.
  - intros e a k [<-|[]] Ha Hk (w & Hw). apply roof_prescribed in Hw.
    destruct Ha as [<-|[<-|[]]]; destruct k as [|[|k]]; lia.
Qed.
