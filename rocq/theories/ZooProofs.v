(* The cube and the ball of the library. *)
From Coq Require Import Reals List Arith ZArith Bool Sorted Lia Lra.
From Verif Require Import Common PyModel RVec LinAlg ListLemmas MeshModel MeshSpec MeshFacesProofs FemSpec CrossSpec SolidSpec
  ZooModel ZooSpec ZooCheck.
Import ListNotations.
Local Open Scope list_scope.
Local Open Scope R_scope.

Lemma cube_ok : solid_ok 8 cube_table cube_elements = true.
Proof. vm_cast_no_check (eq_refl true). Qed.
Lemma ball_ok : solid_ok 8 ball_table ball_elements = true.
Proof. vm_cast_no_check (eq_refl true). Qed.
Lemma cube_is_solid : solid_grid cube_nodes cube_elements.
Proof. exact (solid_sound 2 cube_table cube_elements eq_refl 8 cube_ok). Qed.
Lemma ball_is_solid : solid_grid ball_nodes ball_elements.
Proof. exact (solid_sound 100000000 ball_table ball_elements eq_refl 8 ball_ok). Qed.

Lemma cube_shape : shape_ok (List.length cube_table) cube_elements = true. Proof. reflexivity. Qed.

(* ------------------------------------------------------------------ the cube *)

Lemma cube_nodes_are r : In r cube_nodes <->
  exists i j k, (i <= 2)%nat /\ (j <= 2)%nat /\ (k <= 2)%nat /\ r = [INR i / 2; INR j / 2; INR k / 2].
Proof.
  unfold cube_nodes, over. rewrite in_map_iff.
  assert (A : forall q, In q cube_table <-> exists i j k, (i <= 2)%nat /\ (j <= 2)%nat /\ (k <= 2)%nat /\ q = [Z.of_nat i; Z.of_nat j; Z.of_nat k]).
  { intros q. split.
    - intros H. assert (B : forallb (fun q => existsb (fun '(i, j, k) => if list_eq_dec Z.eq_dec q [Z.of_nat i; Z.of_nat j; Z.of_nat k] then true else false)
        (list_prod (list_prod [0; 1; 2] [0; 1; 2]) [0; 1; 2])%nat) cube_table = true) by reflexivity.
      rewrite forallb_forall in B. specialize (B q H). apply existsb_exists in B. destruct B as ([[i j] k] & I & E).
      apply in_prod_iff in I. destruct I as [I K]. apply in_prod_iff in I. destruct I as [I J].
      destruct (list_eq_dec Z.eq_dec q _) as [->|]; [|discriminate]. exists i, j, k. cbn in I, J, K. repeat split; lia.
    - intros (i & j & k & I & J & K & ->).
      assert (B : forallb (fun '(i, j, k) => existsb (fun q => if list_eq_dec Z.eq_dec q [Z.of_nat i; Z.of_nat j; Z.of_nat k] then true else false) cube_table)
        (list_prod (list_prod [0; 1; 2] [0; 1; 2]) [0; 1; 2])%nat = true) by reflexivity.
      rewrite forallb_forall in B. assert (H : In (i, j, k) (list_prod (list_prod [0; 1; 2] [0; 1; 2]) [0; 1; 2])%nat).
      { repeat (apply in_prod_iff; split); cbn; lia. }
      specialize (B _ H). cbv beta iota in B. apply existsb_exists in B. destruct B as (q & Q & E).
      destruct (list_eq_dec Z.eq_dec q _) as [->|]; [auto|discriminate]. }
  split.
  - intros (q & <- & H). apply A in H. destruct H as (i & j & k & I & J & K & ->). exists i, j, k. cbn [map]. rewrite !INR_IZR_INZ. auto.
  - intros (i & j & k & I & J & K & ->). exists [Z.of_nat i; Z.of_nat j; Z.of_nat k]. cbn [map]. rewrite !INR_IZR_INZ. split; auto.
    apply A. eauto 8.
Qed.

Lemma cube_volumes : lsum cube_elements (element_volume (table_of cube_nodes)) = 1.
Proof.
  unfold cube_nodes. rewrite (volumes_over 2 cube_table cube_elements eq_refl).
  replace (fold_right _ _ _) with 48%Z by reflexivity. field.
Qed.

Lemma cube_entries : forall i c, (0 <= entry cube_table i c <= 2)%Z.
Proof.
  assert (B : forallb (forallb (fun z => (0 <=? z) && (z <=? 2))%Z) cube_table = true) by reflexivity.
  rewrite forallb_forall in B. intros i c. unfold entry.
  destruct (nth_in_or_default i cube_table []) as [H| ->]; [|destruct c; cbn; lia].
  specialize (B _ H). rewrite forallb_forall in B. destruct (nth_in_or_default c (nth i cube_table []) 0%Z) as [K| ->]; [|lia].
  specialize (B _ K). apply andb_true_iff in B. lia.
Qed.
Lemma cube_inside e p : within_solid (corners (table_of cube_nodes) e) p -> forall c, (c < 3)%nat -> 0 <= p c <= 1.
Proof.
  intros (a & A0 & A1 & Ap) c Hc. rewrite (Ap c Hc). apply mean_bounds; auto. intros i _. unfold corners, cube_nodes.
  rewrite entry_over. destruct (cube_entries (nth i e 0%nat) c) as [L U]. apply IZR_le in L, U. lra.
Qed.

Definition flat (f : list nat) : bool :=
  existsb (fun '(c, v) => forallb (fun n => (entry cube_table n c =? v)%Z) f) (list_prod [0; 1; 2]%nat [0; 2]%Z).
Lemma flat_spec f : flat f = true <-> exists c v, (c < 3)%nat /\ (v = 0 \/ v = 1) /\ forall n, In n f -> table_of cube_nodes n c = v.
Proof.
  unfold flat. rewrite existsb_exists. split.
  - intros ([c v] & I & H). apply in_prod_iff in I. destruct I as [I J]. rewrite forallb_forall in H.
    exists c, (IZR v / 2). split; [cbn in I; lia|]. split; [cbn in J; destruct J as [<-|[<-|[]]]; lra|].
    intros n Hn. unfold cube_nodes. rewrite entry_over. specialize (H n Hn). apply Z.eqb_eq in H. now rewrite H.
  - intros (c & v & Hc & Hv & H).
    exists (c, if Req_EM_T v 0 then 0%Z else 2%Z). split.
    + apply in_prod_iff. split; [cbn; lia|]. destruct (Req_EM_T v 0); cbn; auto.
    + rewrite forallb_forall. intros n Hn. specialize (H n Hn). unfold cube_nodes in H. rewrite entry_over in H. apply Z.eqb_eq.
      apply eq_IZR. destruct (Req_EM_T v 0); destruct Hv; subst; lra.
Qed.
Definition same_set (f g : list nat) : bool := forallb (mem f) g && forallb (mem g) f.
Lemma cube_sides f : boundary_face 4 cube_elements f <-> cube_side cube_nodes cube_elements f.
Proof.
  pose proof (shape_simplices cube_table cube_elements cube_shape) as HS.
  assert (B1 : forallb flat (boundary_surfaces cube_elements) = true) by (vm_cast_no_check (eq_refl true)).
  assert (B2 : forallb (fun e => forallb (fun g => if (List.length g =? 3)%nat then if flat g then existsb (same_set g) (boundary_surfaces cube_elements) else true else true)
    (subs e)) cube_elements = true) by (vm_cast_no_check (eq_refl true)).
  rewrite forallb_forall in B1, B2. split.
  - intros H. pose proof (proj2 (boundary_surfaces_In 4 cube_elements HS f) H) as I. specialize (B1 f I). apply flat_spec in B1.
    destruct H as (S & L & k & e & K & J & _). split; [exact S|]. split; [lia|]. split; [|exact B1]. exists e. split; [exact (nth_error_In _ _ K)|exact J].
  - intros (S & L & (e & He & I) & F).
    destruct (triple_sub cube_table cube_elements cube_shape e f He L (sorted_lt_NoDup f S) I) as (g & G1 & G2 & G3).
    specialize (B2 e He). rewrite forallb_forall in B2. specialize (B2 g G1). rewrite G2 in B2. cbn [Nat.eqb] in B2.
    assert (Fg : flat g = true).
    { apply flat_spec. destruct F as (c & v & Hc & Hv & F). exists c, v. split; auto. split; auto. intros n Hn. apply F, G3, Hn. }
    rewrite Fg in B2. apply existsb_exists in B2. destruct B2 as (b & Hb & E). unfold same_set in E. apply andb_true_iff in E.
    destruct E as [E1 E2]. rewrite forallb_forall in E1, E2.
    apply (boundary_surfaces_In 4 cube_elements HS) in Hb. pose proof Hb as (Sb & _).
    assert (f = b); [|subst; auto]. apply sorted_lt_unique; auto. intros x. split.
    + intros Hx. apply mem_In, E2, G3, Hx.
    + intros Hx. apply G3, mem_In, E1, Hx.
Qed.

Lemma cube_within (p : vec) (idx a b c d : nat) w0 w1 w2 w3 (r0 r1 r2 r3 : list Z) :
  nth_error cube_elements idx = Some [a; b; c; d] ->
  nth a cube_table [] = r0 -> nth b cube_table [] = r1 -> nth c cube_table [] = r2 -> nth d cube_table [] = r3 ->
  0 <= w0 -> 0 <= w1 -> 0 <= w2 -> 0 <= w3 -> w0 + w1 + w2 + w3 = 1 ->
  2 * p 0%nat = w0 * IZR (nth 0 r0 0%Z) + w1 * IZR (nth 0 r1 0%Z) + w2 * IZR (nth 0 r2 0%Z) + w3 * IZR (nth 0 r3 0%Z) ->
  2 * p 1%nat = w0 * IZR (nth 1 r0 0%Z) + w1 * IZR (nth 1 r1 0%Z) + w2 * IZR (nth 1 r2 0%Z) + w3 * IZR (nth 1 r3 0%Z) ->
  2 * p 2%nat = w0 * IZR (nth 2 r0 0%Z) + w1 * IZR (nth 2 r1 0%Z) + w2 * IZR (nth 2 r2 0%Z) + w3 * IZR (nth 2 r3 0%Z) ->
  exists e, In e cube_elements /\ within_solid (corners (table_of cube_nodes) e) p.
Proof.
  intros E <- <- <- <- W0 W1 W2 W3 W P0 P1 P2. exists [a; b; c; d]. split; [eapply nth_error_In; eauto|].
  exists (fun i => nth i [w0; w1; w2; w3] 0). split; [|split].
  - intros i Hi. destruct i as [|[|[|[|i]]]]; cbn [nth]; auto; lia.
  - cbn [sum nth]. lra.
  - intros k Hk. unfold corners, cube_nodes. cbn [sum nth]. rewrite !entry_over. unfold entry.
    destruct k as [|[|[|k]]]; [lra|lra|lra|lia].
Qed.

Lemma cell_000 (p : vec) : 0 <= p 0%nat <= 1/2 -> 0 <= p 1%nat <= 1/2 -> 0 <= p 2%nat <= 1/2 ->
  exists e, In e cube_elements /\ within_solid (corners (table_of cube_nodes) e) p.
Proof.
  intros H0 H1 H2.
  destruct (Rle_dec 0 ((1) + (-2) * p 0%nat + (-2) * p 1%nat + (-2) * p 2%nat)) as [?|?]; [exact (cube_within p 0 0 1 3 9 ((1) + (-2) * p 0%nat + (-2) * p 1%nat + (-2) * p 2%nat) ((0) + (2) * p 0%nat) ((0) + (2) * p 1%nat) ((0) + (2) * p 2%nat) [0; 0; 0]%Z [1; 0; 0]%Z [0; 1; 0]%Z [0; 0; 1]%Z eq_refl eq_refl eq_refl eq_refl eq_refl ltac:(lra) ltac:(lra) ltac:(lra) ltac:(lra) ltac:(lra) ltac:(cbn [nth]; lra) ltac:(cbn [nth]; lra) ltac:(cbn [nth]; lra))|].
  destruct (Rle_dec 0 ((-1) + (2) * p 0%nat + (2) * p 1%nat + (-2) * p 2%nat)) as [?|?]; [exact (cube_within p 4 1 4 3 13 ((1) + (-2) * p 1%nat) ((-1) + (2) * p 0%nat + (2) * p 1%nat + (-2) * p 2%nat) ((1) + (-2) * p 0%nat) ((0) + (2) * p 2%nat) [1; 0; 0]%Z [1; 1; 0]%Z [0; 1; 0]%Z [1; 1; 1]%Z eq_refl eq_refl eq_refl eq_refl eq_refl ltac:(lra) ltac:(lra) ltac:(lra) ltac:(lra) ltac:(lra) ltac:(cbn [nth]; lra) ltac:(cbn [nth]; lra) ltac:(cbn [nth]; lra))|].
  destruct (Rle_dec 0 ((-1) + (2) * p 0%nat + (-2) * p 1%nat + (2) * p 2%nat)) as [?|?]; [exact (cube_within p 12 1 9 10 13 ((1) + (-2) * p 2%nat) ((1) + (-2) * p 0%nat) ((-1) + (2) * p 0%nat + (-2) * p 1%nat + (2) * p 2%nat) ((0) + (2) * p 1%nat) [1; 0; 0]%Z [0; 0; 1]%Z [1; 0; 1]%Z [1; 1; 1]%Z eq_refl eq_refl eq_refl eq_refl eq_refl ltac:(lra) ltac:(lra) ltac:(lra) ltac:(lra) ltac:(lra) ltac:(cbn [nth]; lra) ltac:(cbn [nth]; lra) ltac:(cbn [nth]; lra))|].
  destruct (Rle_dec 0 ((-1) + (-2) * p 0%nat + (2) * p 1%nat + (2) * p 2%nat)) as [?|?]; [exact (cube_within p 16 3 9 13 12 ((1) + (-2) * p 2%nat) ((1) + (-2) * p 1%nat) ((0) + (2) * p 0%nat) ((-1) + (-2) * p 0%nat + (2) * p 1%nat + (2) * p 2%nat) [0; 1; 0]%Z [0; 0; 1]%Z [1; 1; 1]%Z [0; 1; 1]%Z eq_refl eq_refl eq_refl eq_refl eq_refl ltac:(lra) ltac:(lra) ltac:(lra) ltac:(lra) ltac:(lra) ltac:(cbn [nth]; lra) ltac:(cbn [nth]; lra) ltac:(cbn [nth]; lra))|].
  exact (cube_within p 8 1 3 9 13 ((1 / 2) + (1) * p 0%nat + (-1) * p 1%nat + (-1) * p 2%nat) ((1 / 2) + (-1) * p 0%nat + (1) * p 1%nat + (-1) * p 2%nat) ((1 / 2) + (-1) * p 0%nat + (-1) * p 1%nat + (1) * p 2%nat) ((-1 / 2) + (1) * p 0%nat + (1) * p 1%nat + (1) * p 2%nat) [1; 0; 0]%Z [0; 1; 0]%Z [0; 0; 1]%Z [1; 1; 1]%Z eq_refl eq_refl eq_refl eq_refl eq_refl ltac:(lra) ltac:(lra) ltac:(lra) ltac:(lra) ltac:(lra) ltac:(cbn [nth]; lra) ltac:(cbn [nth]; lra) ltac:(cbn [nth]; lra)).
Qed.
Lemma cell_100 (p : vec) : 1/2 <= p 0%nat <= 1 -> 0 <= p 1%nat <= 1/2 -> 0 <= p 2%nat <= 1/2 ->
  exists e, In e cube_elements /\ within_solid (corners (table_of cube_nodes) e) p.
Proof.
  intros H0 H1 H2.
  destruct (Rle_dec 0 ((1) + (-2) * p 0%nat + (-2) * p 1%nat + (2) * p 2%nat)) as [?|?]; [exact (cube_within p 22 10 11 1 13 ((1) + (-2) * p 0%nat + (-2) * p 1%nat + (2) * p 2%nat) ((-1) + (2) * p 0%nat) ((1) + (-2) * p 2%nat) ((0) + (2) * p 1%nat) [1; 0; 1]%Z [2; 0; 1]%Z [1; 0; 0]%Z [1; 1; 1]%Z eq_refl eq_refl eq_refl eq_refl eq_refl ltac:(lra) ltac:(lra) ltac:(lra) ltac:(lra) ltac:(lra) ltac:(cbn [nth]; lra) ltac:(cbn [nth]; lra) ltac:(cbn [nth]; lra))|].
  destruct (Rle_dec 0 ((-3) + (2) * p 0%nat + (2) * p 1%nat + (2) * p 2%nat)) as [?|?]; [exact (cube_within p 26 11 14 5 13 ((1) + (-2) * p 1%nat) ((-3) + (2) * p 0%nat + (2) * p 1%nat + (2) * p 2%nat) ((1) + (-2) * p 2%nat) ((2) + (-2) * p 0%nat) [2; 0; 1]%Z [2; 1; 1]%Z [2; 1; 0]%Z [1; 1; 1]%Z eq_refl eq_refl eq_refl eq_refl eq_refl ltac:(lra) ltac:(lra) ltac:(lra) ltac:(lra) ltac:(lra) ltac:(cbn [nth]; lra) ltac:(cbn [nth]; lra) ltac:(cbn [nth]; lra))|].
  destruct (Rle_dec 0 ((-1) + (2) * p 0%nat + (-2) * p 1%nat + (-2) * p 2%nat)) as [?|?]; [exact (cube_within p 34 11 1 5 2 ((0) + (2) * p 2%nat) ((2) + (-2) * p 0%nat) ((0) + (2) * p 1%nat) ((-1) + (2) * p 0%nat + (-2) * p 1%nat + (-2) * p 2%nat) [2; 0; 1]%Z [1; 0; 0]%Z [2; 1; 0]%Z [2; 0; 0]%Z eq_refl eq_refl eq_refl eq_refl eq_refl ltac:(lra) ltac:(lra) ltac:(lra) ltac:(lra) ltac:(lra) ltac:(cbn [nth]; lra) ltac:(cbn [nth]; lra) ltac:(cbn [nth]; lra))|].
  destruct (Rle_dec 0 ((1) + (-2) * p 0%nat + (2) * p 1%nat + (-2) * p 2%nat)) as [?|?]; [exact (cube_within p 38 13 1 4 5 ((0) + (2) * p 2%nat) ((1) + (-2) * p 1%nat) ((1) + (-2) * p 0%nat + (2) * p 1%nat + (-2) * p 2%nat) ((-1) + (2) * p 0%nat) [1; 1; 1]%Z [1; 0; 0]%Z [1; 1; 0]%Z [2; 1; 0]%Z eq_refl eq_refl eq_refl eq_refl eq_refl ltac:(lra) ltac:(lra) ltac:(lra) ltac:(lra) ltac:(lra) ltac:(cbn [nth]; lra) ltac:(cbn [nth]; lra) ltac:(cbn [nth]; lra))|].
  exact (cube_within p 30 11 13 5 1 ((-1 / 2) + (1) * p 0%nat + (-1) * p 1%nat + (1) * p 2%nat) ((1 / 2) + (-1) * p 0%nat + (1) * p 1%nat + (1) * p 2%nat) ((-1 / 2) + (1) * p 0%nat + (1) * p 1%nat + (-1) * p 2%nat) ((3 / 2) + (-1) * p 0%nat + (-1) * p 1%nat + (-1) * p 2%nat) [2; 0; 1]%Z [1; 1; 1]%Z [2; 1; 0]%Z [1; 0; 0]%Z eq_refl eq_refl eq_refl eq_refl eq_refl ltac:(lra) ltac:(lra) ltac:(lra) ltac:(lra) ltac:(lra) ltac:(cbn [nth]; lra) ltac:(cbn [nth]; lra) ltac:(cbn [nth]; lra)).
Qed.
Lemma cell_010 (p : vec) : 0 <= p 0%nat <= 1/2 -> 1/2 <= p 1%nat <= 1 -> 0 <= p 2%nat <= 1/2 ->
  exists e, In e cube_elements /\ within_solid (corners (table_of cube_nodes) e) p.
Proof.
  intros H0 H1 H2.
  destruct (Rle_dec 0 ((1) + (-2) * p 0%nat + (-2) * p 1%nat + (2) * p 2%nat)) as [?|?]; [exact (cube_within p 21 12 13 3 15 ((1) + (-2) * p 0%nat + (-2) * p 1%nat + (2) * p 2%nat) ((0) + (2) * p 0%nat) ((1) + (-2) * p 2%nat) ((-1) + (2) * p 1%nat) [0; 1; 1]%Z [1; 1; 1]%Z [0; 1; 0]%Z [0; 2; 1]%Z eq_refl eq_refl eq_refl eq_refl eq_refl ltac:(lra) ltac:(lra) ltac:(lra) ltac:(lra) ltac:(lra) ltac:(cbn [nth]; lra) ltac:(cbn [nth]; lra) ltac:(cbn [nth]; lra))|].
  destruct (Rle_dec 0 ((-3) + (2) * p 0%nat + (2) * p 1%nat + (2) * p 2%nat)) as [?|?]; [exact (cube_within p 25 13 16 7 15 ((2) + (-2) * p 1%nat) ((-3) + (2) * p 0%nat + (2) * p 1%nat + (2) * p 2%nat) ((1) + (-2) * p 2%nat) ((1) + (-2) * p 0%nat) [1; 1; 1]%Z [1; 2; 1]%Z [1; 2; 0]%Z [0; 2; 1]%Z eq_refl eq_refl eq_refl eq_refl eq_refl ltac:(lra) ltac:(lra) ltac:(lra) ltac:(lra) ltac:(lra) ltac:(cbn [nth]; lra) ltac:(cbn [nth]; lra) ltac:(cbn [nth]; lra))|].
  destruct (Rle_dec 0 ((1) + (2) * p 0%nat + (-2) * p 1%nat + (-2) * p 2%nat)) as [?|?]; [exact (cube_within p 33 13 3 7 4 ((0) + (2) * p 2%nat) ((1) + (-2) * p 0%nat) ((-1) + (2) * p 1%nat) ((1) + (2) * p 0%nat + (-2) * p 1%nat + (-2) * p 2%nat) [1; 1; 1]%Z [0; 1; 0]%Z [1; 2; 0]%Z [1; 1; 0]%Z eq_refl eq_refl eq_refl eq_refl eq_refl ltac:(lra) ltac:(lra) ltac:(lra) ltac:(lra) ltac:(lra) ltac:(cbn [nth]; lra) ltac:(cbn [nth]; lra) ltac:(cbn [nth]; lra))|].
  destruct (Rle_dec 0 ((-1) + (-2) * p 0%nat + (2) * p 1%nat + (-2) * p 2%nat)) as [?|?]; [exact (cube_within p 37 15 3 6 7 ((0) + (2) * p 2%nat) ((2) + (-2) * p 1%nat) ((-1) + (-2) * p 0%nat + (2) * p 1%nat + (-2) * p 2%nat) ((0) + (2) * p 0%nat) [0; 2; 1]%Z [0; 1; 0]%Z [0; 2; 0]%Z [1; 2; 0]%Z eq_refl eq_refl eq_refl eq_refl eq_refl ltac:(lra) ltac:(lra) ltac:(lra) ltac:(lra) ltac:(lra) ltac:(cbn [nth]; lra) ltac:(cbn [nth]; lra) ltac:(cbn [nth]; lra))|].
  exact (cube_within p 29 13 15 7 3 ((1 / 2) + (1) * p 0%nat + (-1) * p 1%nat + (1) * p 2%nat) ((-1 / 2) + (-1) * p 0%nat + (1) * p 1%nat + (1) * p 2%nat) ((-1 / 2) + (1) * p 0%nat + (1) * p 1%nat + (-1) * p 2%nat) ((3 / 2) + (-1) * p 0%nat + (-1) * p 1%nat + (-1) * p 2%nat) [1; 1; 1]%Z [0; 2; 1]%Z [1; 2; 0]%Z [0; 1; 0]%Z eq_refl eq_refl eq_refl eq_refl eq_refl ltac:(lra) ltac:(lra) ltac:(lra) ltac:(lra) ltac:(lra) ltac:(cbn [nth]; lra) ltac:(cbn [nth]; lra) ltac:(cbn [nth]; lra)).
Qed.
Lemma cell_110 (p : vec) : 1/2 <= p 0%nat <= 1 -> 1/2 <= p 1%nat <= 1 -> 0 <= p 2%nat <= 1/2 ->
  exists e, In e cube_elements /\ within_solid (corners (table_of cube_nodes) e) p.
Proof.
  intros H0 H1 H2.
  destruct (Rle_dec 0 ((3) + (-2) * p 0%nat + (-2) * p 1%nat + (-2) * p 2%nat)) as [?|?]; [exact (cube_within p 3 4 5 7 13 ((3) + (-2) * p 0%nat + (-2) * p 1%nat + (-2) * p 2%nat) ((-1) + (2) * p 0%nat) ((-1) + (2) * p 1%nat) ((0) + (2) * p 2%nat) [1; 1; 0]%Z [2; 1; 0]%Z [1; 2; 0]%Z [1; 1; 1]%Z eq_refl eq_refl eq_refl eq_refl eq_refl ltac:(lra) ltac:(lra) ltac:(lra) ltac:(lra) ltac:(lra) ltac:(cbn [nth]; lra) ltac:(cbn [nth]; lra) ltac:(cbn [nth]; lra))|].
  destruct (Rle_dec 0 ((-3) + (2) * p 0%nat + (2) * p 1%nat + (-2) * p 2%nat)) as [?|?]; [exact (cube_within p 7 5 8 7 17 ((2) + (-2) * p 1%nat) ((-3) + (2) * p 0%nat + (2) * p 1%nat + (-2) * p 2%nat) ((2) + (-2) * p 0%nat) ((0) + (2) * p 2%nat) [2; 1; 0]%Z [2; 2; 0]%Z [1; 2; 0]%Z [2; 2; 1]%Z eq_refl eq_refl eq_refl eq_refl eq_refl ltac:(lra) ltac:(lra) ltac:(lra) ltac:(lra) ltac:(lra) ltac:(cbn [nth]; lra) ltac:(cbn [nth]; lra) ltac:(cbn [nth]; lra))|].
  destruct (Rle_dec 0 ((-1) + (2) * p 0%nat + (-2) * p 1%nat + (2) * p 2%nat)) as [?|?]; [exact (cube_within p 15 5 13 14 17 ((1) + (-2) * p 2%nat) ((2) + (-2) * p 0%nat) ((-1) + (2) * p 0%nat + (-2) * p 1%nat + (2) * p 2%nat) ((-1) + (2) * p 1%nat) [2; 1; 0]%Z [1; 1; 1]%Z [2; 1; 1]%Z [2; 2; 1]%Z eq_refl eq_refl eq_refl eq_refl eq_refl ltac:(lra) ltac:(lra) ltac:(lra) ltac:(lra) ltac:(lra) ltac:(cbn [nth]; lra) ltac:(cbn [nth]; lra) ltac:(cbn [nth]; lra))|].
  destruct (Rle_dec 0 ((-1) + (-2) * p 0%nat + (2) * p 1%nat + (2) * p 2%nat)) as [?|?]; [exact (cube_within p 19 7 13 17 16 ((1) + (-2) * p 2%nat) ((2) + (-2) * p 1%nat) ((-1) + (2) * p 0%nat) ((-1) + (-2) * p 0%nat + (2) * p 1%nat + (2) * p 2%nat) [1; 2; 0]%Z [1; 1; 1]%Z [2; 2; 1]%Z [1; 2; 1]%Z eq_refl eq_refl eq_refl eq_refl eq_refl ltac:(lra) ltac:(lra) ltac:(lra) ltac:(lra) ltac:(lra) ltac:(cbn [nth]; lra) ltac:(cbn [nth]; lra) ltac:(cbn [nth]; lra))|].
  exact (cube_within p 11 5 7 13 17 ((1 / 2) + (1) * p 0%nat + (-1) * p 1%nat + (-1) * p 2%nat) ((1 / 2) + (-1) * p 0%nat + (1) * p 1%nat + (-1) * p 2%nat) ((3 / 2) + (-1) * p 0%nat + (-1) * p 1%nat + (1) * p 2%nat) ((-3 / 2) + (1) * p 0%nat + (1) * p 1%nat + (1) * p 2%nat) [2; 1; 0]%Z [1; 2; 0]%Z [1; 1; 1]%Z [2; 2; 1]%Z eq_refl eq_refl eq_refl eq_refl eq_refl ltac:(lra) ltac:(lra) ltac:(lra) ltac:(lra) ltac:(lra) ltac:(cbn [nth]; lra) ltac:(cbn [nth]; lra) ltac:(cbn [nth]; lra)).
Qed.
Lemma cell_001 (p : vec) : 0 <= p 0%nat <= 1/2 -> 0 <= p 1%nat <= 1/2 -> 1/2 <= p 2%nat <= 1 ->
  exists e, In e cube_elements /\ within_solid (corners (table_of cube_nodes) e) p.
Proof.
  intros H0 H1 H2.
  destruct (Rle_dec 0 ((-1) + (-2) * p 0%nat + (-2) * p 1%nat + (2) * p 2%nat)) as [?|?]; [exact (cube_within p 20 18 19 9 21 ((-1) + (-2) * p 0%nat + (-2) * p 1%nat + (2) * p 2%nat) ((0) + (2) * p 0%nat) ((2) + (-2) * p 2%nat) ((0) + (2) * p 1%nat) [0; 0; 2]%Z [1; 0; 2]%Z [0; 0; 1]%Z [0; 1; 2]%Z eq_refl eq_refl eq_refl eq_refl eq_refl ltac:(lra) ltac:(lra) ltac:(lra) ltac:(lra) ltac:(lra) ltac:(cbn [nth]; lra) ltac:(cbn [nth]; lra) ltac:(cbn [nth]; lra))|].
  destruct (Rle_dec 0 ((-3) + (2) * p 0%nat + (2) * p 1%nat + (2) * p 2%nat)) as [?|?]; [exact (cube_within p 24 19 22 13 21 ((1) + (-2) * p 1%nat) ((-3) + (2) * p 0%nat + (2) * p 1%nat + (2) * p 2%nat) ((2) + (-2) * p 2%nat) ((1) + (-2) * p 0%nat) [1; 0; 2]%Z [1; 1; 2]%Z [1; 1; 1]%Z [0; 1; 2]%Z eq_refl eq_refl eq_refl eq_refl eq_refl ltac:(lra) ltac:(lra) ltac:(lra) ltac:(lra) ltac:(lra) ltac:(cbn [nth]; lra) ltac:(cbn [nth]; lra) ltac:(cbn [nth]; lra))|].
  destruct (Rle_dec 0 ((1) + (2) * p 0%nat + (-2) * p 1%nat + (-2) * p 2%nat)) as [?|?]; [exact (cube_within p 32 19 9 13 10 ((-1) + (2) * p 2%nat) ((1) + (-2) * p 0%nat) ((0) + (2) * p 1%nat) ((1) + (2) * p 0%nat + (-2) * p 1%nat + (-2) * p 2%nat) [1; 0; 2]%Z [0; 0; 1]%Z [1; 1; 1]%Z [1; 0; 1]%Z eq_refl eq_refl eq_refl eq_refl eq_refl ltac:(lra) ltac:(lra) ltac:(lra) ltac:(lra) ltac:(lra) ltac:(cbn [nth]; lra) ltac:(cbn [nth]; lra) ltac:(cbn [nth]; lra))|].
  destruct (Rle_dec 0 ((1) + (-2) * p 0%nat + (2) * p 1%nat + (-2) * p 2%nat)) as [?|?]; [exact (cube_within p 36 21 9 12 13 ((-1) + (2) * p 2%nat) ((1) + (-2) * p 1%nat) ((1) + (-2) * p 0%nat + (2) * p 1%nat + (-2) * p 2%nat) ((0) + (2) * p 0%nat) [0; 1; 2]%Z [0; 0; 1]%Z [0; 1; 1]%Z [1; 1; 1]%Z eq_refl eq_refl eq_refl eq_refl eq_refl ltac:(lra) ltac:(lra) ltac:(lra) ltac:(lra) ltac:(lra) ltac:(cbn [nth]; lra) ltac:(cbn [nth]; lra) ltac:(cbn [nth]; lra))|].
  exact (cube_within p 28 19 21 13 9 ((-1 / 2) + (1) * p 0%nat + (-1) * p 1%nat + (1) * p 2%nat) ((-1 / 2) + (-1) * p 0%nat + (1) * p 1%nat + (1) * p 2%nat) ((1 / 2) + (1) * p 0%nat + (1) * p 1%nat + (-1) * p 2%nat) ((3 / 2) + (-1) * p 0%nat + (-1) * p 1%nat + (-1) * p 2%nat) [1; 0; 2]%Z [0; 1; 2]%Z [1; 1; 1]%Z [0; 0; 1]%Z eq_refl eq_refl eq_refl eq_refl eq_refl ltac:(lra) ltac:(lra) ltac:(lra) ltac:(lra) ltac:(lra) ltac:(cbn [nth]; lra) ltac:(cbn [nth]; lra) ltac:(cbn [nth]; lra)).
Qed.
Lemma cell_101 (p : vec) : 1/2 <= p 0%nat <= 1 -> 0 <= p 1%nat <= 1/2 -> 1/2 <= p 2%nat <= 1 ->
  exists e, In e cube_elements /\ within_solid (corners (table_of cube_nodes) e) p.
Proof.
  intros H0 H1 H2.
  destruct (Rle_dec 0 ((3) + (-2) * p 0%nat + (-2) * p 1%nat + (-2) * p 2%nat)) as [?|?]; [exact (cube_within p 2 10 11 13 19 ((3) + (-2) * p 0%nat + (-2) * p 1%nat + (-2) * p 2%nat) ((-1) + (2) * p 0%nat) ((0) + (2) * p 1%nat) ((-1) + (2) * p 2%nat) [1; 0; 1]%Z [2; 0; 1]%Z [1; 1; 1]%Z [1; 0; 2]%Z eq_refl eq_refl eq_refl eq_refl eq_refl ltac:(lra) ltac:(lra) ltac:(lra) ltac:(lra) ltac:(lra) ltac:(cbn [nth]; lra) ltac:(cbn [nth]; lra) ltac:(cbn [nth]; lra))|].
  destruct (Rle_dec 0 ((-1) + (2) * p 0%nat + (2) * p 1%nat + (-2) * p 2%nat)) as [?|?]; [exact (cube_within p 6 11 14 13 23 ((1) + (-2) * p 1%nat) ((-1) + (2) * p 0%nat + (2) * p 1%nat + (-2) * p 2%nat) ((2) + (-2) * p 0%nat) ((-1) + (2) * p 2%nat) [2; 0; 1]%Z [2; 1; 1]%Z [1; 1; 1]%Z [2; 1; 2]%Z eq_refl eq_refl eq_refl eq_refl eq_refl ltac:(lra) ltac:(lra) ltac:(lra) ltac:(lra) ltac:(lra) ltac:(cbn [nth]; lra) ltac:(cbn [nth]; lra) ltac:(cbn [nth]; lra))|].
  destruct (Rle_dec 0 ((-3) + (2) * p 0%nat + (-2) * p 1%nat + (2) * p 2%nat)) as [?|?]; [exact (cube_within p 14 11 19 20 23 ((2) + (-2) * p 2%nat) ((2) + (-2) * p 0%nat) ((-3) + (2) * p 0%nat + (-2) * p 1%nat + (2) * p 2%nat) ((0) + (2) * p 1%nat) [2; 0; 1]%Z [1; 0; 2]%Z [2; 0; 2]%Z [2; 1; 2]%Z eq_refl eq_refl eq_refl eq_refl eq_refl ltac:(lra) ltac:(lra) ltac:(lra) ltac:(lra) ltac:(lra) ltac:(cbn [nth]; lra) ltac:(cbn [nth]; lra) ltac:(cbn [nth]; lra))|].
  destruct (Rle_dec 0 ((-1) + (-2) * p 0%nat + (2) * p 1%nat + (2) * p 2%nat)) as [?|?]; [exact (cube_within p 18 13 19 23 22 ((2) + (-2) * p 2%nat) ((1) + (-2) * p 1%nat) ((-1) + (2) * p 0%nat) ((-1) + (-2) * p 0%nat + (2) * p 1%nat + (2) * p 2%nat) [1; 1; 1]%Z [1; 0; 2]%Z [2; 1; 2]%Z [1; 1; 2]%Z eq_refl eq_refl eq_refl eq_refl eq_refl ltac:(lra) ltac:(lra) ltac:(lra) ltac:(lra) ltac:(lra) ltac:(cbn [nth]; lra) ltac:(cbn [nth]; lra) ltac:(cbn [nth]; lra))|].
  exact (cube_within p 10 11 13 19 23 ((1 / 2) + (1) * p 0%nat + (-1) * p 1%nat + (-1) * p 2%nat) ((3 / 2) + (-1) * p 0%nat + (1) * p 1%nat + (-1) * p 2%nat) ((1 / 2) + (-1) * p 0%nat + (-1) * p 1%nat + (1) * p 2%nat) ((-3 / 2) + (1) * p 0%nat + (1) * p 1%nat + (1) * p 2%nat) [2; 0; 1]%Z [1; 1; 1]%Z [1; 0; 2]%Z [2; 1; 2]%Z eq_refl eq_refl eq_refl eq_refl eq_refl ltac:(lra) ltac:(lra) ltac:(lra) ltac:(lra) ltac:(lra) ltac:(cbn [nth]; lra) ltac:(cbn [nth]; lra) ltac:(cbn [nth]; lra)).
Qed.
Lemma cell_011 (p : vec) : 0 <= p 0%nat <= 1/2 -> 1/2 <= p 1%nat <= 1 -> 1/2 <= p 2%nat <= 1 ->
  exists e, In e cube_elements /\ within_solid (corners (table_of cube_nodes) e) p.
Proof.
  intros H0 H1 H2.
  destruct (Rle_dec 0 ((3) + (-2) * p 0%nat + (-2) * p 1%nat + (-2) * p 2%nat)) as [?|?]; [exact (cube_within p 1 12 13 15 21 ((3) + (-2) * p 0%nat + (-2) * p 1%nat + (-2) * p 2%nat) ((0) + (2) * p 0%nat) ((-1) + (2) * p 1%nat) ((-1) + (2) * p 2%nat) [0; 1; 1]%Z [1; 1; 1]%Z [0; 2; 1]%Z [0; 1; 2]%Z eq_refl eq_refl eq_refl eq_refl eq_refl ltac:(lra) ltac:(lra) ltac:(lra) ltac:(lra) ltac:(lra) ltac:(cbn [nth]; lra) ltac:(cbn [nth]; lra) ltac:(cbn [nth]; lra))|].
  destruct (Rle_dec 0 ((-1) + (2) * p 0%nat + (2) * p 1%nat + (-2) * p 2%nat)) as [?|?]; [exact (cube_within p 5 13 16 15 25 ((2) + (-2) * p 1%nat) ((-1) + (2) * p 0%nat + (2) * p 1%nat + (-2) * p 2%nat) ((1) + (-2) * p 0%nat) ((-1) + (2) * p 2%nat) [1; 1; 1]%Z [1; 2; 1]%Z [0; 2; 1]%Z [1; 2; 2]%Z eq_refl eq_refl eq_refl eq_refl eq_refl ltac:(lra) ltac:(lra) ltac:(lra) ltac:(lra) ltac:(lra) ltac:(cbn [nth]; lra) ltac:(cbn [nth]; lra) ltac:(cbn [nth]; lra))|].
  destruct (Rle_dec 0 ((-1) + (2) * p 0%nat + (-2) * p 1%nat + (2) * p 2%nat)) as [?|?]; [exact (cube_within p 13 13 21 22 25 ((2) + (-2) * p 2%nat) ((1) + (-2) * p 0%nat) ((-1) + (2) * p 0%nat + (-2) * p 1%nat + (2) * p 2%nat) ((-1) + (2) * p 1%nat) [1; 1; 1]%Z [0; 1; 2]%Z [1; 1; 2]%Z [1; 2; 2]%Z eq_refl eq_refl eq_refl eq_refl eq_refl ltac:(lra) ltac:(lra) ltac:(lra) ltac:(lra) ltac:(lra) ltac:(cbn [nth]; lra) ltac:(cbn [nth]; lra) ltac:(cbn [nth]; lra))|].
  destruct (Rle_dec 0 ((-3) + (-2) * p 0%nat + (2) * p 1%nat + (2) * p 2%nat)) as [?|?]; [exact (cube_within p 17 15 21 25 24 ((2) + (-2) * p 2%nat) ((2) + (-2) * p 1%nat) ((0) + (2) * p 0%nat) ((-3) + (-2) * p 0%nat + (2) * p 1%nat + (2) * p 2%nat) [0; 2; 1]%Z [0; 1; 2]%Z [1; 2; 2]%Z [0; 2; 2]%Z eq_refl eq_refl eq_refl eq_refl eq_refl ltac:(lra) ltac:(lra) ltac:(lra) ltac:(lra) ltac:(lra) ltac:(cbn [nth]; lra) ltac:(cbn [nth]; lra) ltac:(cbn [nth]; lra))|].
  exact (cube_within p 9 13 15 21 25 ((3 / 2) + (1) * p 0%nat + (-1) * p 1%nat + (-1) * p 2%nat) ((1 / 2) + (-1) * p 0%nat + (1) * p 1%nat + (-1) * p 2%nat) ((1 / 2) + (-1) * p 0%nat + (-1) * p 1%nat + (1) * p 2%nat) ((-3 / 2) + (1) * p 0%nat + (1) * p 1%nat + (1) * p 2%nat) [1; 1; 1]%Z [0; 2; 1]%Z [0; 1; 2]%Z [1; 2; 2]%Z eq_refl eq_refl eq_refl eq_refl eq_refl ltac:(lra) ltac:(lra) ltac:(lra) ltac:(lra) ltac:(lra) ltac:(cbn [nth]; lra) ltac:(cbn [nth]; lra) ltac:(cbn [nth]; lra)).
Qed.
Lemma cell_111 (p : vec) : 1/2 <= p 0%nat <= 1 -> 1/2 <= p 1%nat <= 1 -> 1/2 <= p 2%nat <= 1 ->
  exists e, In e cube_elements /\ within_solid (corners (table_of cube_nodes) e) p.
Proof.
  intros H0 H1 H2.
  destruct (Rle_dec 0 ((1) + (-2) * p 0%nat + (-2) * p 1%nat + (2) * p 2%nat)) as [?|?]; [exact (cube_within p 23 22 23 13 25 ((1) + (-2) * p 0%nat + (-2) * p 1%nat + (2) * p 2%nat) ((-1) + (2) * p 0%nat) ((2) + (-2) * p 2%nat) ((-1) + (2) * p 1%nat) [1; 1; 2]%Z [2; 1; 2]%Z [1; 1; 1]%Z [1; 2; 2]%Z eq_refl eq_refl eq_refl eq_refl eq_refl ltac:(lra) ltac:(lra) ltac:(lra) ltac:(lra) ltac:(lra) ltac:(cbn [nth]; lra) ltac:(cbn [nth]; lra) ltac:(cbn [nth]; lra))|].
  destruct (Rle_dec 0 ((-5) + (2) * p 0%nat + (2) * p 1%nat + (2) * p 2%nat)) as [?|?]; [exact (cube_within p 27 23 26 17 25 ((2) + (-2) * p 1%nat) ((-5) + (2) * p 0%nat + (2) * p 1%nat + (2) * p 2%nat) ((2) + (-2) * p 2%nat) ((2) + (-2) * p 0%nat) [2; 1; 2]%Z [2; 2; 2]%Z [2; 2; 1]%Z [1; 2; 2]%Z eq_refl eq_refl eq_refl eq_refl eq_refl ltac:(lra) ltac:(lra) ltac:(lra) ltac:(lra) ltac:(lra) ltac:(cbn [nth]; lra) ltac:(cbn [nth]; lra) ltac:(cbn [nth]; lra))|].
  destruct (Rle_dec 0 ((1) + (2) * p 0%nat + (-2) * p 1%nat + (-2) * p 2%nat)) as [?|?]; [exact (cube_within p 35 23 13 17 14 ((-1) + (2) * p 2%nat) ((2) + (-2) * p 0%nat) ((-1) + (2) * p 1%nat) ((1) + (2) * p 0%nat + (-2) * p 1%nat + (-2) * p 2%nat) [2; 1; 2]%Z [1; 1; 1]%Z [2; 2; 1]%Z [2; 1; 1]%Z eq_refl eq_refl eq_refl eq_refl eq_refl ltac:(lra) ltac:(lra) ltac:(lra) ltac:(lra) ltac:(lra) ltac:(cbn [nth]; lra) ltac:(cbn [nth]; lra) ltac:(cbn [nth]; lra))|].
  destruct (Rle_dec 0 ((1) + (-2) * p 0%nat + (2) * p 1%nat + (-2) * p 2%nat)) as [?|?]; [exact (cube_within p 39 25 13 16 17 ((-1) + (2) * p 2%nat) ((2) + (-2) * p 1%nat) ((1) + (-2) * p 0%nat + (2) * p 1%nat + (-2) * p 2%nat) ((-1) + (2) * p 0%nat) [1; 2; 2]%Z [1; 1; 1]%Z [1; 2; 1]%Z [2; 2; 1]%Z eq_refl eq_refl eq_refl eq_refl eq_refl ltac:(lra) ltac:(lra) ltac:(lra) ltac:(lra) ltac:(lra) ltac:(cbn [nth]; lra) ltac:(cbn [nth]; lra) ltac:(cbn [nth]; lra))|].
  exact (cube_within p 31 23 25 17 13 ((-1 / 2) + (1) * p 0%nat + (-1) * p 1%nat + (1) * p 2%nat) ((-1 / 2) + (-1) * p 0%nat + (1) * p 1%nat + (1) * p 2%nat) ((-1 / 2) + (1) * p 0%nat + (1) * p 1%nat + (-1) * p 2%nat) ((5 / 2) + (-1) * p 0%nat + (-1) * p 1%nat + (-1) * p 2%nat) [2; 1; 2]%Z [1; 2; 2]%Z [2; 2; 1]%Z [1; 1; 1]%Z eq_refl eq_refl eq_refl eq_refl eq_refl ltac:(lra) ltac:(lra) ltac:(lra) ltac:(lra) ltac:(lra) ltac:(cbn [nth]; lra) ltac:(cbn [nth]; lra) ltac:(cbn [nth]; lra)).
Qed.

Lemma cube_covers (p : vec) : (forall c, (c < 3)%nat -> 0 <= p c <= 1) ->
  exists e, In e cube_elements /\ within_solid (corners (table_of cube_nodes) e) p.
Proof.
  intros H. pose proof (H 0%nat ltac:(lia)) as H0. pose proof (H 1%nat ltac:(lia)) as H1. pose proof (H 2%nat ltac:(lia)) as H2.
  destruct (Rle_dec (p 0%nat) (1 / 2)), (Rle_dec (p 1%nat) (1 / 2)), (Rle_dec (p 2%nat) (1 / 2)).
  - apply cell_000; lra.
  - apply cell_001; lra.
  - apply cell_010; lra.
  - apply cell_011; lra.
  - apply cell_100; lra.
  - apply cell_101; lra.
  - apply cell_110; lra.
  - apply cell_111; lra.
Qed.

Theorem cube_is_grid : cube_grid cube_nodes cube_elements.
Proof.
  constructor.
  - exact cube_is_solid.
  - exact cube_nodes_are.
  - exact cube_volumes.
  - exact cube_covers.
  - intros e p _. apply cube_inside.
  - exact cube_sides.
Qed.

(* ------------------------------------------------------------------ the ball *)

Definition norm_of (t : list (list Z)) (i : nat) : Z :=
  (entry t i 0 * entry t i 0 + entry t i 1 * entry t i 1 + entry t i 2 * entry t i 2)%Z.
Lemma norm_over s t i : (0 < s)%Z -> norm2 (over s t) i = IZR (norm_of t i) / IZR s ^ 2.
Proof.
  intros H. apply IZR_lt in H. unfold norm2, norm_of. cbn [sum]. rewrite !entry_over, !plus_IZR, !mult_IZR. field. lra.
Qed.
Theorem ball_is_grid : ball_grid (1 / 3) (1 / 50000000) ball_nodes ball_elements.
Proof.
  assert (HS : simplices 4 ball_elements) by (apply (shape_simplices ball_table); reflexivity).
  constructor.
  - exact ball_is_solid.
  - intros i (f & Hf & Hi). apply (boundary_surfaces_In 4 ball_elements HS) in Hf.
    assert (B : forallb (forallb (fun i => (Z.abs (3 * norm_of ball_table i - 10000000000000000) <=? 600000000)%Z)) (boundary_surfaces ball_elements) = true)
      by (vm_cast_no_check (eq_refl true)).
    rewrite forallb_forall in B. specialize (B f Hf). rewrite forallb_forall in B. specialize (B i Hi). apply Z.leb_le in B.
    assert (B1 : (9999999400000000 <= 3 * norm_of ball_table i <= 10000000600000000)%Z) by lia.
    unfold ball_nodes. rewrite norm_over by reflexivity. destruct B1 as [L U]. apply IZR_le in L, U. rewrite mult_IZR in L, U.
    apply Rabs_le. lra.
  - intros i Hi N. unfold ball_nodes in *. rewrite norm_over by reflexivity.
    assert (B : forallb (fun i => if existsb (fun f => mem f i) (boundary_surfaces ball_elements) then true else (12 * norm_of ball_table i <? 10000000000000000)%Z)
      (seq 0 64) = true) by (vm_cast_no_check (eq_refl true)).
    rewrite forallb_forall in B. unfold over in Hi. rewrite map_length in Hi. specialize (B i). rewrite in_seq in B. specialize (B (conj (Nat.le_0_l i) Hi)).
    cbv beta in B. destruct (existsb _ _) eqn:E.
    + exfalso. apply existsb_exists in E. destruct E as (f & Hf & Hm). apply N. exists f. split.
      * exact (proj1 (boundary_surfaces_In 4 ball_elements HS f) Hf).
      * exact (proj1 (mem_In f i) Hm).
    + apply Z.ltb_lt, IZR_lt in B. rewrite mult_IZR in B. lra.
Qed.
