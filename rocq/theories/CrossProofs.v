(* The structured cross mesh: nodes, look-ups and elements. *)
From Coq Require Import Reals R_Ifp List Arith ZArith Bool Lia Lra.
From Verif Require Import RVec PyModel MeshSpec FemSpec CrossModel CrossSpec.
Import ListNotations.
Local Open Scope R_scope.

(* ------------------------------------------------------------- filling arrays *)

(* the program appends [l] to what is filled already *)
Definition fills {A} (body : list A * nat -> result (list A * nat)) (l : list A) : Prop :=
  forall done rest, (length l <= length rest)%nat ->
  body (done ++ rest, length done) = Ok ((done ++ l) ++ skipn (length l) rest, length (done ++ l)).

Lemma fills_put {A} (a : A) : fills (put a) [a].
Proof.
  intros done rest H. unfold put, write. cbn [fst snd].
  destruct rest as [|r rest]; cbn in H; [lia|].
  rewrite app_length. cbn [length]. replace (length done <? length done + S (length rest))%nat with true by (symmetry; apply Nat.ltb_lt; lia).
  cbn [bind]. f_equal. f_equal.
  - rewrite firstn_app, Nat.sub_diag, firstn_all. cbn [firstn]. rewrite app_nil_r.
    rewrite skipn_app. rewrite skipn_all2 by lia. replace (S (length done) - length done)%nat with 1%nat by lia.
    cbn. rewrite <- app_assoc. reflexivity.
  - rewrite app_length. cbn. lia.
Qed.
Lemma skipn_more {A} : forall k m (l : list A), skipn k (skipn m l) = skipn (m + k) l.
Proof.
  intros k m. induction m as [|m IH]; intros l; cbn [skipn Nat.add]; auto.
  destruct l; [apply skipn_nil|apply IH].
Qed.
Lemma fills_bind {A} (f g : list A * nat -> result (list A * nat)) l m : fills f l -> fills g m ->
  fills (fun s => bind (f s) g) (l ++ m).
Proof.
  intros F G done rest H. rewrite app_length in H.
  rewrite F by lia. cbn [bind]. rewrite G by (rewrite skipn_length; lia).
  rewrite skipn_more. rewrite <- !app_assoc. rewrite (app_length l m). reflexivity.
Qed.
Lemma fills_nil {A} : fills (@Ok (list A * nat)) [].
Proof. intros done rest _. cbn. rewrite app_nil_r. reflexivity. Qed.
Lemma fills_for {A B} (body : B -> list A * nat -> result (list A * nat)) (f : B -> list A) :
  forall xs, (forall x, In x xs -> fills (body x) (f x)) -> fills (for_each xs body) (flat_map f xs).
Proof.
  induction xs as [|x xs IH]; intros H.
  - apply fills_nil.
  - cbn [flat_map]. intros done rest. cbn [for_each].
    apply (fills_bind (body x) (for_each xs body)).
    + apply H. left. auto.
    + apply IH. intros. apply H. right. auto.
Qed.
Lemma fills_ext {A} (f g : list A * nat -> result (list A * nat)) l : (forall s, f s = g s) -> fills g l -> fills f l.
Proof. intros E G done rest H. rewrite E. auto. Qed.
Lemma fills_zeros {A} (f : list A * nat -> result (list A * nat)) l a n : fills f l -> length l = n ->
  f (repeat a n, 0%nat) = Ok (l, n).
Proof.
  intros F E. specialize (F [] (repeat a n)). rewrite repeat_length in F. cbn in F.
  rewrite F by lia. rewrite skipn_all2 by (rewrite repeat_length; lia). rewrite app_nil_r, E. reflexivity.
Qed.

Lemma flat_map_single {A B} (f : A -> B) xs : flat_map (fun x => [f x]) xs = map f xs.
Proof. induction xs; cbn; congruence. Qed.
Lemma flat_map_map {A B C} (f : A -> list B) (g : B -> C) xs : flat_map (fun x => map g (f x)) xs = map g (flat_map f xs).
Proof. induction xs as [|x xs IH]; cbn; auto. rewrite IH, map_app. reflexivity. Qed.

Lemma flat_length {A B} (f : A -> list B) n xs : (forall x, In x xs -> length (f x) = n) ->
  length (flat_map f xs) = (length xs * n)%nat.
Proof.
  induction xs as [|x xs IH]; intros H; cbn; auto.
  rewrite app_length, IH, (H x); [lia|left; auto|intros; apply H; right; auto].
Qed.

(* ------------------------------------------------------------- points in half steps *)

Section Points.
  Variables sx sy : nat.

  Definition centres : list (nat * nat) :=
    flat_map (fun j => map (fun i => (2 * i + 1, 2 * j + 1)%nat) (down (Z.of_nat sx) 0)) (down (Z.of_nat sy) 0).
  Definition inner_points : list (nat * nat) :=
    flat_map (fun j => map (fun i => (2 * i, 2 * j)%nat) (down (Z.of_nat sx) 1)) (down (Z.of_nat sy) 1).
  Definition top_points := map (fun i => (2 * i, 2 * sy)%nat) (from_one (Z.of_nat sx)).
  Definition right_points := map (fun j => (2 * sx, 2 * j)%nat) (down (Z.of_nat sy) 0).
  Definition bottom_points := map (fun i => (2 * i, 0)%nat) (down (Z.of_nat sx) 0).
  Definition left_points := map (fun j => (0, 2 * j)%nat) (from_one (Z.of_nat sy)).
  Definition points : list (nat * nat) :=
    centres ++ inner_points ++ top_points ++ right_points ++ bottom_points ++ left_points.

  Lemma in_down n k i : In i (down (Z.of_nat n) k) <-> (k <= i < n)%nat.
  Proof. unfold down. rewrite Nat2Z.id, <- in_rev, in_seq. lia. Qed.
  Lemma in_from_one n i : In i (from_one (Z.of_nat n)) <-> (1 <= i <= n)%nat.
  Proof. unfold from_one. rewrite Nat2Z.id, in_seq. lia. Qed.
  Lemma down_length n k : length (down (Z.of_nat n) k) = (n - k)%nat.
  Proof. unfold down. rewrite rev_length, seq_length, Nat2Z.id. reflexivity. Qed.
  Lemma from_one_length n : length (from_one (Z.of_nat n)) = n.
  Proof. unfold from_one. rewrite seq_length, Nat2Z.id. reflexivity. Qed.
  Lemma down_nodup n k : NoDup (down n k).
  Proof. unfold down. apply NoDup_rev, seq_NoDup. Qed.
  Lemma from_one_nodup n : NoDup (from_one n).
  Proof. apply seq_NoDup. Qed.

  Definition is_point (p : nat * nat) : Prop :=
    (exists i j, (i <= sx)%nat /\ (j <= sy)%nat /\ p = (2 * i, 2 * j)%nat) \/
    (exists i j, (i < sx)%nat /\ (j < sy)%nat /\ p = (2 * i + 1, 2 * j + 1)%nat).

  Lemma in_centres p : In p centres <-> exists i j, (i < sx)%nat /\ (j < sy)%nat /\ p = (2 * i + 1, 2 * j + 1)%nat.
  Proof.
    unfold centres. rewrite in_flat_map. split.
    - intros (j & Hj & H). apply in_map_iff in H. destruct H as (i & <- & Hi).
      apply in_down in Hi, Hj. exists i, j. repeat split; lia.
    - intros (i & j & Hi & Hj & ->). exists j. rewrite in_down. split; [lia|].
      apply in_map_iff. exists i. rewrite in_down. split; [auto|lia].
  Qed.
  Lemma in_inner p : In p inner_points <-> exists i j, (1 <= i < sx)%nat /\ (1 <= j < sy)%nat /\ p = (2 * i, 2 * j)%nat.
  Proof.
    unfold inner_points. rewrite in_flat_map. split.
    - intros (j & Hj & H). apply in_map_iff in H. destruct H as (i & <- & Hi).
      apply in_down in Hi, Hj. exists i, j. repeat split; lia.
    - intros (i & j & Hi & Hj & ->). exists j. rewrite in_down. split; [lia|].
      apply in_map_iff. exists i. rewrite in_down. split; [auto|lia].
  Qed.
  Lemma in_top p : In p top_points <-> exists i, (1 <= i <= sx)%nat /\ p = (2 * i, 2 * sy)%nat.
  Proof.
    unfold top_points. rewrite in_map_iff. split; intros (i & H1 & H2); exists i; rewrite in_from_one in *; split; auto; lia.
  Qed.
  Lemma in_right p : In p right_points <-> exists j, (j < sy)%nat /\ p = (2 * sx, 2 * j)%nat.
  Proof.
    unfold right_points. rewrite in_map_iff. split; intros (i & H1 & H2); exists i; rewrite in_down in *; split; auto; lia.
  Qed.
  Lemma in_bottom p : In p bottom_points <-> exists i, (i < sx)%nat /\ p = (2 * i, 0)%nat.
  Proof.
    unfold bottom_points. rewrite in_map_iff. split; intros (i & H1 & H2); exists i; rewrite in_down in *; split; auto; lia.
  Qed.
  Lemma in_left p : In p left_points <-> exists j, (1 <= j <= sy)%nat /\ p = (0, 2 * j)%nat.
  Proof.
    unfold left_points. rewrite in_map_iff. split; intros (i & H1 & H2); exists i; rewrite in_from_one in *; split; auto; lia.
  Qed.

  Lemma flat_nodup {A B} (f : A -> list B) xs : NoDup xs -> (forall x, In x xs -> NoDup (f x)) ->
    (forall x y b, In x xs -> In y xs -> In b (f x) -> In b (f y) -> x = y) -> NoDup (flat_map f xs).
  Proof.
    induction xs as [|x xs IH]; intros N F D; cbn; [constructor|].
    inversion N as [|? ? N1 N2]; subst.
    assert (G : forall (l m : list B), NoDup l -> NoDup m -> (forall b, In b l -> ~ In b m) -> NoDup (l ++ m)).
    { induction l as [|b l IHl]; intros m L M X; cbn; auto. inversion L; subst. constructor.
      - rewrite in_app_iff. intros [?|?]; [contradiction|]. apply (X b); [left|]; auto.
      - apply IHl; auto. intros. apply X. right. auto. }
    apply G.
    - apply F. left. auto.
    - apply IH; auto.
      + intros. apply F. right. auto.
      + intros y z b Hy Hz. apply D; right; auto.
    - intros b H1 H2. apply in_flat_map in H2. destruct H2 as (y & Hy & H2).
      assert (x = y) by (eapply D; eauto; [left|right]; auto). subst. contradiction.
  Qed.
  Lemma map_nodup {A B} (f : A -> B) xs : (forall x y, In x xs -> In y xs -> f x = f y -> x = y) -> NoDup xs -> NoDup (map f xs).
  Proof.
    induction xs as [|x xs IH]; intros I N; cbn; [constructor|]. inversion N; subst. constructor.
    - rewrite in_map_iff. intros (y & E & Y). apply I in E; [subst; contradiction|right; auto|left; auto].
    - apply IH; auto. intros. apply I; auto; right; auto.
  Qed.
  Lemma nodup_apart {B} (l m : list B) : NoDup l -> NoDup m -> (forall b, In b l -> ~ In b m) -> NoDup (l ++ m).
  Proof.
    induction l as [|b l IHl]; intros L M X; cbn; auto. inversion L; subst. constructor.
    - rewrite in_app_iff. intros [?|?]; [contradiction|]. apply (X b); [left|]; auto.
    - apply IHl; auto. intros. apply X. right. auto.
  Qed.

  Hypothesis Hx : (1 <= sx)%nat.
  Hypothesis Hy : (1 <= sy)%nat.

  Lemma in_points p : In p points <-> is_point p.
  Proof.
    unfold points, is_point. rewrite !in_app_iff, in_centres, in_inner, in_top, in_right, in_bottom, in_left. split.
    - intros [H|[(i & j & A & B & ->)|[(i & A & ->)|[(j & A & ->)|[(i & A & ->)|(j & A & ->)]]]]].
      + right. exact H.
      + left. exists i, j. repeat split; lia.
      + left. exists i, sy. repeat split; lia.
      + left. exists sx, j. repeat split; lia.
      + left. exists i, 0%nat. repeat split; lia.
      + left. exists 0%nat, j. repeat split; lia.
    - intros [(i & j & A & B & ->)|H]; [|left; exact H]. right.
      destruct (Nat.eq_dec j sy) as [->|Nj].
      { destruct (Nat.eq_dec i 0) as [->|Ni].
        - right. right. right. right. exists sy. split; [lia|reflexivity].
        - right. left. exists i. split; [lia|auto]. }
      destruct (Nat.eq_dec i sx) as [->|Ni].
      { right. right. left. exists j. split; [lia|auto]. }
      destruct (Nat.eq_dec j 0) as [->|Nj0].
      { right. right. right. left. exists i. split; [lia|reflexivity]. }
      destruct (Nat.eq_dec i 0) as [->|Ni0].
      { right. right. right. right. exists j. split; [lia|reflexivity]. }
      left. exists i, j. repeat split; lia.
  Qed.

  Lemma points_nodup : NoDup points.
  Proof.
    unfold points.
    assert (P : forall a b c d : nat, (a, b) = (c, d) -> a = c /\ b = d) by (intros a b c d H; injection H; auto).
    repeat apply nodup_apart.
    - apply flat_nodup; [apply down_nodup| |].
      + intros j _. apply map_nodup; [|apply down_nodup]. intros x y _ _ E. apply P in E. lia.
      + intros x y b _ _ H1 H2. apply in_map_iff in H1, H2. destruct H1 as (u & <- & _), H2 as (v & E & _). apply P in E. lia.
    - apply flat_nodup; [apply down_nodup| |].
      + intros j _. apply map_nodup; [|apply down_nodup]. intros x y _ _ E. apply P in E. lia.
      + intros x y b _ _ H1 H2. apply in_map_iff in H1, H2. destruct H1 as (u & <- & _), H2 as (v & E & _). apply P in E. lia.
    - apply map_nodup; [|apply from_one_nodup]. intros x y _ _ E. apply P in E. lia.
    - apply map_nodup; [|apply down_nodup]. intros x y _ _ E. apply P in E. lia.
    - apply map_nodup; [|apply down_nodup]. intros x y _ _ E. apply P in E. lia.
    - apply map_nodup; [|apply from_one_nodup]. intros x y _ _ E. apply P in E. lia.
    - intros b H1 H2. apply in_bottom in H1. apply in_left in H2.
      destruct H1 as (i & A & ->), H2 as (j & B & E). apply P in E. lia.
    - intros b H1 H2. apply in_right in H1. rewrite in_app_iff, in_bottom, in_left in H2.
      destruct H1 as (i & A & ->), H2 as [(j & B & E)|(j & B & E)]; apply P in E; lia.
    - intros b H1 H2. apply in_top in H1. rewrite !in_app_iff, in_right, in_bottom, in_left in H2.
      destruct H1 as (i & A & ->), H2 as [(j & B & E)|[(j & B & E)|(j & B & E)]]; apply P in E; lia.
    - intros b H1 H2. apply in_inner in H1. rewrite !in_app_iff, in_top, in_right, in_bottom, in_left in H2.
      destruct H1 as (i & k & A & A' & ->), H2 as [(j & B & E)|[(j & B & E)|[(j & B & E)|(j & B & E)]]]; apply P in E; lia.
    - intros b H1 H2. apply in_centres in H1. rewrite !in_app_iff, in_inner, in_top, in_right, in_bottom, in_left in H2.
      destruct H1 as (i & k & A & A' & ->), H2 as [(j & l & B & B' & E)|[(j & B & E)|[(j & B & E)|[(j & B & E)|(j & B & E)]]]];
        apply P in E; lia.
  Qed.

  Lemma points_length : length points = (2 * (sx * sy) + (sx + sy) + 1)%nat.
  Proof.
    unfold points. rewrite !app_length.
    unfold centres, inner_points, top_points, right_points, bottom_points, left_points.
    rewrite (flat_length _ sx), (flat_length _ (sx - 1)).
    - rewrite !map_length, !down_length, !from_one_length.
      destruct sx as [|a]; [lia|]. destruct sy as [|b]; [lia|]. cbn. rewrite !Nat.sub_0_r. nia.
    - intros. rewrite map_length, down_length. reflexivity.
    - intros. rewrite map_length, down_length. lia.
  Qed.

  (* ----------------------------------------------------------- their coordinates *)

  Variables hx hy : R.
  Definition at_point (p : nat * nat) : list R := [INR (fst p) * (hx / 2); INR (snd p) * (hy / 2)].

  Lemma INR_double i : INR (2 * i) = 2 * INR i.
  Proof. rewrite mult_INR. cbn. ring. Qed.
  Lemma INR_odd i : INR (2 * i + 1) = 2 * INR i + 1.
  Proof. rewrite plus_INR, INR_double. reflexivity. Qed.

  Lemma at_corner i j : at_point (2 * i, 2 * j)%nat = [INR i * hx; INR j * hy].
  Proof. unfold at_point. cbn [fst snd]. rewrite !INR_double. f_equal; [|f_equal]; field. Qed.
  Lemma at_centre i j : at_point (2 * i + 1, 2 * j + 1)%nat = [(INR i + 1 / 2) * hx; (INR j + 1 / 2) * hy].
  Proof. unfold at_point. cbn [fst snd]. rewrite !INR_odd. f_equal; [|f_equal]; field. Qed.
  Lemma plus_origin l : length l = 2%nat -> map2 Rplus l [0; 0] = l.
  Proof. destruct l as [|a [|b [|]]]; cbn; try discriminate. intros _. rewrite !Rplus_0_r. reflexivity. Qed.

  Lemma cross_point_iff row : cross_point sx sy hx hy row <-> exists p, is_point p /\ row = at_point p.
  Proof.
    split.
    - intros [i j Hi Hj|i j Hi Hj].
      + exists (2 * i, 2 * j)%nat. split; [left; eauto|]. rewrite at_corner. auto.
      + exists (2 * i + 1, 2 * j + 1)%nat. split; [right; eauto|]. rewrite at_centre. auto.
    - intros (p & [(i & j & Hi & Hj & ->)|(i & j & Hi & Hj & ->)] & ->).
      + rewrite at_corner. constructor; auto.
      + rewrite at_centre. constructor; auto.
  Qed.

  Definition zx := Z.of_nat sx.
  Definition zy := Z.of_nat sy.

  Lemma set_nodes : set_cross_nodes zx zy hx hy [0; 0] (repeat [0; 0] (length points)) = Ok (map at_point points).
  Proof.
    assert (F : fills (fun s =>
      bind (for_each (down zy 0) (fun j => for_each (down zx 0) (fun i =>
            put [(INR i + 1 / 2) * hx; (INR j + 1 / 2) * hy])) s) (fun s =>
      bind (for_each (down zy 1) (fun j => for_each (down zx 1) (fun i =>
            put [INR i * hx; INR j * hy])) s) (fun s =>
      bind (for_each (from_one zx) (fun i => put [INR i * hx; IZR zy * hy]) s) (fun s =>
      bind (for_each (down zy 0) (fun j => put [IZR zx * hx; INR j * hy]) s) (fun s =>
      bind (for_each (down zx 0) (fun i => put [INR i * hx; 0]) s) (fun s =>
      for_each (from_one zy) (fun j => put [0; INR j * hy]) s)))))) (map at_point points)).
    { unfold points. rewrite !map_app.
      apply fills_bind; [|apply fills_bind; [|apply fills_bind; [|apply fills_bind; [|apply fills_bind]]]].
      - unfold centres. rewrite <- flat_map_map. apply fills_for. intros j _. rewrite map_map, <- flat_map_single.
        apply fills_for. intros i _. rewrite at_centre. apply fills_put.
      - unfold inner_points. rewrite <- flat_map_map. apply fills_for. intros j _. rewrite map_map, <- flat_map_single.
        apply fills_for. intros i _. rewrite at_corner. apply fills_put.
      - unfold top_points. rewrite map_map, <- flat_map_single.
        apply fills_for. intros i _. rewrite at_corner. unfold zy. rewrite <- INR_IZR_INZ. apply fills_put.
      - unfold right_points. rewrite map_map, <- flat_map_single.
        apply fills_for. intros i _. rewrite at_corner. unfold zx. rewrite <- INR_IZR_INZ. apply fills_put.
      - unfold bottom_points. rewrite map_map, <- flat_map_single.
        apply fills_for. intros i _. pose proof (at_corner i 0) as E. change (2 * 0)%nat with 0%nat in E. rewrite E. cbn [INR]. rewrite Rmult_0_l. apply fills_put.
      - unfold left_points. rewrite map_map, <- flat_map_single.
        apply fills_for. intros i _. pose proof (at_corner 0 i) as E. change (2 * 0)%nat with 0%nat in E. rewrite E. cbn [INR]. rewrite Rmult_0_l. apply fills_put. }
    pose proof (fills_zeros _ _ [0; 0] (length points) F) as G.
    rewrite map_length in G. specialize (G eq_refl). unfold set_cross_nodes.
    revert G. generalize (repeat [0; 0] (length points), 0%nat). intros s0 G.
    repeat match type of G with
    | bind ?x _ = _ => destruct x as [?s|]; cbn [bind] in G |- *; [|discriminate]
    end.
    rewrite G. cbn [bind fst]. f_equal. rewrite map_map. apply map_ext. intros p. apply plus_origin. reflexivity.
  Qed.
End Points.
