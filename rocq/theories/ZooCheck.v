(* Tables of integers: decision procedures for the statements of ZooSpec and their soundness. *)
From Coq Require Import Reals List Arith ZArith Bool Sorted Lia Lra FinFun.
From Verif Require Import Common PyModel RVec LinAlg ListLemmas MeshModel MeshSpec MeshFacesProofs FemSpec CrossSpec SolidSpec
  ZooModel ZooSpec.
Import ListNotations.
Local Open Scope list_scope.
Local Open Scope R_scope.

Definition entry (t : list (list Z)) (i c : nat) : Z := nth c (nth i t []) 0%Z.

Definition det_of (t : list (list Z)) (e : list nat) : Z :=
  (let x k c := entry t (nth k e 0%nat) c in
   let a k := x 1%nat k - x 0%nat k in
   let b k := x 2%nat k - x 0%nat k in
   let c k := x 3%nat k - x 0%nat k in
   a 0%nat * (b 1%nat * c 2%nat - b 2%nat * c 1%nat)
   - a 1%nat * (b 0%nat * c 2%nat - b 2%nat * c 0%nat)
   + a 2%nat * (b 0%nat * c 1%nat - b 1%nat * c 0%nat))%Z.

Definition mem (l : list nat) (k : nat) : bool := existsb (Nat.eqb k) l.
Fixpoint distinct (l : list nat) : bool :=
  match l with [] => true | a :: l => if mem l a then false else distinct l end.
Fixpoint anyb {A} (f : A -> bool) (l : list A) : bool :=
  match l with [] => false | a :: l => if f a then true else anyb f l end.
Fixpoint allb {A} (f : A -> bool) (l : list A) : bool :=
  match l with [] => true | a :: l => if f a then allb f l else false end.
Fixpoint subs (l : list nat) : list (list nat) :=
  match l with [] => [[]] | a :: l => map (cons a) (subs l) ++ subs l end.

Definition point := (Z * Z * Z)%type.
Definition point_of (t : list (list Z)) (i : nat) : point :=
  match nth i t [] with [x; y; z] => (x, y, z) | _ => (0, 0, 0)%Z end.
Definition along (n p : point) : Z :=
  (let '(a, b, c) := n in let '(x, y, z) := p in a * x + b * y + c * z)%Z.
Definition crossed (u v : point) : point :=
  let '(a, b, c) := u in let '(x, y, z) := v in (b * z - c * y, c * x - a * z, a * y - b * x)%Z.
Fixpoint edges (l : list point) : list point :=
  match l with
  | [] => []
  | (a, b, c) :: l => map (fun '(x, y, z) => (x - a, y - b, z - c)%Z) l ++ edges l
  end.
(* the least and the greatest height of points *)
Definition span (n : point) (l : list point) : Z * Z :=
  match l with
  | [] => (0, 0)%Z
  | p :: l => fold_left (fun '(a, b) q => let h := along n q in (Z.min a h, Z.max b h)) l (along n p, along n p)
  end.
(* intervals of positive length without common inner points *)
Definition clear_of (u v : Z * Z) : bool :=
  let '(a, b) := u in let '(c, d) := v in
  if (b <=? c)%Z then if (a <? b)%Z then (c <? d)%Z else false
  else if (d <=? a)%Z then if (a <? b)%Z then (c <? d)%Z else false else false.
Definition parts (e f : list point) (n : point) : bool := clear_of (span n e) (span n f).
Definition parted_by (e f u v : list point) : bool := anyb (fun p => anyb (fun q => parts e f (crossed p q)) v) u.
Definition face_normals (l : list point) : list point :=
  match edges l with [u; v; w; x; y; z] => [crossed u v; crossed u w; crossed v w; crossed x y] | _ => [] end.
Definition simple : list point :=
  [(1, 0, 0); (0, 1, 0); (0, 0, 1); (1, 1, 0); (1, -1, 0); (1, 0, 1); (1, 0, -1); (0, 1, 1); (0, 1, -1);
   (1, 1, 1); (1, 1, -1); (1, -1, 1); (-1, 1, 1)]%Z.
Fixpoint any_clear (u v : list (Z * Z)) : bool :=
  match u, v with a :: u, b :: v => if clear_of a b then true else any_clear u v | _, _ => false end.
Definition spans (e : list point) : list point * list (Z * Z) := (e, map (fun n => span n e) simple).
Definition parted (x y : list point * list (Z * Z)) : bool :=
  let '(e, se) := x in let '(f, sf) := y in
  if any_clear se sf then true else
  if anyb (parts e f) (face_normals e) then true else if anyb (parts e f) (face_normals f) then true
  else parted_by e f (edges e) (edges f).
Fixpoint all_parted_in (l : list (list point * list (Z * Z))) : bool :=
  match l with [] => true | x :: l => if allb (parted x) l then all_parted_in l else false end.
Definition all_parted (t : list (list Z)) (els : list (list nat)) : bool :=
  all_parted_in (map (fun e => spans (map (point_of t) e)) els).

Definition sharing (els : list (list nat)) (g : list nat) : list nat :=
  filter (fun k => forallb (mem (nth k els [])) g) (seq 0 (List.length els)).
Definition faces_ok (els : list (list nat)) : bool :=
  forallb (fun e => forallb (fun g => if (List.length g =? 3)%nat then (List.length (sharing els g) <=? 2)%nat else true) (subs e)) els.

(* sets of nodes as lists of truth values *)
Fixpoint add (k : nat) (s : list bool) : list bool :=
  match s, k with [], _ => [] | _ :: s, O => true :: s | b :: s, S k => b :: add k s end.
Definition has (s : list bool) (k : nat) : bool := nth k s false.
Definition spread (els : list (list nat)) (s : list bool) : list bool :=
  fold_left (fun s e => if (3 <=? List.length (filter (has s) e))%nat then fold_right add s e else s) els s.
Fixpoint rounds (n : nat) (els : list (list nat)) (s : list bool) : list bool :=
  match n with O => s | S n => if allb (fun b => b) s then s else rounds n els (spread els s) end.
Definition rigid_ok (n : nat) (count : nat) (els : list (list nat)) : bool :=
  forallb (fun f => let s := rounds n els (fold_right add (repeat false count) f) in forallb (has s) (seq 0 count)) (boundary_surfaces els).

Definition shape_ok (count : nat) (els : list (list nat)) : bool :=
  forallb (fun e => if (List.length e =? 4)%nat then if distinct e then forallb (fun k => k <? count)%nat e else false else false) els.
Definition used_ok (count : nat) (els : list (list nat)) : bool :=
  forallb (fun k => anyb (fun e => mem e k) els) (seq 0 count).
Definition rows_ok (t : list (list Z)) : bool := forallb (fun r => List.length r =? 3)%nat t.
Fixpoint rows_distinct (t : list (list Z)) : bool :=
  match t with
  | [] => true
  | r :: t => if existsb (fun s => if list_eq_dec Z.eq_dec r s then true else false) t then false else rows_distinct t
  end.

Definition solid_ok (n : nat) (t : list (list Z)) (els : list (list nat)) : bool :=
  let count := List.length t in
  rows_ok t && rows_distinct t && shape_ok count els && used_ok count els &&
  forallb (fun e => (0 <? det_of t e)%Z) els && all_parted t els && faces_ok els && rigid_ok n count els.

(* ------------------------------------------------------------------ soundness *)

Lemma anyb_some {A} (f : A -> bool) l : anyb f l = true -> exists a, In a l /\ f a = true.
Proof. induction l as [|a l IH]; cbn; [discriminate|]. destruct (f a) eqn:E; [eauto|]. intros H. destruct (IH H) as (b & ? & ?). eauto. Qed.
Lemma allb_all {A} (f : A -> bool) l : allb f l = true -> forall a, In a l -> f a = true.
Proof. induction l as [|a l IH]; cbn; [intros _ ? []|]. destruct (f a) eqn:E; [|discriminate]. intros H b [<-|K]; auto. Qed.
Lemma has_add k s i : has (add k s) i = true -> i = k \/ has s i = true.
Proof.
  unfold has. revert k i. induction s as [|b s IH]; intros [|k] [|i]; cbn; auto. intros H. apply IH in H. destruct H; auto.
Qed.
Lemma has_added e s i : has (fold_right add s e) i = true -> In i e \/ has s i = true.
Proof. induction e as [|k e IH]; cbn; auto. intros H. apply has_add in H. destruct H as [->|H]; auto. apply IH in H. tauto. Qed.
Lemma has_none n i : has (repeat false n) i = false.
Proof. unfold has. revert i. induction n as [|n IH]; intros [|i]; cbn; auto. Qed.
Lemma mem_In l k : mem l k = true <-> In k l.
Proof.
  unfold mem. rewrite existsb_exists. split.
  - intros (x & H & E). apply Nat.eqb_eq in E. now subst.
  - intros H. exists k. split; auto. apply Nat.eqb_refl.
Qed.
Lemma distinct_NoDup l : distinct l = true -> NoDup l.
Proof.
  induction l as [|a l IH]; cbn; [constructor|]. destruct (mem l a) eqn:E; [discriminate|]. intros H. constructor; auto.
  intros K. apply mem_In in K. congruence.
Qed.
Lemma filter_subs p l : In (filter p l) (subs l).
Proof.
  induction l as [|a l IH]; cbn; auto. apply in_or_app. destruct (p a); [left; apply in_map; auto|right; auto].
Qed.
Lemma subs_incl l g : In g (subs l) -> incl g l.
Proof.
  revert g. induction l as [|a l IH]; cbn; intros g H.
  - destruct H as [<-|[]]. intros x [].
  - apply in_app_or in H. destruct H as [H|H].
    + apply in_map_iff in H. destruct H as (h & <- & H). apply incl_cons; [left; auto|]. apply incl_tl, IH, H.
    + apply incl_tl, IH, H.
Qed.

Lemma entry_over s t i c : table_of (over s t) i c = IZR (entry t i c) / IZR s.
Proof.
  unfold table_of, over, entry.
  rewrite (map_nth (map (fun z => IZR z / IZR s)) t [] i : nth i (map _ t) [] = _).
  replace 0 with (IZR 0 / IZR s) at 1 by (unfold Rdiv; ring).
  exact (map_nth (fun z => IZR z / IZR s) (nth i t []) 0%Z c).
Qed.

Section Table.
  Variables (s : Z) (t : list (list Z)) (els : list (list nat)).
  Hypothesis HS : (0 < s)%Z.

  Lemma s_pos : 0 < IZR s. Proof. now apply IZR_lt. Qed.

  Lemma det_over e : det_3d (corners (table_of (over s t)) e) = IZR (det_of t e) / IZR s ^ 3.
  Proof.
    unfold det_3d, corners, det_of. rewrite !entry_over.
    rewrite ?plus_IZR, ?minus_IZR, ?mult_IZR, ?minus_IZR, ?mult_IZR, ?minus_IZR. pose proof s_pos. field. lra.
  Qed.

  Lemma volume_over e : element_volume (table_of (over s t)) e = IZR (Z.abs (det_of t e)) / (6 * IZR s ^ 3).
  Proof.
    unfold element_volume, volume. rewrite det_over. unfold Rdiv at 2. rewrite Rabs_mult, <- abs_IZR.
    assert (P : 0 < IZR s ^ 3) by (apply pow_lt, s_pos). rewrite (Rabs_right (/ _)); [field; pose proof s_pos; lra|].
    apply Rle_ge, Rlt_le, Rinv_0_lt_compat, P.
  Qed.
  Lemma volumes_over : lsum els (element_volume (table_of (over s t)))
    = IZR (fold_right (fun e v => Z.abs (det_of t e) + v)%Z 0%Z els) / (6 * IZR s ^ 3).
  Proof.
    pose proof s_pos. assert (P : 0 < IZR s ^ 3) by (apply pow_lt, s_pos).
    induction els as [|e l IH]; cbn [lsum fold_right]; [field; lra|]. rewrite IH, volume_over, plus_IZR. field. lra.
  Qed.

  (* ---- a plane between two tetrahedra *)
  Definition height (n : Z * Z * Z) (p : vec) : R :=
    let '(a, b, c) := n in IZR a * p 0%nat + IZR b * p 1%nat + IZR c * p 2%nat.
  Lemma point_entry i : nth i t [] = [] \/ List.length (nth i t []) = 3%nat ->
    point_of t i = (entry t i 0, entry t i 1, entry t i 2).
  Proof. unfold point_of, entry. destruct (nth i t []) as [|x [|y [|z [|w r]]]]; cbn; intros [H|H]; try discriminate; reflexivity. Qed.
  Section Wide.
  Hypothesis HW : forall i, nth i t [] = [] \/ List.length (nth i t []) = 3%nat.
  Lemma height_over n i : height n (table_of (over s t) i) = IZR (along n (point_of t i)) / IZR s.
  Proof.
    rewrite (point_entry i (HW i)). destruct n as [[a b] c]. unfold height, along. rewrite !entry_over, !plus_IZR, !mult_IZR.
    pose proof s_pos. field. lra.
  Qed.
  Definition level (n : point) (e : list nat) (i : nat) : Z := along n (point_of t (nth i e 0%nat)).
  Lemma height_sum n p e (a : nat -> R) :
    (forall c, (c < 3)%nat -> p c = sum 4 (fun i => a i * corners (table_of (over s t)) e i c)) ->
    height n p = sum 4 (fun i => a i * (IZR (level n e i) / IZR s)).
  Proof.
    intros H. destruct n as [[x y] z]. rewrite (sum_ext 4 _ (fun i => a i * height (x, y, z) (corners (table_of (over s t)) e i))).
    2:{ intros i _. unfold corners, level. now rewrite height_over. }
    unfold height. rewrite (H 0%nat), (H 1%nat), (H 2%nat) by lia. cbn [sum]. ring.
  Qed.

  Lemma span_spec n l : l <> [] -> let '(a, b) := span n l in
    (forall q, In q l -> a <= along n q <= b)%Z /\ (exists q, In q l /\ along n q = a) /\ (exists q, In q l /\ along n q = b).
  Proof.
    destruct l as [|p l]; [congruence|]. intros _. unfold span.
    assert (G : forall l done a b, (forall q, In q done -> a <= along n q <= b)%Z ->
      (exists q, In q done /\ along n q = a) -> (exists q, In q done /\ along n q = b) ->
      let '(a, b) := fold_left (fun '(a, b) q => let h := along n q in (Z.min a h, Z.max b h)) l (a, b) in
      (forall q, In q (done ++ l) -> a <= along n q <= b)%Z /\ (exists q, In q (done ++ l) /\ along n q = a) /\
      (exists q, In q (done ++ l) /\ along n q = b)).
    { clear. induction l as [|q l IH]; intros done a b A B C; [cbn; rewrite app_nil_r; auto|]. cbn [fold_left].
      replace (done ++ q :: l) with ((done ++ [q]) ++ l) by (rewrite <- app_assoc; auto). apply IH.
      - intros r H. apply in_app_or in H. destruct H as [H|[<-|[]]]; [specialize (A r H)|]; cbv zeta; lia.
      - destruct B as (r & H & E). destruct (Z.min_spec a (along n q)) as [[_ M]|[_ M]]; cbv zeta; rewrite M.
        + exists r. split; auto. apply in_or_app; auto.
        + exists q. split; auto. apply in_or_app; right; left; auto.
      - destruct C as (r & H & E). destruct (Z.max_spec b (along n q)) as [[_ M]|[_ M]]; cbv zeta; rewrite M.
        + exists q. split; auto. apply in_or_app; right; left; auto.
        + exists r. split; auto. apply in_or_app; auto. }
    apply (G l [p] (along n p) (along n p)); [intros q [<-|[]]; lia|exists p; cbn; auto|exists p; cbn; auto].
  Qed.

  Lemma mean_bounds (w h : nat -> R) lo hi : (forall i, (i < 4)%nat -> 0 <= w i) -> sum 4 w = 1 ->
    (forall i, (i < 4)%nat -> lo <= h i <= hi) -> lo <= sum 4 (fun i => w i * h i) <= hi.
  Proof.
    intros W S H. assert (Q : forall i, (i < 4)%nat -> 0 <= w i * (h i - lo) /\ 0 <= w i * (hi - h i)).
    { intros i Hi. specialize (H i Hi). specialize (W i Hi). split; apply Rmult_le_pos; lra. }
    pose proof (Q 0%nat ltac:(lia)). pose proof (Q 1%nat ltac:(lia)). pose proof (Q 2%nat ltac:(lia)). pose proof (Q 3%nat ltac:(lia)).
    cbn [sum] in *. assert (lo = lo * (0 + w 0%nat + w 1%nat + w 2%nat + w 3%nat)) by (rewrite S; ring).
    assert (hi = hi * (0 + w 0%nat + w 1%nat + w 2%nat + w 3%nat)) by (rewrite S; ring). lra.
  Qed.
  Lemma mean_strict (w h : nat -> R) lo hi : (forall i, (i < 4)%nat -> 0 < w i) -> sum 4 w = 1 ->
    (forall i, (i < 4)%nat -> lo <= h i <= hi) -> (exists i, (i < 4)%nat /\ h i = lo) -> (exists i, (i < 4)%nat /\ h i = hi) -> lo < hi ->
    lo < sum 4 (fun i => w i * h i) < hi.
  Proof.
    intros W S H (i & Hi & Ei) (j & Hj & Ej) L. assert (Q : forall i, (i < 4)%nat -> 0 <= w i * (h i - lo) /\ 0 <= w i * (hi - h i)).
    { intros k Hk. specialize (H k Hk). specialize (W k Hk). split; apply Rmult_le_pos; lra. }
    assert (Qj : 0 < w j * (h j - lo)) by (apply Rmult_lt_0_compat; [auto|lra]).
    assert (Qi : 0 < w i * (hi - h i)) by (apply Rmult_lt_0_compat; [auto|lra]). clear Ei Ej.
    pose proof (Q 0%nat ltac:(lia)). pose proof (Q 1%nat ltac:(lia)). pose proof (Q 2%nat ltac:(lia)). pose proof (Q 3%nat ltac:(lia)).
    cbn [sum] in *. assert (lo = lo * (0 + w 0%nat + w 1%nat + w 2%nat + w 3%nat)) by (rewrite S; ring).
    assert (hi = hi * (0 + w 0%nat + w 1%nat + w 2%nat + w 3%nat)) by (rewrite S; ring).
    split.
    - destruct j as [|[|[|[|j]]]]; [lra|lra|lra|lra|lia].
    - destruct i as [|[|[|[|i]]]]; [lra|lra|lra|lra|lia].
  Qed.

  Lemma levels e n : List.length e = 4%nat -> let '(a, b) := span n (map (point_of t) e) in
    (forall i, (i < 4)%nat -> IZR a / IZR s <= IZR (level n e i) / IZR s <= IZR b / IZR s) /\
    (exists i, (i < 4)%nat /\ IZR (level n e i) / IZR s = IZR a / IZR s) /\ (exists i, (i < 4)%nat /\ IZR (level n e i) / IZR s = IZR b / IZR s).
  Proof.
    intros L. pose proof (span_spec n (map (point_of t) e)) as H. destruct (span n (map (point_of t) e)) as [a b].
    destruct H as (A & B & C); [destruct e; discriminate|]. pose proof s_pos as SP. pose proof (Rinv_0_lt_compat _ SP) as SI.
    split; [|split].
    - intros i Hi. assert (K : (a <= level n e i <= b)%Z) by (apply A, in_map, nth_In; lia). destruct K as [K1 K2].
      apply IZR_le in K1, K2. split; apply Rmult_le_compat_r; lra.
    - destruct B as (q & Hq & E). apply in_map_iff in Hq. destruct Hq as (k & <- & Hq). apply (In_nth _ _ 0%nat) in Hq.
      destruct Hq as (i & Hi & Ei). exists i. split; [lia|]. unfold level. now rewrite Ei, E.
    - destruct C as (q & Hq & E). apply in_map_iff in Hq. destruct Hq as (k & <- & Hq). apply (In_nth _ _ 0%nat) in Hq.
      destruct Hq as (i & Hi & Ei). exists i. split; [lia|]. unfold level. now rewrite Ei, E.
  Qed.

  Lemma parts_apart e f n p : List.length e = 4%nat -> List.length f = 4%nat ->
    parts (map (point_of t) e) (map (point_of t) f) n = true ->
    (inside_solid (corners (table_of (over s t)) e) p -> within_solid (corners (table_of (over s t)) f) p -> False) /\
    (within_solid (corners (table_of (over s t)) e) p -> inside_solid (corners (table_of (over s t)) f) p -> False).
  Proof.
    intros Le Lf HP. unfold parts in HP.
    pose proof (levels e n Le) as LE. pose proof (levels f n Lf) as LF.
    destruct (span n (map (point_of t) e)) as [a b]. destruct (span n (map (point_of t) f)) as [c d].
    destruct LE as (E1 & E2 & E3), LF as (F1 & F2 & F3). pose proof s_pos as SP. pose proof (Rinv_0_lt_compat _ SP) as SI.
    assert (K : (a < b /\ c < d /\ (b <= c \/ d <= a))%Z).
    { unfold clear_of in HP. destruct (b <=? c)%Z eqn:K1.
      - destruct (a <? b)%Z eqn:K2; [|discriminate]. apply Z.leb_le in K1. apply Z.ltb_lt in K2, HP. lia.
      - destruct (d <=? a)%Z eqn:K3; [|discriminate]. destruct (a <? b)%Z eqn:K2; [|discriminate].
        apply Z.leb_le in K3. apply Z.ltb_lt in K2, HP. lia. }
    assert (K' : IZR a / IZR s < IZR b / IZR s /\ IZR c / IZR s < IZR d / IZR s /\ (IZR b / IZR s <= IZR c / IZR s \/ IZR d / IZR s <= IZR a / IZR s)).
    { destruct K as (K1 & K2 & K3). apply IZR_lt in K1, K2. split; [apply Rmult_lt_compat_r; lra|]. split; [apply Rmult_lt_compat_r; lra|].
      destruct K3 as [K3|K3]; apply IZR_le in K3; [left|right]; apply Rmult_le_compat_r; lra. }
    destruct K' as (K1 & K2 & K3). split.
    - intros (u & U0 & U1 & Up) (v & V0 & V1 & Vp).
      pose proof (mean_strict u (fun i => IZR (level n e i) / IZR s) _ _ U0 U1 E1 E2 E3 K1) as M1. cbv beta in M1. rewrite <- (height_sum n p e u Up) in M1.
      pose proof (mean_bounds v (fun i => IZR (level n f i) / IZR s) _ _ V0 V1 F1) as M2. cbv beta in M2. rewrite <- (height_sum n p f v Vp) in M2. lra.
    - intros (u & U0 & U1 & Up) (v & V0 & V1 & Vp).
      pose proof (mean_bounds u (fun i => IZR (level n e i) / IZR s) _ _ U0 U1 E1) as M1. cbv beta in M1. rewrite <- (height_sum n p e u Up) in M1.
      pose proof (mean_strict v (fun i => IZR (level n f i) / IZR s) _ _ V0 V1 F1 F2 F3 K2) as M2. cbv beta in M2. rewrite <- (height_sum n p f v Vp) in M2. lra.
  Qed.

  Lemma parted_apart e f p : List.length e = 4%nat -> List.length f = 4%nat ->
    parted (spans (map (point_of t) e)) (spans (map (point_of t) f)) = true ->
    (inside_solid (corners (table_of (over s t)) e) p -> within_solid (corners (table_of (over s t)) f) p -> False) /\
    (within_solid (corners (table_of (over s t)) e) p -> inside_solid (corners (table_of (over s t)) f) p -> False).
  Proof.
    intros Le Lf H. unfold parted, spans in H.
    assert (G : exists n, parts (map (point_of t) e) (map (point_of t) f) n = true).
    { assert (X : forall e f u v, parted_by e f u v = true -> exists n, parts e f n = true).
      { intros e0 f0 u v K. apply anyb_some in K. destruct K as (x & _ & K). apply anyb_some in K. destruct K as (y & _ & K). eauto. }
      assert (Y : forall e f ns, any_clear (map (fun n => span n e) ns) (map (fun n => span n f) ns) = true -> exists n, parts e f n = true).
      { intros e0 f0. induction ns as [|n ns IH]; cbn [map any_clear]; [discriminate|]. destruct (clear_of _ _) eqn:E; [|auto].
        intros _. exists n. exact E. }
      destruct (any_clear _ _) eqn:E0 in H; [eauto|].
      destruct (anyb _ _) eqn:E1 in H; [apply anyb_some in E1; destruct E1 as (n & _ & E1); eauto|].
      destruct (anyb _ _) eqn:E2 in H; [apply anyb_some in E2; destruct E2 as (n & _ & E2); eauto|eauto]. }
    destruct G as (n & G). exact (parts_apart e f n p Le Lf G).
  Qed.

  Section Shape.
    Hypothesis H4 : shape_ok (List.length t) els = true.
    Lemma shaped e : In e els -> List.length e = 4%nat /\ NoDup e /\ Forall (fun k => (k < List.length t)%nat) e.
    Proof.
      intros He. unfold shape_ok in H4. rewrite forallb_forall in H4. specialize (H4 e He).
      destruct (List.length e =? 4)%nat eqn:E; [|discriminate]. apply Nat.eqb_eq in E.
      destruct (distinct e) eqn:D; [|discriminate]. split; auto. split; [now apply distinct_NoDup|].
      rewrite forallb_forall in H4. apply Forall_forall. intros k Hk. now apply Nat.ltb_lt, H4.
    Qed.
    Lemma shape_simplices : simplices 4 els.
    Proof. apply Forall_forall. intros e He. destruct (shaped e He) as (? & ? & _). auto. Qed.
    Lemma shape_range : in_range (List.length (over s t)) els.
    Proof. unfold over. rewrite map_length. apply Forall_forall. intros e He. now destruct (shaped e He) as (_ & _ & ?). Qed.

    Lemma all_in {A} (R : A -> A -> bool) : forall (l : list A) (go : list A -> bool),
      (forall x l, go (x :: l) = if allb (R x) l then go l else false) -> go l = true ->
      forall i j a b, nth_error l i = Some a -> nth_error l j = Some b -> (i < j)%nat -> R a b = true.
    Proof.
      induction l as [|x l IH]; intros go G H i j a b Hi Hj L; [destruct i; discriminate|].
      rewrite G in H. destruct (allb (R x) l) eqn:E; [|discriminate]. destruct j as [|j]; [lia|]. cbn in Hj.
      destruct i as [|i]; cbn in Hi.
      - injection Hi as ->. apply (allb_all _ _ E). eapply nth_error_In; eauto.
      - apply (IH go G H i j); auto. lia.
    Qed.
    Lemma parted_all : all_parted t els = true -> forall i j e f p, nth_error els i = Some e -> nth_error els j = Some f ->
      inside_solid (corners (table_of (over s t)) e) p -> within_solid (corners (table_of (over s t)) f) p -> i = j.
    Proof.
      intros H i j e f p Hi Hj A B. unfold all_parted in H.
      pose proof (proj1 (shaped e (nth_error_In _ _ Hi))) as Le. pose proof (proj1 (shaped f (nth_error_In _ _ Hj))) as Lf.
      pose proof (map_nth_error (fun e => spans (map (point_of t) e)) i els Hi) as Mi.
      pose proof (map_nth_error (fun e => spans (map (point_of t) e)) j els Hj) as Mj.
      destruct (Nat.lt_total i j) as [L|[L|L]]; auto; exfalso.
      - pose proof (all_in parted _ all_parted_in (fun _ _ => eq_refl) H i j _ _ Mi Mj L) as P.
        exact (proj1 (parted_apart e f p Le Lf P) A B).
      - pose proof (all_in parted _ all_parted_in (fun _ _ => eq_refl) H j i _ _ Mj Mi L) as P.
        exact (proj2 (parted_apart f e p Lf Le P) B A).
    Qed.

    (* the corners of e among f, for a triple f of corners of e *)
    Lemma triple_sub e f : In e els -> List.length f = 3%nat -> NoDup f -> incl f e ->
      exists g, In g (subs e) /\ List.length g = 3%nat /\ forall k, In k g <-> In k f.
    Proof.
      intros He L U I. exists (filter (mem f) e). split; [apply filter_subs|].
      assert (G : forall k, In k (filter (mem f) e) <-> In k f).
      { intros k. rewrite filter_In, mem_In. split; [tauto|]. intros H. auto. }
      split; auto. destruct (shaped e He) as (_ & N & _).
      apply Nat.le_antisymm.
      - rewrite <- L. apply NoDup_incl_length; [now apply NoDup_filter|]. intros k. apply G.
      - rewrite <- L. apply NoDup_incl_length; auto. intros k. apply G.
    Qed.
    Lemma faces_two : faces_ok els = true -> forall f ks, List.length f = 3%nat -> NoDup f -> NoDup ks ->
      (forall k, In k ks -> exists e, nth_error els k = Some e /\ incl f e) -> (List.length ks <= 2)%nat.
    Proof.
      intros H f ks L U V K. destruct ks as [|k0 ks]; [cbn; lia|]. destruct (K k0 (or_introl eq_refl)) as (e0 & E0 & I0).
      destruct (triple_sub e0 f (nth_error_In _ _ E0) L U I0) as (g & G1 & G2 & G3).
      unfold faces_ok in H. rewrite forallb_forall in H. specialize (H e0 (nth_error_In _ _ E0)). rewrite forallb_forall in H.
      specialize (H g G1). rewrite G2 in H. cbn [Nat.eqb] in H. apply Nat.leb_le in H.
      etransitivity; [|exact H]. apply NoDup_incl_length; auto. intros k Hk. destruct (K k Hk) as (e & E & I).
      apply filter_In. split.
      - apply in_seq. split; [lia|]. cbn. apply nth_error_Some. congruence.
      - apply forallb_forall. intros x Hx. apply mem_In. rewrite (nth_error_nth els k [] E). apply I, G3, Hx.
    Qed.

    Lemma filter_three (P : nat -> bool) l : NoDup l -> (3 <= List.length (filter P l))%nat ->
      exists i j k, In i l /\ In j l /\ In k l /\ P i = true /\ P j = true /\ P k = true /\ i <> j /\ i <> k /\ j <> k.
    Proof.
      intros U H. pose proof (NoDup_filter P U) as V. assert (I : forall x, In x (filter P l) -> In x l /\ P x = true) by (intros x; apply filter_In).
      destruct (filter P l) as [|i [|j [|k r]]]; cbn in H; try lia. exists i, j, k.
      inversion V as [|? ? V1 V2]; subst. inversion V2 as [|? ? V3 V4]; subst.
      destruct (I i) as [? ?]; [left; auto|]. destruct (I j) as [? ?]; [right; left; auto|]. destruct (I k) as [? ?]; [right; right; left; auto|].
      repeat (split; auto); intros ->; [apply V1|apply V1|apply V3]; cbn; auto.
    Qed.
    Lemma spread_fastened pin l q : (forall e, In e l -> In e els) -> (forall k, has q k = true -> fastened pin els k) ->
      forall k, has (fold_left (fun s e => if (3 <=? List.length (filter (has s) e))%nat then fold_right add s e else s) l q) k = true ->
        fastened pin els k.
    Proof.
      revert q. induction l as [|e l IH]; intros q HI HF; cbn [fold_left]; auto.
      apply IH; [intros; apply HI; right; auto|].
      destruct (3 <=? _)%nat eqn:E; auto. apply Nat.leb_le in E.
      assert (He : In e els) by (apply HI; left; auto). destruct (shaped e He) as (_ & U & _).
      destruct (filter_three (has q) e U E) as (i & j & k & Ii & Ij & Ik & Pi & Pj & Pk & D1 & D2 & D3).
      intros x Hx. apply has_added in Hx. destruct Hx as [Hx|Hx]; auto.
      apply (fastened_by pin els e i j k x); auto.
    Qed.
    Lemma rounds_fastened pin n : forall q, (forall k, has q k = true -> fastened pin els k) ->
      forall k, has (rounds n els q) k = true -> fastened pin els k.
    Proof.
      induction n as [|n IH]; intros q H; cbn [rounds]; auto. destruct (allb _ q); auto. apply IH. apply spread_fastened; auto.
    Qed.
    Lemma rigid_all n : rigid_ok n (List.length t) els = true ->
      forall (pin : nat -> Prop) f, boundary_face 4 els f -> (forall k, In k f -> pin k) ->
      forall k, (k < List.length (over s t))%nat -> fastened pin els k.
    Proof.
      intros H pin f B P k Hk. unfold over in Hk. rewrite map_length in Hk.
      apply (boundary_surfaces_In 4 els shape_simplices) in B.
      unfold rigid_ok in H. rewrite forallb_forall in H. specialize (H f B). cbv zeta in H. rewrite forallb_forall in H.
      apply (rounds_fastened pin n (fold_right add (repeat false (List.length t)) f)); [|apply H, in_seq; lia].
      intros x Hx. apply has_added in Hx. rewrite has_none in Hx. destruct Hx as [Hx|Hx]; [|discriminate]. apply fastened_pin. auto.
    Qed.
  End Shape.
  End Wide.

  Lemma rows_NoDup : rows_distinct t = true -> NoDup (over s t).
  Proof.
    intros H. unfold over. apply Injective_map_NoDup.
    - intros a b E. revert b E. induction a as [|x a IH]; intros [|y b] E; try discriminate; auto. cbn in E. injection E as E1 E2.
      f_equal; auto. apply eq_IZR. pose proof s_pos. apply Rmult_eq_reg_r with (/ IZR s); [exact E1|]. apply Rinv_neq_0_compat. lra.
    - clear - H. induction t as [|r l IH]; [constructor|]. cbn in H. destruct (existsb _ l) eqn:E; [discriminate|]. constructor; auto.
      intros K. assert (X : existsb (fun s => if list_eq_dec Z.eq_dec r s then true else false) l = true).
      { apply existsb_exists. exists r. split; auto. destruct (list_eq_dec Z.eq_dec r r); congruence. }
      congruence.
  Qed.

  Lemma solid_sound n : solid_ok n t els = true -> solid_grid (over s t) els.
  Proof.
    intros H. unfold solid_ok in H. repeat (apply andb_true_iff in H; destruct H as [H ?]).
    match goal with K : shape_ok _ _ = true |- _ => rename K into Hs end.
    match goal with K : used_ok _ _ = true |- _ => rename K into Hu end.
    match goal with K : rows_distinct _ = true |- _ => rename K into Hd end.
    match goal with K : rows_ok _ = true |- _ => rename K into Hw end.
    match goal with K : all_parted _ _ = true |- _ => rename K into Ha end.
    match goal with K : faces_ok _ = true |- _ => rename K into Hf end.
    match goal with K : rigid_ok _ _ _ = true |- _ => rename K into Hg end.
    match goal with K : forallb (fun e => (0 <? _)%Z) _ = true |- _ => rename K into Ho end.
    assert (HW : forall i, nth i t [] = [] \/ List.length (nth i t []) = 3%nat).
    { intros i. destruct (nth_in_or_default i t []) as [K|K]; [right|left; auto].
      unfold rows_ok in Hw. rewrite forallb_forall in Hw. now apply Nat.eqb_eq, Hw. }
    constructor.
    - unfold rows_ok in Hw. rewrite forallb_forall in Hw. apply Forall_forall. intros r Hr'. unfold over in Hr'.
      apply in_map_iff in Hr'. destruct Hr' as (q & <- & Hq). rewrite map_length. now apply Nat.eqb_eq, Hw.
    - apply rows_NoDup; auto.
    - apply shape_simplices; auto.
    - apply shape_range; auto.
    - intros k Hk. unfold over in Hk. rewrite map_length in Hk. unfold used_ok in Hu. rewrite forallb_forall in Hu.
      assert (K : In k (seq 0 (List.length t))) by (apply in_seq; lia). apply Hu, anyb_some in K. destruct K as (e & He & K).
      exists e. split; auto. now apply mem_In.
    - intros e He. rewrite det_over. rewrite forallb_forall in Ho. specialize (Ho e He). apply Z.ltb_lt in Ho.
      apply Rdiv_lt_0_compat; [now apply IZR_lt|]. apply pow_lt, s_pos.
    - apply parted_all; auto.
    - apply faces_two; auto.
    - apply (rigid_all Hs n); auto.
  Qed.
End Table.
