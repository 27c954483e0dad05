(* The structured cross mesh as a whole, and placing it. *)
From Coq Require Import Reals R_Ifp List Arith ZArith Bool Lia Lra.
From Verif Require Import RVec PyModel MeshSpec FemSpec CrossModel CrossSpec CrossProofs CrossElementProofs CrossBoundaryProofs.
Import ListNotations.
Local Open Scope R_scope.

(* ------------------------------------------------------------- rounding up *)

Lemma ceil_bounds x : x <= IZR (ceil x) < x + 1.
Proof.
  unfold ceil. destruct (base_Int_part (- x)) as [A B]. rewrite opp_IZR. lra.
Qed.
Lemma ceil_unique x z : x <= IZR z < x + 1 -> ceil x = z.
Proof.
  intros [A B]. destruct (ceil_bounds x) as [C D].
  assert (E : (ceil x < z + 1)%Z) by (apply lt_IZR; rewrite plus_IZR; lra).
  assert (F : (z < ceil x + 1)%Z) by (apply lt_IZR; rewrite plus_IZR; lra). lia.
Qed.
Lemma steps_ceil l p n : 0 < l -> 0 < p -> steps l p n -> ceil (l / p) = Z.of_nat n.
Proof.
  intros L P (N & A & B). apply ceil_unique. rewrite <- INR_IZR_INZ. split.
  - apply Rmult_le_reg_r with p; auto. replace (l / p * p) with l by (field; lra). auto.
  - destruct (Rlt_dec (INR n) (l / p + 1)) as [H|H]; auto. exfalso.
    destruct n as [|n]; [lia|]. rewrite S_INR in H. assert (l / p <= INR n) by lra.
    assert (l <= INR n * p) by (apply Rmult_le_compat_r with (r := p) in H0; [|lra]; replace (l / p * p) with l in H0 by (field; lra); auto).
    apply B in H1. lia.
Qed.
Lemma steps_exist l p : 0 < l -> 0 < p -> exists n, steps l p n.
Proof.
  intros L P. destruct (ceil_bounds (l / p)) as [A B].
  assert (Q : 0 < l / p) by (apply Rdiv_lt_0_compat; auto).
  assert (C : (0 < ceil (l / p))%Z) by (apply lt_IZR; lra).
  exists (Z.to_nat (ceil (l / p))). assert (E : INR (Z.to_nat (ceil (l / p))) = IZR (ceil (l / p))) by (rewrite INR_IZR_INZ, Z2Nat.id by lia; auto).
  split; [lia|]. rewrite E. split.
  - apply Rmult_le_compat_r with (r := p) in A; [|lra]. replace (l / p * p) with l in A by (field; lra). auto.
  - intros m M. assert (l / p <= INR m).
    { apply Rmult_le_reg_r with p; auto. replace (l / p * p) with l by (field; lra). auto. }
    assert (ceil (l / p) < Z.of_nat m + 1)%Z by (apply lt_IZR; rewrite plus_IZR, <- INR_IZR_INZ; lra). lia.
Qed.

(* ------------------------------------------------------------- the mesh *)

Lemma rectangle_with lx ly p sx sy : 0 < lx -> 0 < ly -> 0 < p -> steps lx p sx -> steps ly p sy ->
  let hx := lx / INR sx in let hy := ly / INR sy in
  cross_rectangle [lx; ly] p =
  bind (set_cross_elements (zx sx) (zy sy) hx hy [0; 0] (map (at_point hx hy) (points sx sy))
          (repeat [0; 0; 0]%nat (4 * (sx * sy)))) (fun els =>
  Ok (map (at_point hx hy) (points sx sy), els)).
Proof.
  intros Lx Ly P Sx Sy hx hy. unfold cross_rectangle.
  destruct (Req_EM_T p 0); [lra|]. rewrite (steps_ceil lx p sx), (steps_ceil ly p sy) by auto.
  destruct Sx as (Nx & _), Sy as (Ny & _).
  replace ((Z.of_nat sx =? 0)%Z || (Z.of_nat sy =? 0)%Z) with false.
  2:{ symmetry. apply orb_false_intro; apply Z.eqb_neq; lia. }
  cbv zeta. rewrite <- !INR_IZR_INZ. fold hx hy. unfold zeros.
  destruct (Z.ltb_spec (2 * (Z.of_nat sx * Z.of_nat sy) + (Z.of_nat sx + Z.of_nat sy) + 1) 0) as [H|_]; [nia|].
  destruct (Z.ltb_spec (4 * (Z.of_nat sx * Z.of_nat sy)) 0) as [H|_]; [nia|]. cbn [bind].
  replace (Z.to_nat (2 * (Z.of_nat sx * Z.of_nat sy) + (Z.of_nat sx + Z.of_nat sy) + 1)) with (length (points sx sy)).
  2:{ rewrite points_length by auto. nia. }
  replace (Z.to_nat (4 * (Z.of_nat sx * Z.of_nat sy))) with (4 * (sx * sy))%nat by nia.
  pose proof (set_nodes sx sy hx hy) as E. unfold zx, zy in *. rewrite E. reflexivity.
Qed.

Lemma INR_pos n : (1 <= n)%nat -> 0 < INR n.
Proof. intros H. apply lt_0_INR. lia. Qed.

Theorem cross_rectangle_grid lx ly p sx sy : 0 < lx -> 0 < ly -> 0 < p -> steps lx p sx -> steps ly p sy ->
  tolerance <= lx / INR sx -> tolerance <= ly / INR sy ->
  exists nodes els, cross_rectangle [lx; ly] p = Ok (nodes, els) /\ cross_grid sx sy lx ly nodes els.
Proof.
  intros Lx Ly P Sx Sy Tx Ty.
  pose proof (rectangle_with lx ly p sx sy Lx Ly P Sx Sy) as E. cbv zeta in E.
  set (hx := lx / INR sx) in *. set (hy := ly / INR sy) in *.
  assert (Nx : (1 <= sx)%nat) by apply Sx. assert (Ny : (1 <= sy)%nat) by apply Sy.
  pose proof (INR_pos sx Nx). pose proof (INR_pos sy Ny).
  assert (Ex : INR sx * hx = lx) by (unfold hx; field; lra).
  assert (Ey : INR sy * hy = ly) by (unfold hy; field; lra).
  assert (Pt : 0 < tolerance) by (unfold tolerance; lra).
  exists (map (at_point hx hy) (points sx sy)), (elements sx sy). split.
  - rewrite E. rewrite <- (elements_length sx sy), set_elements by auto. reflexivity.
  - pose proof (cross_triangles sx sy Nx Ny hx hy Tx Ty) as (T1 & T2 & T3).
    constructor; auto.
    + rewrite map_length. apply points_length; auto.
    + apply nodes_nodup; auto; lra.
    + intros row. rewrite (cross_point_iff sx sy). rewrite in_map_iff. split.
      * intros (q & <- & Q). exists q. apply in_points in Q; auto.
      * intros (q & Q & ->). exists q. split; [reflexivity|]. apply in_points; auto.
    + apply elements_length; auto.
    + apply cross_simplices; auto.
    + intros k K. eapply cross_referenced; eauto.
    + intros e He. apply in_elements in He; auto. destruct He as (i & j & q & A & B & C & ->).
      rewrite element_det by auto. assert (0 < hx * hy) by (apply Rmult_lt_0_compat; lra). lra.
    + rewrite total_area by auto. rewrite Ex, Ey. reflexivity.
    + rewrite <- Ex, <- Ey. apply cross_tiles; auto.
    + intros f. apply (boundary_faces_of sx sy Nx Ny hx hy); lra.
    + intros pin f F K. apply (boundary_outer sx sy Nx Ny) in F. destruct F as (a & b & O & -> & _).
      apply (cross_held sx sy Nx Ny hx hy pin a b); auto; apply K; cbn; auto.
Qed.

(* a mesh smaller than the tolerance of the look-ups: every look-up finds the first node *)
Lemma index_first row first nodes : distance row first < tolerance -> get_node_index row (first :: nodes) = Ok 0%nat.
Proof. intros H. unfold get_node_index. cbn. destruct (Rlt_dec _ _); auto. contradiction. Qed.

Lemma set_all sx sy hx hy (nodes : list (list R)) : (forall i j a b, (i < sx)%nat -> (j < sy)%nat -> 0 <= a <= 1 -> 0 <= b <= 1 ->
    get_node_index [(INR i + a) * hx; (INR j + b) * hy] nodes = Ok 0%nat) ->
  set_cross_elements (zx sx) (zy sy) hx hy [0; 0] nodes (repeat [0; 0; 0]%nat (4 * (sx * sy))) =
  Ok (repeat [0; 0; 0]%nat (4 * (sx * sy))).
Proof.
  intros H.
  pose (l := flat_map (fun i => flat_map (fun j => repeat [0; 0; 0]%nat 4) (seq 0 sy)) (seq 0 sx) : list (list nat)).
  assert (L : length l = (4 * (sx * sy))%nat).
  { unfold l. rewrite (flat_length _ (sy * 4)); [rewrite seq_length; lia|].
    intros. rewrite (flat_length _ 4); [rewrite seq_length; auto|]. intros; reflexivity. }
  assert (E : l = repeat [0; 0; 0]%nat (4 * (sx * sy))).
  { rewrite <- L. apply Forall_eq_repeat. apply Forall_forall. unfold l. intros e He.
    apply in_flat_map in He. destruct He as (i & _ & He). apply in_flat_map in He. destruct He as (j & _ & He).
    apply repeat_spec in He. auto. }
  unfold set_cross_elements. rewrite <- E at 2.
  erewrite fills_zeros; [reflexivity| |exact L].
  unfold l, upto, zx. rewrite Nat2Z.id.
  apply fills_for. intros i Hi. unfold zy. rewrite Nat2Z.id. apply fills_for. intros j Hj.
  apply in_seq in Hi, Hj. cbn [map2].
  assert (G : forall x y a b, 0 <= a <= 1 -> 0 <= b <= 1 -> x = (INR i + a) * hx -> y = (INR j + b) * hy ->
    get_node_index [x; y] nodes = Ok 0%nat) by (intros x y a b A B -> ->; apply H; lia || auto).
  intros done rest. cbv zeta beta.
  rewrite (G _ _ 0 0) by lra. cbn [bind].
  rewrite (G _ _ 1 0) by lra. cbn [bind].
  rewrite (G _ _ (1 / 2) (1 / 2)) by lra. cbn [bind].
  rewrite (G _ _ 0 1) by lra. cbn [bind].
  rewrite (G _ _ 1 1) by lra. cbn [bind].
  change (repeat [0; 0; 0]%nat 4) with ([[0; 0; 0]] ++ [[0; 0; 0]] ++ [[0; 0; 0]] ++ [[0; 0; 0]])%nat.
  apply fills_bind; [apply fills_put|]. apply fills_bind; [apply fills_put|].
  apply fills_bind; [apply fills_put|]. apply fills_put.
Qed.

Theorem small_rectangle lx ly p sx sy : 0 < lx -> 0 < ly -> 0 < p -> steps lx p sx -> steps ly p sy ->
  lx + ly < tolerance ->
  exists nodes, cross_rectangle [lx; ly] p = Ok (nodes, repeat [0; 0; 0]%nat (4 * (sx * sy))).
Proof.
  intros Lx Ly P Sx Sy T. eexists.
  rewrite (rectangle_with lx ly p sx sy) by auto.
  assert (Nx : (1 <= sx)%nat) by apply Sx. assert (Ny : (1 <= sy)%nat) by apply Sy.
  pose proof (INR_pos sx Nx). pose proof (INR_pos sy Ny).
  assert (Ex : INR sx * (lx / INR sx) = lx) by (field; lra).
  assert (Ey : INR sy * (ly / INR sy) = ly) by (field; lra).
  assert (Px : 0 < lx / INR sx) by (apply Rdiv_lt_0_compat; auto).
  assert (Py : 0 < ly / INR sy) by (apply Rdiv_lt_0_compat; auto).
  set (hx := lx / INR sx) in *. set (hy := ly / INR sy) in *.
  rewrite set_all; [reflexivity|]. intros i j a b Hi Hj A B.
  destruct (points sx sy) as [|q l] eqn:E.
  { pose proof (points_length sx sy Nx Ny) as L. rewrite E in L. cbn in L. lia. }
  assert (Q : is_point sx sy q) by (apply in_points; auto; rewrite E; left; auto).
  cbn [map]. apply index_first.
  assert (R : forall n h c, 0 < h -> 0 <= c <= INR n -> 0 <= c * h <= INR n * h).
  { intros n h c Hh Hc. split; [apply Rmult_le_pos; lra|apply Rmult_le_compat_r; lra]. }
  assert (Xa : 0 <= (INR i + a) * hx <= INR sx * hx).
  { apply R; auto. pose proof (pos_INR i). assert (INR (S i) <= INR sx) by (apply le_INR; lia). rewrite S_INR in *. lra. }
  assert (Ya : 0 <= (INR j + b) * hy <= INR sy * hy).
  { apply R; auto. pose proof (pos_INR j). assert (INR (S j) <= INR sy) by (apply le_INR; lia). rewrite S_INR in *. lra. }
  assert (Xq : exists c d, at_point hx hy q = [c * hx; d * hy] /\ 0 <= c <= INR sx /\ 0 <= d <= INR sy).
  { destruct Q as [(i' & j' & Hi' & Hj' & ->)|(i' & j' & Hi' & Hj' & ->)].
    - exists (INR i'), (INR j'). split; [apply at_corner|]. apply le_INR in Hi', Hj'. pose proof (pos_INR i'). pose proof (pos_INR j'). lra.
    - exists (INR i' + 1 / 2), (INR j' + 1 / 2). split; [apply at_centre|]. pose proof (pos_INR i'). pose proof (pos_INR j').
      assert (INR (S i') <= INR sx) by (apply le_INR; lia). assert (INR (S j') <= INR sy) by (apply le_INR; lia). rewrite S_INR in *. lra. }
  destruct Xq as (c & d & -> & C & D). apply (R sx hx) in C; auto. apply (R sy hy) in D; auto.
  unfold distance. cbn [map2 total fold_right]. rewrite Rplus_0_r.
  assert (Rabs ((INR i + a) * hx - c * hx) <= lx) by (apply Rabs_le; lra).
  assert (Rabs ((INR j + b) * hy - d * hy) <= ly) by (apply Rabs_le; lra). lra.
Qed.

(* ------------------------------------------------------------- placing *)

Lemma map2_length {A B C} (f : A -> B -> C) : forall l m, length l = length m -> length (map2 f l m) = length l.
Proof. induction l as [|a l IH]; intros [|b m] H; cbn in *; try discriminate; auto. Qed.
Lemma map2_nth (f : R -> R -> R) k : forall l m, length l = length m -> (k < length l)%nat ->
  nth k (map2 f l m) 0 = f (nth k l 0) (nth k m 0).
Proof.
  induction k as [|k IH]; intros [|a l] [|b m] H K; cbn in *; try lia; auto. apply IH; lia.
Qed.
Lemma lowest_rows w : forall (nodes : list (list R)) (n : list R), length n = w -> Forall (fun r => length r = w) nodes ->
  length (fold_left (map2 Rmin) nodes n) = w /\
  forall k, (k < w)%nat -> lowest (n :: nodes) k (nth k (fold_left (map2 Rmin) nodes n) 0).
Proof.
  induction nodes as [|m nodes IH]; intros n Hn F; cbn [fold_left].
  - split; auto. intros k K. split.
    + exists n. split; [left|]; auto.
    + intros r [<-|[]]. lra.
  - inversion F as [|? ? Hm F']; subst.
    destruct (IH (map2 Rmin n m)) as [L Low]; auto; [apply map2_length; auto|].
    split; auto. intros k K. destruct (Low k K) as [(r & [<-|Hr] & E) B].
    + rewrite map2_nth in E by lia. split.
      * rewrite <- E. unfold Rmin. destruct (Rle_dec _ _); [exists n|exists m]; cbn; auto.
      * assert (M : nth k (fold_left (map2 Rmin) nodes (map2 Rmin n m)) 0 <= Rmin (nth k n 0) (nth k m 0)) by lra.
        intros r [<-|[<-|Hr]].
        -- eapply Rle_trans; [exact M|apply Rmin_l].
        -- eapply Rle_trans; [exact M|apply Rmin_r].
        -- apply B. right. auto.
    + specialize (B (map2 Rmin n m) (or_introl eq_refl)) as M. rewrite map2_nth in M by lia. split.
      * exists r. split; [right; right|]; auto.
      * intros s [<-|[<-|Hs]].
        -- eapply Rle_trans; [exact M|apply Rmin_l].
        -- eapply Rle_trans; [exact M|apply Rmin_r].
        -- apply B. right. auto.
Qed.

Lemma map_rows_ok {A B} (f : A -> result B) (g : A -> B) l : (forall a, In a l -> f a = Ok (g a)) -> map_rows f l = Ok (map g l).
Proof.
  induction l as [|a l IH]; intros H; auto. cbn. rewrite H by (left; auto). cbn. rewrite IH; auto.
  intros. apply H. right. auto.
Qed.

Section Placing.
  Variables (w : nat) (nodes : list (list R)).
  Hypothesis Rows : Forall (fun r => length r = w) nodes.
  Hypothesis Some_node : nodes <> [].

  Lemma min_rows_lowest : exists o, min_rows nodes = Ok o /\ length o = w /\ forall k, (k < w)%nat -> lowest nodes k (nth k o 0).
  Proof.
    destruct nodes as [|n l]; [contradiction|]. inversion Rows; subst.
    destruct (lowest_rows (length n) l n) as [L H]; auto. cbn [min_rows]. eauto.
  Qed.

  Lemma translate_to position target : (length position = w \/ exists x, position = [x]) ->
    (forall k, (k < w)%nat -> target k = if (length position =? w)%nat then nth k position 0 else nth 0 position 0) ->
    exists nodes' o, translate_nodes nodes (Some position) = Ok nodes' /\
      (forall k, (k < w)%nat -> lowest nodes k (o k)) /\
      Forall2 (fun r r' => length r' = w /\ forall k, (k < w)%nat -> nth k r' 0 = nth k r 0 - o k + target k) nodes nodes'.
  Proof.
    intros HP HT. destruct min_rows_lowest as (o & E & L & Low). unfold translate_nodes. rewrite E. cbn [bind].
    pose (g := fun row => if (length position =? w)%nat then map2 Rplus row position else map (fun y => y + nth 0 position 0) row).
    rewrite (map_rows_ok _ g).
    2:{ intros row Hr. apply in_map_iff in Hr. destruct Hr as (n & <- & Hn).
        assert (Ln : length n = w) by (rewrite Forall_forall in Rows; auto).
        unfold add_row, g. rewrite map2_length by lia. rewrite Ln.
        destruct (Nat.eqb_spec (length position) w) as [W|W]; auto.
        destruct HP as [HP|[x ->]]; [contradiction|]. reflexivity. }
    rewrite map_map. eexists. exists (fun k => nth k o 0). split; [reflexivity|]. split; [auto|].
    clear E Low Some_node. induction Rows as [|n l Hn F IH]; cbn [map]; constructor; auto.
    unfold g. destruct (Nat.eqb_spec (length position) w) as [W|W].
    - split; [rewrite map2_length; rewrite map2_length; lia|]. intros k K.
      rewrite map2_nth; rewrite ?map2_length; try lia. rewrite map2_nth by lia. rewrite HT by auto. reflexivity.
    - split; [rewrite map_length, map2_length; lia|]. intros k K.
      rewrite (nth_indep _ 0 (0 + nth 0 position 0)) by (rewrite map_length, map2_length; lia).
      rewrite (map_nth (fun y => y + nth 0 position 0)). rewrite map2_nth by lia. rewrite HT by auto. reflexivity.
  Qed.

  Lemma translate_mismatch position : length position <> w -> (forall x, position <> [x]) ->
    translate_nodes nodes (Some position) = Err ValueError.
  Proof.
    intros W X. destruct min_rows_lowest as (o & E & L & _). unfold translate_nodes. rewrite E. cbn [bind].
    destruct nodes as [|n l]; [contradiction|]. inversion Rows; subst. cbn [map map_rows].
    unfold add_row at 1. rewrite map2_length by lia. destruct (Nat.eqb_spec (length position) (length n)); [lia|].
    destruct position as [|x [|y position]]; auto. exfalso. apply (X x). auto.
  Qed.

  Lemma placed o target nodes' : (forall k, (k < w)%nat -> lowest nodes k (o k)) ->
    Forall2 (fun r r' => length r' = w /\ forall k, (k < w)%nat -> nth k r' 0 = nth k r 0 - o k + target k) nodes nodes' ->
    length nodes' = length nodes /\ Forall (fun r => length r = w) nodes' /\
    (forall k, (k < w)%nat -> lowest nodes' k (target k)) /\
    (forall i j k, (i < length nodes)%nat -> (j < length nodes)%nat -> (k < w)%nat ->
      nth k (nth i nodes' []) 0 - nth k (nth j nodes' []) 0 = nth k (nth i nodes []) 0 - nth k (nth j nodes []) 0).
  Proof.
    intros Low F. clear Some_node Rows.
    assert (G : forall i, (i < length nodes)%nat -> forall k, (k < w)%nat -> nth k (nth i nodes' []) 0 = nth k (nth i nodes []) 0 - o k + target k).
    { clear Low. induction F as [|r r' l l' [H H'] F IH]; intros i Hi k K; cbn in Hi; [lia|].
      destruct i as [|i]; cbn [nth]; [auto|]. apply IH; auto; lia. }
    split; [|split; [|split]].
    - clear - F. induction F; cbn; congruence.
    - clear - F. induction F as [|r r' l l' [H _] F IH]; constructor; auto.
    - intros k K. destruct (Low k K) as [(r & Hr & E) B]. split.
      + clear B G Low. induction F as [|a a' l l' [H H'] F IH]; [destruct Hr|]. destruct Hr as [->|Hr].
        * exists a'. split; [left; auto|]. rewrite H' by auto. lra.
        * destruct IH as (s & Hs & Es); auto.
          exists s. split; [right|]; auto.
      + intros r' Hr'. assert (X : exists s, In s nodes /\ nth k r' 0 = nth k s 0 - o k + target k).
        { clear - F Hr' K. induction F as [|a a' l l' [H H'] F IH]; [destruct Hr'|]. destruct Hr' as [->|Hr'].
          - exists a. split; [left|]; auto.
          - destruct IH as (s & Hs & Es); auto. exists s. split; [right|]; auto. }
        destruct X as (s & Hs & ->). specialize (B s Hs). lra.
    - intros i j k Hi Hj K. rewrite !G by auto. lra.
  Qed.
End Placing.

Theorem translate_placed w nodes position : Forall (fun r => length r = w) nodes -> nodes <> [] -> length position = w ->
  exists nodes', translate_nodes nodes (Some position) = Ok nodes' /\
    length nodes' = length nodes /\ Forall (fun r => length r = w) nodes' /\
    (forall k, (k < w)%nat -> lowest nodes' k (nth k position 0)) /\
    (forall i j k, (i < length nodes)%nat -> (j < length nodes)%nat -> (k < w)%nat ->
      nth k (nth i nodes' []) 0 - nth k (nth j nodes' []) 0 = nth k (nth i nodes []) 0 - nth k (nth j nodes []) 0).
Proof.
  intros F N L. destruct (translate_to w nodes F N position (fun k => nth k position 0)) as (nodes' & o & E & Low & T).
  - auto.
  - intros k _. rewrite L, Nat.eqb_refl. reflexivity.
  - exists nodes'. split; auto. exact (placed w nodes o _ nodes' Low T).
Qed.
Theorem translate_one w nodes x : Forall (fun r => length r = w) nodes -> nodes <> [] ->
  exists nodes', translate_nodes nodes (Some [x]) = Ok nodes' /\ forall k, (k < w)%nat -> lowest nodes' k x.
Proof.
  intros F N. destruct (translate_to w nodes F N [x] (fun _ => x)) as (nodes' & o & E & Low & T).
  - eauto.
  - intros k K. cbn. destruct w as [|[|w]]; cbn; try lia; auto. destruct k; [auto|lia].
  - exists nodes'. split; auto. destruct (placed w nodes o _ nodes' Low T) as (_ & _ & H & _). exact H.
Qed.

Lemma steps_unique l p : 0 < l -> 0 < p -> exists n, steps l p n /\ forall n', steps l p n' -> n' = n.
Proof.
  intros L P. destruct (steps_exist l p L P) as (n & S). exists n. split; auto.
  intros n' (A & B & C). destruct S as (A' & B' & C'). apply C in B'. apply C' in B. lia.
Qed.
Lemma zero_bound lx ly : cross_rectangle [lx; ly] 0 = Err ZeroDivision.
Proof. unfold cross_rectangle. destruct (Req_EM_T 0 0); auto. lra. Qed.
Lemma zero_size l p : p <> 0 ->
  cross_rectangle [0; l] p = Err ZeroDivision /\ cross_rectangle [l; 0] p = Err ZeroDivision.
Proof.
  intros H. assert (C : ceil (0 / p) = 0%Z) by (apply ceil_unique; unfold Rdiv; rewrite Rmult_0_l; lra).
  unfold cross_rectangle. destruct (Req_EM_T p 0); [contradiction|]. rewrite C. cbv zeta. rewrite Z.eqb_refl.
  rewrite orb_true_r. auto.
Qed.
