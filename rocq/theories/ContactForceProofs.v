(* Contact forces of the direct solver, the subgradient and the derivative of the cost. *)
From Coq Require Import Reals List Arith Bool Lia Lra Psatz.
From Verif Require Import RVec PyModel ForcesSpec FemSpec ContactModel ContactSpec ContactProofs ContactLawProofs
  ContactCostProofs.
Import ListNotations.
Local Open Scope R_scope.

Lemma dot_add_at n w x i c : (i < n)%nat ->
  dot n w (snd (add_at x i c)) = dot n w (snd x) + w i * c.
Proof.
  intros Hi. unfold add_at, dot. cbn [snd].
  rewrite (sum_ext n _ (fun k => w k * snd x k + delta i k * (w k * c))).
  - rewrite sum_plus. f_equal. apply sum_delta_l; auto.
  - intros k _. unfold delta. rewrite (Nat.eqb_sym i k). destruct (k =? i)%nat; ring.
Qed.

Lemma add_at_length x i c : fst (add_at x i c) = fst x.
Proof. reflexivity. Qed.

Lemma accumulate_dot {B} (f : arr -> B -> result arr) (g : vec -> B -> R) n l :
  (forall x acc, In x l -> fst acc = n -> exists acc', f acc x = Ok acc' /\ fst acc' = n /\
     forall w, dot n w (snd acc') = dot n w (snd acc) + g w x) ->
  forall acc, fst acc = n -> exists acc', accumulate f l acc = Ok acc' /\ fst acc' = n /\
    forall w, dot n w (snd acc') = dot n w (snd acc) + lsum l (g w).
Proof.
  induction l as [|x l IH]; intros H acc Ha; cbn [accumulate lsum].
  - exists acc. repeat split; auto. intros w. ring.
  - destruct (H x acc (or_introl eq_refl) Ha) as (a1 & E1 & L1 & D1). rewrite E1. cbn [bind].
    destruct (IH (fun y b Hy Hb => H y b (or_intror Hy) Hb) a1 L1) as (a2 & E2 & L2 & D2).
    exists a2. repeat split; auto. intros w. rewrite D2, D1. ring.
Qed.

Lemma sampled_columns (F : vec -> R) C x N old a b :
  (forall v w, v 0%nat = w 0%nat -> v 1%nat = w 1%nat -> F v = F w) ->
  lsum (seq 0 (List.length [a; b] + 1)) (fun c => F (fun i => get_nodes [a; b] (2 * C, x)%nat (2 * N, old)%nat 2 i c))
  = lsum (samples [a; b] (mixed C x N old)) F.
Proof.
  intros HF. change (seq 0 (List.length [a; b] + 1)) with [0; 1; 2]%nat. unfold samples. cbn [lsum map].
  set (G := get_nodes [a; b] (2 * C, x)%nat (2 * N, old)%nat 2).
  rewrite (HF (fun i => G i 0%nat) (mean_at [a; b] (mixed C x N old))) by (apply nodes_mean; lia).
  rewrite (HF (fun i => G i 1%nat) (mixed C x N old a)) by (apply (nodes_node 2 C x N old [a; b] _ 0%nat); lia).
  rewrite (HF (fun i => G i 2%nat) (mixed C x N old b)) by (apply (nodes_node 2 C x N old [a; b] _ 1%nat); lia).
  reflexivity.
Qed.

Lemma lsum_samples_ext e v w (F : vec -> R) :
  (forall p q, p 0%nat = q 0%nat -> p 1%nat = q 1%nat -> F p = F q) ->
  (forall a k, In a e -> v a k = w a k) ->
  lsum (samples e v) F = lsum (samples e w) F.
Proof.
  intros HF H. unfold samples. cbn [lsum]. rewrite !lsum_map. f_equal.
  - apply HF; apply mean_at_ext; auto.
  - apply lsum_ext. intros a Ha. apply HF; auto.
Qed.

Lemma face_ok_pair N faces ei : faces_ok 2 N faces -> (ei < List.length faces)%nat ->
  exists a b, nth ei faces [] = [a; b] /\ (a < N)%nat /\ (b < N)%nat.
Proof.
  intros HF Hi. destruct (face_pairs 2 N faces ei HF eq_refl Hi) as (a & b & E).
  exists a, b. split; auto. split; apply (face_in_range N faces ei); auto; rewrite E; simpl; auto.
Qed.

Lemma half_pair w n a b N :
  / 2 * (w a * n 0%nat + w (a + N)%nat * n 1%nat + (w b * n 0%nat + w (b + N)%nat * n 1%nat))
  = along n (mean_at [a; b] (nodal N w)).
Proof.
  unfold along, inner_product, mean_at, nodal. cbn [sum lsum List.length INR].
  replace (0 * N + a)%nat with a by lia. replace (0 * N + b)%nat with b by lia.
  replace (1 * N + a)%nat with (a + N)%nat by lia. replace (1 * N + b)%nat with (b + N)%nat by lia. field.
Qed.

Theorem direct_forces jn nodes normals faces N x :
  faces_ok 2 N faces ->
  exists c, contact_part 2 nodes 2 normals jn (2 * N, x)%nat faces = Ok (2 * N, c)%nat /\
    forall w, dot (2 * N) w c
      = averaged_work nodes normals faces (fun _ r => jn r 0 0) (nodal N x) (nodal N w).
Proof.
  intros HF. unfold contact_part. cbn [fst].
  replace (2 * N / 2)%nat with N by (rewrite Nat.mul_comm, Nat.div_mul; lia).
  match goal with |- exists c, accumulate ?f ?l ?a = _ /\ _ =>
    destruct (accumulate_dot f (fun w ei => let e := nth ei faces [] in let n := normals ei in
      face_measure 2 nodes e / 3 *
      lsum (samples e (nodal N x)) (fun p => jn (along n p) 0 0) * along n (mean_at e (nodal N w)))
      (2 * N) l) with (acc := a) as (acc' & E & L & D) end.
  2: reflexivity.
  - intros ei acc Hei Hacc. apply in_seq in Hei.
    destruct (face_ok_pair N faces ei HF ltac:(lia)) as (a & b & He & Ha & Hb). cbv zeta. rewrite He.
    set (n := normals ei).
    match goal with |- exists acc', accumulate ?f ?l _ = _ /\ _ =>
      destruct (accumulate_dot f (fun w c => face_measure 2 nodes [a; b] / 3 *
        (jn (along n (fun i => get_nodes [a; b] (2 * N, x)%nat (2 * N, x)%nat 2 i c)) 0 0
         * along n (mean_at [a; b] (nodal N w)))) (2 * N) l) with (acc := acc) as (acc' & E & L & D) end; auto.
    + intros c acc1 _ H1. eexists. split; [|split].
      * unfold broadcast. cbn [fst snd Nat.eqb bind nth]. reflexivity.
      * apply Nat.ltb_lt in Ha, Hb. rewrite Ha, Hb. rewrite !add_at_length. exact H1.
      * intros w. pose proof Ha as Ha'. pose proof Hb as Hb'. apply Nat.ltb_lt in Ha', Hb'. rewrite Ha', Hb'.
        rewrite !dot_add_at by lia. rewrite <- half_pair.
        rewrite (length_measure [a; b] nodes) by eauto.
        set (g := get_nodes [a; b] (2 * N, x)%nat (2 * N, x)%nat 2).
        change (total (2%nat, fun i => g i c * n i)) with (along n (fun i => g i c)).
        replace (INR (List.length [a; b] + 1)) with 3 by (simpl; lra).
        set (j := jn (along n (fun i => g i c)) 0 0). set (m := face_measure 2 nodes [a; b]). lra.
    + exists acc'. split; [exact E|]. split; [exact L|]. intros w. rewrite D. f_equal.
      rewrite lsum_scal, lsum_scal_r.
      rewrite (sampled_columns (fun v => jn (along n v) 0 0) N x N x a b).
      2:{ intros v v' H0 H1. rewrite (along_ext n v v') by auto. reflexivity. }
      rewrite (lsum_samples_ext [a; b] (mixed N x N x) (nodal N x)).
      * ring.
      * intros p q H0 H1. rewrite (along_ext n p q) by auto. reflexivity.
      * intros d k _. unfold mixed. destruct (d <? N)%nat; reflexivity.
  - exists (snd acc'). split.
    + rewrite E. rewrite <- L. rewrite <- surjective_pairing. reflexivity.
    + intros w. rewrite D, lsum_seq. cbn [snd].
      replace (dot (2 * N) w (fun _ => 0)) with 0.
      2:{ unfold dot. rewrite sum_0; auto. intros; ring. }
      rewrite Rplus_0_l. reflexivity.
Qed.

(* ------------------------------------------------------ subgradient *)

Lemma point_value_normal sub nodes n v u N e dt : (exists a b, e = [a; b]) ->
  point_cost (Function sub) Nothing Nothing Nothing 2 2 nodes e (2%nat, n) (2%nat, v) (2 * N, u)%nat dt
  = Ok (face_measure 2 nodes e / 3 * sub (along n v) (along n (mean_at e (nodal N u))) dt).
Proof.
  intros He. unfold point_cost. cbn [Nat.eqb njit].
  destruct (split_2 v n) as (t & -> & _). cbn [bind].
  set (m := interpolate_node_between e _ _ 2).
  assert (Hm : m = (2%nat, snd m)) by reflexivity. rewrite Hm.
  destruct (split_2 (snd m) n) as (t' & -> & _). cbn [bind].
  assert (E0 : snd m 0%nat = mean_at e (nodal N u) 0%nat) by (apply interpolate_mean; lia).
  assert (E1 : snd m 1%nat = mean_at e (nodal N u) 1%nat) by (apply interpolate_mean; lia).
  f_equal. unfold contact_cost. rewrite (length_measure e nodes He).
  replace (INR (List.length e + 1)) with 3.
  2:{ destruct He as (a & b & ->). simpl. lra. }
  rewrite (along_ext n (snd m) _ E0 E1). ring.
Qed.

Theorem subgradient_forces sub nodes normals faces N x old u dt :
  faces_ok 2 N faces ->
  exists c, contact_subgradient (Function sub) Nothing Nothing Nothing 2 2 nodes 2 normals
              (2 * N, x)%nat (2 * N, old)%nat (2 * N, u)%nat faces dt = Ok (2 * N, c)%nat /\
    forall w, dot (2 * N) w c
      = averaged_work nodes normals faces
          (fun ei r => sub r (along (normals ei) (mean_at (nth ei faces []) (nodal N u))) dt) (nodal N x) (nodal N w).
Proof.
  intros HF. unfold contact_subgradient. cbn [fst].
  replace (2 * N / 2)%nat with N by (rewrite Nat.mul_comm, Nat.div_mul; lia).
  match goal with |- exists c, accumulate ?f ?l ?a = _ /\ _ =>
    destruct (accumulate_dot f (fun w ei => let e := nth ei faces [] in let n := normals ei in
      face_measure 2 nodes e / 3 *
      lsum (samples e (nodal N x)) (fun p => sub (along n p) (along n (mean_at e (nodal N u))) dt)
      * along n (mean_at e (nodal N w)))
      (2 * N) l) with (acc := a) as (acc' & E & L & D) end.
  2: reflexivity.
  - intros ei acc Hei Hacc. apply in_seq in Hei.
    destruct (face_ok_pair N faces ei HF ltac:(lia)) as (a & b & He & Ha & Hb). cbv zeta. rewrite He.
    set (n := normals ei). set (s := along n (mean_at [a; b] (nodal N u))).
    match goal with |- exists acc', accumulate ?f ?l _ = _ /\ _ =>
      destruct (accumulate_dot f (fun w c => face_measure 2 nodes [a; b] / 3 *
        (sub (along n (fun i => get_nodes [a; b] (2 * N, x)%nat (2 * N, old)%nat 2 i c)) s dt
         * along n (mean_at [a; b] (nodal N w)))) (2 * N) l) with (acc := acc) as (acc' & E & L & D) end; auto.
    + intros c acc1 _ H1. unfold column. rewrite point_value_normal by eauto. cbn [bind seq fold_left].
      pose proof Ha as Ha'. pose proof Hb as Hb'. apply Nat.ltb_lt in Ha', Hb'. rewrite Ha', Hb'.
      eexists. split; [reflexivity|]. split; [rewrite !add_at_length; exact H1|].
      intros w. rewrite !dot_add_at by lia. rewrite <- (half_pair w).
      set (g := get_nodes [a; b] (2 * N, x)%nat (2 * N, old)%nat 2). fold s.
      replace (INR (List.length [a; b])) with 2 by (simpl; lra).
      replace (0 * N + a)%nat with a by lia. replace (0 * N + b)%nat with b by lia.
      replace (1 * N + a)%nat with (a + N)%nat by lia. replace (1 * N + b)%nat with (b + N)%nat by lia.
      set (j := sub (along n (fun i => g i c)) s dt). set (m := face_measure 2 nodes [a; b]). lra.
    + exists acc'. split; [exact E|]. split; [exact L|]. intros w. rewrite D. f_equal.
      rewrite lsum_scal, lsum_scal_r.
      rewrite (sampled_columns (fun v => sub (along n v) s dt) N x N old a b).
      2:{ intros v v' H0 H1. rewrite (along_ext n v v') by auto. reflexivity. }
      rewrite (lsum_samples_ext [a; b] (mixed N x N old) (nodal N x)).
      * ring.
      * intros p q H0 H1. rewrite (along_ext n p q) by auto. reflexivity.
      * intros d k [<- | [<- | []]]; apply mixed_low; auto.
  - exists (snd acc'). split.
    + rewrite E. rewrite <- L. rewrite <- surjective_pairing. reflexivity.
    + intros w. rewrite D, lsum_seq. cbn [snd].
      replace (dot (2 * N) w (fun _ => 0)) with 0.
      2:{ unfold dot. rewrite sum_0; auto. intros; ring. }
      rewrite Rplus_0_l. reflexivity.
Qed.

(* ------------------------------------------- derivative of the cost *)

Lemma derivable_sum n (F : nat -> R -> R) (d : nat -> R) x :
  (forall i, (i < n)%nat -> derivable_pt_lim (F i) x (d i)) ->
  derivable_pt_lim (fun h => sum n (fun i => F i h)) x (sum n d).
Proof.
  induction n as [|n IH]; intros H; cbn [sum].
  - apply (derivable_pt_lim_const 0).
  - apply (derivable_pt_lim_plus (fun h => sum n (fun i => F i h)) (F n)); [apply IH; intros; apply H; lia|apply H; lia].
Qed.

Lemma derivable_lsum {A} (l : list A) (F : A -> R -> R) (d : A -> R) x :
  (forall a, In a l -> derivable_pt_lim (F a) x (d a)) ->
  derivable_pt_lim (fun h => lsum l (fun a => F a h)) x (lsum l d).
Proof.
  induction l as [|a l IH]; intros H; cbn [lsum].
  - apply (derivable_pt_lim_const 0).
  - apply (derivable_pt_lim_plus (F a) (fun h => lsum l (fun a => F a h))); [apply H; left; auto|apply IH; intros; apply H; right; auto].
Qed.

Lemma derivable_ext f g x d : (forall h, f h = g h) -> derivable_pt_lim f x d -> derivable_pt_lim g x d.
Proof.
  intros E H eps Heps. destruct (H eps Heps) as [del Hd]. exists del. intros h Hh Hl. rewrite <- !E. apply Hd; auto.
Qed.

Lemma derivable_line f a b d : derivable_pt_lim f a d -> derivable_pt_lim (fun h => f (a + h * b)) 0 (d * b).
Proof.
  intros H. apply (derivable_pt_lim_comp (fun h => a + h * b) f 0 b d).
  - apply derivable_ext with (f := (fct_cte a + mult_real_fct b id)%F).
    { intros h. unfold plus_fct, fct_cte, mult_real_fct, id. ring. }
    replace b with (0 + b * 1) at 2 by ring.
    apply derivable_pt_lim_plus; [apply derivable_pt_lim_const|].
    apply derivable_pt_lim_scal. apply derivable_pt_lim_id.
  - replace (a + 0 * b) with a by ring. exact H.
Qed.

Lemma along_move n (v w : nat -> vec) a h : along n (fun k => v a k + h * w a k) = along n (v a) + h * along n (w a).
Proof. unfold along, inner_product. cbn [sum]. ring. Qed.

Lemma mean_move n e (v w : nat -> vec) h :
  along n (mean_at e (fun a k => v a k + h * w a k)) = along n (mean_at e v) + h * along n (mean_at e w).
Proof.
  unfold along, inner_product, mean_at. cbn [sum].
  rewrite !lsum_plus, !lsum_scal. unfold Rdiv. ring.
Qed.

(* a frictionless law with unit bound: derivative of the contact cost in direction w *)
Theorem cost_derivative pot sub nodes normals faces v s w dt :
  (forall r q, derivable_pt_lim (fun y => pot y q dt) r (sub r q dt)) ->
  derivable_pt_lim (fun h => boundary_sum nodes faces
      (fun ei => density (fun _ _ _ => 1) pot (fun _ _ _ => 1) (fun _ _ _ => 0) dt (normals ei))
      (fun a k => v a k + h * w a k) s) 0
    (sampled_work nodes normals faces
       (fun ei r => sub r (along (normals ei) (mean_at (nth ei faces []) s)) dt) v w).
Proof.
  intros HD. unfold boundary_sum, sampled_work.
  apply derivable_sum. intros ei _. cbv zeta.
  set (e := nth ei faces []). set (n := normals ei). set (q := along n (mean_at e s)).
  apply derivable_ext with (f := mult_real_fct (face_measure 2 nodes e / 3)
    (fun h => pot (along n (mean_at e v) + h * along n (mean_at e w)) q dt
              + lsum e (fun a => pot (along n (v a) + h * along n (w a)) q dt))).
  { intros h. unfold mult_real_fct, samples. cbn [lsum]. rewrite lsum_map. f_equal. f_equal.
    - unfold density. rewrite mean_move. fold q. ring.
    - apply lsum_ext. intros a _. unfold density.
      change (fun k => v a k + h * w a k) with (fun k => v a k + h * w a k).
      rewrite (along_move n v w a h). fold q. ring. }
  apply derivable_pt_lim_scal.
  apply (derivable_pt_lim_plus (fun h => pot (along n (mean_at e v) + h * along n (mean_at e w)) q dt)).
  - apply (derivable_line (fun y => pot y q dt)). apply HD.
  - apply (derivable_lsum e (fun a h => pot (along n (v a) + h * along n (w a)) q dt)).
    intros a _. apply (derivable_line (fun y => pot y q dt)). apply HD.
Qed.

(* both works agree for fields that are constant on every face *)
Theorem rigid_work nodes normals faces j v w N :
  faces_ok 2 N faces ->
  (forall e a b k, In e faces -> In a e -> In b e -> w a k = w b k) ->
  averaged_work nodes normals faces j v w = sampled_work nodes normals faces j v w.
Proof.
  intros HF HW. unfold averaged_work, sampled_work. apply sum_ext. intros ei Hei. cbv zeta.
  destruct (face_ok_pair N faces ei HF Hei) as (a & b & He & _).
  assert (I : In [a; b] faces) by (rewrite <- He; apply nth_In; auto). rewrite He.
  assert (E : forall k, w b k = w a k) by (intros; apply (HW [a; b]); simpl; auto).
  assert (M : along (normals ei) (mean_at [a; b] w) = along (normals ei) (w a)).
  { unfold along, inner_product, mean_at. cbn [sum lsum List.length INR]. rewrite !E. field. }
  assert (Eb : along (normals ei) (w b) = along (normals ei) (w a)).
  { unfold along, inner_product. cbn [sum]. rewrite !E. reflexivity. }
  unfold samples. cbn [lsum map]. rewrite M, Eb. ring.
Qed.
