(* Stress, saving and products. *)
From Coq Require Import Reals List Arith Bool String Lia Lra.
From Verif Require Import PyModel RVec StateModel StateLemmas.
Import ListNotations.
Local Open Scope R_scope.

Lemma NoDup_left : forall (A : Type) (l l' : list A), NoDup (l ++ l') -> NoDup l.
Proof.
  intros A l l' H. induction l as [|x l IH]; [constructor|]. cbn [app] in H. apply NoDup_cons_iff in H. destruct H as [H1 H2].
  constructor; [intro C; apply H1, in_or_app; left; exact C|apply IH; exact H2].
Qed.

Lemma NoDup_right : forall (A : Type) (l l' : list A), NoDup (l ++ l') -> NoDup l'.
Proof.
  intros A l l' H. induction l as [|x l IH]; [exact H|]. cbn [app] in H. apply NoDup_cons_iff in H. apply IH, H.
Qed.

Section Products.
  Context {V W : Type}.

  (* dictionaries with times as keys *)
  Definition keys (d : list (R * V)) : list R := map fst d.

  Fixpoint time_get (d : list (R * V)) (k : R) : option V :=
    match d with [] => None | (k', v) :: d => if Req_EM_T k k' then Some v else time_get d k end.

  Lemma time_set_get : forall (d : list (R * V)) k v k',
    time_get (time_set d k v) k' = if Req_EM_T k' k then Some v else time_get d k'.
  Proof.
    induction d as [|[a b] d IH]; intros k v k'; cbn [time_set time_get].
    - destruct (Req_EM_T k' k); reflexivity.
    - destruct (Req_EM_T k a) as [->|N]; cbn [time_get].
      + destruct (Req_EM_T k' a); reflexivity.
      + rewrite IH. destruct (Req_EM_T k' a) as [->|]; destruct (Req_EM_T _ k) as [E|]; congruence.
  Qed.

  Lemma time_set_keys : forall (d : list (R * V)) k v,
    keys (time_set d k v) = if in_dec Req_EM_T k (keys d) then keys d else keys d ++ [k].
  Proof.
    induction d as [|[a b] d IH]; intros k v; cbn [time_set keys map fst].
    - reflexivity.
    - destruct (Req_EM_T k a) as [->|N].
      + cbn [map fst]. destruct (in_dec Req_EM_T a (a :: map fst d)) as [|C]; [reflexivity|exfalso; apply C; left; reflexivity].
      + cbn [map fst]. change (map fst (time_set d k v)) with (keys (time_set d k v)). rewrite IH.
        destruct (in_dec Req_EM_T k (keys d)) as [Hi|Hn]; destruct (in_dec Req_EM_T k (a :: map fst d)) as [Hi'|Hn'].
        * reflexivity.
        * exfalso. apply Hn'. right. exact Hi.
        * exfalso. destruct Hi' as [E|Hi']; [congruence|contradiction].
        * reflexivity.
  Qed.

  Lemma time_set_nodup : forall (d : list (R * V)) k v, NoDup (keys d) -> NoDup (keys (time_set d k v)).
  Proof.
    intros d k v H. rewrite time_set_keys. destruct (in_dec Req_EM_T k (keys d)) as [|N]; [exact H|].
    apply NoDup_rev in H. rewrite <- (rev_involutive (keys d ++ [k])). apply NoDup_rev.
    rewrite rev_app_distr. cbn [rev app]. constructor; [rewrite <- in_rev; exact N|exact H].
  Qed.

  Lemma time_del_in : forall (d : list (R * V)) k, NoDup (keys d) -> In k (keys d) ->
    time_del d k = Ok (filter (fun kv => negb (if Req_EM_T (fst kv) k then true else false)) d).
  Proof.
    induction d as [|[a b] d IH]; intros k N H; [destruct H|].
    cbn [keys map fst] in N, H. apply NoDup_cons_iff in N. destruct N as [N1 N2].
    cbn [time_del filter fst]. destruct (Req_EM_T k a) as [->|NE].
    - destruct (Req_EM_T a a) as [_|C]; [|contradiction]. cbn [negb]. f_equal. symmetry.
      clear IH H N2. induction d as [|[c e] d IH]; [reflexivity|]. cbn [filter fst].
      cbn [keys map fst In] in N1. destruct (Req_EM_T c a) as [->|]; [exfalso; apply N1; left; reflexivity|].
      cbn [negb]. f_equal. apply IH. intro C; apply N1; right; exact C.
    - destruct (Req_EM_T a k) as [E|_]; [congruence|]. cbn [negb].
      destruct H as [E|H]; [congruence|]. rewrite IH by assumption. reflexivity.
  Qed.

  Definition outside_range (a b k : R) : bool :=
    (if Rle_dec k a then true else false) || (if Rlt_dec b k then true else false).

  Lemma outside_range_spec : forall a b k, outside_range a b k = false <-> a < k <= b.
  Proof.
    intros a b k. unfold outside_range.
    destruct (Rle_dec k a); destruct (Rlt_dec b k); cbn [orb]; split; intros; try discriminate; try reflexivity; lra.
  Qed.

  Lemma range_data : forall (p : product V) a b, NoDup (keys (p_data p)) ->
    product_range p a b = Ok (mkProduct (p_name p) None (filter (fun kv => negb (outside_range a b (fst kv))) (p_data p))).
  Proof.
    intros p a b N. unfold product_range, product_copy; cbn [p_data p_name p_update].
    set (step := fun (acc : result (list (R * V))) (kv : R * V) => bind acc (fun d => if (if Rle_dec (fst kv) a then true else false) || (if Rlt_dec b (fst kv) then true else false)
        then time_del d (fst kv) else Ok d)).
    assert (G : forall todo d before, p_data p = before ++ todo ->
              d = filter (fun kv => negb (outside_range a b (fst kv))) before ++ todo ->
              fold_left step todo (Ok d) = Ok (filter (fun kv => negb (outside_range a b (fst kv))) (p_data p))).
    { induction todo as [|[k v] todo IH]; intros d before E D; cbn [fold_left].
      - rewrite app_nil_r in E, D. rewrite D, E. reflexivity.
      - assert (ST : step (Ok d) (k, v) = Ok (filter (fun kv => negb (outside_range a b (fst kv))) (before ++ [(k, v)]) ++ todo)).
        { unfold step; cbn [bind fst]. change ((if Rle_dec k a then true else false) || (if Rlt_dec b k then true else false)) with (outside_range a b k).
          rewrite filter_app. cbn [filter fst].
          destruct (outside_range a b k) eqn:O; cbn [negb].
          - rewrite app_nil_r, D.
            assert (NK : NoDup (keys before ++ k :: keys todo)).
            { rewrite E in N. unfold keys in *. rewrite map_app in N. exact N. }
            set (fb := filter (fun kv => negb (outside_range a b (fst kv))) before).
            assert (SB : forall x, In x (keys fb) -> In x (keys before)).
            { intros x Hx. unfold keys, fb in *. apply in_map_iff in Hx. destruct Hx as (y & <- & Hy).
              apply in_map. apply filter_In in Hy. apply Hy. }
            assert (NF : NoDup (keys fb)).
            { unfold fb. clear - NK. apply NoDup_left in NK. induction before as [|[x y] l IH]; [constructor|].
              cbn [keys map fst] in NK. apply NoDup_cons_iff in NK. destruct NK as [K1 K2]. cbn [filter fst].
              destruct (outside_range a b x); cbn [negb]; [apply IH; exact K2|]. cbn [keys map fst]. constructor; [|apply IH; exact K2].
              intro C. apply K1. unfold keys in *. apply in_map_iff in C. destruct C as (z & <- & Hz). apply in_map. apply filter_In in Hz. apply Hz. }
            assert (ND : NoDup (keys (fb ++ (k, v) :: todo))).
            { unfold keys. rewrite map_app. cbn [map fst]. fold (keys fb) (keys todo). clear - NK NF SB. revert NF SB. generalize (keys fb).
              intros l NF SB. induction l as [|x l IH]; cbn [app].
              - apply NoDup_right in NK. exact NK.
              - apply NoDup_cons_iff in NF. destruct NF as [F1 F2]. constructor.
                + rewrite in_app_iff. intros [C|C]; [contradiction|].
                  assert (B : In x (keys before)) by (apply SB; left; reflexivity).
                  clear - NK B C. induction (keys before) as [|y m IH]; [destruct B|]. cbn [app] in NK. apply NoDup_cons_iff in NK.
                  destruct NK as [K1 K2]. destruct B as [->|B]; [apply K1, in_or_app; right; exact C|apply IH; assumption].
                + apply IH; [exact F2|]. intros y Hy. apply SB. right; exact Hy. }
            rewrite time_del_in; [|exact ND|unfold keys; rewrite map_app; apply in_or_app; right; left; reflexivity].
            f_equal. rewrite filter_app. cbn [filter fst]. destruct (Req_EM_T k k) as [_|C]; [|contradiction]. cbn [negb].
            assert (ID : forall l, ~ In k (keys l) -> filter (fun kv : R * V => negb (if Req_EM_T (fst kv) k then true else false)) l = l).
            { clear. induction l as [|[x y] l IH]; intros C; [reflexivity|]. cbn [filter fst]. cbn [keys map fst In] in C.
              destruct (Req_EM_T x k) as [->|]; [exfalso; apply C; left; reflexivity|]. cbn [negb]. rewrite IH; [reflexivity|].
              intro Q; apply C; right; exact Q. }
            unfold keys in ND. rewrite map_app in ND. cbn [map fst] in ND. apply NoDup_remove_2 in ND. rewrite in_app_iff in ND.
            rewrite !ID; [reflexivity| |]; intro C; apply ND; tauto.
          - rewrite <- app_assoc. cbn [app]. rewrite D. reflexivity. }
        rewrite ST. apply (IH _ (before ++ [(k, v)])); [rewrite <- app_assoc; exact E|reflexivity]. }
    rewrite (G (p_data p) (p_data p) []); reflexivity.
  Qed.

  Theorem range_spec : forall (p : product V) a b, NoDup (keys (p_data p)) ->
    exists q, product_range p a b = Ok q /\ p_name q = p_name p /\ NoDup (keys (p_data q)) /\
      forall k v, In (k, v) (p_data q) <-> In (k, v) (p_data p) /\ a < k <= b.
  Proof.
    intros p a b N. rewrite (range_data p a b N). eexists; split; [reflexivity|]. cbn [p_name p_data].
    split; [reflexivity|split].
    - clear - N. induction (p_data p) as [|[x y] l IH]; [constructor|].
      cbn [keys map fst] in N. apply NoDup_cons_iff in N. destruct N as [K1 K2]. cbn [filter fst].
      destruct (outside_range a b x); cbn [negb]; [apply IH; exact K2|]. cbn [keys map fst]. constructor; [|apply IH; exact K2].
      intro C. apply K1. unfold keys in *. apply in_map_iff in C. destruct C as (z & <- & Hz). apply in_map. apply filter_In in Hz. apply Hz.
    - intros k v. rewrite filter_In. cbn [fst]. rewrite negb_true_iff, outside_range_spec. reflexivity.
  Qed.

  (* stress *)
  Theorem stress_first : forall (m : store V) (s : state W) f, stress_cache s = None -> constitutive_law s = Some f ->
    snd (stress m s) = Some (f (look m s)).
  Proof. intros m s f C L. unfold stress. rewrite C, L. reflexivity. Qed.

  Theorem stress_none : forall (m : store V) (s : state W), stress_cache s = None -> constitutive_law s = None ->
    stress m s = (s, None).
  Proof. intros m s C L. unfold stress. rewrite C, L. reflexivity. Qed.

  Theorem stress_kept : forall (m m' : store V) (s s' : state W) x, snd (stress m s) = Some x ->
    stress_cache s' = stress_cache (fst (stress m s)) -> snd (stress m' s') = Some x.
  Proof.
    intros m m' s s' x H E.
    assert (C : stress_cache s' = Some x).
    { rewrite E. revert H. unfold stress. destruct (stress_cache s) as [c|] eqn:EC; cbn [fst snd]; [intro H; rewrite EC; exact H|].
      destruct (constitutive_law s) as [f|]; cbn [fst snd stress_cache]; [exact (fun h => h)|discriminate]. }
    unfold stress. rewrite C. reflexivity.
  Qed.

  Lemma set_velocity_cache : forall dimension nodes_count nodes (m : store V) (s : state W) len c t b,
    stress_cache (snd (fst (set_velocity dimension nodes_count nodes m s len c t b))) = stress_cache s /\
    constitutive_law (snd (fst (set_velocity dimension nodes_count nodes m s len c t b))) = constitutive_law s.
  Proof.
    intros. unfold set_velocity. destruct (_ =? _)%nat; [|split; reflexivity].
    destruct (update_products _ _ _) as [m3 r]; split; reflexivity.
  Qed.

  Lemma set_displacement_cache : forall dimension nodes_count nodes (m : store V) (s : state W) len c t b,
    stress_cache (snd (fst (set_displacement dimension nodes_count nodes m s len c t b))) = stress_cache s /\
    constitutive_law (snd (fst (set_displacement dimension nodes_count nodes m s len c t b))) = constitutive_law s.
  Proof.
    intros. unfold set_displacement. destruct (_ =? _)%nat; [|split; reflexivity].
    destruct (update_products _ _ _) as [m3 r]; split; reflexivity.
  Qed.
End Products.

(* save *)
Theorem save_ok : forall F S L File (dump : savable F S L -> result File) x f,
  snd (save dump x) = Ok f -> fst (save dump x) = x /\ dump (mkSavable None None None None) = Ok f.
Proof.
  intros F S L File dump [o i s l] f H. unfold save, with_outer, with_inner_source, with_setup, with_law in *.
  cbn [outer_source inner_source setup law] in *. destruct (dump _) as [g|e]; [|discriminate].
  cbn [fst snd] in *. split; [reflexivity|exact H].
Qed.

Theorem save_err : forall F S L File (dump : savable F S L -> result File) x e,
  snd (save dump x) = Err e -> fst (save dump x) = mkSavable None None None None.
Proof.
  intros F S L File dump [o i s l] e H. unfold save, with_outer, with_inner_source, with_setup, with_law in *.
  cbn [outer_source inner_source setup law] in *. destruct (dump _) as [g|e']; [discriminate|reflexivity].
Qed.

(* penetration *)
Lemma fold_min_spec : forall l x, (forall y, In y (x :: l) -> fold_left Rmin l x <= y) /\ In (fold_left Rmin l x) (x :: l).
Proof.
  induction l as [|a l IH]; intros x; cbn [fold_left].
  - split; [intros y [<-|[]]; lra|left; reflexivity].
  - destruct (IH (Rmin x a)) as [A B]. split.
    + intros y H. pose proof (A (Rmin x a) (or_introl eq_refl)) as M.
      destruct H as [<-|[<-|H]]; [pose proof (Rmin_l x a); lra|pose proof (Rmin_r x a); lra|].
      apply A. right. exact H.
    + destruct B as [B|B]; [|right; right; exact B]. rewrite <- B.
      unfold Rmin. destruct (Rle_dec x a); [left|right; left]; reflexivity.
Qed.

Theorem penetration_spec : forall nodes_count contact v, contact <> [] ->
  exists x, penetration nodes_count contact v = Ok x /\
    (forall i, In i contact -> x <= view_displaced v (nodes_count + i)%nat) /\
    (exists i, In i contact /\ x = view_displaced v (nodes_count + i)%nat).
Proof.
  intros n contact v NE. unfold penetration. rewrite Nat.mul_1_l.
  destruct contact as [|c contact]; [contradiction|]. cbn [map].
  destruct (fold_min_spec (map (fun i => view_displaced v (n + i)%nat) contact) (view_displaced v (n + c)%nat)) as [A B].
  eexists; split; [reflexivity|]. split.
  - intros i Hi. apply A. change (In (view_displaced v (n + i)%nat) (map (fun i => view_displaced v (n + i)%nat) (c :: contact))).
    apply (in_map (fun i => view_displaced v (n + i)%nat)). exact Hi.
  - change (In (fold_left Rmin (map (fun i => view_displaced v (n + i)%nat) contact) (view_displaced v (n + c)%nat))
      (map (fun i => view_displaced v (n + i)%nat) (c :: contact))) in B.
    apply in_map_iff in B. destruct B as (i & E & Hi). exists i. auto.
Qed.
