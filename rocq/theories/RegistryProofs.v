(* The registry of solvers and the order of classes. *)
From Coq Require Import Reals List Arith Bool String Ascii Lia.
From Verif Require Import PyModel RVec StatementModel RegistryModel RegistrySpec.
Import ListNotations.
Local Open Scope string_scope.
Local Open Scope list_scope.

(* ------------------------------------------------------------- dictionaries *)

Lemma dict_set_get {A} (d : dict A) k v j :
  dict_get (dict_set d k v) j = if String.eqb j k then Some v else dict_get d j.
Proof.
  induction d as [|[k' v'] d IH]; cbn [dict_set dict_get].
  - destruct (String.eqb j k); reflexivity.
  - destruct (String.eqb k k') eqn:E.
    + apply String.eqb_eq in E. subst k'. cbn [dict_get]. destruct (String.eqb j k); reflexivity.
    + cbn [dict_get]. rewrite IH. destruct (String.eqb j k') eqn:F; [|reflexivity].
      apply String.eqb_eq in F. subst k'. destruct (String.eqb j k) eqn:G; [|reflexivity].
      apply String.eqb_eq in G. subst. rewrite String.eqb_refl in E. discriminate.
Qed.

Lemma dict_in_get {A} (d : dict A) k : dict_in d k = true <-> exists v, dict_get d k = Some v.
Proof.
  unfold dict_in. destruct (dict_get d k) as [v|]; split; intros H; try discriminate; eauto.
  destruct H as [v H]. discriminate.
Qed.

(* ------------------------------------------------------------- names *)

Lemma lower_char_spec c :
  (exists n, (65 <= n <= 90)%nat /\ c = ascii_of_nat n /\ lower_char c = ascii_of_nat (n + 32)) \/
  (lower_char c = c /\ forall n, (65 <= n <= 90)%nat -> c <> ascii_of_nat n).
Proof.
  unfold lower_char. destruct ((65 <=? nat_of_ascii c) && (nat_of_ascii c <=? 90))%nat eqn:E.
  - apply andb_true_iff in E. destruct E as [E1 E2]. apply Nat.leb_le in E1. apply Nat.leb_le in E2.
    left. exists (nat_of_ascii c). rewrite ascii_nat_embedding. auto.
  - right. split; [reflexivity|]. intros n Hn ->. rewrite nat_ascii_embedding in E by lia.
    apply andb_false_iff in E. destruct E as [E|E]; apply Nat.leb_gt in E; lia.
Qed.

Lemma lower_char_of_nat n : (65 <= n <= 90)%nat -> lower_char (ascii_of_nat n) = ascii_of_nat (n + 32).
Proof.
  intros H. unfold lower_char. rewrite nat_ascii_embedding by lia.
  destruct (Nat.leb_spec 65 n); [|lia]. destruct (Nat.leb_spec n 90); [|lia]. reflexivity.
Qed.
Lemma lower_char_lower n : (65 <= n <= 90)%nat -> lower_char (ascii_of_nat (n + 32)) = ascii_of_nat (n + 32).
Proof.
  intros H. unfold lower_char. rewrite nat_ascii_embedding by lia.
  destruct (Nat.leb_spec (n + 32) 90); [lia|]. rewrite andb_false_r. reflexivity.
Qed.

Lemma lower_char_idem c : lower_char (lower_char c) = lower_char c.
Proof.
  destruct (lower_char_spec c) as [(n & H & E & L)|[L _]]; rewrite L; [apply lower_char_lower; auto|exact L].
Qed.
Lemma lower_idem s : lower (lower s) = lower s.
Proof. induction s as [|c s IH]; cbn; [reflexivity|]. rewrite lower_char_idem, IH. reflexivity. Qed.

Lemma same_char_lower a b : same_char a b <-> lower_char a = lower_char b.
Proof.
  split.
  - intros [c|n H|n H]; [reflexivity| |]; rewrite (lower_char_of_nat n), lower_char_lower by auto; reflexivity.
  - intros E.
    destruct (lower_char_spec a) as [(n & Hn & Ea & La)|[La Na]];
    destruct (lower_char_spec b) as [(m & Hm & Eb & Lb)|[Lb Nb]]; rewrite La, Lb in E.
    + assert (n = m).
      { apply (f_equal nat_of_ascii) in E. rewrite !nat_ascii_embedding in E by lia. lia. }
      subst. constructor.
    + subst. apply same_upper; auto.
    + subst. apply same_lower; auto.
    + subst. constructor.
Qed.
Lemma same_name_lower s t : same_name s t <-> lower s = lower t.
Proof.
  split.
  - induction 1 as [|a b s t H _ IH]; [reflexivity|]. cbn. rewrite (proj1 (same_char_lower a b) H), IH. reflexivity.
  - revert t. induction s as [|a s IH]; intros [|b t] E; cbn in E; try discriminate; [constructor|].
    injection E as E1 E2. constructor; [apply same_char_lower; auto|auto].
Qed.

(* ------------------------------------------------------------- registering *)

Section Registering.
  Context {C : Type}.
  Notation registry := (registry C).

  Lemma add_names_get : forall names (dyn : dict C) c n,
    let r := add_names dyn names c in
    (forall v, dict_get dyn n = Some v -> dict_get (fst r) n = Some v) /\
    (forall v, dict_get (fst r) n = Some v -> dict_get dyn n = Some v \/ (v = c /\ In n (map lower names))) /\
    (snd r = Ok tt -> In n (map lower names) -> dict_get (fst r) n = Some c).
  Proof.
    induction names as [|m names IH]; intros dyn c n; cbn [add_names map].
    - cbn. split; [auto|]. split; [auto|]. intros _ [].
    - destruct (dict_in dyn (lower m)) eqn:E; cbn zeta.
      + cbn [fst snd]. split; [auto|]. split; [auto|]. discriminate.
      + specialize (IH (dict_set dyn (lower m) c) c n). cbn zeta in IH.
        destruct IH as (H1 & H2 & H3). rewrite dict_set_get in H1, H2.
        assert (F : forall v, dict_get dyn n = Some v -> String.eqb n (lower m) = false).
        { intros v Hv. destruct (String.eqb n (lower m)) eqn:F; auto. apply String.eqb_eq in F. subst n.
          assert (dict_in dyn (lower m) = true) by (apply dict_in_get; eauto). congruence. }
        split; [|split].
        * intros v Hv. apply H1. rewrite (F v Hv). exact Hv.
        * intros v Hv. destruct (H2 v Hv) as [G|[G1 G2]]; [|right; split; [auto|right; auto]].
          destruct (String.eqb n (lower m)) eqn:G'; [|left; auto].
          apply String.eqb_eq in G'. subst n. injection G as <-. right. split; [auto|left; auto].
        * intros Ho [<-|Hn]; [|auto]. apply H1. rewrite String.eqb_refl. reflexivity.
  Qed.

  (* success exactly when the names are different and free *)
  Lemma add_names_ok : forall names (dyn : dict C) c,
    (snd (add_names dyn names c) = Ok tt <->
     NoDup (map lower names) /\ forall n, In n (map lower names) -> dict_get dyn n = None) /\
    (snd (add_names dyn names c) = Ok tt \/ snd (add_names dyn names c) = Err AssertionError).
  Proof.
    induction names as [|m names IH]; intros dyn c; cbn [add_names map].
    - cbn. split; [|auto]. split; [intros _|auto]. split; [constructor|intros n []].
    - destruct (dict_in dyn (lower m)) eqn:E.
      + cbn [snd]. split; [|auto]. split; [discriminate|]. intros [_ H].
        apply dict_in_get in E. destruct E as [v E]. rewrite (H (lower m)) in E by (left; auto). discriminate.
      + destruct (IH (dict_set dyn (lower m) c) c) as [I1 I2]. split; [|auto]. rewrite I1. clear I1 I2.
        assert (N : dict_get dyn (lower m) = None).
        { destruct (dict_get dyn (lower m)) eqn:G; auto. unfold dict_in in E. rewrite G in E. discriminate. }
        split; intros [H1 H2].
        * assert (A : ~ In (lower m) (map lower names)).
          { intros A. specialize (H2 _ A). rewrite dict_set_get, String.eqb_refl in H2. discriminate. }
          split; [constructor; auto|]. intros n [<-|Hn]; [auto|]. specialize (H2 _ Hn). rewrite dict_set_get in H2.
          destruct (String.eqb n (lower m)); [discriminate|auto].
        * inversion H1 as [|? ? A1 A2]; subst. split; [auto|]. intros n Hn. rewrite dict_set_get.
          destruct (String.eqb n (lower m)) eqn:G; [|apply H2; right; auto].
          apply String.eqb_eq in G. subst. contradiction.
  Qed.

  Lemma holds_set (reg : registry) d dyn d' n c :
    holds (dict_set reg d dyn) d' n c <->
    (d' = d /\ dict_get dyn n = Some c) \/ (d' <> d /\ holds reg d' n c).
  Proof.
    unfold holds. rewrite dict_set_get. destruct (String.eqb d' d) eqn:E.
    - apply String.eqb_eq in E. split.
      + intros (x & H1 & H2). injection H1 as <-. auto.
      + intros [[_ H]|[H _]]; [eauto|contradiction].
    - apply String.eqb_neq in E. split; [auto|]. intros [[H _]|[_ H]]; [contradiction|auto].
  Qed.
  Lemma known_set (reg : registry) d dyn d' : known reg d -> (known (dict_set reg d dyn) d' <-> known reg d').
  Proof.
    unfold known. intros K. rewrite dict_set_get. destruct (String.eqb d' d) eqn:E; [|tauto].
    apply String.eqb_eq in E. subst. split; [auto|]. eauto.
  Qed.

  Lemma add_to_dict_get : forall types (reg : registry) names c d n,
    let r := add_to_dict reg types names c in
    (forall v, holds reg d n v -> holds (fst r) d n v) /\
    (forall v, holds (fst r) d n v -> holds reg d n v \/ (v = c /\ In d types /\ In n (map lower names))) /\
    (snd r = Ok tt -> In d types -> In n (map lower names) -> holds (fst r) d n c) /\
    (known (fst r) d <-> known reg d).
  Proof.
    induction types as [|e types IH]; intros reg names c d n; cbn [add_to_dict].
    - cbn. split; [auto|]. split; [auto|]. split; [intros _ []|tauto].
    - destruct (dict_get reg e) as [dyn|] eqn:E; [|cbn; split; [auto|]; split; [auto|]; split; [discriminate|tauto]].
      pose proof (add_names_get names dyn c n) as (N1 & N2 & N3). cbn zeta in N1, N2, N3.
      assert (K : known reg e) by (exists dyn; auto).
      destruct (add_names dyn names c) as [dyn' r]. cbn [fst snd] in N1, N2, N3.
      pose proof (fun v => holds_set reg e dyn' d n v) as HS.
      assert (A1 : forall v, holds reg d n v -> holds (dict_set reg e dyn') d n v).
      { intros v H. apply HS. destruct (string_dec d e) as [->|D]; [left|right; auto].
        split; [auto|]. apply N1. destruct H as (x & X1 & X2). congruence. }
      assert (A2 : forall v, holds (dict_set reg e dyn') d n v -> holds reg d n v \/ (v = c /\ In d (e :: types) /\ In n (map lower names))).
      { intros v H. apply HS in H. destruct H as [[-> H]|[D H]]; [|auto].
        destruct (N2 v H) as [G|[G1 G2]]; [left; exists dyn; auto|right; split; [auto|split; [left; auto|auto]]]. }
      destruct r as [[]|x]; cbn zeta.
      + specialize (IH (dict_set reg e dyn') names c d n). cbn zeta in IH. destruct IH as (I1 & I2 & I3 & I4).
        split; [auto|]. split; [|split].
        * intros v H. destruct (I2 v H) as [G|(G1 & G2 & G3)]; [auto|right; split; [auto|split; [right; auto|auto]]].
        * intros Ho [<-|Hd] Hn; [|auto]. apply I1. apply HS. left. auto.
        * rewrite I4. apply known_set; auto.
      + cbn [fst snd]. split; [auto|]. split; [auto|]. split; [discriminate|]. apply known_set; auto.
  Qed.

  Lemma add_to_dict_ok : forall types (reg : registry) names c, NoDup types -> types <> [] ->
    (snd (add_to_dict reg types names c) = Ok tt <->
     (forall d, In d types -> known reg d) /\ NoDup (map lower names) /\
     forall d n, In d types -> In n (map lower names) -> forall v, ~ holds reg d n v).
  Proof.
    induction types as [|e types IH]; intros reg names c ND NE; [contradiction|].
    cbn [add_to_dict]. inversion ND as [|? ? D1 D2]; subst.
    destruct (dict_get reg e) as [dyn|] eqn:E.
    - destruct (add_names_ok names dyn c) as [N1 N2].
      pose proof (fun n => add_names_get names dyn c n) as NG. cbn zeta in NG.
      destruct (add_names dyn names c) as [dyn' r]. cbn [fst snd] in N1, N2, NG.
      assert (K : known reg e) by (exists dyn; auto).
      assert (FR : forall n, dict_get dyn n = None <-> forall v, ~ holds reg e n v).
      { intros n. split.
        - intros H v (x & X1 & X2). congruence.
        - intros H. destruct (dict_get dyn n) as [v|] eqn:G; auto. exfalso. apply (H v). exists dyn. auto. }
      destruct r as [[]|x].
      + assert (NF : NoDup (map lower names) /\ forall n, In n (map lower names) -> dict_get dyn n = None) by (apply N1; auto).
        destruct types as [|e' types].
        { cbn. split; [|auto]. intros _. split; [intros d [<-|[]]; auto|]. split; [apply NF|].
          intros d n [<-|[]] Hn. apply FR. apply NF; auto. }
        rewrite IH by (auto; discriminate). clear IH.
        assert (O : forall d n v, In d (e' :: types) -> (holds (dict_set reg e dyn') d n v <-> holds reg d n v)).
        { intros d n v Hd. rewrite holds_set. assert (d <> e) by (intros ->; contradiction).
          split; [intros [[H1 _]|[_ H1]]; [contradiction|auto]|auto]. }
        split; intros (H1 & H2 & H3); (split; [|split; [auto|]]).
        * intros d [<-|Hd]; [auto|]. apply (known_set reg e dyn'); auto.
        * intros d n [<-|Hd] Hn; [apply FR, NF; auto|]. intros v Hv. apply (H3 d n Hd Hn v). apply O; auto.
        * intros d Hd. apply known_set; [auto|]. apply H1. right. auto.
        * intros d n Hd Hn v Hv. apply (H3 d n (or_intror Hd) Hn v). apply O; auto.
      + cbn [snd]. split; [discriminate|]. intros (H1 & H2 & H3). exfalso.
        assert (Err x = Ok tt); [|discriminate]. apply N1. split; [auto|]. intros n Hn. apply FR.
        apply H3; [left|]; auto.
    - cbn. split; [discriminate|]. intros (H & _). destruct (H e (or_introl eq_refl)) as [x X]. congruence.
  Qed.

  Lemma types_nodup d : NoDup (dynamism_types d) /\ dynamism_types d <> [].
  Proof.
    unfold dynamism_types. destruct (String.eqb d "*"); split; try discriminate.
    - repeat constructor; cbn; intuition discriminate.
    - repeat constructor. intros [].
  Qed.

  Lemma types_meant d e : In e (dynamism_types d) <-> meant d e.
  Proof.
    unfold dynamism_types. destruct (String.eqb d "*") eqn:E.
    - apply String.eqb_eq in E. subst. cbn. split.
      + intros [<-|[<-|[<-|[]]]]; constructor.
      + intros H. inversion H; subst; auto; congruence.
    - apply String.eqb_neq in E. cbn. split.
      + intros [<-|[]]. constructor. auto.
      + intros H. inversion H; subst; auto.
  Qed.

  Lemma register_ok (reg : registry) d names c :
    snd (register reg d names c) = Ok tt <->
    (forall e, meant d e -> known reg e) /\ NoDup (map lower names) /\
    forall e n, meant d e -> In n (map lower names) -> forall v, ~ holds reg e n v.
  Proof.
    unfold register. rewrite add_to_dict_ok by apply types_nodup.
    split; intros (H1 & H2 & H3); (split; [|split; [auto|]]); intros; try (apply H1); try (apply H3; auto); apply types_meant; auto.
  Qed.

  (* a registration for "*" leaves the relaxation problems alone *)
  Lemma star_not_relaxation (reg : registry) names c n v :
    holds (fst (register reg "*" names c)) "quasistatic relaxation" n v <-> holds reg "quasistatic relaxation" n v.
  Proof.
    destruct (add_to_dict_get (dynamism_types "*") reg names c "quasistatic relaxation" n) as (A & B & _).
    split; [|auto]. intros H. destruct (B v H) as [G|(_ & G & _)]; [auto|].
    cbn in G. exfalso. intuition discriminate.
  Qed.

  Lemma register_all_keeps : forall l (reg : registry) d n v, holds reg d n v -> holds (register_all reg l) d n v.
  Proof.
    induction l as [|x l IH]; intros reg d n v H; cbn [register_all]; [auto|].
    apply IH. apply (add_to_dict_get (dynamism_types (r_dynamism x)) reg (r_names x) (r_class x) d n). auto.
  Qed.

  Lemma register_all_app : forall l1 l2 (reg : registry), register_all reg (l1 ++ l2) = register_all (register_all reg l1) l2.
  Proof. induction l1 as [|x l1 IH]; intros; cbn; auto. Qed.

  Lemma holds_unique (reg : registry) d n v w : holds reg d n v -> holds reg d n w -> v = w.
  Proof. intros (x & X1 & X2) (y & Y1 & Y2). congruence. Qed.

  (* whatever came before and comes after *)
  Lemma register_all_resolves (l1 : list (registration C)) x l2 (reg : registry) d n :
    snd (register (register_all reg l1) (r_dynamism x) (r_names x) (r_class x)) = Ok tt ->
    meant (r_dynamism x) d -> In n (r_names x) ->
    holds (register_all reg (l1 ++ x :: l2)) d (lower n) (r_class x).
  Proof.
    intros H Hd Hn. rewrite register_all_app. cbn [register_all]. apply register_all_keeps.
    apply (add_to_dict_get (dynamism_types (r_dynamism x)) (register_all reg l1) (r_names x) (r_class x) d (lower n)); auto.
    - apply types_meant. auto.
    - apply in_map. auto.
  Qed.

  Lemma register_all_origin : forall l (reg : registry) d n v, holds (register_all reg l) d n v ->
    holds reg d n v \/ exists (x : registration C) m, In x l /\ r_class x = v /\ meant (r_dynamism x) d /\
      In m (r_names x) /\ n = lower m.
  Proof.
    induction l as [|x l IH]; intros reg d n v H; cbn [register_all] in H; [auto|].
    destruct (IH _ _ _ _ H) as [G|(y & m & Y1 & Y)].
    - destruct (add_to_dict_get (dynamism_types (r_dynamism x)) reg (r_names x) (r_class x) d n) as (_ & A & _).
      destruct (A v G) as [B|(B1 & B2 & B3)]; [auto|]. right. apply in_map_iff in B3. destruct B3 as (m & M1 & M2).
      exists x, m. apply types_meant in B2. subst. repeat split; auto. left. auto.
    - right. exists y, m. split; [right; auto|auto].
  Qed.
End Registering.

(* ------------------------------------------------------------- looking up *)

Lemma get_by_name_holds {C} (reg : registry C) name l d c : dynamism_of l = Ok d ->
  (get_by_name reg name l = Ok c <-> holds reg d (lower name) c).
Proof.
  intros E. unfold get_by_name. rewrite E. cbn. unfold dict_item, holds.
  destruct (dict_get reg d) as [dyn|] eqn:F; cbn.
  - destruct (dict_get dyn (lower name)) as [v|] eqn:G.
    + split; [intros H; injection H as <-; eauto|]. intros (x & X1 & X2). injection X1 as <-. congruence.
    + split; [discriminate|]. intros (x & X1 & X2). injection X1 as <-. congruence.
  - split; [discriminate|]. intros (x & X1 & _). discriminate.
Qed.

Lemma get_by_name_case {C} (reg : registry C) s t l : same_name s t -> get_by_name reg s l = get_by_name reg t l.
Proof. intros H. apply same_name_lower in H. unfold get_by_name. rewrite H. reflexivity. Qed.

(* ------------------------------------------------------------- the order of classes *)

Section C3Proofs.
  Context {A : Type}.
  Variable dec : forall a b : A, {a = b} + {a <> b}.

  Lemma member_in a l : member dec a l = true <-> In a l.
  Proof. unfold member. destruct (in_dec dec a l); split; auto; discriminate. Qed.

  Lemma candidate_spec all : forall ls a, candidate dec ls all = Some a ->
    in_tail dec a all = false /\ exists t, In (a :: t) ls.
  Proof.
    induction ls as [|[|b t] ls IH]; intros a H; cbn [candidate] in H; [discriminate| |].
    - destruct (IH a H) as (H1 & t & H2). split; [auto|exists t; right; auto].
    - destruct (in_tail dec b all) eqn:E.
      + destruct (IH a H) as (H1 & t' & H2). split; [auto|exists t'; right; auto].
      + injection H as ->. split; [auto|exists t; left; auto].
  Qed.

  Lemma in_tail_false a ls : in_tail dec a ls = false -> forall l, In l ls -> ~ In a (tl l).
  Proof.
    unfold in_tail. intros H l Hl Hin. assert (existsb (fun l => member dec a (tl l)) ls = true); [|congruence].
    apply existsb_exists. exists l. split; [auto|]. apply member_in. auto.
  Qed.

  Lemma drop_cases a l : ~ In a (tl l) -> (l = a :: drop dec a l /\ ~ In a (drop dec a l)) \/ (drop dec a l = l /\ ~ In a l).
  Proof.
    destruct l as [|b t]; cbn; intros H; [right; auto|].
    destruct (dec a b) as [->|D]; [left; auto|right]. split; [auto|]. intros [->|G]; contradiction.
  Qed.

  (* the merge: no element twice, the elements of the lists, in an order that agrees with each *)
  Lemma merge_fuel_spec : forall fuel ls l, merge_fuel dec fuel ls = Some l ->
    NoDup l /\ (forall a, In a l <-> exists x, In x ls /\ In a x) /\
    forall x a b, In x ls -> before x a b -> before l a b.
  Proof.
    induction fuel as [|fuel IH]; intros ls l H; cbn [merge_fuel] in H.
    - destruct (forallb is_empty ls) eqn:E; [|discriminate]. injection H as <-.
      assert (Z : forall x, In x ls -> x = []).
      { intros x Hx. rewrite forallb_forall in E. specialize (E x Hx). destruct x; [auto|discriminate]. }
      split; [constructor|]. split.
      + intros a. split; [intros []|]. intros (x & X1 & X2). rewrite (Z x X1) in X2. destruct X2.
      + intros x a b Hx (l1 & l2 & l3 & E1). rewrite (Z x Hx) in E1. destruct l1; discriminate.
    - destruct (forallb is_empty ls) eqn:E.
      + injection H as <-.
        assert (Z : forall x, In x ls -> x = []).
        { intros x Hx. rewrite forallb_forall in E. specialize (E x Hx). destruct x; [auto|discriminate]. }
        split; [constructor|]. split.
        * intros a. split; [intros []|]. intros (x & X1 & X2). rewrite (Z x X1) in X2. destruct X2.
        * intros x a b Hx (l1 & l2 & l3 & E1). rewrite (Z x Hx) in E1. destruct l1; discriminate.
      + destruct (candidate dec ls ls) as [c|] eqn:F; [|discriminate].
        destruct (merge_fuel dec fuel (map (drop dec c) ls)) as [t|] eqn:G; [|discriminate]. injection H as <-.
        destruct (candidate_spec _ _ _ F) as (HT & t0 & Ht0).
        pose proof (in_tail_false _ _ HT) as NT.
        destruct (IH _ _ G) as (I1 & I2 & I3).
        assert (NC : ~ In c t).
        { intros Hc. apply I2 in Hc. destruct Hc as (x & X1 & X2). apply in_map_iff in X1. destruct X1 as (y & <- & Y).
          destruct (drop_cases c y (NT y Y)) as [[_ D]|[D1 D2]]; [contradiction|]. rewrite D1 in X2. contradiction. }
        split; [constructor; auto|]. split.
        * intros a. split.
          -- intros [<-|Ha]; [exists (c :: t0); split; [auto|left; auto]|].
             apply I2 in Ha. destruct Ha as (x & X1 & X2). apply in_map_iff in X1. destruct X1 as (y & <- & Y).
             exists y. split; [auto|]. destruct (drop_cases c y (NT y Y)) as [[D _]|[D _]]; [rewrite D; right; auto|congruence].
          -- intros (x & X1 & X2). destruct (dec c a) as [->|D]; [left; auto|]. right. apply I2.
             exists (drop dec c x). split; [apply in_map; auto|].
             destruct (drop_cases c x (NT x X1)) as [[E1 _]|[E1 _]]; [|congruence].
             rewrite E1 in X2. destruct X2; [contradiction|auto].
        * intros x a b Hx HB. specialize (I3 (drop dec c x)).
          assert (Hin : In (drop dec c x) (map (drop dec c) ls)) by (apply in_map; auto).
          assert (LIFT : before t a b -> before (c :: t) a b).
          { intros (l1 & l2 & l3 & ->). exists (c :: l1), l2, l3. reflexivity. }
          destruct (drop_cases c x (NT x Hx)) as [[D D']|[D D']].
          -- destruct HB as (l1 & l2 & l3 & HB). rewrite D in HB. destruct l1 as [|z l1].
             ++ cbn in HB. injection HB as -> HB.
                assert (Hb : In b t).
                { apply I2. exists (drop dec a x). split; [auto|]. rewrite HB. apply in_or_app. right. left. auto. }
                apply in_split in Hb. destruct Hb as (t1 & t2 & ->). exists [], t1, t2. reflexivity.
             ++ cbn in HB. injection HB as -> HB. apply LIFT. apply I3; [auto|]. exists l1, l2, l3. auto.
          -- apply LIFT. apply I3; [auto|]. rewrite D. auto.
  Qed.

  Lemma all_some_in {B} (l : list (option B)) r : all_some l = Some r -> forall b, In b r <-> In (Some b) l.
  Proof.
    revert r. induction l as [|[b|] l IH]; intros r H b'; cbn in H; try discriminate.
    - injection H as <-. split; intros [].
    - destruct (all_some l) as [r'|]; [|discriminate]. injection H as <-. cbn. rewrite (IH r' eq_refl b').
      split; intros [E|E]; auto; left; congruence.
  Qed.

  Lemma linearise_spec order bs l : linearise dec order bs = Some l ->
    NoDup l /\
    (forall a, In a l <-> In a bs \/ exists b x, In b bs /\ order b = Some x /\ In a x) /\
    (forall a b, before bs a b -> before l a b) /\
    (forall c x a b, In c bs -> order c = Some x -> before x a b -> before l a b).
  Proof.
    unfold linearise. intros H. destruct (all_some (map order bs)) as [ls|] eqn:E; [|discriminate].
    destruct (merge_fuel_spec _ _ _ H) as (H1 & H2 & H3). pose proof (all_some_in _ _ E) as AS.
    split; [auto|]. split; [|split].
    - intros a. rewrite H2. split.
      + intros (x & X1 & X2). apply in_app_or in X1. destruct X1 as [X1|[<-|[]]]; [right|left; auto].
        apply AS in X1. apply in_map_iff in X1. destruct X1 as (b & B1 & B2). exists b, x. auto.
      + intros [Ha|(b & x & B1 & B2 & B3)].
        * exists bs. split; [apply in_or_app; right; left; auto|auto].
        * exists x. split; [|auto]. apply in_or_app. left. apply AS. rewrite <- B2. apply in_map. auto.
    - intros a b. apply H3. apply in_or_app. right. left. auto.
    - intros c x a b Hc Hx. apply H3. apply in_or_app. left. apply AS. rewrite <- Hx. apply in_map. auto.
  Qed.
End C3Proofs.

(* every class of the library has an order, and it obeys the three rules *)
Lemma mro_total : forall c, exists l, linearise cls_dec (fun b => Some (mro b)) (bases c) = Some l /\ mro c = c :: l.
Proof. intros c. destruct c; vm_compute; eexists; split; reflexivity. Qed.

Lemma mro_rules : forall c, NoDup (mro c) /\ hd_error (mro c) = Some c /\
  (forall a b, before (bases c) a b -> before (mro c) a b) /\
  (forall p a b, In p (bases c) -> before (mro p) a b -> before (mro c) a b).
Proof.
  intros c. destruct (mro_total c) as (l & H & E). rewrite E.
  destruct (linearise_spec _ _ _ _ H) as (H1 & H2 & H3 & H4).
  assert (L : forall a b, before l a b -> before (c :: l) a b).
  { intros a b (l1 & l2 & l3 & ->). exists (c :: l1), l2, l3. reflexivity. }
  split; [|split; [reflexivity|split]].
  - constructor; [|auto]. clear -E. assert (N : NoDup (mro c)).
    { destruct c; vm_compute; repeat constructor; cbn; intuition discriminate. }
    rewrite E in N. inversion N; auto.
  - intros a b HB. apply L. auto.
  - intros p a b Hp HB. apply L. eapply H4; [exact Hp|reflexivity|exact HB].
Qed.

Lemma mro_derives : forall c a, In a (mro c) <-> derives c a.
Proof.
  intros c a. split.
  - assert (G : forall n c, (exists l, mro_fuel n c = Some l) -> forall a, In a (mro c) -> derives c a).
    { clear. induction n as [|n IH]; intros c (l & H) a Ha; [discriminate|].
      destruct (mro_total c) as (l' & H' & E). rewrite E in Ha. destruct Ha as [<-|Ha]; [constructor|].
      destruct (linearise_spec _ _ _ _ H') as (_ & H2 & _). apply H2 in Ha.
      cbn [mro_fuel] in H. destruct (linearise cls_dec (mro_fuel n) (bases c)) as [q|] eqn:L; [|discriminate].
      unfold linearise in L. destruct (all_some (map (mro_fuel n) (bases c))) as [ls|] eqn:AS; [|discriminate].
      assert (S : forall b, In b (bases c) -> exists x, mro_fuel n b = Some x).
      { intros b Hb. clear -AS Hb. revert ls AS Hb. induction (bases c) as [|b0 bs IHb]; intros ls AS []; cbn in AS.
        - subst. destruct (mro_fuel n b); eauto. discriminate.
        - destruct (mro_fuel n b0); [|discriminate]. destruct (all_some (map (mro_fuel n) bs)); [|discriminate].
          eapply IHb; eauto. }
      destruct Ha as [Ha|(b & x & B1 & B2 & B3)].
      - eapply derives_base; [exact Ha|constructor].
      - eapply derives_base; [exact B1|]. injection B2 as <-. eapply IH; eauto. }
    apply (G 10). destruct c; vm_compute; eauto.
  - induction 1 as [c|c b a Hb _ IH].
    + destruct (mro_total c) as (l & _ & ->). left. auto.
    + destruct (mro_total c) as (l & H & ->). right.
      destruct (linearise_spec _ _ _ _ H) as (_ & H2 & _). apply H2. right. exists b, (mro b). auto.
Qed.

Lemma isinstance_derives c a : isinstance (mro c) a = true <-> derives c a.
Proof. unfold isinstance. rewrite member_in. apply mro_derives. Qed.

Lemma derives_dec c a : {derives c a} + {~ derives c a}.
Proof.
  destruct (isinstance (mro c) a) eqn:E; [left|right].
  - apply isinstance_derives. auto.
  - intros H. apply isinstance_derives in H. congruence.
Qed.

(* no class of the library is of two kinds *)
Lemma dynamism_cases : forall c,
  match dynamism_of (mro c) with
  | Ok d => has_dynamism c d
  | Err e => e = ValueError /\ forall d, ~ has_dynamism c d
  end.
Proof.
  intros c. unfold dynamism_of.
  destruct (isinstance (mro c) RelaxationQuasistaticProblem) eqn:E1; [constructor; apply isinstance_derives; auto|].
  destruct (isinstance (mro c) StaticProblem) eqn:E2; [constructor; apply isinstance_derives; auto|].
  assert (N1 : ~ derives c RelaxationQuasistaticProblem) by (intros H; apply isinstance_derives in H; congruence).
  destruct (isinstance (mro c) QuasistaticProblem) eqn:E3; [constructor; [apply isinstance_derives; auto|auto]|].
  destruct (isinstance (mro c) DynamicProblem) eqn:E4; [constructor; apply isinstance_derives; auto|].
  split; [reflexivity|]. intros d [H|H|H _|H]; apply isinstance_derives in H; congruence.
Qed.
Lemma dynamism_unique : forall c d e, has_dynamism c d -> has_dynamism c e -> d = e.
Proof.
  intros c d e [H1|H1|H1 N1|H1] [H2|H2|H2 N2|H2]; try reflexivity; try contradiction; exfalso;
    apply isinstance_derives in H1; apply isinstance_derives in H2; destruct c; vm_compute in H1, H2; discriminate.
Qed.
Lemma dynamism_of_spec c d : dynamism_of (mro c) = Ok d <-> has_dynamism c d.
Proof.
  pose proof (dynamism_cases c) as H. split.
  - intros E. rewrite E in H. exact H.
  - intros G. destruct (dynamism_of (mro c)) as [e|e].
    + f_equal. eapply dynamism_unique; eauto.
    + destruct H as [_ H]. exfalso. eapply H; eauto.
Qed.

(* ------------------------------------------------------------- the library *)

Lemma installed_offered d n c : holds installed d n c <-> offered d n c.
Proof.
  split.
  - intros H. apply register_all_origin in H. destruct H as [H|(x & m & H1 & <- & H3 & H4 & ->)].
    + destruct H as (dyn & H1 & H2). unfold empty_registry in H1. cbn [dict_get] in H1.
      repeat match type of H1 with (if ?b then _ else _) = _ => destruct b end; inversion H1; subst; discriminate.
    + apply types_meant in H3. cbn in H1. repeat destruct H1 as [<-|H1]; try contradiction; cbn in H3; destruct H3 as [<-|[]];
        cbn in H4; repeat destruct H4 as [<-|H4]; try contradiction; cbn;
        first [apply direct_static | apply direct_dynamic
              | apply global_any; cbn; tauto | apply schur_any; cbn; tauto].
  - assert (T : forall d n c, match dict_get installed d with Some dyn => dict_get dyn n | None => None end = Some c ->
               holds installed d n c).
    { intros e m v H. unfold holds. destruct (dict_get installed e) as [dyn|]; [eauto|discriminate]. }
    intros H. apply T. clear T. destruct H as [| |d' n' c' H1 H2|d' n' c' H1 H2]; [vm_compute; reflexivity..| |];
      cbn [In] in H1, H2;
      repeat destruct H1 as [<-|H1]; try contradiction;
      repeat destruct H2 as [H2|H2]; try contradiction; injection H2 as <- <-; vm_compute; reflexivity.
Qed.

Lemma library_lookup p name c :
  get_by_name installed name (mro p) = Ok c <-> exists d, has_dynamism p d /\ offered d (lower name) c.
Proof.
  destruct (dynamism_of (mro p)) as [d|e] eqn:E.
  - rewrite (get_by_name_holds _ _ _ _ _ E), installed_offered. apply dynamism_of_spec in E. split; [eauto|].
    intros (d' & H1 & H2). rewrite (dynamism_unique _ _ _ E H1). auto.
  - unfold get_by_name. rewrite E. cbn [bind]. split; [discriminate|]. intros (d & H & _).
    apply dynamism_of_spec in H. congruence.
Qed.

Lemma library_missing p name d : has_dynamism p d -> (forall c, ~ offered d (lower name) c) ->
  get_by_name installed name (mro p) = Err (KeyError (lower name)).
Proof.
  intros H N. apply dynamism_of_spec in H. unfold get_by_name. rewrite H. cbn [bind].
  assert (K : exists dyn, dict_get installed d = Some dyn).
  { assert (D : has_dynamism p d) by (apply dynamism_of_spec; auto). inversion D; subst; vm_compute; eexists; reflexivity. }
  destruct K as (dyn & K). unfold dict_item. rewrite K. cbn [bind].
  destruct (dict_get dyn (lower name)) as [c|] eqn:G; [|reflexivity].
  exfalso. apply (N c). apply installed_offered. exists dyn. auto.
Qed.

Lemma lower_str c : lower (str_of c) = str_of c.
Proof. destruct c; reflexivity. Qed.
Lemma offered_str d n c : offered d n c -> offered d (str_of c) c.
Proof.
  intros [| |d' n' c' H1 H2|d' n' c' H1 H2]; [apply direct_static|apply direct_dynamic| |];
    cbn in H2; repeat destruct H2 as [H2|H2]; try contradiction; injection H2 as <- <-;
    first [apply global_any; cbn; tauto | apply schur_any; cbn; tauto].
Qed.

Lemma library_reported p name c : get_by_name installed name (mro p) = Ok c ->
  get_by_name installed (str_of c) (mro p) = Ok c.
Proof.
  rewrite !library_lookup. intros (d & H1 & H2). exists d. split; [auto|].
  rewrite lower_str. eapply offered_str; eauto.
Qed.
