(* Results kept in files between two runs of the examples. *)
From Coq Require Import List Arith Bool Lia.
From Verif Require Import ResultsModel ResultsSpec.
Import ListNotations.

Section Directory.
  Context {K S : Type} (dec : forall a b : K, {a = b} + {a <> b}).

  Lemma put_same (f : files K S) k s : put dec f k s k = Some s.
  Proof. unfold put. destruct (dec k k); [reflexivity|contradiction]. Qed.
  Lemma put_other (f : files K S) k s k' : k <> k' -> put dec f k s k' = f k'.
  Proof. intros N. unfold put. destruct (dec k k'); [contradiction|reflexivity]. Qed.

  Lemma load_all_there (f : files K S) l : all_there f l -> exists r, load_all f l = Good r /\ map Some r = map f l.
  Proof.
    induction l as [|k l IH]; intros H; cbn [load_all map]; [exists []; auto|]. inversion H as [|? ? P Q]; subst.
    destruct (IH Q) as (r & E & M). destruct (f k) as [s|]; [|contradiction]. rewrite E. exists (s :: r). split; [reflexivity|]. cbn. rewrite M. reflexivity.
  Qed.

  Lemma index_at a x b : ~ In x a -> index dec x (a ++ x :: b) = Some (length a).
  Proof.
    induction a as [|y a IH]; intros N; cbn.
    - destruct (dec x x); [reflexivity|contradiction].
    - destruct (dec x y) as [->|]; [exfalso; apply N; left; reflexivity|]. rewrite IH; [reflexivity|]. intros I. apply N. right. exact I.
  Qed.
  Lemma before_at a p x b : NoDup (a ++ p :: x :: b) -> before dec (a ++ p :: x :: b) x = Some p.
  Proof.
    intros D. unfold before. replace (a ++ p :: x :: b) with ((a ++ [p]) ++ x :: b) by (rewrite <- app_assoc; reflexivity).
    rewrite index_at.
    - rewrite app_length. cbn [length]. replace (length a + 1) with (Datatypes.S (length a)) by lia. rewrite <- app_assoc. cbn [app].
      rewrite nth_error_app2 by lia. rewrite Nat.sub_diag. reflexivity.
    - intros I. replace (a ++ p :: x :: b) with ((a ++ [p]) ++ x :: b) in D by (rewrite <- app_assoc; reflexivity).
      apply NoDup_remove_2 in D. apply D. apply in_or_app. left. exact I.
  Qed.

  Variable solve : K -> option S -> S.

  (* forced *)
  Lemma forced_loop igs : NoDup igs -> forall suf pre f, igs = pre ++ suf ->
    exists f', simulate_values dec solve igs suf None f = Good f' /\ (forall x, In x suf -> f' x = Some (solve x None)) /\ (forall k, ~ In k suf -> f' k = f k).
  Proof.
    intros D. induction suf as [|x suf IH]; intros pre f E; cbn [simulate_values]; [exists f; repeat split; auto; intros ? []|].
    destruct suf as [|y suf].
    - exists (put dec f x (solve x None)). split; [reflexivity|]. split; [intros z [<-|[]]; apply put_same|]. intros k N. apply put_other. intros ->. apply N. left. reflexivity.
    - assert (B : before dec igs y = Some x) by (rewrite E; apply before_at; rewrite <- E; exact D). rewrite B. destruct (dec x x) as [_|]; [|contradiction].
      destruct (IH (pre ++ [x]) (put dec f x (solve x None))) as (f' & R & H1 & H2); [rewrite <- app_assoc; exact E|].
      exists f'. split; [exact R|].
      assert (NX : ~ In x (y :: suf)). { rewrite E in D. apply NoDup_remove_2 in D. intros I. apply D. apply in_or_app. right. exact I. }
      split.
      + intros z [<-|I]; [rewrite (H2 x NX); apply put_same|exact (H1 z I)].
      + intros k N. rewrite H2; [apply put_other; intros ->; apply N; left; reflexivity|intros I; apply N; right; exact I].
  Qed.
  Lemma continue_forced igs f : NoDup igs -> igs <> [] -> exists f' l, continue_values dec solve true igs f = Good (f', l) /\
    (forall x, In x igs -> f' x = Some (solve x None)) /\ (forall k, ~ In k igs -> f' k = f k) /\ l = map (fun x => solve x None) igs.
  Proof.
    intros D NE. destruct igs as [|x igs]; [contradiction|]. unfold continue_values. destruct (dec x x) as [_|]; [|contradiction].
    destruct (forced_loop (x :: igs) D (x :: igs) [] f eq_refl) as (f' & -> & H1 & H2).
    destruct (load_all_there f' (x :: igs)) as (r & -> & M). { apply Forall_forall. intros k I. rewrite (H1 k I). discriminate. }
    exists f', r. repeat split; auto.
    assert (Q : map Some r = map Some (map (fun x => solve x None) (x :: igs))) by (rewrite M, map_map; apply map_ext_in; intros k I; exact (H1 k I)).
    clear -Q. revert Q. generalize (map (fun x0 => solve x0 None) (x :: igs)). induction r as [|a r IH]; intros [|b l] Q; cbn in Q; try discriminate; [reflexivity|].
    injection Q as -> Q. f_equal. apply IH. exact Q.
  Qed.

  (* without force *)
  Variables (igs : list K) (f0 : files K S).
  Hypothesis D : NoDup igs.
  Definition lacks (k : K) : bool := negb (present f0 k).
  Lemma lacks_none k : lacks k = true <-> f0 k = None.
  Proof. unfold lacks, present. destruct (f0 k); cbn; split; intros; try discriminate; reflexivity. Qed.
  Lemma lacks_some k : lacks k = false <-> f0 k <> None.
  Proof. unfold lacks, present. destruct (f0 k); cbn; split; intros; try discriminate; try reflexivity. contradiction. Qed.

  (* the next one to do *)
  Lemma next_todo l y rest : filter lacks l = y :: rest -> exists mid c, l = mid ++ y :: c /\ all_there f0 mid /\ f0 y = None /\ filter lacks c = rest.
  Proof.
    induction l as [|x l IH]; cbn [filter]; [discriminate|]. destruct (lacks x) eqn:E.
    - intros Q. injection Q as <- <-. exists [], l. repeat split; [constructor|apply lacks_none; exact E].
    - intros Q. destruct (IH Q) as (mid & c & -> & A & Y & R). exists (x :: mid), c. repeat split; auto. constructor; [apply lacks_some; exact E|exact A].
  Qed.
  Lemma none_todo l : filter lacks l = [] -> all_there f0 l.
  Proof.
    induction l as [|x l IH]; cbn [filter]; intros Q; [constructor|]. destruct (lacks x) eqn:E; [discriminate|]. constructor; [apply lacks_some; exact E|apply IH; exact Q].
  Qed.

  (* what is found in the file of x afterwards *)
  Definition outcome_of (f' : files K S) (x : K) : Prop :=
    (forall p, gap_after f0 igs x p -> f' x = f0 p) /\
    (no_gap_after f0 igs x -> exists g, started f0 igs x g /\ f' x = Some (solve x g)).

  Lemma split_unique (a b a' b' : list K) x : NoDup (a ++ x :: b) -> a ++ x :: b = a' ++ x :: b' -> a = a' /\ b = b'.
  Proof.
    revert a'. induction a as [|z a IH]; intros [|z' a'] ND E; cbn [app] in *.
    - injection E as <-. auto.
    - injection E as <- ->. inversion ND as [|? ? N _]; subst. exfalso. apply N. apply in_or_app. right. left. reflexivity.
    - injection E as -> <-. inversion ND as [|? ? N _]; subst. exfalso. apply N. apply in_or_app. right. left. reflexivity.
    - injection E as <- E. inversion ND; subst. destruct (IH a' H2 E) as (-> & ->). auto.
  Qed.

  Lemma mid_unique (mid mid' : list K) p p' y y' c c' : mid ++ p :: y :: c = mid' ++ p' :: y' :: c' ->
    all_there f0 (mid ++ [p]) -> all_there f0 (mid' ++ [p']) -> f0 y = None -> f0 y' = None -> p = p'.
  Proof.
    revert mid'. induction mid as [|z mid IH]; intros mid' E A A' Y Y'.
    - destruct mid' as [|z' mid']; cbn in E; [injection E; auto|]. exfalso. injection E as <- E. destruct mid' as [|w mid']; cbn in E.
      + injection E as <- _. inversion A' as [|? ? _ A2]; subst. inversion A2; subst. contradiction.
      + injection E as <- _. inversion A' as [|? ? _ A2]; subst. inversion A2; subst. contradiction.
    - destruct mid' as [|z' mid']; cbn in E.
      + exfalso. injection E as -> E. destruct mid as [|w mid]; cbn in E.
        * injection E as -> _. inversion A as [|? ? _ A2]; subst. inversion A2; subst. contradiction.
        * injection E as -> _. inversion A as [|? ? _ A2]; subst. inversion A2; subst. contradiction.
      + injection E as <- E. inversion A; subst. inversion A'; subst. eapply IH; eauto.
  Qed.

  Lemma values_loop : forall n suf, length suf <= n -> forall pre x rest start f, igs = pre ++ suf -> filter lacks suf = x :: rest ->
    (forall k, In k suf -> f k = f0 k) -> (forall k, f0 k <> None -> f k = f0 k) -> started f0 igs x start ->
    exists f', simulate_values dec solve igs (x :: rest) start f = Good f' /\ (forall k, ~ In k (x :: rest) -> f' k = f k) /\
      (forall z, In z (x :: rest) -> f' z <> None /\ outcome_of f' z).
  Proof.
    induction n as [|n IH]; intros suf LN pre x rest start f E T F1 F2 ST; [destruct suf; [discriminate T|cbn in LN; lia]|].
    destruct (next_todo _ _ _ T) as (mid & c & EL & MA & X & TC). subst suf.
    assert (EX : igs = (pre ++ mid) ++ x :: c) by (rewrite <- app_assoc; exact E).
    assert (NX : ~ In x c /\ ~ In x (pre ++ mid)). { rewrite EX in D. apply NoDup_remove_2 in D. split; intros I; apply D; apply in_or_app; [right|left]; exact I. }
    cbn [simulate_values]. destruct rest as [|y rest].
    - (* the last one *)
      assert (CA := none_todo _ TC). exists (put dec f x (solve x start)). split; [reflexivity|]. split.
      + intros k N. apply put_other. intros ->. apply N. left. reflexivity.
      + intros z [<-|[]]. split; [rewrite put_same; discriminate|]. split.
        * intros p (a & m2 & y & c2 & E2 & A2 & Y2). exfalso. rewrite EX in E2. rewrite EX in D. destruct (split_unique _ _ _ _ _ D E2) as (_ & Q).
          unfold all_there in CA. rewrite Forall_forall in CA. apply (CA y); [rewrite Q; apply in_or_app; right; right; left; reflexivity|exact Y2].
        * intros _. exists start. split; [exact ST|apply put_same].
    - destruct (next_todo _ _ _ TC) as (mid2 & c2 & EC & MA2 & Y & TC2).
      assert (LC : length c <= n) by (rewrite app_length in LN; cbn in LN; lia).
      destruct (list_eq_dec dec mid2 []) as [->|MN].
      + (* the next value follows at once *)
        cbn [app] in EC. assert (EY : igs = (pre ++ mid) ++ x :: y :: c2) by (rewrite EX, EC; reflexivity).
        assert (B : before dec igs y = Some x) by (rewrite EY; apply before_at; rewrite <- EY; exact D). rewrite B. destruct (dec x x) as [_|]; [|contradiction].
        destruct (IH c LC ((pre ++ mid) ++ [x]) y rest None (put dec f x (solve x start))) as (f' & R & H1 & H2).
        * rewrite <- app_assoc. exact EX.
        * rewrite EC. cbn [filter]. rewrite (proj2 (lacks_none y) Y). rewrite TC2. reflexivity.
        * intros k I. rewrite put_other; [apply F1; apply in_or_app; right; right; exact I|intros ->; exact (proj1 NX I)].
        * intros k N. rewrite put_other; [apply F2; exact N|intros ->; contradiction].
        * right. exists (pre ++ mid), x, c2. split; [exact EY|]. rewrite X. reflexivity.
        * exists f'. split; [exact R|].
          assert (XN : ~ In x (y :: rest)). { intros I. apply (proj1 NX). assert (QF : In x (filter lacks c)) by (rewrite TC; exact I). apply filter_In in QF. tauto. }
          split.
          -- intros k N. rewrite H1; [apply put_other; intros ->; apply N; left; reflexivity|intros I; apply N; right; exact I].
          -- intros z [<-|I]; [|exact (H2 z I)]. rewrite (H1 x XN), put_same. split; [discriminate|]. split.
             ++ intros p (a & m2 & y2 & c3 & E2 & A2 & Y2). exfalso. assert (D' := D). rewrite EX in E2, D'. destruct (split_unique _ _ _ _ _ D' E2) as (_ & Q).
                rewrite EC in Q. destruct m2 as [|w m2]; cbn in Q; injection Q as <- _; inversion A2; subst; contradiction.
             ++ intros _. exists start. split; [exact ST|]. rewrite (H1 x XN). apply put_same.
      + (* values with files in between *)
        destruct (exists_last MN) as (m2 & p & ->). rewrite <- app_assoc in EC. cbn [app] in EC.
        assert (EY : igs = (pre ++ mid ++ x :: m2) ++ p :: y :: c2) by (rewrite EX, EC, <- !app_assoc; reflexivity).
        assert (B : before dec igs y = Some p) by (rewrite EY; apply before_at; rewrite <- EY; exact D). rewrite B.
        assert (PN : f0 p <> None) by (unfold all_there in MA2; rewrite Forall_forall in MA2; apply MA2; apply in_or_app; right; left; reflexivity).
        destruct (dec x p) as [->|XP]; [contradiction|]. rewrite (F2 p PN). destruct (f0 p) as [s|] eqn:P; [|contradiction].
        destruct (IH c LC ((pre ++ mid) ++ [x]) y rest (Some s) (put dec f x s)) as (f' & R & H1 & H2).
        * rewrite <- app_assoc. exact EX.
        * exact TC.
        * intros k I. rewrite put_other; [apply F1; apply in_or_app; right; right; exact I|intros ->; exact (proj1 NX I)].
        * intros k N. rewrite put_other; [apply F2; exact N|intros ->; contradiction].
        * right. exists (pre ++ mid ++ x :: m2), p, c2. split; [exact EY|]. rewrite P. reflexivity.
        * exists f'. split; [exact R|].
          assert (XN : ~ In x (y :: rest)). { intros I. apply (proj1 NX). assert (QF : In x (filter lacks c)) by (rewrite TC; exact I). apply filter_In in QF. tauto. }
          split.
          -- intros k N. rewrite H1; [apply put_other; intros ->; apply N; left; reflexivity|intros I; apply N; right; exact I].
          -- intros z [<-|I]; [|exact (H2 z I)]. rewrite (H1 x XN), put_same. split; [discriminate|]. split.
             ++ intros q (a & m3 & y2 & c3 & E2 & A2 & Y2). assert (D' := D). rewrite EX in E2, D'. destruct (split_unique _ _ _ _ _ D' E2) as (_ & Q).
                rewrite EC in Q. rewrite (H1 x XN), put_same. rewrite <- P. f_equal. exact (mid_unique _ _ _ _ _ _ _ _ Q MA2 A2 Y Y2).
             ++ intros (a & b & E2 & [A2|(y2 & c3 & -> & Y2)]).
                ** exfalso. assert (D' := D). rewrite EX in E2, D'. destruct (split_unique _ _ _ _ _ D' E2) as (_ & Q). subst b.
                   unfold all_there in A2. rewrite Forall_forall in A2. apply (A2 y); [rewrite EC; apply in_or_app; right; right; left; reflexivity|exact Y].
                ** exfalso. assert (D' := D). rewrite EX in E2, D'. destruct (split_unique _ _ _ _ _ D' E2) as (_ & Q). rewrite EC in Q.
                   destruct m2 as [|w m2]; cbn in Q; injection Q as <- _; [congruence|]. inversion MA2; subst. contradiction.
  Qed.

  Lemma continue_resumed : igs <> [] -> exists f' l, continue_values dec solve false igs f0 = Good (f', l) /\
    (forall k, f0 k <> None -> f' k = f0 k) /\ (forall k, ~ In k igs -> f' k = f0 k) /\ map Some l = map f' igs /\
    (forall x, In x igs -> f0 x = None -> outcome_of f' x).
  Proof.
    intros NE. unfold continue_values. change (fun ig => negb (present f0 ig)) with lacks.
    destruct (filter lacks igs) as [|x rest] eqn:T.
    - assert (A := none_todo _ T). destruct (load_all_there f0 igs A) as (r & Hr & M). rewrite Hr. exists f0, r. repeat split; auto;
        unfold all_there in A; rewrite Forall_forall in A; exfalso; eapply A; eauto.
    - assert (G : exists f', (match igs with ig0 :: _ =>
          if dec x ig0 then simulate_values dec solve igs (x :: rest) None f0
          else match before dec igs x with None => Bad NotListed | Some p => match f0 p with None => Bad NoFile | Some s => simulate_values dec solve igs (x :: rest) (Some s) f0 end end
          | [] => Good f0 end) = Good f' /\ (forall k, ~ In k (x :: rest) -> f' k = f0 k) /\ (forall z, In z (x :: rest) -> f' z <> None /\ outcome_of f' z)).
      { destruct (next_todo _ _ _ T) as (mid & c & EL & MA & X & TC).
        destruct igs as [|ig0 igs'] eqn:EI; [contradiction|]. rewrite <- EI in *. destruct (list_eq_dec dec mid []) as [->|MN].
        - cbn in EL. assert (x = ig0) by (rewrite EI in EL; injection EL; auto). subst ig0. destruct (dec x x) as [_|]; [|contradiction].
          apply (values_loop (length igs) igs (le_n _) [] x rest None f0); auto. left. exists c. auto.
        - destruct (exists_last MN) as (m2 & p & ->). rewrite <- app_assoc in EL. cbn [app] in EL.
          destruct (dec x ig0) as [->|].
          + exfalso. assert (ND := D). rewrite EL in ND. assert (Q := EL). rewrite EI in Q. destruct m2 as [|w m2]; cbn in Q; injection Q as Q _; subst.
            * cbn in ND. inversion ND as [|? ? N _]; subst. apply N. left. reflexivity.
            * cbn in ND. inversion ND as [|? ? N _]; subst. apply N. apply in_or_app. right. right. left. reflexivity.
          + assert (B : before dec igs x = Some p) by (rewrite EL; apply before_at; rewrite <- EL; exact D). rewrite B.
            assert (PN : f0 p <> None) by (unfold all_there in MA; rewrite Forall_forall in MA; apply MA; apply in_or_app; right; left; reflexivity).
            destruct (f0 p) as [s|] eqn:P; [|contradiction]. apply (values_loop (length igs) igs (le_n _) [] x rest (Some s) f0); auto.
            right. exists m2, p, c. split; [exact EL|]. rewrite P. reflexivity. }
      destruct G as (f' & R & H1 & H2).
      assert (IN : forall k, In k (x :: rest) <-> In k igs /\ f0 k = None) by (intros k; rewrite <- T, filter_In, lacks_none; reflexivity).
      destruct (load_all_there f' igs) as (r & Hr & M).
      { apply Forall_forall. intros k I. destruct (f0 k) as [s|] eqn:Q; [|apply H2; apply IN; auto]. rewrite H1, Q; [discriminate|]. rewrite IN. rewrite Q. intros (_ & Z). discriminate. }
      exists f', r. split.
      + destruct igs as [|ig0 igs'] eqn:EI; [contradiction|]. rewrite R, Hr. reflexivity.
      + split; [intros k N; apply H1; rewrite IN; tauto|]. split; [intros k N; apply H1; rewrite IN; tauto|]. split; [exact M|].
        intros z I Z. apply H2. apply IN. auto.
  Qed.
End Directory.
