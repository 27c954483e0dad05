(* The branches of Optimization._solve_impl. *)
From Coq Require Import Reals List Arith Bool String Ascii Lia Lra.
From Verif Require Import PyModel RVec ContactModel RegistryModel RegistrySpec RegistryProofs OptimisationModel OptimiserSpec.
Import ListNotations.
Local Open Scope string_scope.

Lemma prefix_iff s t : String.prefix s t = true <-> exists u, t = s ++ u.
Proof.
  revert t. induction s as [|a s IH]; intros t.
  - split; [exists t; reflexivity|]. intros _. destruct t; reflexivity.
  - destruct t as [|b t].
    + split; [discriminate|]. intros (u & E). discriminate.
    + change (String.prefix (String a s) (String b t)) with (if ascii_dec a b then String.prefix s t else false).
      destruct (ascii_dec a b) as [<-|N].
      * rewrite IH. split; intros (u & E); exists u; [rewrite E; reflexivity|injection E; auto].
      * split; [discriminate|]. intros (u & E). injection E as E _. congruence.
Qed.

Lemma lower_app s t : lower (s ++ t) = lower s ++ lower t.
Proof. induction s as [|a s IH]; cbn; [reflexivity|]. f_equal. exact IH. Qed.

Lemma lower_split m p u : lower m = p ++ u -> exists s t, m = s ++ t /\ lower s = p /\ lower t = u.
Proof.
  revert m. induction p as [|a p IH]; intros m E.
  - exists "", m. auto.
  - destruct m as [|c m]; [discriminate|]. cbn in E. injection E as E1 E2. destruct (IH m E2) as (s & t & -> & L1 & L2).
    exists (String c s), t. cbn. rewrite E1, L1. auto.
Qed.

Lemma mem_string_in l s : mem_string l s = true <-> In s l.
Proof.
  unfold mem_string. rewrite existsb_exists. split.
  - intros (x & H & E). apply String.eqb_eq in E. congruence.
  - intros H. exists s. split; [exact H|apply String.eqb_refl].
Qed.

Lemma named_lower l m : Forall (fun n => lower n = n) l -> named l m <-> In (lower m) l.
Proof.
  intros H. rewrite Forall_forall in H. unfold named. split.
  - intros (n & Hn & E). apply same_name_lower in E. rewrite E, (H n Hn). exact Hn.
  - intros Hm. exists (lower m). split; [exact Hm|]. apply same_name_lower. symmetry. apply H. exact Hm.
Qed.
Lemma begins_lower l m : Forall (fun n => lower n = n) l -> begins l m <-> exists n u, In n l /\ lower m = n ++ u.
Proof.
  intros H. rewrite Forall_forall in H. unfold begins. split.
  - intros (n & s & t & Hn & -> & E). apply same_name_lower in E. exists n, (lower t). split; [exact Hn|].
    rewrite lower_app, E, (H n Hn). reflexivity.
  - intros (n & u & Hn & E). destruct (lower_split _ _ _ E) as (s & t & -> & L & _). exists n, s, t. split; [exact Hn|]. split; [reflexivity|].
    apply same_name_lower. rewrite L. symmetry. apply H. exact Hn.
Qed.

Ltac lowered := repeat constructor.

Lemma adam_iff m : adam_asked m <-> In (lower m) ADAM_NAMES.
Proof. apply named_lower. lowered. Qed.
Lemma secant_iff m : secant_asked m <-> In (lower m) QSMLM_NAMES.
Proof. apply named_lower. lowered. Qed.
Definition dg_names : list string := ["discontinuous gradient"; "discontinuous gradient method"; "dg"].
Lemma discontinuous_iff m : discontinuous_asked m <-> In (lower m) dg_names.
Proof. apply named_lower. lowered. Qed.
Lemma constrained_iff m : constrained_asked m <-> lower m = "constrained".
Proof.
  unfold constrained_asked. rewrite named_lower by lowered. cbn [In]. split; [intros [E|[]]; auto|auto].
Qed.
Lemma global_iff m : global_secant_asked m <-> global_name (lower m) = true.
Proof.
  unfold global_secant_asked. rewrite begins_lower by lowered. unfold global_name. rewrite existsb_exists. split.
  - intros (n & u & Hn & E). exists n. split.
    + unfold GLOBAL_QSMLM_NAMES. cbn [In] in Hn |- *. tauto.
    + apply prefix_iff. eauto.
  - intros (n & Hn & E). apply prefix_iff in E. destruct E as (u & E).
    unfold GLOBAL_QSMLM_NAMES in Hn. cbn [In] in Hn. destruct Hn as [<-|[<-|[<-|[<-|[<-|[]]]]]].
    + exists "global quasi secant method", u. cbn [In]. auto.
    + exists "global limited memory quasi secant method", u. cbn [In]. auto.
    + exists "global quasi secant method", (" limited memory" ++ u). cbn [In]. auto.
    + exists "globqsm", u. cbn [In]. auto.
    + exists "globqsm", ("lm" ++ u). cbn [In]. auto.
Qed.

Lemma append_assoc_str s t u : (s ++ t) ++ u = s ++ (t ++ u).
Proof. induction s as [|a s IH]; cbn; [reflexivity|]. f_equal. exact IH. Qed.
Lemma substring_all s : substring 0 (String.length s) s = s.
Proof. induction s as [|a s IH]; cbn; [reflexivity|]. f_equal. exact IH. Qed.
Lemma length_app_str s t : String.length (s ++ t) = (String.length s + String.length t)%nat.
Proof. induction s as [|a s IH]; cbn; [reflexivity|]. f_equal. exact IH. Qed.
Lemma strip_app p s : strip p (p ++ s) = s.
Proof.
  unfold strip. rewrite length_app_str. replace (String.length p + String.length s - String.length p)%nat with (String.length s) by lia.
  induction p as [|a p IH]; cbn; [apply substring_all|exact IH].
Qed.

(* no two branches share a name *)
Definition first_two (s : string) : string := substring 0 2 s.
Lemma gradiented_apart m s : m = "gradiented " ++ s ->
  ~ In (lower m) ADAM_NAMES /\ ~ In (lower m) QSMLM_NAMES /\ global_name (lower m) = false /\ ~ In (lower m) dg_names /\ lower m <> "constrained".
Proof.
  intros ->. rewrite lower_app. change (lower "gradiented ") with "gradiented ".
  repeat split; try (intros H; cbn in H; repeat (destruct H as [H|H]; [discriminate H|]); contradiction); try discriminate; reflexivity.
Qed.

Theorem route_iff m r : route_of m = r <-> asks m r.
Proof.
  assert (FWD : asks m (route_of m)).
  { unfold route_of. cbv zeta.
    destruct (mem_string ADAM_NAMES (lower m)) eqn:A; [apply mem_string_in in A; apply adam_iff; exact A|].
    destruct (mem_string QSMLM_NAMES (lower m)) eqn:Q; [apply mem_string_in in Q; apply secant_iff; exact Q|].
    destruct (global_name (lower m)) eqn:G; [split; [reflexivity|]; apply global_iff; exact G|].
    fold dg_names. destruct (mem_string dg_names (lower m)) eqn:D; [apply mem_string_in in D; apply discontinuous_iff; exact D|].
    destruct (String.eqb (lower m) "constrained") eqn:C; [apply String.eqb_eq in C; apply constrained_iff; exact C|].
    destruct (String.prefix "gradiented " m) eqn:P.
    - apply prefix_iff in P. destruct P as (u & ->). cbn [asks]. rewrite strip_app. reflexivity.
    - cbn [asks]. split; [reflexivity|]. repeat split; intros H.
      + apply adam_iff, mem_string_in in H. congruence.
      + apply secant_iff, mem_string_in in H. congruence.
      + apply global_iff in H. congruence.
      + apply discontinuous_iff, mem_string_in in H. congruence.
      + apply constrained_iff, String.eqb_eq in H. congruence.
      + apply prefix_iff in H. congruence. }
  split; [intros <-; exact FWD|]. intros H.
  unfold route_of. cbv zeta. fold dg_names.
  assert (NB : forall l s, ~ In s l -> mem_string l s = false).
  { intros l s N. destruct (mem_string l s) eqn:E; [|reflexivity]. apply mem_string_in in E. contradiction. }
  destruct r as [| |n| | |name [|]]; cbn [asks] in H.
  - apply adam_iff, mem_string_in in H. rewrite H. reflexivity.
  - apply secant_iff in H.
    assert (~ In (lower m) ADAM_NAMES).
    { intros A. cbn in H, A. repeat (destruct A as [A|A]; [rewrite <- A in H; repeat (destruct H as [H|H]; [discriminate H|]); contradiction|]). contradiction. }
    rewrite NB by assumption. apply mem_string_in in H. rewrite H. reflexivity.
  - destruct H as [-> H]. apply global_iff in H.
    assert (A : ~ In (lower m) ADAM_NAMES).
    { intros A. cbn in A. repeat (destruct A as [A|A]; [rewrite <- A in H; discriminate H|]). contradiction. }
    assert (Q : ~ In (lower m) QSMLM_NAMES).
    { intros Q. cbn in Q. repeat (destruct Q as [Q|Q]; [rewrite <- Q in H; discriminate H|]). contradiction. }
    rewrite (NB _ _ A), (NB _ _ Q), H. reflexivity.
  - apply discontinuous_iff in H. cbn in H.
    repeat (destruct H as [H|H]; [rewrite <- H; reflexivity|]). contradiction.
  - apply constrained_iff in H. rewrite H. reflexivity.
  - destruct (gradiented_apart m name H) as (A & Q & G & D & C).
    rewrite (NB _ _ A), (NB _ _ Q), G, (NB _ _ D). apply String.eqb_neq in C. rewrite C.
    assert (P : String.prefix "gradiented " m = true) by (apply prefix_iff; eauto). rewrite P. rewrite H, strip_app. reflexivity.
  - destruct H as (-> & A & Q & G & D & C & P).
    rewrite adam_iff in A. rewrite secant_iff in Q. rewrite global_iff in G. rewrite discontinuous_iff in D. rewrite constrained_iff in C.
    apply Bool.not_true_is_false in G. apply String.eqb_neq in C.
    assert (P' : String.prefix "gradiented " m = false).
    { destruct (String.prefix _ m) eqn:E; [|reflexivity]. apply prefix_iff in E. contradiction. }
    rewrite (NB _ _ A), (NB _ _ Q), G, (NB _ _ D), C, P'. reflexivity.
Qed.

Lemma minimizer_iff m : makes_minimizer m = true <-> route_of m = QuasiSecant \/ exists n, route_of m = GlobalQuasiSecant n.
Proof.
  unfold makes_minimizer. rewrite orb_true_iff, mem_string_in. split.
  - intros [H|H]; [left|right; exists 5%nat]; apply route_iff; cbn; [apply secant_iff; exact H|]. split; [reflexivity|apply global_iff; exact H].
  - intros [H|(n & H)]; apply route_iff in H; cbn in H; [left; apply secant_iff; exact H|right; apply global_iff; apply H].
Qed.

(* the case of the letters matters for scipy only *)
Lemma route_case m m' : same_name m m' -> route_of m = route_of m' \/ exists n n' g g', route_of m = Scipy n g /\ route_of m' = Scipy n' g'.
Proof.
  intros H. apply same_name_lower in H. unfold route_of. rewrite H. cbv zeta. fold dg_names.
  destruct (mem_string ADAM_NAMES _); [auto|]. destruct (mem_string QSMLM_NAMES _); [auto|]. destruct (global_name _); [auto|].
  destruct (mem_string dg_names _); [auto|]. destruct (String.eqb _ _); [auto|]. right.
  destruct (String.prefix _ m), (String.prefix _ m'); eexists _, _, _, _; split; reflexivity.
Qed.

(* ------------------------------------------------------------ the constraint *)

Local Open Scope R_scope.

Lemma least_spec l : match least l with
  | Ok y => l <> [] /\ forall z, z <= y <-> Forall (fun x => z <= x) l
  | Err e => l = [] /\ e = ValueError
  end.
Proof.
  induction l as [|x l IH]; [split; reflexivity|]. destruct l as [|w l].
  - cbn. split; [discriminate|]. intros z. split; [intros H; constructor; [exact H|constructor]|intros H; inversion H; assumption].
  - change (least (x :: w :: l)) with (bind (least (w :: l)) (fun y => Ok (Rmin x y))). destruct (least (w :: l)) as [y|e]; [|destruct IH; discriminate].
    destruct IH as [_ IH]. cbn [bind]. split; [discriminate|]. intros z.
    split.
    + intros H. constructor; [apply Rle_trans with (1 := H), Rmin_l|]. apply IH. apply Rle_trans with (1 := H), Rmin_r.
    + intros H. inversion H as [|? ? H1 H2]; subst. apply Rmin_glb; [exact H1|]. apply IH. exact H2.
Qed.

(* q nodes of two components each *)
Lemma constr_spec nc q x : (0 < nc <= q)%nat ->
  exists y, constr nc ((2 * q)%nat, x) = Ok y /\ (0 <= y <-> raised q nc x).
Proof.
  intros H. unfold constr. cbn [fst snd].
  replace (2 * q / 2)%nat with q by (rewrite Nat.mul_comm, Nat.div_mul; lia).
  replace (Nat.min nc (2 * q - q)) with nc by lia.
  pose proof (least_spec (map (fun i => x (q + i)%nat) (seq 0 nc))) as L.
  destruct (least _) as [y|e].
  - exists y. split; [reflexivity|]. destruct L as [_ L]. rewrite L, Forall_map, Forall_forall. unfold raised. split.
    + intros A i Hi. apply A. apply in_seq. lia.
    + intros A i Hi. apply in_seq in Hi. apply A. lia.
  - destruct L as [L _]. destruct nc; [lia|discriminate].
Qed.

Lemma constr_none q x : constr 0 ((2 * q)%nat, x) = Err ValueError.
Proof. reflexivity. Qed.
