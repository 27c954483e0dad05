(* Proofs about the states kept by the example of 2026 (C116). *)
From Coq Require Import Arith Bool String Ascii Reals DecimalString DecimalNat Permutation Lia Lra List.
From Verif Require Import GridModel GridSpec.
Import ListNotations.

(* ------------------------------------------------------------------ names *)
Lemma cut a b (x y : string) : plain a -> plain b -> (a ++ String "_"%char x)%string = (b ++ String "_"%char y)%string -> a = b /\ x = y.
Proof.
  revert b. induction a as [|c a IH]; intros b PA PB E.
  - destruct b as [|c b]; cbn in E; [injection E; auto|]. injection E as <- _. exfalso. apply PB. left. reflexivity.
  - destruct b as [|e b]; cbn in E; [injection E as -> _; exfalso; apply PA; left; reflexivity|].
    injection E as <- E. destruct (IH b) as [<- <-]; auto; intros H; [apply PA|apply PB]; right; exact H.
Qed.
Lemma printed n m : NilEmpty.string_of_uint (Nat.to_uint n) = NilEmpty.string_of_uint (Nat.to_uint m) -> n = m.
Proof.
  intros E. apply (f_equal NilEmpty.uint_of_string) in E. rewrite !NilEmpty.usu in E. injection E as E.
  rewrite <- (Unsigned.of_to n), <- (Unsigned.of_to m), E. reflexivity.
Qed.
Lemma names p q : plain (fst p) -> plain (fst q) -> state_name p = state_name q -> p = q.
Proof.
  destruct p as [a n], q as [b m]. intros PA PB E. cbn [fst snd] in *. unfold state_name in E. cbn [fst snd] in E.
  injection E as E. destruct (cut a b _ _ PA PB E) as [-> F]. injection F as F. apply printed in F. rewrite F. reflexivity.
Qed.

Lemma letters n : n < 26 -> letter n = Done (alphabet n).
Proof. intros L. do 26 (destruct n as [|n]; [reflexivity|]). lia. Qed.
Lemma no_letter n : 26 <= n -> letter n = Failed NoIndex.
Proof.
  intros L. unfold letter. replace (nth_error lowercase n) with (@None ascii); [reflexivity|]. symmetry. apply nth_error_None.
  change (List.length lowercase) with 26. exact L.
Qed.

Section Kept.
  Context {S : Type} (force : bool) (sim : key -> S) (temps : S -> list R) (error : S -> S -> R).
  Notation load := (load force true sim). Notation scan := (scan force true sim temps). Notation render := (render force true sim temps).
  Notation ensure_all := (ensure_all force true sim). Notation distances := (distances force true sim error). Notation curves := (curves force true sim error).
  Notation rows_of := (rows_of force true sim error).

  Definition after (d : disk S) (p : key) : disk S :=
    if force || negb (exists_ p d) then mk_disk true (fun n => if string_dec (state_name p) n then Some (sim p) else file d n) (p :: runs d) else d.
  Definition good (d : disk S) : Prop := there d = true /\ (force = true \/ honest sim d).
  Notation afters := (fold_left after).

  Lemma after_good d p : plain (fst p) -> good d -> good (after d p).
  Proof.
    intros P [T H]. unfold after. destruct (force || negb (exists_ p d)); [|split; assumption]. split; [reflexivity|]. destruct H as [H|H]; [left; exact H|right].
    intros q s Q. cbn [file]. destruct (string_dec _ _) as [E|]; [|apply H; exact Q]. intros X. injection X as <-. rewrite (names p q P Q E). reflexivity.
  Qed.
  Lemma after_file d p : plain (fst p) -> good d -> file (after d p) (state_name p) = Some (sim p).
  Proof.
    intros P [T H]. unfold after, exists_. destruct force; cbn [orb].
    - cbn [file]. destruct (string_dec _ _); [reflexivity|congruence].
    - destruct (file d (state_name p)) as [s|] eqn:E; cbn [negb].
      + rewrite E. destruct H as [H|H]; [discriminate|]. rewrite (H p s P E). reflexivity.
      + cbn [file negb]. destruct (string_dec _ _); [reflexivity|congruence].
  Qed.
  Lemma ensured d p : plain (fst p) -> good d -> load_or_simulate force true sim true p d = (after d p, Done None).
  Proof.
    intros P G. unfold load_or_simulate, after. destruct (force || negb (exists_ p d)); [|reflexivity]. unfold simulate. destruct G as [-> _]. reflexivity.
  Qed.
  Lemma loaded d p : plain (fst p) -> good d -> load p d = (after d p, Done (sim p)).
  Proof.
    intros P G. pose proof (after_file d p P G) as F. unfold GridModel.load, load_or_simulate. unfold after in *.
    destruct (force || negb (exists_ p d)); unfold simulate; [destruct G as [-> _]|]; cbn [andthen] in *; rewrite F; reflexivity.
  Qed.
  Lemma afters_good ps : forall d, Forall (fun p => plain (fst p)) ps -> good d -> good (afters ps d).
  Proof. induction ps as [|p ps IH]; intros d P G; [exact G|]. inversion P; subst. apply IH; [assumption|apply after_good; assumption]. Qed.

  Lemma ensure_eq ps : forall d, Forall (fun p => plain (fst p)) ps -> good d -> ensure_all ps d = (afters ps d, Done tt).
  Proof.
    induction ps as [|p ps IH]; intros d P G; [reflexivity|]. inversion P; subst. cbn [GridModel.ensure_all]. rewrite ensured by assumption. cbn [andthen fold_left].
    apply IH; [assumption|apply after_good; assumption].
  Qed.

  Lemma lower_all ts : forall t lo, fold_left lower ts (lower lo t) = lower lo (fold_left Rmin ts t).
  Proof.
    induction ts as [|x ts IH]; intros t lo; [reflexivity|]. cbn [fold_left]. rewrite <- (IH (Rmin t x) lo). f_equal. destruct lo as [a|]; cbn; [|reflexivity].
    rewrite Rmin_assoc. reflexivity.
  Qed.
  Lemma higher_all ts : forall t hi, fold_left higher ts (higher hi t) = higher hi (fold_left Rmax ts t).
  Proof.
    induction ts as [|x ts IH]; intros t hi; [reflexivity|]. cbn [fold_left]. rewrite <- (IH (Rmax t x) hi). f_equal. destruct hi as [a|]; cbn; [|reflexivity].
    rewrite Rmax_assoc. reflexivity.
  Qed.
  Definition values (ps : list key) : list R := flat_map (fun p => temps (sim p)) ps.
  Lemma scan_eq ps : forall lo hi d, Forall (fun p => plain (fst p)) ps -> (forall p, In p ps -> temps (sim p) <> []) -> good d ->
    scan ps lo hi d = (afters ps d, Done (fold_left lower (values ps) lo, fold_left higher (values ps) hi)).
  Proof.
    induction ps as [|p ps IH]; intros lo hi d P N G; [reflexivity|]. inversion P; subst. cbn [GridModel.scan]. rewrite loaded by assumption. cbn [andthen].
    destruct (temps (sim p)) as [|t ts] eqn:E; [elim (N p (or_introl eq_refl) E)|].
    rewrite (IH _ _ (after d p)); [|assumption|intros q Q; apply N; right; exact Q|apply after_good; assumption].
    unfold values. cbn [flat_map]. rewrite E, !fold_left_app. cbn [fold_left]. rewrite (lower_all ts), (higher_all ts). reflexivity.
  Qed.
  Lemma lower_least l : forall a, exists x, fold_left lower l (Some a) = Some x /\ (x = a \/ In x l) /\ (x <= a)%R /\ forall y, In y l -> (x <= y)%R.
  Proof.
    induction l as [|b l IH]; intros a; [exists a; cbn; intuition lra|]. cbn [fold_left lower]. destruct (IH (Rmin a b)) as (x & E & I & L & A). exists x.
    pose proof (Rmin_l a b). pose proof (Rmin_r a b). split; [exact E|]. split; [|split; [lra|intros y [<-|Y]; [lra|apply A; exact Y]]].
    destruct I as [->|I]; [|right; right; exact I]. unfold Rmin. destruct (Rle_dec a b); [left; reflexivity|right; left; reflexivity].
  Qed.
  Lemma higher_greatest l : forall a, exists x, fold_left higher l (Some a) = Some x /\ (x = a \/ In x l) /\ (a <= x)%R /\ forall y, In y l -> (y <= x)%R.
  Proof.
    induction l as [|b l IH]; intros a; [exists a; cbn; intuition lra|]. cbn [fold_left higher]. destruct (IH (Rmax a b)) as (x & E & I & L & A). exists x.
    pose proof (Rmax_l a b). pose proof (Rmax_r a b). split; [exact E|]. split; [|split; [lra|intros y [<-|Y]; [lra|apply A; exact Y]]].
    destruct I as [->|I]; [|right; right; exact I]. unfold Rmax. destruct (Rle_dec a b); [right; left; reflexivity|left; reflexivity].
  Qed.
  Lemma low_of l : l <> [] -> exists x, fold_left lower l None = Some x /\ least x l.
  Proof.
    destruct l as [|b l]; [congruence|]. intros _. cbn [fold_left lower]. destruct (lower_least l b) as (x & E & I & L & A). exists x. split; [exact E|]. split.
    - destruct I as [->|I]; [left; reflexivity|right; exact I].
    - intros y [<-|Y]; [exact L|apply A; exact Y].
  Qed.
  Lemma high_of l : l <> [] -> exists x, fold_left higher l None = Some x /\ greatest x l.
  Proof.
    destruct l as [|b l]; [congruence|]. intros _. cbn [fold_left higher]. destruct (higher_greatest l b) as (x & E & I & L & A). exists x. split; [exact E|]. split.
    - destruct I as [->|I]; [left; reflexivity|right; exact I].
    - intros y [<-|Y]; [exact L|apply A; exact Y].
  Qed.

  Lemma render_eq ps : forall n lo hi d, Forall (fun p => plain (fst p)) ps -> n + List.length ps <= 26 -> good d ->
    exists l, render ps n lo hi d = (afters ps d, Done l) /\ List.length l = List.length ps /\
      forall i p, nth_error ps i = Some p -> nth_error l i = Some (alphabet (n + i), p, temps (sim p), lo, hi).
  Proof.
    induction ps as [|p ps IH]; intros n lo hi d P N G; [exists []; split; [reflexivity|split; [reflexivity|intros [|i] p; discriminate]]|].
    inversion P; subst. cbn [List.length] in N. cbn [GridModel.render]. rewrite loaded by assumption. cbn [andthen]. rewrite letters by lia. cbn [andthen].
    destruct (IH (Datatypes.S n) lo hi (after d p)) as (l & E & L & A); [assumption|lia|apply after_good; assumption|]. rewrite E. cbn [andthen fold_left].
    eexists. split; [reflexivity|]. split; [cbn; rewrite L; reflexivity|]. intros [|i] q Q; cbn in *.
    - injection Q as <-. rewrite Nat.add_0_r. reflexivity.
    - rewrite (A i q Q). do 5 f_equal. rewrite Nat.add_succ_r. reflexivity.
  Qed.
  Lemma render_fails ps : forall n lo hi d, Forall (fun p => plain (fst p)) ps -> 26 < n + List.length ps -> n <= 26 -> good d ->
    exists d', render ps n lo hi d = (d', Failed NoIndex).
  Proof.
    induction ps as [|p ps IH]; intros n lo hi d P N M G; [cbn in N; lia|].
    inversion P; subst. cbn [List.length] in N. cbn [GridModel.render]. rewrite loaded by assumption. cbn [andthen].
    destruct (Nat.eq_dec n 26) as [->|]; [rewrite no_letter by lia; eexists; reflexivity|]. rewrite letters by lia. cbn [andthen].
    destruct (IH (Datatypes.S n) lo hi (after d p)) as (d' & E); [assumption|lia|lia|apply after_good; assumption|]. rewrite E. eexists. reflexivity.
  Qed.

  Definition floored (r s : S) : R := Rmax (error r s) (/ 10 ^ 16).
  Lemma distances_eq r ps : forall d, Forall (fun p => plain (fst p)) ps -> good d -> distances r ps d = (afters ps d, Done (map (fun p => (p, floored r (sim p))) ps)).
  Proof.
    induction ps as [|p ps IH]; intros d P G; [reflexivity|]. inversion P; subst. cbn [GridModel.distances]. rewrite loaded by assumption. cbn [andthen].
    rewrite IH; [|assumption|apply after_good; assumption]. reflexivity.
  Qed.
  Definition seq_requests (s : list key) : list key := match rev s with [] => [] | f :: b => f :: rev b end.
  Lemma seq_in s p : In p (seq_requests s) -> In p s.
  Proof.
    unfold seq_requests. rewrite (in_rev s). destruct (rev s) as [|f b]; [intros []|]. intros [<-|H]; [left; reflexivity|right]. apply in_rev. exact H.
  Qed.
  Lemma in_seq s p : In p s -> In p (seq_requests s).
  Proof.
    unfold seq_requests. rewrite (in_rev s). destruct (rev s) as [|f b]; [intros []|]. intros [<-|H]; [left; reflexivity|right]. rewrite <- in_rev. exact H.
  Qed.
  Lemma seq_length s : List.length (seq_requests s) = List.length s.
  Proof. unfold seq_requests. rewrite <- (rev_length s). destruct (rev s); [reflexivity|]. cbn. rewrite rev_length. reflexivity. Qed.
  Lemma curves_eq l : forall n d, (forall s, In s (sequences l) -> s <> [] /\ Forall (fun p => plain (fst p)) s) -> n + List.length (sequences l) <= 26 -> good d ->
    exists cs, curves l n d = (afters (flat_map seq_requests (sequences l)) d, Done cs) /\ List.length cs = List.length (sequences l) /\
      forall i b f, nth_error (sequences l) i = Some (b ++ [f]) -> nth_error cs i = Some (alphabet (n + i), map (fun p => (p, floored (sim f) (sim p))) b).
  Proof.
    induction l as [|[s|] l IH]; intros n d P N G.
    - exists []. split; [reflexivity|]. split; [reflexivity|]. intros [|i] b f; discriminate.
    - destruct (P s (or_introl eq_refl)) as (NE & PS). change (sequences (Some s :: l)) with (s :: sequences l) in *. cbn [List.length] in N.
      assert (PS' : Forall (fun p => plain (fst p)) (seq_requests s)).
      { rewrite Forall_forall in *. intros p Q. apply PS, seq_in, Q. }
      unfold seq_requests in PS'. cbn [GridModel.curves flat_map]. rewrite fold_left_app. unfold seq_requests at 2.
      destruct (rev s) as [|f b] eqn:R; [apply (f_equal (@rev key)) in R; rewrite rev_involutive in R; elim (NE R)|].
      inversion PS'; subst. rewrite loaded by assumption. cbn [andthen].
      assert (G1 : good (after d f)) by (apply after_good; assumption).
      rewrite distances_eq by assumption. cbn [andthen]. rewrite letters by lia. cbn [andthen].
      destruct (IH (Datatypes.S n) (afters (rev b) (after d f))) as (cs & E & L & A);
        [intros t T; apply P; right; exact T|lia|apply afters_good; assumption|].
      rewrite E. cbn [andthen]. eexists. split; [reflexivity|]. split; [cbn; rewrite L; reflexivity|].
      intros [|i] b' f' Q; cbn [nth_error] in *.
      + injection Q as Q. rewrite Q in R. rewrite rev_app_distr in R. cbn in R. injection R as -> R. rewrite <- R, rev_involutive, Nat.add_0_r. reflexivity.
      + rewrite (A i b' f' Q). do 3 f_equal. rewrite Nat.add_succ_r. reflexivity.
    - change (sequences (None :: l)) with (sequences l) in *. cbn [GridModel.curves]. apply IH; assumption.
  Qed.

  Definition row_requests (alpha : string) (ihs : list nat) : list key := flat_map (fun ih => [("inf"%string, ih); (alpha, ih)]) ihs.
  Lemma plain_inf : plain "inf".
  Proof. intros H. cbn in H. intuition discriminate. Qed.
  Lemma rows_eq r alpha ihs : plain alpha -> forall d, good d ->
    rows_of r alpha ihs d = (afters (row_requests alpha ihs) d, Done (map (fun ih => (ih, error r (sim ("inf"%string, ih)), error r (sim (alpha, ih)))) ihs)).
  Proof.
    intros PA. induction ihs as [|ih ihs IH]; intros d G; [reflexivity|]. cbn [GridModel.rows_of]. rewrite loaded; [|exact plain_inf|exact G]. cbn [andthen].
    rewrite loaded; [|exact PA|apply after_good; [exact plain_inf|exact G]]. cbn [andthen].
    rewrite IH; [reflexivity|]. apply after_good; [exact PA|]. apply after_good; [exact plain_inf|exact G].
  Qed.
  Lemma made (d : disk S) : there d = true -> mk_disk true (file d) (runs d) = d.
  Proof. destruct d as [t f r]. cbn. intros ->. reflexivity. Qed.

  (* ------------------------------------------------------ simulations made *)
  Lemma after_runs ps : force = false -> forall d, Forall (fun p => plain (fst p)) ps ->
    exists new, runs (afters ps d) = new ++ runs d /\ NoDup new /\ forall p, In p new <-> In p ps /\ file d (state_name p) = None.
  Proof.
    intros F. induction ps as [|p ps IH]; intros d P; [exists []; split; [reflexivity|split; [constructor|cbn; tauto]]|]. inversion P as [|? ? P1 P2]; subst. cbn [fold_left].
    unfold after at 2. rewrite F. cbn [orb]. unfold exists_. destruct (file d (state_name p)) as [s|] eqn:E; cbn [negb].
    - destruct (IH d P2) as (new & R & N & I). exists new. split; [exact R|]. split; [exact N|]. intros q. rewrite I. cbn [In]. split; [tauto|]. intros [[<-|Q] Z]; [unfold key in *; rewrite E in Z; discriminate Z|tauto].
    - match goal with |- context [afters ps ?d] => destruct (IH d P2) as (new & R & N & I) end. exists (new ++ [p]). cbn [runs] in R. split; [rewrite R, <- app_assoc; reflexivity|].
      cbn [file] in I. split.
      + apply NoDup_rev in N. rewrite <- (rev_involutive (new ++ [p])), rev_app_distr. apply NoDup_rev. cbn. constructor; [|exact N]. rewrite <- in_rev. intros Q. apply I in Q. destruct Q as [_ Q].
        destruct (string_dec _ _) in Q; congruence.
      + intros q. rewrite in_app_iff, I. cbn [In]. split.
        * intros [[Q Z]|[<-|[]]]; [|tauto]. destruct (string_dec _ _) in Z; [discriminate|tauto].
        * intros [[<-|Q] Z]; [tauto|]. destruct (string_dec (state_name p) (state_name q)) as [X|X]; [|tauto].
          right. left. rewrite Forall_forall in P2. apply names; [exact P1|apply P2; exact Q|exact X].
  Qed.
  Lemma after_runs_force ps : force = true -> forall d, runs (afters ps d) = rev ps ++ runs d.
  Proof.
    intros F. induction ps as [|p ps IH]; intros d; [reflexivity|]. cbn [fold_left rev]. rewrite IH. unfold after. rewrite F. cbn. rewrite <- app_assoc. reflexivity.
  Qed.
End Kept.
