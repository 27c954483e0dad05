(* C89 for the classes of the library. *)
From Coq Require Import Reals List Arith ZArith Bool String Lia Lra.
From Verif Require Import Common PyModel RVec LinAlg MeshModel MeshBuildModel MeshSpec NormalsModel FemModel FemSpec ForcesModel ForcesSpec
  DirichletModel DirichletSpec ContactModel ContactSpec ContactCostProofs ConstrainedSpec SchurModel SchurSpec StatementModel StatementSpec StatementValueProofs
  RegistryModel StateModel StateLemmas CopyProofs TimeModel TimeSpec TimeProofs RunProofs HistoryProofs SolveProofs MarchProofs TimeTheorems MethodModel MethodProofs
  RunSpec WholeRunProofs RunTheorems OptimisationModel OptimisationProofs ContactRunSpec ContactRunProofs ContactRunTheorems
  ProblemModel ProblemSpec ProblemProofs ProblemReady ProblemTheorems ProblemUnique ProblemTotal
  ProblemContactModel ProblemContactSpec ProblemContactProofs ProblemContactTheorems.
Import ListNotations.
Local Open Scope string_scope.
Local Open Scope list_scope.
Local Open Scope R_scope.

(* the classes are those found in the registry *)
Lemma classes_registered p k : statement_of (mro p) = Ok (Some k) -> k = StaticDisplacement \/ k = QuasistaticVelocity \/ k = DynamicVelocity ->
  forall name, (get_by_name installed name (mro p) = Ok (global_class k) <-> lower name = "global" \/ lower name = "global optimization") /\
    (get_by_name installed name (mro p) = Ok (schur_class_of k) <->
     lower name = "schur" \/ lower name = "schur complement" \/ lower name = "schur complement method").
Proof.
  intros S K name. unfold get_by_name.
  assert (D : dynamism_of (mro p) = Ok (match k with DynamicVelocity => "dynamic" | QuasistaticVelocity => "quasistatic" | _ => "static" end)).
  { destruct p; cbv in S; try discriminate; injection S as <-; cbn; try reflexivity; destruct K as [K|[K|K]]; discriminate. }
  rewrite D. cbn [bind]. generalize (lower name) as x. intros x.
  destruct K as [-> | [-> | ->]]; cbn [global_class schur_class_of];
    match goal with |- context [dict_item installed ?w] => let r := eval vm_compute in (dict_item installed w) in change (dict_item installed w) with r end;
    cbn [bind]; unfold dict_item; cbn [dict_get];
    repeat match goal with |- context [if ?y =? ?w then _ else _] => destruct (String.eqb_spec y w) as [-> |] end;
    split; split; intros H; try discriminate H; try (repeat destruct H as [H|H]; congruence); auto.
Qed.

Lemma plane_velocity pb id k th ze mu la : sturdy pb id k th ze mu la -> velocity_kind k -> k = DynamicVelocity \/ k = QuasistaticVelocity.
Proof. intros [_ S] VK. destruct k; try contradiction; auto. Qed.

Lemma global_renews pb id k th ze mu la bt : sturdy pb id k th ze mu la -> velocity_kind k ->
  renews (integrate_forces (bt_mesh bt) (bt_basic bt)) (bt_body bt) k (global_class k).
Proof. intros S VK. destruct (plane_velocity _ _ _ _ _ _ _ S VK) as [-> | ->]; intros q; eexists; split; reflexivity. Qed.
Lemma schur_renews pb id k th ze mu la bt : sturdy pb id k th ze mu la -> velocity_kind k ->
  renews (integrate_forces (bt_mesh bt) (bt_basic bt)) (bt_body bt) k (schur_class_of k) /\ schur_class (schur_class_of k).
Proof. intros S VK. destruct (plane_velocity _ _ _ _ _ _ _ S VK) as [-> | ->]; (split; [|exact I]); intros q; eexists; split; reflexivity. Qed.

Section Final.
  Context {V W : Type}.
  Variables (pb : problem) (ic id : P2 -> bool) (g : P2 -> R) (fi fo : P2 -> R -> vec) (k : kind) (th ze mu la : R) (law : contact_law).
  Hypothesis CP : contact_posed pb ic id g fi fo k th ze mu la law.
  Variables (bt : built) (density : option (nat -> R)).
  Hypothesis PR : prepared pb bt density.
  Hypothesis PD : positive_density density.
  Notation motion := (posed_motion pb bt density id g fi fo k th ze mu la law).
  Notation rest := (posed_rest pb bt density id g fi fo mu la law).
  Variable minimise : route -> nat -> (arr -> result R) -> arr -> arr.
  Variables (name : string) (maxiter : option nat).
  Hypothesis HM : forall n, reliable (minimise (route_of name) n).
  Let ST := cp_sturdy _ _ _ _ _ _ _ _ _ _ _ _ CP.

  Lemma global_final (m0 : store V) (d d' : driver V (method forces)) n u0 v0 out given (l : list (state W)) : velocity_kind k ->
    step_solver pb bt k m0 = Ok d -> in_stock (d_mem d) given -> non_decreasing 0 (requested n out) ->
    global_motion bt k law minimise name maxiter n u0 v0 out given d = (d', Ok l) ->
    exists u v, motion u0 v0 (TimeTheorems.last_step n out) u v /\ List.length l = List.length (requested n out) /\
      forall j q (s : state W), nth_error (requested n out) j = Some q -> nth_error l j = Some s ->
        shows (time_step_of pb) u v (Z.to_nat q) (look (d_mem d') s).
  Proof.
    intros VK. exact (global_posed pb ic id g fi fo k th ze mu la law CP bt density PR PD minimise name maxiter HM (global_class k) m0 d d' n u0 v0 out given l
      VK (global_renews _ _ _ _ _ _ _ bt ST VK)).
  Qed.
  Lemma global_goes_final n out : velocity_kind k -> non_decreasing 0 (requested n out) -> n <> 0%nat ->
    forall m0, exists d : driver V (method forces), step_solver pb bt k m0 = Ok d /\ forall u0 v0, exists d' (l : list (state W)),
    global_motion bt k law minimise name maxiter n u0 v0 out [] d = (d', Ok l).
  Proof.
    intros VK. exact (global_goes pb ic id g fi fo k th ze mu la law CP bt density PR PD minimise name maxiter HM (global_class k) n out
      VK (global_renews _ _ _ _ _ _ _ bt ST VK)).
  Qed.
  Lemma global_rest_final (m0 : store V) (d d' : driver V (method forces)) u0 given (s : state W) : k = StaticDisplacement ->
    step_solver pb bt k m0 = Ok d -> in_stock (d_mem d) given ->
    global_rest bt k law minimise name maxiter u0 given d = (d', Ok s) -> rest u0 (view_displacement (look (d_mem d') s)).
  Proof.
    intros K. refine (global_static_posed pb ic id g fi fo k th ze mu la law CP bt density PR PD minimise name maxiter HM (global_class k) m0 d d' u0 given s K _).
    rewrite K. reflexivity.
  Qed.
  Lemma global_rest_goes : k = StaticDisplacement ->
    forall m0, exists d : driver V (method forces), step_solver pb bt k m0 = Ok d /\ forall u0, exists d' (s : state W),
    global_rest bt k law minimise name maxiter u0 [] d = (d', Ok s).
  Proof.
    intros K. refine (global_static_goes pb ic id g fi fo k th ze mu la law CP bt density PR PD minimise name maxiter HM (global_class k) K _).
    rewrite K. reflexivity.
  Qed.

  Variable inv : nat -> mat -> result mat.
  Hypothesis HI : inverts inv.
  Lemma schur_final (m0 : store V) (d d' : driver V (schur_method forces)) n u0 v0 out given (l : list (state W)) : velocity_kind k ->
    schur_step_solver pb bt k inv m0 = Ok d -> in_stock (d_mem d) given -> non_decreasing 0 (requested n out) ->
    schur_motion bt k law minimise name maxiter n u0 v0 out given d = (d', Ok l) ->
    exists u v, motion u0 v0 (TimeTheorems.last_step n out) u v /\ List.length l = List.length (requested n out) /\
      forall j q (s : state W), nth_error (requested n out) j = Some q -> nth_error l j = Some s ->
        shows (time_step_of pb) u v (Z.to_nat q) (look (d_mem d') s).
  Proof.
    intros VK. destruct (schur_renews _ _ _ _ _ _ _ bt ST VK) as [R S].
    exact (schur_posed pb ic id g fi fo k th ze mu la law CP bt density PR PD minimise name maxiter HM (schur_class_of k) inv HI m0 d d' n u0 v0 out given l VK R S).
  Qed.
  Lemma schur_goes_final n out : velocity_kind k -> non_decreasing 0 (requested n out) -> n <> 0%nat ->
    forall m0, exists d : driver V (schur_method forces), schur_step_solver pb bt k inv m0 = Ok d /\ forall u0 v0, exists d' (l : list (state W)),
    schur_motion bt k law minimise name maxiter n u0 v0 out [] d = (d', Ok l).
  Proof.
    intros VK. destruct (schur_renews _ _ _ _ _ _ _ bt ST VK) as [R S].
    exact (schur_goes pb ic id g fi fo k th ze mu la law CP bt density PR PD minimise name maxiter HM (schur_class_of k) inv HI n out VK R S).
  Qed.
  Lemma schur_rest_final (m0 : store V) (d d' : driver V (schur_method forces)) u0 given (s : state W) : k = StaticDisplacement ->
    schur_step_solver pb bt k inv m0 = Ok d -> in_stock (d_mem d) given ->
    schur_rest bt k law minimise name maxiter u0 given d = (d', Ok s) -> rest u0 (view_displacement (look (d_mem d') s)).
  Proof.
    intros K. refine (schur_static_posed pb ic id g fi fo k th ze mu la law CP bt density PR PD minimise name maxiter HM (schur_class_of k) inv HI m0 d d' u0 given s K _).
    rewrite K. reflexivity.
  Qed.
  Lemma schur_rest_goes : k = StaticDisplacement ->
    forall m0, exists d : driver V (schur_method forces), schur_step_solver pb bt k inv m0 = Ok d /\ forall u0, exists d' (s : state W),
    schur_rest bt k law minimise name maxiter u0 [] d = (d', Ok s).
  Proof.
    intros K. refine (schur_static_goes pb ic id g fi fo k th ze mu la law CP bt density PR PD minimise name maxiter HM (schur_class_of k) inv HI K _).
    rewrite K. reflexivity.
  Qed.
End Final.

Section Same.
  Context {V W V' W' : Type}.
  Variables (pb : problem) (ic id : P2 -> bool) (g : P2 -> R) (fi fo : P2 -> R -> vec) (k : kind) (th ze mu la : R) (law : contact_law).
  Hypothesis CP : contact_posed pb ic id g fi fo k th ze mu la law.
  Variables (bt : built) (density : option (nat -> R)).
  Hypothesis PR : prepared pb bt density.
  Hypothesis PD : positive_density density.
  Variables minimise minimise' : route -> nat -> (arr -> result R) -> arr -> arr.
  Variables (name name' : string) (maxiter maxiter' : option nat).
  Hypothesis HM : forall n, reliable (minimise (route_of name) n).
  Hypothesis HM' : forall n, reliable (minimise' (route_of name') n).
  Variable inv : nat -> mat -> result mat.
  Hypothesis HI : inverts inv.
  Let ST := cp_sturdy _ _ _ _ _ _ _ _ _ _ _ _ CP.
  Let N := List.length (m_nodes (bt_mesh bt)).

  Lemma same_final (m0 : store V) (m0' : store V') (d1 d1' : driver V (method forces)) (d2 d2' : driver V' (schur_method forces))
      n u0 v0 out given given' (l1 : list (state W)) (l2 : list (state W')) : velocity_kind k ->
    step_solver pb bt k m0 = Ok d1 -> schur_step_solver pb bt k inv m0' = Ok d2 ->
    in_stock (d_mem d1) given -> in_stock (d_mem d2) given' -> non_decreasing 0 (requested n out) ->
    global_motion bt k law minimise name maxiter n u0 v0 out given d1 = (d1', Ok l1) ->
    schur_motion bt k law minimise' name' maxiter' n u0 v0 out given' d2 = (d2', Ok l2) ->
    List.length l1 = List.length l2 /\
    forall j (s1 : state W) (s2 : state W'), nth_error l1 j = Some s1 -> nth_error l2 j = Some s2 ->
      let w1 := @look V W (d_mem d1') s1 in let w2 := @look V' W' (d_mem d2') s2 in
      view_time w1 = view_time w2 /\ veq (2 * N) (view_displacement w1) (view_displacement w2) /\ veq (2 * N) (view_velocity w1) (view_velocity w2).
  Proof.
    intros VK. destruct (schur_renews _ _ _ _ _ _ _ bt ST VK) as [R S].
    exact (contact_same pb ic id g fi fo k th ze mu la law CP bt density PR PD minimise minimise' name name' maxiter maxiter' HM HM' (global_class k) (schur_class_of k)
      inv HI m0 m0' d1 d1' d2 d2' n u0 v0 out given given' l1 l2 VK (global_renews _ _ _ _ _ _ _ bt ST VK) R S).
  Qed.
  Lemma same_rest_final (m0 : store V) (m0' : store V') (d1 d1' : driver V (method forces)) (d2 d2' : driver V' (schur_method forces))
      u0 given given' (s1 : state W) (s2 : state W') : k = StaticDisplacement ->
    step_solver pb bt k m0 = Ok d1 -> schur_step_solver pb bt k inv m0' = Ok d2 ->
    in_stock (d_mem d1) given -> in_stock (d_mem d2) given' ->
    global_rest bt k law minimise name maxiter u0 given d1 = (d1', Ok s1) ->
    schur_rest bt k law minimise' name' maxiter' u0 given' d2 = (d2', Ok s2) ->
    veq (2 * N) (view_displacement (@look V W (d_mem d1') s1)) (view_displacement (@look V' W' (d_mem d2') s2)).
  Proof.
    intros K. refine (contact_static_same pb ic id g fi fo k th ze mu la law CP bt density PR PD minimise minimise' name name' maxiter maxiter' HM HM' (global_class k)
      (schur_class_of k) inv HI m0 m0' d1 d1' d2 d2' u0 given given' s1 s2 K _ _); rewrite K; reflexivity.
  Qed.
End Same.
