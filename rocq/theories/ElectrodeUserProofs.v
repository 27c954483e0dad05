(* Electrodes of the user's mesh are those of the built mesh. *)
From Coq Require Import Reals List Arith ZArith Bool String Permutation Sorted Lia Lra.
From Verif Require Import Common PyModel RVec MeshModel MeshBuildModel MeshSpec ListLemmas MeshRemoveProofs MeshReorderProofs MeshFacesProofs
  MeshOrderProofs MeshBuildProofs NormalsModel FemModel FemSpec StatementSpec CrossBuiltProofs ForcesSpec
  DirichletSpec ProblemModel ProblemSpec ProblemContactProofs CoupledProblemSpec.
Import ListNotations.
Local Open Scope string_scope.
Local Open Scope list_scope.

(* the place of a node in the new order *)
Fixpoint place (old : list nat) (o : nat) : nat :=
  match old with [] => 0 | x :: l => if Nat.eq_dec x o then 0 else S (place l o) end.
Lemma place_old old o : In o old -> nth_error old (place old o) = Some o.
Proof.
  induction old as [|x l IH]; intros H; [destruct H|]. cbn [place]. destruct (Nat.eq_dec x o) as [->|Ne]; [reflexivity|].
  destruct H as [H|H]; [contradiction|]. exact (IH H).
Qed.
Lemma place_is old o n : NoDup old -> nth_error old n = Some o -> place old o = n.
Proof.
  intros U H. apply (proj1 (NoDup_nth_error old) U).
  - apply nth_error_Some. rewrite place_old; [discriminate|]. eapply nth_error_In; eauto.
  - rewrite place_old; [symmetry; exact H|]. eapply nth_error_In; eauto.
Qed.

Lemma built_face old els els' w f : NoDup old -> relabelled_unordered old els els' ->
  boundary_face w els f -> boundary_face w els' (sort_nat (map (place old) f)).
Proof.
  intros U HE HF. apply (face_transport w (place old) els els'); [| |exact HF].
  - intros x y (e & He & Hx) (e1 & He1 & Hy) E.
    destruct (relabelled_element old els els' e HE He) as (e' & _ & K). destruct (relabelled_element old els els' e1 HE He1) as (e1' & _ & K1).
    destruct (K x Hx) as (n & _ & Hn). destruct (K1 y Hy) as (n1 & _ & Hn1).
    rewrite (place_is _ _ _ U Hn), (place_is _ _ _ U Hn1) in E. subst n1. congruence.
  - clear HF. induction HE as [|e e' l l' (e0 & Pm & F) HE IH]; [constructor|]. constructor; [|exact IH].
    transitivity (map (place old) e0); [apply Permutation_map; exact Pm|].
    assert (X : map (place old) e0 = e').
    { clear Pm. induction F as [|o n k k' H F IHF]; [reflexivity|]. cbn [map]. rewrite (place_is _ _ _ U H), IHF. reflexivity. }
    rewrite X. reflexivity.
Qed.

Section User.
  Variables (nodes nodes' : list P2) (els els' : list (list nat)) (old : list nat).
  Hypothesis U : NoDup old.
  Hypothesis K : picks old nodes nodes'.
  Hypothesis RL : relabelled_unordered old els els'.

  Lemma node_there n p : nth_error nodes' n = Some p -> exists o, nth_error old n = Some o /\ nth_error nodes o = Some p.
  Proof. intros H. destruct (Forall2_nth_error_r _ _ _ _ _ K H) as (o & H1 & H2). eauto. Qed.
  Lemma node_here n o p : nth_error old n = Some o -> nth_error nodes o = Some p -> nth_error nodes' n = Some p.
  Proof. intros H H1. destruct (Forall2_nth_error _ _ _ _ _ K H) as (p' & H2 & H3). congruence. Qed.

  Lemma sort_two x y : x <> y -> sort_nat [x; y] = [x; y] \/ sort_nat [x; y] = [y; x].
  Proof. intros _. unfold sort_nat. cbn. destruct (Nat.leb x y); auto. Qed.

  Lemma face_pair w e f : boundary_face w e f -> w = 3 -> exists x y, f = [x; y] /\ x <> y.
  Proof.
    intros (S & L & _) ->. destruct f as [|x [|y [|]]]; try discriminate. exists x, y. split; [reflexivity|].
    inversion S as [|? ? ? F]; subst. inversion F; subst. lia.
  Qed.

  Lemma face_back ind f : boundary_face 3 els' f -> face_holds mean2 nodes' ind f ->
    exists f0, boundary_face 3 els f0 /\ face_holds mean2 nodes ind f0 /\
      forall n o, In n f -> nth_error old n = Some o -> In o f0.
  Proof.
    intros BF (ps & PK & HI). pose proof (user_face old els els' 3 f U RL BF) as UF.
    destruct (face_pair _ _ _ BF eq_refl) as (x & y & -> & Ne).
    inversion PK as [|? p ? l Hx PK1]; subst. inversion PK1 as [|? q ? l' Hy PK2]; subst. inversion PK2; subst. clear PK PK1 PK2.
    destruct (node_there x p Hx) as (ox & Ox & Px). destruct (node_there y q Hy) as (oy & Oy & Py).
    cbn [map] in UF. rewrite (nth_error_nth old x 0 Ox), (nth_error_nth old y 0 Oy) in UF.
    eexists. split; [exact UF|]. split.
    - destruct (sort_two ox oy) as [E|E]; [intros ->; apply Ne; apply (proj1 (NoDup_nth_error old) U); [apply nth_error_Some; congruence|congruence]| |]; rewrite E.
      + exists [p; q]. split; [repeat constructor; assumption|exact HI].
      + exists [q; p]. split; [repeat constructor; assumption|rewrite mean2_swap; exact HI].
    - intros n o Hn Ho. apply In_sort_nat. destruct Hn as [<-|[<-|[]]]; [left|right; left]; congruence.
  Qed.

  Lemma face_forth ind f : boundary_face 3 els f -> face_holds mean2 nodes ind f ->
    exists f1, boundary_face 3 els' f1 /\ face_holds mean2 nodes' ind f1 /\
      forall n o, In o f -> nth_error old n = Some o -> In n f1.
  Proof.
    intros BF (ps & PK & HI). pose proof (built_face old els els' 3 f U RL BF) as UF.
    destruct BF as (_ & _ & k & e & Hk & I & _).
    destruct (relabelled_element old els els' e RL ltac:(eapply nth_error_In; eauto)) as (e' & _ & Q).
    assert (HE : forall o, In o f -> exists n, nth_error old n = Some o).
    { intros o Ho. destruct (Q o (I o Ho)) as (n & _ & Hn). eauto. }
    destruct (face_pair _ _ _ UF eq_refl) as (x & y & Exy & Ne).
    assert (LF : List.length f = 2) by (rewrite <- (map_length (place old) f), <- (length_sort_nat (map (place old) f)), Exy; reflexivity).
    destruct f as [|a [|c [|]]]; try discriminate. clear Exy x y Ne LF.
    inversion PK as [|? p ? l Ha PK1]; subst. inversion PK1 as [|? q ? l' Hc PK2]; subst. inversion PK2; subst. clear PK PK1 PK2.
    destruct (HE a (or_introl eq_refl)) as (na & Na). destruct (HE c (or_intror (or_introl eq_refl))) as (nc & Nc).
    cbn [map] in UF. rewrite (place_is _ _ _ U Na), (place_is _ _ _ U Nc) in UF.
    eexists. split; [exact UF|]. split.
    - pose proof (node_here _ _ _ Na Ha) as X. pose proof (node_here _ _ _ Nc Hc) as Y.
      unfold sort_nat. cbn. destruct (Nat.leb na nc).
      + exists [p; q]. split; [repeat constructor; assumption|exact HI].
      + exists [q; p]. split; [repeat constructor; assumption|rewrite mean2_swap; exact HI].
    - intros n o Ho Hn. apply In_sort_nat. destruct Ho as [<-|[<-|[]]]; [left|right; left];
        apply (proj1 (NoDup_nth_error old) U); try congruence; apply nth_error_Some; congruence.
  Qed.

  Variable es : list ((P2 -> bool) * (P2 -> Rdefinitions.R)).

  Lemma electrode_back n v : on_electrode nodes' els' es n v -> exists o, nth_error old n = Some o /\ on_electrode nodes els es o v.
  Proof.
    intros (ind & g & f & p & HI & BF & FH & Hn & Np & ->). destruct (node_there n p Np) as (o & Ho & Po).
    destruct (face_back ind f BF FH) as (f0 & B0 & F0 & M). exists o. split; [exact Ho|].
    exists ind, g, f0, p. repeat (split; [assumption || exact (M n o Hn Ho)|]). reflexivity.
  Qed.
  Lemma electrode_forth n o v : nth_error old n = Some o -> on_electrode nodes els es o v -> on_electrode nodes' els' es n v.
  Proof.
    intros Ho (ind & g & f & p & HI & BF & FH & Hn & Np & ->).
    destruct (face_forth ind f BF FH) as (f0 & B0 & F0 & M).
    exists ind, g, f0, p. pose proof (node_here n o p Ho Np). repeat (split; [assumption || exact (M n o Hn Ho)|]). reflexivity.
  Qed.

  Lemma meet_built : electrodes_meet nodes els es -> electrodes_meet nodes' els' es.
  Proof.
    intros (H1 & H2). split.
    - intros ind g HI. destruct (H1 ind g HI) as (f & BF & FH). destruct (face_forth ind f BF FH) as (f1 & B1 & F1 & _). eauto.
    - intros n v v' A B. destruct (electrode_back n v A) as (o & Ho & A'). destruct (electrode_back n v' B) as (o' & Ho' & B').
      rewrite Ho in Ho'. injection Ho' as <-. exact (H2 o v v' A' B').
  Qed.

  Hypothesis AL : forall i, In i old <-> referenced els i.
  Hypothesis IR : in_range (List.length nodes) els.

  Lemma wired_forth : wired nodes els es -> forall n, n < List.length nodes' -> tied (fun i => exists v, on_electrode nodes' els' es i v) els' n.
  Proof.
    intros H n Hn. rewrite <- (Forall2_length' _ _ _ K) in Hn.
    destruct (nth_error old n) as [o|] eqn:E; [|apply nth_error_None in E; lia].
    assert (Ro : referenced els o) by (apply AL; eapply nth_error_In; eauto).
    assert (Lo : o < List.length nodes).
    { destruct Ro as (e & He & Hoe). unfold in_range in IR. rewrite Forall_forall in IR. specialize (IR e He). rewrite Forall_forall in IR. auto. }
    refine (tied_relabelled old els els' _ _ U RL _ o (H o Lo Ro) n E).
    intros n1 o1 E1 (v & A). exists v. exact (electrode_forth n1 o1 v E1 A).
  Qed.
End User.

Section Posed.
  Variables (pb : problem) (ic id : P2 -> bool) (g : P2 -> Rdefinitions.R) (m : @MeshData P2 vec) (es : list ((P2 -> bool) * (P2 -> Rdefinitions.R))).
  Hypothesis PO : posed pb ic id g.
  Hypothesis HB : build mean2 zero2 (pr_nodes pb) (pr_elements pb) (pr_boundaries pb) = Ok m.

  Lemma electrodes_built : electrodes_meet (pr_nodes pb) (pr_elements pb) es -> electrodes_fit m es.
  Proof.
    destruct PO as [HR HS HA HC HD _].
    destruct (mesh_node_order P2 vec mean2 zero2 _ _ _ m 3 ic id HR HS HC HD HB) as (C & Ne & I & D & [U A K R _ _ _ _ _]).
    exact (meet_built _ _ _ _ _ U K R es).
  Qed.
  Lemma wires_built : wired (pr_nodes pb) (pr_elements pb) es ->
    forall n, n < List.length (m_nodes m) -> tied (fun i => exists v, at_electrode m es i v) (m_elements m) n.
  Proof.
    destruct PO as [HR HS HA HC HD _].
    destruct (mesh_node_order P2 vec mean2 zero2 _ _ _ m 3 ic id HR HS HC HD HB) as (C & Ne & I & D & [U A K R _ _ _ _ _]).
    exact (wired_forth _ _ _ _ _ U K R es A HR).
  Qed.
End Posed.
