(* Dirichlet conditions: C11-C15, C62. *)
From Coq Require Import Reals List Arith ZArith String Bool Lra Lia Sorted.
From Verif Require Import Common PyModel MeshModel MeshBuildModel MeshSpec DofModel DofSpec RVec
  DirichletModel DirichletSpec DirichletProofs DirichletMeshProofs DirichletMissing MeshExamples DirichletExamples.
Import ListNotations.
Local Open Scope string_scope.
Local Open Scope list_scope.
Local Open Scope R_scope.

(* C11: the stored system after elimination is the constrained problem.  Several
   conditions may even share dofs as long as they agree there. *)
Theorem C11_elimination :
  forall (n : nat) (A : mat) (b : vec) (conds : list condition) (x : vec),
  well_shaped n conds -> consistent (prescribed conds) ->
  let sys := apply_dirichlet conds (mkSystem A b) in
  solves n (lhs sys) (rhs sys) x <-> solves_constrained n A b (prescribed conds) x.
Proof. exact elimination_equiv. Qed.
Print Assumptions C11_elimination.

Example C11_example : well_shaped 5 two_conds /\ consistent (prescribed two_conds) /\
  prescribed two_conds 4 1 /\ ~ (exists v, prescribed two_conds 2 v).
Proof.
  split; [exact two_conds_shaped|]. split; [exact two_conds_consistent|]. split.
  - exists [((3, 5), (0, 2))]%nat, (fun p => INR p), ((3, 5), (0, 2))%nat, 1%nat.
    repeat split; [right; left; reflexivity|left; reflexivity|right; left; reflexivity].
  - intros (v & sl & c & s & p & [E|[E|[]]] & Hs & Hp & _); inversion E; subst;
      destruct Hs as [<-|[]]; simpl in Hp; intuition congruence.
Qed.

(* C11 for a whole mesh: the mechanical statement pins every component of every node of the
   Dirichlet block to the user's condition and keeps the equations of all other nodes. *)
Theorem C11_mesh :
  forall (P : Type) (mean : list P -> P) (zero : P) (nodes : list P) (els : list (list nat))
         (d : @Description P vec) (m : @MeshData P vec) (w : nat) (contact dirichlet : P -> bool)
         (f : list P -> vec) (dim : nat) (A : mat) (b x : vec),
  in_range (List.length nodes) els -> simplices w els ->
  dict_get (indicators d) "contact" = Some contact ->
  dict_get (indicators d) "dirichlet" = Some dirichlet ->
  dict_get (conditions d) "dirichlet" = Some f ->
  build mean zero nodes els d = Ok m ->
  exists C N I D conds,
    node_order w nodes els (m_nodes m) (m_elements m) contact dirichlet C N I D /\
    mesh_conditions m dim "dirichlet" = Ok conds /\
    let total := List.length (m_nodes m) in
    let first := List.length (C ++ N ++ I) in
    let sys := apply_dirichlet conds (mkSystem A b) in
    (solves (dim * total) (lhs sys) (rhs sys) x <->
     (forall n k, (first <= n < total)%nat -> (k < dim)%nat ->
        x (n + k * total)%nat = f (skipn first (m_nodes m)) (n - first)%nat) /\
     (forall n k, (n < first)%nat -> (k < dim)%nat ->
        sum (dim * total) (fun l => A (n + k * total)%nat l * x l) = b (n + k * total)%nat)).
Proof.
  intros P mean zero nodes els d m w contact dirichlet f dim A b x HR HS HC HD Hf HB.
  destruct (mesh_dirichlet mean zero nodes els d m w contact dirichlet HR HS HC HD HB dim f Hf)
    as (C & N & I & D & conds & HO & HM & HW & HN & HP).
  exists C, N, I, D, conds. split; auto. split; auto. cbv zeta in *.
  set (total := List.length (m_nodes m)) in *. set (first := List.length (C ++ N ++ I)) in *.
  assert (HCons : consistent (prescribed conds)).
  { intros dd v v' H1 H2. apply HP in H1, H2.
    destruct H1 as (n & k & H1 & H1' & E1 & ->), H2 as (n' & k' & H2 & H2' & E2 & ->).
    assert (k = k' /\ n = n') as [-> ->] by (apply (Nat.div_mod_unique total k k' n n'); lia).
    reflexivity. }
  pose proof (elimination_equiv (dim * total) A b conds x HW HCons) as EQ. cbv zeta in EQ.
  rewrite EQ. unfold solves_constrained. split.
  - intros [H1 H2]. split.
    + intros n k Hn Hk. apply H1. apply HP. exists n, k. auto.
    + intros n k Hn Hk. apply H2.
      * assert ((k + 1) * total <= dim * total)%nat by (apply Nat.mul_le_mono_r; lia). lia.
      * intros v Hv. apply HP in Hv. destruct Hv as (n' & k' & H3 & H4 & E & _).
        assert (k = k' /\ n = n') as [? ?]
          by (apply (Nat.div_mod_unique total k k' n n'); lia). lia.
  - intros [H1 H2]. split.
    + intros dd v Hv. apply HP in Hv. destruct Hv as (n & k & H3 & H4 & -> & ->). auto.
    + intros kk Hk Hp.
      assert (total <> 0)%nat by nia.
      pose proof (Nat.div_mod kk total H) as E. pose proof (Nat.mod_upper_bound kk total H).
      assert (kk / total < dim)%nat by (apply Nat.div_lt_upper_bound; lia).
      assert (kk = kk mod total + kk / total * total)%nat as E' by lia.
      destruct (Nat.lt_ge_cases (kk mod total) first) as [L|L].
      * rewrite E'. apply H2; auto.
      * exfalso. eapply Hp. apply HP. exists (kk mod total), (kk / total)%nat. eauto.
Qed.
Print Assumptions C11_mesh.

Example C11_mesh_example :
  exists m, clamped_mesh = Ok m /\ List.length (m_nodes m) = 5%nat /\
    dirichlet_nodes_count m = 2%Z /\
    exists conds, mesh_conditions m 2 "dirichlet" = Ok conds /\
      map fst conds = [[((3, 5), (0, 2)); ((8, 10), (0, 2))]]%nat.
Proof.
  eexists. split; [vm_compute; reflexivity|]. split; [reflexivity|]. split; [reflexivity|].
  eexists. split; reflexivity.
Qed.

(* C11 for numbered conditions (electric potential): every node of the first k numbered
   boundaries is pinned, k being the length of the gap free prefix. *)
Theorem C11_mesh_numbered :
  forall (P : Type) (mean : list P -> P) (zero : P) (nodes : list P) (els : list (list nat))
         (d : @Description P vec) (m : @MeshData P vec) (w : nat) (contact dirichlet : P -> bool)
         (dim : nat),
  in_range (List.length nodes) els -> simplices w els ->
  dict_get (indicators d) "contact" = Some contact ->
  dict_get (indicators d) "dirichlet" = Some dirichlet ->
  build mean zero nodes els d = Ok m ->
  dict_in (m_boundaries m) "piezo_dirichlet" = false ->
  exists k conds,
    (forall j, (j < k)%nat -> dict_in (m_boundaries m) (numbered "piezo_dirichlet" j) = true) /\
    dict_in (m_boundaries m) (numbered "piezo_dirichlet" k) = false /\
    mesh_conditions m dim "piezo_dirichlet" = Ok conds /\
    well_shaped (dim * List.length (m_nodes m)) conds /\
    forall dof v, prescribed conds dof v <->
      exists j bd c p, (j < k)%nat /\
        dict_get (m_boundaries m) (numbered "piezo_dirichlet" j) = Some bd /\
        b_condition bd = Some c /\
        boundary_dof (index_nodes (b_indices bd)) (List.length (m_nodes m)) dim dof p /\ v = c p.
Proof.
  intros P mean zero nodes els d m w contact dirichlet dim HR HS HC HD HB HF.
  refine (mesh_numbered mean zero nodes els d m w contact dirichlet HR HS HC HD HB dim
    "piezo_dirichlet" HF _).
  intros i. repeat split; discriminate.
Qed.
Print Assumptions C11_mesh_numbered.

(* ... and the nodes and values of such a boundary are those the user asked for *)
Theorem C11_named_boundary :
  forall (P : Type) (mean : list P -> P) (zero : P) (nodes : list P) (els : list (list nat))
         (d : @Description P vec) (m : @MeshData P vec) (w : nat) (contact dirichlet : P -> bool)
         (name : string) (bd : Boundary vec),
  in_range (List.length nodes) els -> simplices w els ->
  dict_get (indicators d) "contact" = Some contact ->
  dict_get (indicators d) "dirichlet" = Some dirichlet ->
  build mean zero nodes els d = Ok m ->
  name <> "contact" -> name <> "neumann" -> name <> "dirichlet" ->
  dict_get (m_boundaries m) name = Some bd ->
  exists ind cond, In (name, ind) (indicators d) /\ dict_get (conditions d) name = Some cond /\
    (forall n, In n (index_nodes (b_indices bd)) <->
       exists f, boundary_face w (m_elements m) f /\ face_holds mean (m_nodes m) ind f /\ In n f) /\
    StronglySorted lt (index_nodes (b_indices bd)) /\
    b_condition bd =
      Some (cond (map (fun k => nth k (m_nodes m) zero) (index_nodes (b_indices bd)))).
Proof.
  intros P mean zero nodes els d m w contact dirichlet name bd HR HS HC HD HB N1 N2 N3 HG.
  destruct (named_good mean zero nodes els d m w contact dirichlet HR HS HC HD HB name bd N1 N2 N3 HG)
    as (ind & cond & H1 & H2 & _ & H3 & H4 & H5).
  exists ind, cond. auto.
Qed.
Print Assumptions C11_named_boundary.

Example C11_numbered_example :
  exists m, piezo_mesh = Ok m /\ dict_in (m_boundaries m) "piezo_dirichlet" = false /\
    find_conditions (m_boundaries m) "piezo_dirichlet" = ["piezo_dirichlet_0"; "piezo_dirichlet_1"] /\
    exists conds, mesh_conditions m 1 "piezo_dirichlet" = Ok conds /\
      map fst conds = [[((0, 2), (0, 2))]; [((0, 1), (0, 1)); ((3, 4), (1, 2))]]%nat.
Proof.
  eexists. split; [vm_compute; reflexivity|]. split; [reflexivity|]. split; [reflexivity|].
  eexists. split; reflexivity.
Qed.

(* C12: symmetry and definiteness survive elimination; for definiteness it is enough that
   the operator is definite on vectors vanishing on the pinned dofs. *)
Theorem C12_symmetric :
  forall (n : nat) (A : mat) (b : vec) (conds : list condition),
  well_shaped n conds -> symmetric n A ->
  symmetric n (lhs (apply_dirichlet conds (mkSystem A b))).
Proof. exact elimination_symmetric. Qed.
Print Assumptions C12_symmetric.

Theorem C12_positive_definite :
  forall (n : nat) (A : mat) (b : vec) (conds : list condition),
  well_shaped n conds ->
  (forall x, (forall d v, prescribed conds d v -> x d = 0) ->
             (exists i, (i < n)%nat /\ x i <> 0) -> 0 < qform n A x) ->
  pos_def n (lhs (apply_dirichlet conds (mkSystem A b))).
Proof. exact elimination_pos_def. Qed.
Print Assumptions C12_positive_definite.

Theorem C12_positive_semidefinite :
  forall (n : nat) (A : mat) (b : vec) (conds : list condition),
  well_shaped n conds -> pos_semidef n A ->
  pos_semidef n (lhs (apply_dirichlet conds (mkSystem A b))).
Proof. exact elimination_pos_semidef. Qed.
Print Assumptions C12_positive_semidefinite.

Example C12_example : symmetric 5 two_one /\ pos_def 5 two_one /\ well_shaped 5 two_conds.
Proof.
  split; [|split; [exact two_one_pos_def|exact two_conds_shaped]].
  intros i j _ _. unfold two_one. rewrite Nat.eqb_sym. reflexivity.
Qed.

(* C13: whatever the inner solver returns *)
Theorem C13_solution :
  forall (A : Type) (impl : A -> vec) (guess : A) (n : nat) (conds : list condition),
  well_shaped n conds -> consistent (prescribed conds) ->
  (forall d w, prescribed conds d w -> solve impl guess conds d = w) /\
  (forall d, (forall w, ~ prescribed conds d w) -> solve impl guess conds d = impl guess d).
Proof. intros A impl guess n conds. exact (overwrite_consistent n conds (impl guess)). Qed.
Print Assumptions C13_solution.

(* an exact solution of the eliminated system is returned unchanged (even with overlaps) *)
Theorem C13_exact_solution_kept :
  forall (A : Type) (impl : A -> vec) (guess : A) (n : nat) (M : mat) (b : vec)
         (conds : list condition),
  well_shaped n conds ->
  let sys := apply_dirichlet conds (mkSystem M b) in
  solves n (lhs sys) (rhs sys) (impl guess) ->
  forall d, (d < n)%nat -> solve impl guess conds d = impl guess d.
Proof.
  intros A impl guess n M b conds W sys S d Hd.
  exact (overwrite_solution n M b conds (impl guess) W S d Hd).
Qed.
Print Assumptions C13_exact_solution_kept.

Example C13_example :
  solve (fun _ : unit => fun d => 7) tt two_conds 1%nat = 3 /\
  solve (fun _ : unit => fun d => 7) tt two_conds 2%nat = 7 /\
  solve (fun _ : unit => fun d => 7) tt two_conds 4%nat = 1.
Proof. unfold solve, overwrite_all. simpl. auto. Qed.

Example C13_kept_example :
  let sys := apply_dirichlet two_conds (mkSystem delta (fun _ => 5)) in
  solves 5 (lhs sys) (rhs sys) (fun d => nth d [5; 3; 5; 0; 1] 0).
Proof.
  cbv zeta. intros k Hk.
  destruct k as [|[|[|[|[|k]]]]]; [..|lia];
    cbn [sum lhs rhs apply_dirichlet fold_left two_conds eliminate eliminate_slice fst snd
         set_identity zero_rows zero_columns overwrite subtract_columns inside delta
         Nat.eqb Nat.leb Nat.ltb Nat.sub Nat.add andb nth INR]; simpl; lra.
Qed.

(* C14: with overlapping conditions the equations of the free dofs use the first
   prescribed value, the pinned dofs report the last one. *)
Theorem C14_overlap :
  forall (n : nat) (A : mat) (b : vec) (conds : list condition), well_shaped n conds ->
  exists first last : vec,
    (forall d, (exists v, prescribed conds d v) ->
       earliest (sequence conds) d (first d) /\ latest (sequence conds) d (last d)) /\
    forall x,
      let sys := apply_dirichlet conds (mkSystem A b) in
      solves n (lhs sys) (rhs sys) x <->
      (forall d, (exists v, prescribed conds d v) -> x d = last d) /\
      (forall y, (forall d, (exists v, prescribed conds d v) -> y d = first d) ->
                 (forall d, (forall v, ~ prescribed conds d v) -> y d = x d) ->
                 forall k, (k < n)%nat -> (forall v, ~ prescribed conds k v) ->
                   sum n (fun i => A k i * y i) = b k).
Proof. exact elimination_overlap. Qed.
Print Assumptions C14_overlap.

(* so on a square with potential 0 on the bottom and 1 on the left, sharing a corner, a
   solution of the stored system violates the equation of a free node *)
Theorem C14_overlap_refuted :
  exists (m : @MeshData pt vec) conds (A : mat) (b x : vec) (k : nat),
    piezo_mesh = Ok m /\ mesh_conditions m 1 "piezo_dirichlet" = Ok conds /\
    let n := List.length (m_nodes m) in
    let sys := apply_dirichlet conds (mkSystem A b) in
    solves n (lhs sys) (rhs sys) x /\ veq n (overwrite_all conds x) x /\
    (k < n)%nat /\ (forall v, ~ prescribed conds k v) /\
    sum n (fun l => A k l * x l) <> b k.
Proof.
  eexists. eexists. exists corner_op, (fun _ => 0), (fun d => nth d [1; 0; 0; 1; 0] 0), 2%nat.
  split; [vm_compute; reflexivity|]. split; [vm_compute; reflexivity|]. cbv zeta.
  cbn [m_nodes List.length]. split; [|split; [|split; [lia|split]]].
  - intros k Hk. unfold corner_op, delta, const_vec.
    destruct k as [|[|[|[|[|k]]]]]; [..|lia]; simpl;
      unfold overwrite, subtract_columns, set_identity, zero_rows, zero_columns, inside, delta;
      simpl; lra.
  - intros k Hk. destruct k as [|[|[|[|[|k]]]]]; [..|lia]; simpl; unfold const_vec; lra.
  - intros v (sl & c & s & p & H & Hs & Hp & _). simpl in H.
    destruct H as [E|[E|[]]]; inversion E; subst; simpl in Hs;
      repeat (destruct Hs as [<-|Hs]; [simpl in Hp; intuition congruence|]); destruct Hs.
  - unfold corner_op, delta. simpl. lra.
Qed.
Print Assumptions C14_overlap_refuted.

(* C15: which names are used.  The while loop of the source always ends
   (find_conditions_fuel): the list does not depend on the fuel of the model. *)
Theorem C15_find_conditions :
  forall (B : Type) (bnds : dict B) (name : string),
  (dict_in bnds name = true -> find_conditions bnds name = [name]) /\
  (dict_in bnds name = false ->
     exists k, find_conditions bnds name = map (numbered name) (seq 0 k) /\
       (forall j, (j < k)%nat -> dict_in bnds (numbered name j) = true) /\
       dict_in bnds (numbered name k) = false) /\
  (forall fuel, (List.length bnds < fuel)%nat ->
     find_numbered fuel bnds name 0 = find_numbered (S (List.length bnds)) bnds name 0).
Proof.
  intros B bnds name. destruct (find_conditions_spec bnds name) as [H1 H2].
  split; [exact H1|]. split; [exact H2|]. intros fuel H. apply find_conditions_fuel. exact H.
Qed.
Print Assumptions C15_find_conditions.

Example C15_example :
  find_conditions [("a", tt); ("x_1", tt); ("x_0", tt); ("x_3", tt)] "x" = ["x_0"; "x_1"].
Proof. reflexivity. Qed.

(* a boundary that holds no condition is never taken for one: the statement raises *)
Theorem C15_without_condition : forall (P : Type) (m : @MeshData P vec) (dim : nat) (name : string) (bd : Boundary vec),
  dict_get (m_boundaries m) name = Some bd ->
  b_condition bd = None ->
  exists e, mesh_conditions m dim name = Err e.
Proof. exact @missing_condition. Qed.
Print Assumptions C15_without_condition.

Theorem C15_numbered_without_condition : forall (P : Type) (m : @MeshData P vec) (dim : nat) (name : string) (j : nat) (bd : Boundary vec),
  dict_in (m_boundaries m) name = false ->
  (forall i, (i <= j)%nat -> dict_in (m_boundaries m) (numbered name i) = true) ->
  dict_get (m_boundaries m) (numbered name j) = Some bd ->
  b_condition bd = None ->
  exists e, mesh_conditions m dim name = Err e.
Proof. exact @missing_numbered. Qed.
Print Assumptions C15_numbered_without_condition.

Example C15_without_example : exists m bd, clamped_mesh = Ok m /\ dict_get (m_boundaries m) "contact" = Some bd /\ b_condition bd = None /\
  mesh_conditions m 2 "contact" = Err TypeError.
Proof. eexists. eexists. split; [vm_compute; reflexivity|]. split; [vm_compute; reflexivity|]. split; reflexivity. Qed.
Example C15_numbered_without_example : exists (m : @MeshData unit vec) bd, dict_in (m_boundaries m) "x" = false /\
  (forall i, (i <= 0)%nat -> dict_in (m_boundaries m) (numbered "x" i) = true) /\ dict_get (m_boundaries m) (numbered "x" 0) = Some bd /\ b_condition bd = None.
Proof.
  exists (mkMesh [tt] [] [("x_0", mkBoundary [] (IArray [0]%nat) 1 None)] [] []), (mkBoundary [] (IArray [0]%nat) 1 None).
  split; [reflexivity|]. split; [intros i I; replace i with 0%nat by lia; reflexivity|]. split; reflexivity.
Qed.

(* a numbered condition that selects no face silently disables the later ones *)
Theorem C15_gap_refuted :
  exists (m : @MeshData pt vec), gap_mesh = Ok m /\
    dict_in (m_boundaries m) "piezo_dirichlet_1" = true /\
    mesh_conditions m 1 "piezo_dirichlet" = Ok [].
Proof.
  eexists. split; [vm_compute; reflexivity|]. split; reflexivity.
Qed.
Print Assumptions C15_gap_refuted.

(* C62: the mechanical statements never use numbered conditions: every mesh has a boundary
   called "dirichlet", so "dirichlet_0", "dirichlet_1", ... are ignored *)
Theorem C62_mechanical_names :
  forall (P : Type) (mean : list P -> P) (zero : P) (nodes : list P) (els : list (list nat))
         (d : @Description P vec) (m : @MeshData P vec) (contact dirichlet : P -> bool),
  dict_get (indicators d) "contact" = Some contact ->
  dict_get (indicators d) "dirichlet" = Some dirichlet ->
  build mean zero nodes els d = Ok m ->
  find_conditions (m_boundaries m) "dirichlet" = ["dirichlet"].
Proof.
  intros P mean zero nodes els d m contact dirichlet HC HD HB.
  exact (find_dirichlet mean zero nodes els d m contact dirichlet HC HD HB).
Qed.
Print Assumptions C62_mechanical_names.

Theorem C62_numbered_mechanical_refuted :
  exists (m : @MeshData pt vec) conds, mech_mesh = Ok m /\
    dict_in (m_boundaries m) "dirichlet_0" = true /\
    dict_in (m_boundaries m) "dirichlet_1" = true /\
    mesh_conditions m 2 "dirichlet" = Ok conds /\ forall dof v, ~ prescribed conds dof v.
Proof.
  eexists. eexists. split; [vm_compute; reflexivity|]. split; [reflexivity|].
  split; [reflexivity|]. split; [vm_compute; reflexivity|].
  intros dof v (sl & c & s & p & [E|[]] & Hs & Hp & _). inversion E; subst. simpl in Hs.
  repeat (destruct Hs as [<-|Hs]; [simpl in Hp; intuition|]). destruct Hs.
Qed.
Print Assumptions C62_numbered_mechanical_refuted.
