(* Concrete systems and meshes for the Dirichlet properties. *)
From Coq Require Import Reals List Arith ZArith String Bool Lra Lia.
From Verif Require Import Common PyModel MeshModel MeshBuildModel DofModel DofSpec RVec MeshExamples
  DirichletModel DirichletSpec.
Import ListNotations.
Local Open Scope string_scope.
Local Open Scope list_scope.
Local Open Scope R_scope.

Definition const_vec (r : R) (l : list pt) : vec := fun _ => r.

(* matrix of the examples: 2 on the diagonal, 1 elsewhere; positive definite *)
Definition two_one : mat := fun i j => if Nat.eqb i j then 2 else 1.

(* two disjoint conditions on a system of 5 unknowns *)
Definition two_conds : list condition :=
  [([((1, 2), (0, 1))]%nat, fun _ => 3); ([((3, 5), (0, 2))]%nat, fun p => INR p)].

Lemma two_conds_shaped : well_shaped 5 two_conds.
Proof.
  intros sl c s [E|[E|[]]] Hs; inversion E; subst; destruct Hs as [<-|[]]; simpl; lia.
Qed.

Lemma two_conds_consistent : consistent (prescribed two_conds).
Proof.
  assert (F : forall d v, prescribed two_conds d v ->
            (d = 1%nat /\ v = 3) \/ (d = 3%nat /\ v = 0) \/ (d = 4%nat /\ v = 1)).
  { intros d v (sl & c & s & p & [E|[E|[]]] & Hs & Hp & ->); inversion E; subst;
      destruct Hs as [<-|[]]; simpl in Hp.
    - destruct Hp as [Hp|[]]; inversion Hp; subst. auto.
    - destruct Hp as [Hp|[Hp|[]]]; inversion Hp; subst; simpl; auto. }
  intros d v w H1 H2. apply F in H1, H2. intuition (subst; congruence).
Qed.

Lemma two_one_pos_def : pos_def 5 two_one.
Proof.
  intros x [i [Hi Hx]]. rewrite qform_double. unfold two_one. simpl.
  assert (0 < x i * x i) by nra.
  assert (H0 := Rle_0_sqr (x 0%nat + x 1%nat + x 2%nat + x 3%nat + x 4%nat)). unfold Rsqr in H0.
  destruct i as [|[|[|[|[|i]]]]]; [nra|nra|nra|nra|nra|lia].
Qed.

(* square with potentials 0 on the bottom and 1 on the left side *)
Definition piezo_mesh :=
  build pt_mean pt0 cross_nodes cross_els
    (make_description (const_vec 0)
       [("piezo_dirichlet_0", (bottom, Some (const_vec 0)));
        ("piezo_dirichlet_1", (left_, Some (const_vec 1)))]).

(* square whose bottom is fixed with value 0 *)
Definition clamped_mesh :=
  build pt_mean pt0 cross_nodes cross_els
    (make_description (const_vec 0) [("contact", (top, None)); ("dirichlet", (bottom, None))]).

(* same, but the first numbered condition selects no face *)
Definition gap_mesh :=
  build pt_mean pt0 cross_nodes cross_els
    (make_description (const_vec 0)
       [("piezo_dirichlet_0", (nowhere, Some (const_vec 0)));
        ("piezo_dirichlet_1", (left_, Some (const_vec 1)))]).

(* numbered mechanical conditions only *)
Definition mech_mesh :=
  build pt_mean pt0 cross_nodes cross_els
    (make_description (const_vec 0)
       [("dirichlet_0", (bottom, Some (const_vec 0))); ("dirichlet_1", (left_, Some (const_vec 1)))]).

(* operator in which the free node 2 sees the corner node 0 *)
Definition corner_op : mat :=
  fun i j => if Nat.eqb i 2 && Nat.eqb j 0 then 1 else delta i j.
