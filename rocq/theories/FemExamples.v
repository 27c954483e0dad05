(* Concrete meshes used by the examples of Props_Fem. *)
From Coq Require Import Reals List Arith ZArith String Bool Lia Lra.
From Verif Require Import RVec PyModel MeshModel MeshBuildModel MeshSpec MeshExamples FemModel FemSpec.
Import ListNotations.
Local Open Scope string_scope.
Local Open Scope list_scope.
Local Open Scope R_scope.

Definition at_rows (l : list (list R)) : nat -> vec := fun i c => nth c (nth i l []) 0.

(* a quadrilateral cut into two triangles of different orientation *)
Definition quad_nodes : nat -> vec := at_rows [[0; 0]; [2; 0]; [3; 1]; [0; 1]].
Definition quad_els : list (list nat) := [[0; 1; 3]; [3; 2; 1]]%nat.

Lemma quad_triangles : triangles 4 quad_nodes quad_els.
Proof.
  split; [repeat constructor|]. split; [repeat constructor|].
  intros e [<-|[<-|[]]]; unfold det_2d, corners, quad_nodes, at_rows; cbn [nth]; lra.
Qed.

Lemma quad_referenced i : (i < 4)%nat -> referenced quad_els i.
Proof.
  intros H. destruct i as [|[|[|[|i]]]]; [| | | |lia].
  - exists [0; 1; 3]%nat. simpl; auto.
  - exists [0; 1; 3]%nat. simpl; auto.
  - exists [3; 2; 1]%nat. simpl; auto.
  - exists [0; 1; 3]%nat. simpl; auto.
Qed.

(* two tetrahedra glued along a face *)
Definition tet_nodes : nat -> vec :=
  at_rows [[0; 0; 0]; [1; 0; 0]; [0; 1; 0]; [0; 0; 1]; [1; 1; 1]].
Definition tet_els : list (list nat) := [[0; 1; 2; 3]; [1; 2; 3; 4]]%nat.

Lemma tet_tetrahedra : tetrahedra 5 tet_nodes tet_els.
Proof.
  split; [repeat constructor|]. split; [repeat constructor|].
  intros e [<-|[<-|[]]]; unfold det_3d, corners, tet_nodes, at_rows; cbn [nth]; lra.
Qed.

Lemma tet_referenced i : (i < 5)%nat -> referenced tet_els i.
Proof.
  intros H. destruct i as [|[|[|[|[|i]]]]]; [| | | | |lia].
  1-4: exists [0; 1; 2; 3]%nat; simpl; auto 10.
  exists [1; 2; 3; 4]%nat; simpl; auto 10.
Qed.

(* the integer mesh of MeshExamples with real coordinates *)
Lemma cross_built :
  in_range 6 cross_els /\ simplices 3 cross_els /\
  dict_get (indicators (descr bottom top)) "contact" = Some bottom /\
  dict_get (indicators (descr bottom top)) "dirichlet" = Some top /\
  (exists m, build pt_mean pt0 cross_nodes cross_els (descr bottom top) = Ok m) /\
  (forall e, In e cross_els -> det_2d (corners (node_table (fun p c =>
     nth c [IZR (fst p); IZR (snd p)] 0) pt0 cross_nodes) e) <> 0).
Proof.
  split; [repeat constructor|]. split.
  { repeat constructor; simpl; intros H; repeat destruct H as [H|H]; try discriminate; auto. }
  split; [reflexivity|]. split; [reflexivity|]. split; [eexists; vm_compute; reflexivity|].
  intros e [<-|[<-|[<-|[<-|[]]]]]; unfold det_2d, corners, node_table, cross_nodes, pt0; cbn [nth fst snd]; lra.
Qed.
