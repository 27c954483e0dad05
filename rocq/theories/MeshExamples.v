(* Concrete meshes used as non-vacuity examples and as counterexamples.  Points have
   integer coordinates, a condition value is just the number of nodes it covers. *)
From Coq Require Import List Arith ZArith String Bool.
From Verif Require Import Common PyModel MeshModel MeshBuildModel.
Import ListNotations.
Open Scope string_scope.

Definition pt := (Z * Z)%type.

(* np.mean over the nodes of a face (all sums below are divisible) *)
Definition pt_mean (l : list pt) : pt :=
  let n := Z.of_nat (List.length l) in
  (Z.div (fold_right Z.add 0%Z (map fst l)) n, Z.div (fold_right Z.add 0%Z (map snd l)) n).

Definition pt0 : pt := (0, 0)%Z.
Definition len_zeros (l : list pt) : nat := List.length l.

(* square with a centre node and an unused node in front *)
Definition cross_nodes : list pt := [(9, 9); (0, 0); (4, 0); (4, 4); (0, 4); (2, 2)]%Z.
Definition cross_els : list (list nat) := [[1; 2; 5]; [5; 3; 2]; [3; 4; 5]; [4; 1; 5]].

Definition bottom (p : pt) : bool := (snd p =? 0)%Z.
Definition top (p : pt) : bool := (snd p =? 4)%Z.
Definition left_ (p : pt) : bool := (fst p =? 0)%Z.
Definition everywhere (p : pt) : bool := true.
Definition nowhere (p : pt) : bool := false.

Definition descr (contact dirichlet : pt -> bool) : @Description pt nat :=
  make_description len_zeros [("contact", (contact, None)); ("dirichlet", (dirichlet, None))].

(* one triangle *)
Definition tri_nodes : list pt := [(0, 0); (2, 0); (0, 2)]%Z.
Definition tri_els : list (list nat) := [[0; 1; 2]].
