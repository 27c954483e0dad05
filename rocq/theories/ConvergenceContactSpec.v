(* Specification of motions with contact in continuous time (C107), which the steps of a run approximate. *)
From Coq Require Import Reals List Arith.
From Verif Require Import RVec MeshModel MeshBuildModel NormalsModel FemModel FemSpec ContactModel ContactSpec StatementModel StatementSpec ProblemModel ProblemSpec ProblemContactModel ProblemContactSpec.
Local Open Scope R_scope.

(* the contact potential of a law per unit length *)
Definition law_density (law : contact_law) : R -> vec -> vec -> vec -> R :=
  density (normal_bound law) (potential_normal_direction law) (tangential_bound law) (potential_tangential_direction law).

(* size of a vector of the plane *)
Definition sized2 (v : vec) : R := Rabs (v 0%nat) + Rabs (v 1%nat).

(* what the law makes of a change of the velocity from w to v depends gently on the displacement and on the
   time step; time step 0 stands for the law in continuous time *)
Definition tame (law : contact_law) : Prop := forall n, exists lam, 0 <= lam /\
  forall h s s' v w, 0 < h ->
  (law_density law h n v s - law_density law h n w s) - (law_density law 0 n v s' - law_density law 0 n w s')
  <= lam * (sized2 (fun i => s i - s' i) + h) * sized2 (fun i => v i - w i).

(* a motion in continuous time: at every time the velocity V has the prescribed values and satisfies the
   variational inequality with the contact cost at the displacement U of the same time; A: the acceleration *)
Definition true_contact (pb : problem) (bt : built) (id : P2 -> bool) (g : P2 -> R) (fi fo : P2 -> R -> vec) (k : kind) (th ze mu la : R)
    (law : contact_law) (T : R) (U V A : R -> vec) : Prop := forall t, 0 <= t <= T ->
  contact_step coord2 zero2 (bt_mesh bt) None id g (mass_density (pr_material pb)) th ze mu la fi fo k t
    (contact_cost coord2 zero2 (bt_mesh bt) law (contact_normals (bt_mesh bt) (bt_normals bt)) 0 (U t)) (A t) (V t) (U t).
