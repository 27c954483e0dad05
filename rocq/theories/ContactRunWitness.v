(* A triangle held by its top, its bottom edge in contact; a minimiser. *)
From Coq Require Import Reals List Arith ZArith Bool String Lia Lra Classical ClassicalEpsilon.
From Verif Require Import Common PyModel RVec LinAlg ForcesSpec ContactModel ContactSpec ContactCostProofs ContactWitness ConstrainedSpec ConstrainedProofs
  ConstrainedWitness DofModel DofSpec DirichletModel DirichletSpec DirichletProofs SchurModel SchurSpec
  StatementModel StatementSpec StatementProofs StatementValueProofs StatementLawProofs StatementEnergyProofs StatementExamples
  StateModel TimeModel TimeSpec StateLemmas CopyProofs TimeProofs
  RegistryModel RunProofs HistoryProofs SolveProofs MarchProofs TimeTheorems TimeCorollaries MethodModel MethodProofs RunSpec WholeRunProofs RunTheorems RunTotal
  RunWitness OptimisationModel OptimisationProofs ContactRunSpec ContactRunProofs ContactRunTheorems.
Import ListNotations.
Local Open Scope list_scope.
Local Open Scope R_scope.

(* unit mass, damping and stiffness, load [f] *)
Definition wedge (f : vec) : physics :=
  mkPhysics 3 6 delta delta delta delta delta delta delta (fun _ _ => 0) (fun _ _ => 0)
    f (fun _ => 0) (fun _ => 0) (fun _ => 0) (fun _ => 0) (fun _ => 0) (fun _ => 0) 1.
Definition wedge_body (f : vec) (v : R) : body := laid_out_body (wedge f) (roof v).
Definition wedge_mesh : contact_mesh := mkContactMesh corner 2 up bar_faces 2.
Definition wedge_loads (f : vec) : R -> vec := fun _ => f.

Lemma delta_free n conds : definite_free n conds delta.
Proof. intros x _ Hx. apply delta_pos. exact Hx. Qed.
Lemma delta_semidef n : pos_semidef n delta.
Proof.
  intros x. unfold qform, dot. apply sum_nonneg. intros i Hi. unfold mv. rewrite sum_delta_l by exact Hi.
  pose proof (pow2_ge_0 (x i)). lra.
Qed.

Lemma wedge_setting f v k dt : plane_kind k -> forward k dt ->
  contact_setting constant_source (wedge_body f v) k (wedge f) (wedge_loads f)
    (given_force (wedge f) k) (given_heat (wedge f)) (roof v) wedge_mesh stiff_law dt.
Proof.
  intros K Hdt. destruct (roof_facts v) as (F1 & F2 & F3 & F4 & F5).
  split; [reflexivity|]. split; [destruct k; try contradiction; try reflexivity; destruct K as [K|K]; try discriminate K; contradiction|].
  split; [destruct k; try exact F2; destruct K as [K|K]; try discriminate K; contradiction|].
  split; [exact F3|]. split; [reflexivity|]. split; [exact F1|].
  split; [apply delta_pos|]. split; [apply delta_pos|]. split; [apply delta_pos|]. split.
  - destruct k; try (destruct K as [K|K]; try discriminate K; contradiction); cbn [stable_kind wedge ph_n mass damping stiffness];
      repeat split; try apply delta_free; apply delta_semidef.
  - split; [apply given_force_kept; reflexivity|]. split; [apply given_heat_kept|]. split; [exact Hdt|apply stiff_law_convex].
Qed.

Lemma wedge_equipped f v k : equipped (wedge_body f v) k (wedge f) (fun _ => memory (wedge f)) (given_force (wedge f) k) (given_heat (wedge f))
  (laid_out (wedge f) k).
Proof. apply laid_out_equipped. reflexivity. Qed.

Lemma wedge_apart f v : faces_apart (wedge_body f v) wedge_mesh (roof v).
Proof. exact (proj2 (proj2 (proj2 (proj2 (roof_facts v))))). Qed.
Lemma wedge_split f v : faces_split (wedge_body f v) wedge_mesh (roof v) /\ (mesh_contact_count wedge_mesh <= b_count (wedge_body f v))%nat.
Proof.
  split; [|cbn; lia]. intros e a c He Ha Hc. left. split; [|exact (wedge_apart f v e a c He Ha Hc)].
  destruct He as [<-|[]]. destruct Ha as [<-|[<-|[]]]; cbn; lia.
Qed.

(* a driver at rest at time 0 *)
Definition rest_driver {I} (dt : R) (i : I) : driver R I :=
  mkDriver (mkStore (repeat (fun _ => 0) 5) []) (mkStepper i 0 1 2 3 4 0 dt) 0 1.
Lemma rest_fit {I} dt (i : I) : fit (rest_driver dt i).
Proof.
  split.
  - cbn. repeat constructor; cbn; intuition discriminate.
  - cbn. unfold room. cbn. repeat constructor; lia.
Qed.

Lemma wedge_renews f v : renews constant_source (wedge_body f v) DynamicVelocity DynamicGlobal /\
  renews constant_source (wedge_body f v) DynamicVelocity DynamicSchur.
Proof. split; intros g; eexists; split; reflexivity. Qed.

(* a minimiser as asked for exists *)
Lemma minimiser : exists find, reliable find.
Proof.
  exists (fun f g => match excluded_middle_informative (exists x, minimises (fun y => f (fst g, y)) x) with
    | Specif.left H => (fst g, proj1_sig (constructive_indefinite_description _ H)) | Specif.right _ => g end).
  intros f n g H. cbn [fst]. destruct (excluded_middle_informative _) as [E|E]; [|contradiction].
  destruct (constructive_indefinite_description _ E) as [x Hx]. exists x. auto.
Qed.

Lemma slope_law_resists slope dt : 0 <= slope -> resisting_law (make_slope_contact_law slope) dt.
Proof.
  intros H n v s phi. unfold phi, density. cbn [normal_bound tangential_bound potential_tangential_direction potential_normal_direction make_slope_contact_law].
  replace (along n (fun _ => 0)) with 0 by (unfold along, inner_product; cbn [sum]; ring).
  pose proof (Rmult_le_pos slope (along n v ^ 2) H (pow2_ge_0 _)).
  unfold leb. destruct (Rle_dec 0 0); destruct (Rle_dec (along n v) 0); lra.
Qed.

Section Wedge.
  Variable minimise : route -> nat -> (arr -> result R) -> arr -> arr.
  Variables (name : string) (maxiter : option nat).
  Hypothesis HR : forall m, reliable (minimise (route_of name) m).
  Variable inv : nat -> mat -> result mat.
  Hypothesis HI : inverts inv.
  Variables (f : vec) (v dt : R).
  Hypothesis Hdt : 0 < dt.
  Notation k := DynamicVelocity.
  Notation B := (wedge_body f v).
  Notation global := (global_answer (F := nat * vec) B k wedge_mesh stiff_law minimise name maxiter).
  Notation schur := (schur_answer (F := nat * vec) B k wedge_mesh stiff_law minimise name maxiter false).

  Lemma wedge_global u0 v0 : exists i d l, setup constant_source B k (laid_out (wedge f) k) no_vectors dt = Ok i /\
    @dynamic_solve R unit _ 2 3 (fun _ => 0) (MethodModel.iterate constant_source B k DynamicGlobal) global
      3 u0 v0 [1; 3]%Z [] (rest_driver dt i) = (d, Ok l).
  Proof.
    pose proof (wedge_setting f v k dt ltac:(right; exact Logic.I) (fun _ => Hdt)) as S.
    destruct (MethodProofs.setup_updated constant_source B k (wedge f) (wedge_loads f) (fun _ => memory (wedge f)) (given_force (wedge f) k) (given_heat (wedge f))
      ltac:(apply given_force_kept; reflexivity) ltac:(apply given_heat_kept) (roof v) eq_refl (proj1 (proj2 (roof_facts v)))
      (laid_out (wedge f) k) no_vectors dt (wedge_equipped f v k) ltac:(cbn; lra)) as (i & Ei & Ui).
    exists i.
    destruct (global_total (V := R) (W := unit) constant_source B k (wedge f) (wedge_loads f) (fun _ => memory (wedge f)) (given_force (wedge f) k) (given_heat (wedge f))
      (roof v) wedge_mesh stiff_law minimise name maxiter DynamicGlobal (fun _ => 0) dt S HR (wedge_apart f v)
      3 u0 v0 [1; 3]%Z (rest_driver dt i) (laid_out (wedge f) k) no_vectors Logic.I (proj1 (wedge_renews f v))
      (rest_fit dt i) ltac:(cbn; lia) ltac:(lia) eq_refl (wedge_equipped f v k) Ei) as (d & l & E).
    exists d, l. split; [exact Ei|exact E].
  Qed.

  Lemma wedge_schur u0 v0 : exists i d l, schur_setup constant_source B k wedge_mesh inv (laid_out (wedge f) k) no_vectors dt = Ok i /\
    @dynamic_solve R unit _ 2 3 (fun _ => 0) (schur_iterate constant_source B k wedge_mesh DynamicSchur) schur
      3 u0 v0 [1; 3]%Z [] (rest_driver dt i) = (d, Ok l).
  Proof.
    pose proof (wedge_setting f v k dt ltac:(right; exact Logic.I) (fun _ => Hdt)) as S.
    destruct (schur_setup_updated constant_source B k (wedge f) (wedge_loads f) (fun _ => memory (wedge f)) (given_force (wedge f) k) (given_heat (wedge f))
      (roof v) wedge_mesh eq_refl ltac:(right; exact Logic.I) eq_refl (proj1 (proj2 (roof_facts v))) eq_refl
      (proj1 (proj2 (proj2 (proj2 (proj2 (proj2 (proj2 (proj2 (proj2 (proj2 S)))))))))) inv HI 1 eq_refl
      ltac:(apply given_force_kept; reflexivity) ltac:(apply given_heat_kept)
      (laid_out (wedge f) k) no_vectors dt (wedge_equipped f v k) (fun _ => Hdt)) as (i & Ei & Ui).
    exists i.
    destruct (schur_total (V := R) (W := unit) constant_source B k (wedge f) (wedge_loads f) (fun _ => memory (wedge f)) (given_force (wedge f) k) (given_heat (wedge f))
      (roof v) wedge_mesh stiff_law minimise name maxiter DynamicSchur (fun _ => 0) dt S HR inv HI (proj1 (wedge_split f v)) (proj2 (wedge_split f v))
      3 u0 v0 [1; 3]%Z (rest_driver dt i) (laid_out (wedge f) k) no_vectors Logic.I (proj2 (wedge_renews f v)) ltac:(cbn; auto) (wedge_apart f v)
      (rest_fit dt i) ltac:(cbn; lia) ltac:(lia) eq_refl (wedge_equipped f v k) Ei) as (d & l & E).
    exists d, l. split; [exact Ei|exact E].
  Qed.

  Notation ks := StaticDisplacement.
  Lemma wedge_global_static u0 : exists i d s, setup constant_source B ks (laid_out (wedge f) ks) no_vectors dt = Ok i /\
    @static_solve R unit _ 2 3 (fun _ => 0) (MethodModel.iterate constant_source B ks StaticGlobal)
      (global_answer (F := nat * vec) B ks wedge_mesh stiff_law minimise name maxiter) u0 [] (rest_driver dt i) = (d, Ok s).
  Proof.
    pose proof (wedge_setting f v ks dt ltac:(left; reflexivity) (fun w : velocity_kind ks => match w with end)) as S.
    destruct (MethodProofs.setup_updated constant_source B ks (wedge f) (wedge_loads f) (fun _ => memory (wedge f)) (given_force (wedge f) ks) (given_heat (wedge f))
      ltac:(apply given_force_kept; reflexivity) ltac:(apply given_heat_kept) (roof v) eq_refl (proj1 (proj2 (roof_facts v)))
      (laid_out (wedge f) ks) no_vectors dt (wedge_equipped f v ks) ltac:(cbn; auto)) as (i & Ei & Ui).
    exists i.
    destruct (global_static_total (V := R) (W := unit) constant_source B ks (wedge f) (wedge_loads f) (fun _ => memory (wedge f)) (given_force (wedge f) ks) (given_heat (wedge f))
      (roof v) wedge_mesh stiff_law minimise name maxiter StaticGlobal (fun _ => 0) dt S HR (wedge_apart f v)
      u0 (rest_driver dt i) (laid_out (wedge f) ks) no_vectors eq_refl ltac:(right; reflexivity)
      (rest_fit dt i) ltac:(cbn; lia) eq_refl (wedge_equipped f v ks) Ei) as (d & s & E).
    exists d, s. split; [exact Ei|exact E].
  Qed.

  Lemma wedge_schur_static u0 : exists i d s, schur_setup constant_source B ks wedge_mesh inv (laid_out (wedge f) ks) no_vectors dt = Ok i /\
    @static_solve R unit _ 2 3 (fun _ => 0) (schur_iterate constant_source B ks wedge_mesh StaticSchur)
      (schur_answer (F := nat * vec) B ks wedge_mesh stiff_law minimise name maxiter false) u0 [] (rest_driver dt i) = (d, Ok s).
  Proof.
    pose proof (wedge_setting f v ks dt ltac:(left; reflexivity) (fun w : velocity_kind ks => match w with end)) as S.
    destruct (schur_setup_updated constant_source B ks (wedge f) (wedge_loads f) (fun _ => memory (wedge f)) (given_force (wedge f) ks) (given_heat (wedge f))
      (roof v) wedge_mesh eq_refl ltac:(left; reflexivity) eq_refl (proj1 (proj2 (roof_facts v))) eq_refl
      (proj1 (proj2 (proj2 (proj2 (proj2 (proj2 (proj2 (proj2 (proj2 (proj2 S)))))))))) inv HI 1 eq_refl
      ltac:(apply given_force_kept; reflexivity) ltac:(apply given_heat_kept)
      (laid_out (wedge f) ks) no_vectors dt (wedge_equipped f v ks) (fun w : velocity_kind ks => match w with end)) as (i & Ei & Ui).
    exists i.
    destruct (schur_static_total (V := R) (W := unit) constant_source B ks (wedge f) (wedge_loads f) (fun _ => memory (wedge f)) (given_force (wedge f) ks) (given_heat (wedge f))
      (roof v) wedge_mesh stiff_law minimise name maxiter StaticSchur (fun _ => 0) dt S HR inv HI (proj1 (wedge_split f v)) (proj2 (wedge_split f v))
      u0 (rest_driver dt i) (laid_out (wedge f) ks) no_vectors eq_refl eq_refl (wedge_apart f v)
      (rest_fit dt i) ltac:(cbn; lia) eq_refl (wedge_equipped f v ks) Ei) as (d & s & E).
    exists d, s. split; [exact Ei|exact E].
  Qed.
End Wedge.
