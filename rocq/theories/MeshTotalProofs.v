(* When does Mesh construction succeed (C61). *)
From Coq Require Import List Arith ZArith String Bool Lia.
From Verif Require Import Common PyModel MeshModel MeshBuildModel.
Import ListNotations.
Open Scope string_scope.
Open Scope list_scope.

Lemma other_boundaries_total {P V} mean (zero : P) surfaces nodes (conds : dict (list P -> V)) inds :
  (forall name, In name (map fst inds) -> name <> "contact" -> name <> "dirichlet" ->
     (exists c, dict_get conds name = Some c) /\ reserved name = false) ->
  exists others, other_boundaries mean zero surfaces nodes conds inds = Ok others /\
    existsb (fun kv => reserved (fst kv)) others = false.
Proof.
  induction inds as [|[name ind] rest IH]; intros H; simpl.
  - exists []. auto.
  - destruct IH as [others [E1 E2]]; [intros; apply H; simpl; auto|].
    destruct (String.eqb_spec name "contact"); simpl; [eauto|].
    destruct (String.eqb_spec name "dirichlet"); simpl; [eauto|].
    destruct (extract_unique_indices _) as [|i l]; [eauto|].
    destruct (H name) as [[c Hc] Hr]; simpl; auto.
    unfold dict_item. rewrite Hc. simpl. rewrite E1. simpl.
    eexists. split; [reflexivity|]. simpl. rewrite Hr. exact E2.
Qed.

Lemma build_total {P V} mean (zero : P) nodes els (d : @Description P V) :
  (exists c, dict_get (indicators d) "contact" = Some c) ->
  (exists c, dict_get (indicators d) "dirichlet" = Some c) ->
  (exists c, dict_get (conditions d) "dirichlet" = Some c) ->
  (forall name, In name (map fst (indicators d)) -> name <> "contact" -> name <> "dirichlet" ->
     (exists c, dict_get (conditions d) name = Some c) /\ reserved name = false) ->
  exists m, build mean zero nodes els d = Ok m.
Proof.
  intros [c1 H1] [c2 H2] [c3 H3] H. unfold build.
  destruct (remove_unconnected nodes els) as [un ue].
  unfold identify_boundaries, dict_item. rewrite H1, H2. simpl.
  destruct (reorder_boundary_nodes zero un ue c1 c2) as [[[[n2 e2] bc] cc] dc].
  rewrite H3. simpl.
  destruct (other_boundaries_total mean zero (boundary_surfaces e2) n2 (conditions d) (indicators d) H)
    as [others [E1 E2]].
  rewrite E1. simpl. rewrite E2. simpl. eauto.
Qed.

(* ------------------------------------------------- descriptions from keywords *)
Lemma dict_get_set {A} (d : dict A) k v k' :
  dict_get (dict_set d k v) k' = if String.eqb k' k then Some v else dict_get d k'.
Proof.
  induction d as [|[k0 v0] d IH]; simpl; [reflexivity|].
  destruct (String.eqb_spec k k0); simpl.
  - subst k0. destruct (String.eqb_spec k' k); reflexivity.
  - destruct (String.eqb_spec k' k0); simpl.
    + subst k0. destruct (String.eqb_spec k' k); congruence.
    + exact IH.
Qed.

Lemma dict_set_keys {A} (d : dict A) k v x :
  In x (map fst (dict_set d k v)) <-> x = k \/ In x (map fst d).
Proof.
  induction d as [|[k0 v0] d IH]; simpl; [intuition|].
  destruct (String.eqb_spec k k0); simpl.
  - subst. intuition.
  - rewrite IH. intuition.
Qed.

Section Keywords.
  Context {P V : Type}.
  Variable zeros : list P -> V.
  Notation kwargs_t := (list (string * ((P -> bool) * option (list P -> V)))).

  Definition good_description (allowed : string -> Prop) (d : @Description P V) : Prop :=
    (exists c, dict_get (indicators d) "contact" = Some c) /\
    (exists c, dict_get (indicators d) "dirichlet" = Some c) /\
    (exists c, dict_get (conditions d) "dirichlet" = Some c) /\
    (forall name, In name (map fst (indicators d)) -> name <> "contact" -> name <> "dirichlet" ->
       (exists c, dict_get (conditions d) name = Some c) /\ allowed name).

  Lemma good_add allowed d key ind cond :
    good_description allowed d ->
    (key = "contact" \/ key = "dirichlet" \/ (cond <> None /\ allowed key)) ->
    good_description allowed (description_add d (key, (ind, cond))).
  Proof.
    intros ([c1 H1] & [c2 H2] & [c3 H3] & H4) HK. unfold description_add.
    repeat split; simpl; rewrite ?dict_get_set.
    - destruct (String.eqb "contact" key); eauto.
    - destruct (String.eqb "dirichlet" key); eauto.
    - destruct cond; rewrite ?dict_get_set; [destruct (String.eqb "dirichlet" key)|]; eauto.
    - apply dict_set_keys in H. destruct cond as [c|]; rewrite ?dict_get_set.
      + destruct (String.eqb_spec name key); eauto. destruct H as [H|H]; [congruence|]. now apply H4.
      + destruct H as [->|H]; [intuition congruence|]. now apply H4.
    - apply dict_set_keys in H. destruct H as [->|H]; [intuition congruence|]. now apply H4.
  Qed.

  Lemma make_description_good allowed (kwargs : kwargs_t) :
    Forall (fun '(key, (_, cond)) => key = "contact" \/ key = "dirichlet" \/
               (cond <> None /\ allowed key)) kwargs ->
    good_description allowed (make_description zeros kwargs).
  Proof.
    unfold make_description.
    assert (G : forall d, good_description allowed d ->
      Forall (fun '(key, (_, cond)) => key = "contact" \/ key = "dirichlet" \/
               (cond <> None /\ allowed key)) kwargs ->
      good_description allowed (fold_left description_add kwargs d)).
    { induction kwargs as [|[key [ind cond]] l IH]; intros d Hd HF; simpl; auto.
      inversion HF; subst. apply IH; auto. now apply good_add. }
    intros HF. apply G; auto. unfold good_description. simpl.
    split; [eauto|]. split; [eauto|]. split; [eauto|].
    intros name [E|[E|[]]] N1 N2; congruence.
  Qed.

  (* description given by keywords: mesh construction succeeds *)
  Lemma build_from_keywords mean zero nodes els (kwargs : kwargs_t) :
    Forall (fun '(key, (_, cond)) => key = "contact" \/ key = "dirichlet" \/
               (cond <> None /\ reserved key = false)) kwargs ->
    exists m, build mean zero nodes els (make_description zeros kwargs) = Ok m.
  Proof.
    intros H. destruct (make_description_good (fun k => reserved k = false) kwargs H)
      as (H1 & H2 & H3 & H4). now apply build_total.
  Qed.

  (* the predicate used is the last one given *)
  Fixpoint last_keyword (kwargs : kwargs_t) (k : string) : option (P -> bool) :=
    match kwargs with
    | [] => None
    | (key, (ind, _)) :: t =>
        match last_keyword t k with
        | Some i => Some i
        | None => if String.eqb k key then Some ind else None
        end
    end.

  Lemma make_description_get (kwargs : kwargs_t) k :
    dict_get (indicators (make_description zeros kwargs)) k =
    match last_keyword kwargs k with
    | Some i => Some i
    | None => if String.eqb k "contact" then Some (fun _ => false)
              else if String.eqb k "dirichlet" then Some (fun _ => false) else None
    end.
  Proof.
    unfold make_description.
    assert (G : forall d, dict_get (indicators (fold_left description_add kwargs d)) k =
       match last_keyword kwargs k with Some i => Some i | None => dict_get (indicators d) k end).
    { induction kwargs as [|[key [ind cond]] l IH]; intros d; simpl; auto.
      rewrite IH. destruct (last_keyword l k); auto. simpl. rewrite dict_get_set.
      destruct (String.eqb k key); auto. }
    rewrite G. reflexivity.
  Qed.
End Keywords.
