(* Reading after writing, and what the methods of a state change. *)
From Coq Require Import Reals List Arith Bool String Lia.
From Verif Require Import PyModel RVec StateModel.
Import ListNotations.
Local Open Scope R_scope.

Section Store.
  Context {V W : Type}.
  Implicit Types (m : store V) (s : state W).

  Definition room m := List.length (cells m).
  Definition stock m := List.length (prods m).

  Lemma nth_put : forall A (d x : A) l r k,
    nth k (firstn r l ++ match skipn r l with [] => [] | _ :: t => x :: t end) d
    = if ((k =? r) && (r <? List.length l))%nat then x else nth k l d.
  Proof.
    intros A d x l; induction l as [|a l IH]; intros r k.
    - rewrite firstn_nil, skipn_nil; cbn [app List.length].
      replace (r <? 0)%nat with false by (symmetry; apply Nat.ltb_ge; lia).
      rewrite andb_false_r; reflexivity.
    - destruct r as [|r]; cbn [firstn skipn app List.length].
      + destruct k; reflexivity.
      + destruct k as [|k]; cbn [nth].
        * reflexivity.
        * rewrite IH. reflexivity.
  Qed.

  Lemma length_put : forall A (x : A) l r,
    List.length (firstn r l ++ match skipn r l with [] => [] | _ :: t => x :: t end) = List.length l.
  Proof.
    intros A x l; induction l as [|a l IH]; intros r.
    - rewrite firstn_nil, skipn_nil; reflexivity.
    - destruct r as [|r]; cbn [firstn skipn app List.length]; [reflexivity|rewrite IH; reflexivity].
  Qed.

  Lemma room_write : forall m r x, room (write m r x) = room m.
  Proof. intros; apply length_put. Qed.

  Lemma stock_write : forall m r x, stock (write m r x) = stock m.
  Proof. reflexivity. Qed.

  Lemma prods_write : forall m r x, prods (write m r x) = prods m.
  Proof. reflexivity. Qed.

  Lemma load_write_same : forall m r x, (r < room m)%nat -> load (write m r x) r = x.
  Proof.
    intros m r x H. unfold load, write; cbn [cells]. rewrite nth_put, Nat.eqb_refl.
    rewrite (proj2 (Nat.ltb_lt r (List.length (cells m))) H). reflexivity.
  Qed.

  Lemma load_write_other : forall m r x k, k <> r -> load (write m r x) k = load m k.
  Proof.
    intros m r x k H. unfold load, write; cbn [cells]. rewrite nth_put.
    rewrite (proj2 (Nat.eqb_neq _ _) H). reflexivity.
  Qed.

  Lemma alloc_eq : forall m x, alloc m x = (mkStore (cells m ++ [x]) (prods m), room m).
  Proof. reflexivity. Qed.

  Lemma room_alloc : forall m x, room (fst (alloc m x)) = S (room m).
  Proof. intros; unfold room, alloc; cbn [fst cells]. rewrite app_length; cbn; lia. Qed.

  Lemma load_alloc_old : forall m x k, (k < room m)%nat -> load (fst (alloc m x)) k = load m k.
  Proof. intros; unfold load, alloc; cbn [fst cells]. apply app_nth1; assumption. Qed.

  Lemma load_alloc_new : forall m x, load (fst (alloc m x)) (room m) = x.
  Proof.
    intros; unfold load, alloc; cbn [fst cells]. rewrite app_nth2 by (unfold room; lia).
    unfold room; rewrite Nat.sub_diag; reflexivity.
  Qed.

  Lemma room_grow : forall m x p, room (mkStore (cells m ++ [x]) p : store V) = S (room m).
  Proof. intros; unfold room; cbn [cells]. rewrite app_length; cbn; lia. Qed.

  Lemma load_grow_old : forall m x p k, (k < room m)%nat -> load (mkStore (cells m ++ [x]) p : store V) k = load m k.
  Proof. intros; unfold load; cbn [cells]. apply app_nth1; assumption. Qed.

  Lemma get_set_product : forall m r p k,
    get_product (set_product m r p) k = if ((k =? r) && (r <? stock m))%nat then p else get_product m k.
  Proof. intros; unfold get_product, set_product; cbn [prods]; apply nth_put. Qed.

  Lemma update_products_cells : forall ps m (f : store V -> view),
    cells (fst (update_products ps m f)) = cells m.
  Proof.
    induction ps as [|[n r] ps IH]; intros m f; cbn [update_products]; [reflexivity|].
    destruct (p_update (get_product m r)); [|reflexivity].
    destruct (r0 (f m)); [|reflexivity]. rewrite IH. reflexivity.
  Qed.

  Lemma update_products_stock : forall ps m (f : store V -> view),
    stock (fst (update_products ps m f)) = stock m.
  Proof.
    induction ps as [|[n r] ps IH]; intros m f; cbn [update_products]; [reflexivity|].
    destruct (p_update (get_product m r)); [|reflexivity].
    destruct (r0 (f m)); [|reflexivity]. rewrite IH. apply length_put.
  Qed.

  Lemma update_products_frame : forall ps m (f : store V -> view) k,
    ~ In k (map snd ps) -> get_product (fst (update_products ps m f)) k = get_product m k.
  Proof.
    induction ps as [|[n r] ps IH]; intros m f k H; cbn [update_products]; [reflexivity|].
    cbn [map snd In] in H.
    destruct (p_update (get_product m r)); [|reflexivity].
    destruct (r0 (f m)); [|reflexivity]. rewrite IH by tauto.
    rewrite get_set_product. destruct (Nat.eqb_spec k r); [subst; tauto|reflexivity].
  Qed.

  Lemma load_cells : forall m m' k, cells m' = cells m -> load m' k = load m k.
  Proof. intros m m' k H; unfold load; rewrite H; reflexivity. Qed.

  Lemma room_cells : forall m m', cells m' = cells m -> room m' = room m.
  Proof. intros m m' H; unfold room; rewrite H; reflexivity. Qed.
End Store.
