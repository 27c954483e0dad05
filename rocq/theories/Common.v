(* Small generic helpers used by the models: the Gallina counterparts of a few
   numpy / Python primitives.  No proofs here. *)
From Coq Require Import List Arith ZArith Bool.
Import ListNotations.

Section Lists.
  Context {A : Type}.

  (* Python / numpy item assignment [a[i] = x] on a 1-d array.  An index outside
     of the array leaves it unchanged here (numpy raises IndexError); the proofs
     that use it establish that the index is in range. *)
  Fixpoint set_nth (i : nat) (x : A) (l : list A) : list A :=
    match l, i with
    | [], _ => []
    | _ :: t, O => x :: t
    | h :: t, S i' => h :: set_nth i' x t
    end.

  (* [np.delete]-like: drop the i-th entry, i.e. [vstack((a[:i], a[i+1:]))]. *)
  Fixpoint remove_nth (i : nat) (l : list A) : list A :=
    match l, i with
    | [], _ => []
    | _ :: t, O => t
    | h :: t, S i' => h :: remove_nth i' t
    end.

  (* boolean mask indexing [a[mask]]: entries whose mask value is true *)
  Fixpoint select_mask (l : list A) (mask : list bool) : list A :=
    match l, mask with
    | x :: l', b :: m' => if b then x :: select_mask l' m' else select_mask l' m'
    | _, _ => []
    end.

  (* integer-array indexing [a[idx]] with in-range checks: IndexError = None *)
  Fixpoint take_indices (l : list A) (idx : list nat) : option (list A) :=
    match idx with
    | [] => Some []
    | i :: idx' =>
        match nth_error l i, take_indices l idx' with
        | Some x, Some r => Some (x :: r)
        | _, _ => None
        end
    end.

  (* Python slicing [a[start:stop]] for 0 <= start *)
  Definition slice (start stop : nat) (l : list A) : list A :=
    firstn (stop - start) (skipn start l).
End Lists.

(* [x in a] for an index array *)
Definition mem_nat (i : nat) (l : list nat) : bool := existsb (Nat.eqb i) l.

(* ascending sort of an index row, [row.sort()] *)
Fixpoint insert_nat (x : nat) (l : list nat) : list nat :=
  match l with
  | [] => [x]
  | y :: t => if x <=? y then x :: y :: t else y :: insert_nat x t
  end.

Fixpoint sort_nat (l : list nat) : list nat :=
  match l with
  | [] => []
  | x :: t => insert_nat x (sort_nat t)
  end.

(* [np.unique] of a 1-d index array: ascending, without repetition *)
Fixpoint insert_uniq (x : nat) (l : list nat) : list nat :=
  match l with
  | [] => [x]
  | y :: t => if x =? y then y :: t
              else if x <? y then x :: y :: t else y :: insert_uniq x t
  end.

Definition unique_nat (l : list nat) : list nat := fold_right insert_uniq [] l.

(* lexicographic order on rows of equal length, the order used by
   [np.unique(..., axis=0)] *)
Fixpoint lex_ltb (a b : list nat) : bool :=
  match a, b with
  | [], [] => false
  | [], _ :: _ => true
  | _ :: _, [] => false
  | x :: a', y :: b' => (x <? y) || ((x =? y) && lex_ltb a' b')
  end.

Fixpoint row_eqb (a b : list nat) : bool :=
  match a, b with
  | [], [] => true
  | x :: a', y :: b' => (x =? y) && row_eqb a' b'
  | _, _ => false
  end.

Fixpoint insert_row (r : list nat) (l : list (list nat)) : list (list nat) :=
  match l with
  | [] => [r]
  | s :: t => if row_eqb r s then s :: t
              else if lex_ltb r s then r :: s :: t else s :: insert_row r t
  end.

(* rows of [np.unique(rows, axis=0)] *)
Definition unique_rows (rows : list (list nat)) : list (list nat) :=
  fold_right insert_row [] rows.

(* index of the first occurrence, [return_index=True] *)
Fixpoint first_index (r : list nat) (rows : list (list nat)) : nat :=
  match rows with
  | [] => 0
  | s :: t => if row_eqb r s then 0 else S (first_index r t)
  end.

(* number of occurrences, [return_counts=True] *)
Fixpoint count_row (r : list nat) (rows : list (list nat)) : nat :=
  match rows with
  | [] => 0
  | s :: t => if row_eqb r s then S (count_row r t) else count_row r t
  end.
