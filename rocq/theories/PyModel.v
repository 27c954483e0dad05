(* Gallina counterparts of the Python built-ins used by several modules: results
   with exceptions, insertion ordered dictionaries, slices.  No proofs here. *)
From Coq Require Import List ZArith String Bool.
Import ListNotations.

Inductive py_error :=
| KeyError (key : string)
| TypeError
| ValueError
| AssertionError
| AttributeError
| IndexError
| NotImplemented
| ArgumentError
| ZeroDivision.

Inductive result (A : Type) :=
| Ok (a : A)
| Err (e : py_error).
Arguments Ok {A} a.
Arguments Err {A} e.

Definition bind {A B} (r : result A) (f : A -> result B) : result B :=
  match r with Ok a => f a | Err e => Err e end.

(* dict: association list in insertion order, keys unique when built by dict_set *)
Definition dict (A : Type) := list (string * A).

Fixpoint dict_get {A} (d : dict A) (k : string) : option A :=
  match d with
  | [] => None
  | (k', v) :: t => if String.eqb k k' then Some v else dict_get t k
  end.

(* d[k] = v : an existing key keeps its position *)
Fixpoint dict_set {A} (d : dict A) (k : string) (v : A) : dict A :=
  match d with
  | [] => [(k, v)]
  | (k', v') :: t => if String.eqb k k' then (k, v) :: t else (k', v') :: dict_set t k v
  end.

(* d[k] with KeyError *)
Definition dict_item {A} (d : dict A) (k : string) : result A :=
  match dict_get d k with Some v => Ok v | None => Err (KeyError k) end.

(* k in d *)
Definition dict_in {A} (d : dict A) (k : string) : bool :=
  match dict_get d k with Some _ => true | None => false end.

(* a[start:stop] with step 1: negative bounds count from the end, then clip *)
Definition clip_bound (len z : Z) : Z :=
  if (z <? 0)%Z then Z.max 0 (z + len) else Z.min z len.

Definition py_slice {A} (start stop : Z) (l : list A) : list A :=
  let len := Z.of_nat (List.length l) in
  let a := clip_bound len start in
  let b := clip_bound len stop in
  firstn (Z.to_nat (b - a)) (skipn (Z.to_nat a) l).
