(* Binary64 numbers, independent of the model. *)
From Coq Require Import ZArith List.
Local Open Scope Z_scope.

(* z * 2^-1074 is a binary64 number (without its upper bound): at most 53 bits *)
Definition float64 (z : Z) : Prop := exists m k, 0 <= m <= 2 ^ 53 /\ 0 <= k /\ z = m * 2 ^ k.
(* x is the nearest of them to z; of two that are equally near, neighbours at a distance 2^j, it is an even multiple
   of that distance *)
Definition nearest (z x : Z) : Prop := float64 x /\ forall y, float64 y -> Z.abs (x - z) <= Z.abs (y - z) /\
  (Z.abs (x - z) = Z.abs (y - z) -> y <> x -> exists j, 0 <= j /\ Z.abs (y - x) = 2 ^ j /\ (2 ^ (j + 1) | x)).
