(* A list of values whose first value comes twice: index - 1 of the second is the last entry. *)
From Coq Require Import List Arith.
From Verif Require Import ResultsModel.
Import ListNotations.

Lemma repeated (K S : Type) (dec : forall a b : K, {a = b} + {a <> b}) (solve : K -> option S -> S) a b z l (f : files K S) :
  a <> b -> a <> z -> b <> z -> f z = None -> continue_values dec solve true (a :: b :: a :: l ++ [z]) f = Bad NoFile.
Proof.
  intros AB AZ BZ F. set (igs := a :: b :: a :: l ++ [z]).
  assert (B1 : before dec igs b = Some a). { unfold before, igs. cbn [index]. destruct (dec b a); [congruence|]. destruct (dec b b); [reflexivity|congruence]. }
  assert (B0 : before dec igs a = Some z).
  { unfold before. unfold igs at 1. cbn [index]. destruct (dec a a); [|congruence]. change igs with ((a :: b :: a :: l) ++ [z]). rewrite app_length. cbn [List.length]. rewrite Nat.add_sub.
    rewrite nth_error_app2 by reflexivity. cbn [List.length]. rewrite Nat.sub_diag. reflexivity. }
  assert (V : simulate_values dec solve igs igs None f = Bad NoFile).
  { unfold igs at 2. cbn [simulate_values]. rewrite B1. destruct (dec a a); [|congruence]. rewrite B0. destruct (dec b z); [congruence|]. unfold put at 1. destruct (dec a z); [congruence|]. rewrite F. reflexivity. }
  unfold continue_values. unfold igs at 1 2. destruct (dec a a); [|congruence]. fold igs. rewrite V. reflexivity.
Qed.
