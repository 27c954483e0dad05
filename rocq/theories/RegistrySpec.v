(* What the registry, the order of classes and the hand-over of variables are to be. *)
From Coq Require Import Reals List Arith Bool String Ascii.
From Verif Require Import PyModel RVec StatementModel RegistryModel.
Import ListNotations.
Local Open Scope string_scope.
Local Open Scope list_scope.

(* class [c] is known under exactly this name in the dictionary [d] *)
Definition holds {C} (reg : registry C) (d name : string) (c : C) : Prop :=
  exists dyn, dict_get reg d = Some dyn /\ dict_get dyn name = Some c.
Definition known {C} (reg : registry C) (d : string) : Prop := exists dyn, dict_get reg d = Some dyn.

(* the problems that a registration is for: "*" stands for three of the four *)
Inductive meant : string -> string -> Prop :=
| meant_itself : forall d, d <> "*" -> meant d d
| meant_static : meant "*" "static"
| meant_quasistatic : meant "*" "quasistatic"
| meant_dynamic : meant "*" "dynamic".

(* the same name but for the case of ASCII letters *)
Inductive same_char : ascii -> ascii -> Prop :=
| same_refl : forall a, same_char a a
| same_upper : forall n, (65 <= n <= 90)%nat -> same_char (ascii_of_nat n) (ascii_of_nat (n + 32))
| same_lower : forall n, (65 <= n <= 90)%nat -> same_char (ascii_of_nat (n + 32)) (ascii_of_nat n).
Inductive same_name : string -> string -> Prop :=
| same_empty : same_name EmptyString EmptyString
| same_cons : forall a b s t, same_char a b -> same_name s t -> same_name (String a s) (String b t).

(* [c] is [a] or inherits from it *)
Inductive derives : cls -> cls -> Prop :=
| derives_refl : forall c, derives c c
| derives_base : forall c b a, In b (bases c) -> derives b a -> derives c a.

(* a stands before b *)
Definition before {A} (l : list A) (a b : A) : Prop := exists l1 l2 l3, l = l1 ++ a :: l2 ++ b :: l3.

(* the methods that the library offers: name in lower case, dynamism, class *)
Inductive offered : string -> string -> solver_class -> Prop :=
| direct_static : offered "static" "direct" Direct
| direct_dynamic : offered "dynamic" "direct" Direct
| global_any : forall d n c, In n ["global"; "global optimization"] ->
    In (d, c) [("static", StaticGlobal); ("quasistatic", QuasistaticGlobal);
               ("quasistatic relaxation", RelaxedGlobal); ("dynamic", DynamicGlobal)] -> offered d n c
| schur_any : forall d n c, In n ["schur"; "schur complement"; "schur complement method"] ->
    In (d, c) [("static", StaticSchur); ("quasistatic", QuasistaticSchur);
               ("quasistatic relaxation", RelaxedSchur); ("dynamic", DynamicSchur)] -> offered d n c.

(* the kind of time dependence of a class: relaxation is a special case of quasistatic *)
Inductive has_dynamism (p : cls) : string -> Prop :=
| is_relaxation : derives p RelaxationQuasistaticProblem -> has_dynamism p "quasistatic relaxation"
| is_static : derives p StaticProblem -> has_dynamism p "static"
| is_quasistatic : derives p QuasistaticProblem -> ~ derives p RelaxationQuasistaticProblem -> has_dynamism p "quasistatic"
| is_dynamic : derives p DynamicProblem -> has_dynamism p "dynamic".
