(* Errors and rates of the convergence table of BartmanSzwarc_Ochal_Tarzia_2026.py: C115. *)
From Coq Require Import Reals List Arith Lra.
From Verif Require Import RVec PyModel MeshSpec FemSpec RateModel RateSpec RateProofs RateWitness RateFinal.
Import ListNotations.
Local Open Scope R_scope.

(* the error is the root of the integral of the squared difference, taken at the nodes of the reference *)
Theorem C115_value : forall N nodes els ref linear near, in_range N els -> Forall (fun e => List.length e = 3%nat) els -> els <> [] ->
  exists Q, square_integral nodes els (fun i => ref i - match linear i with Some v => v | None => near i end) Q /\ temperature_error N nodes els ref linear near = Ok (sqrt Q).
Proof. exact error_value. Qed.
Print Assumptions C115_value.

(* it is zero for no difference at the nodes of the elements only *)
Theorem C115_zero : forall N nodes els ref linear near, triangles N nodes els -> els <> [] ->
  temperature_error N nodes els ref linear near = Ok 0 <-> forall e n, In e els -> In n e -> match linear n with Some v => v | None => near n end = ref n.
Proof. exact error_zero. Qed.
Print Assumptions C115_zero.

(* and obeys the triangle inequality *)
Theorem C115_triangle : forall N nodes els (u x v : nat -> R) near, in_range N els -> Forall (fun e => List.length e = 3%nat) els -> els <> [] ->
  exists a b c, temperature_error N nodes els u (fun i => Some (v i)) near = Ok a /\ temperature_error N nodes els u (fun i => Some (x i)) near = Ok b /\
    temperature_error N nodes els x (fun i => Some (v i)) near = Ok c /\ a <= b + c.
Proof. exact error_triangle. Qed.
Print Assumptions C115_triangle.

Example C115_mesh_example : triangles 3 half_square [[0; 1; 2]%nat].
Proof. exact half_square_mesh. Qed.

(* in spite of the name of the function it is not relative: it grows with both solutions *)
Theorem C115_scales : forall N nodes els ref linear near c r, in_range N els -> Forall (fun e => List.length e = 3%nat) els -> els <> [] ->
  temperature_error N nodes els ref linear near = Ok r ->
  temperature_error N nodes els (fun i => c * ref i) (fun i => match linear i with Some v => Some (c * v) | None => None end) (fun i => c * near i) = Ok (Rabs c * r).
Proof. exact error_scales. Qed.
Print Assumptions C115_scales.
Theorem C115_relative_refuted : ~ forall N nodes els ref linear near c r r', triangles N nodes els -> els <> [] -> c <> 0 ->
  temperature_error N nodes els ref linear near = Ok r ->
  temperature_error N nodes els (fun i => c * ref i) (fun i => match linear i with Some v => Some (c * v) | None => None end) (fun i => c * near i) = Ok r' -> r' = r.
Proof. exact not_relative. Qed.
Print Assumptions C115_relative_refuted.

(* the rate between two rows is the one exponent with which the error follows the mesh size *)
Theorem C115_meaning : forall h h' e e' r, 0 < h -> 0 < h' -> h <> h' ->
  rate_of (h, e) (h', e') = Rate r <-> 0 < e /\ 0 < e' /\ e' = e * Rpower (h' / h) r.
Proof. exact rate_meaning. Qed.
Print Assumptions C115_meaning.
Example C115_meaning_example : 0 < 1 /\ 0 < 1 / 2 /\ 1 <> 1 / 2 /\ rate_of (1, 3 * Rpower 1 2) (1 / 2, 3 * Rpower (1 / 2) 2) = Rate 2.
Proof. split; [lra|]. split; [lra|]. split; [lra|exact meaning_example]. Qed.

(* errors C h^p have the rate p in all rows but the first *)
Theorem C115_rates : forall C p l, 0 < C -> l <> [] -> order C p l -> compute_rates l = Dash :: repeat (Rate p) (List.length l - 1).
Proof. exact rates_all. Qed.
Print Assumptions C115_rates.
Example C115_rates_example : order 3 2 [(1, 3 * Rpower 1 2); (1 / 2, 3 * Rpower (1 / 2) 2); (1 / 4, 3 * Rpower (1 / 4) 2)].
Proof. exact order_example. Qed.

(* the row of the reference itself, with error 0, has no rate, and neither has the row after one *)
Theorem C115_dash : forall h h' e e', e <= 0 \/ e' <= 0 -> rate_of (h, e) (h', e') = Dash.
Proof. exact rate_dash. Qed.
Print Assumptions C115_dash.
Example C115_dash_example : 1 <= 0 \/ 0 <= 0.
Proof. lra. Qed.

(* a reference without elements: the differences at all its nodes, none of them weighted by an area *)
Theorem C115_nodes : forall N nodes ref linear near, exists r, temperature_error N nodes [] ref linear near = Ok r /\ 0 <= r /\
  r * r = sum N (fun i => (ref i - match linear i with Some v => v | None => near i end) ^ 2).
Proof. exact error_nodes. Qed.
Print Assumptions C115_nodes.

(* elements that are no triangles of its nodes raise *)
Theorem C115_wrong : forall N nodes els ref linear near, (exists e, In e els /\ ((List.length e < 3)%nat \/ exists k, (k < 3)%nat /\ (N <= nth k e 0)%nat)) ->
  temperature_error N nodes els ref linear near = Err IndexError.
Proof. exact error_wrong. Qed.
Print Assumptions C115_wrong.
Example C115_wrong_example : exists e, In e [[0; 1; 2]%nat; [1; 2; 3]%nat] /\ ((List.length e < 3)%nat \/ exists k, (k < 3)%nat /\ (3 <= nth k e 0)%nat).
Proof. exists [1; 2; 3]%nat. split; [right; left; reflexivity|]. right. exists 2%nat. split; repeat constructor. Qed.

(* two rows with the same mesh size have no finite rate *)
Theorem C115_equal : forall h e e', 0 < h -> 0 < e -> 0 < e' -> rate_of (h, e) (h, e') = NotFinite.
Proof. exact rate_equal. Qed.
Print Assumptions C115_equal.
Example C115_equal_example : 0 < 1 / 4 /\ 0 < 1 /\ 0 < 2.
Proof. lra. Qed.
