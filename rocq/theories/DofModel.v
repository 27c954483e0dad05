(* Model of Boundaries.get_all_boundary_indices.
   Source: /repo/conmech/mesh/boundaries.py:127-150. *)
From Coq Require Import List Arith Bool.
From Verif Require Import Common PyModel.
Import ListNotations.

(* a pair of slices: degrees of freedom [a, b) and condition entries [c, e) *)
Definition dof_slice := ((nat * nat) * (nat * nat))%type.

(* boundaries.py:129-136  node_indices is a slice start:stop with start <= stop
   (the caller builds it so, boundaries_factory.py:211-222) *)
Definition all_indices_slice (start stop total dim : nat) : list dof_slice :=
  map (fun d => ((start + d * total, stop + d * total), (0, 0 + stop - start))) (seq 0 dim).

(* boundaries.py:139  np.concatenate(([0], np.nonzero(np.diff(i) - 1)[0] + 1, [len(i)])) *)
Definition discontinuities (i : list nat) : list nat :=
  [0] ++ filter (fun p => negb (nth p i 0 =? S (nth (p - 1) i 0))) (seq 1 (length i - 1))
      ++ [length i].

(* boundaries.py:140  i[discontinuities[:-1]] *)
Definition run_starts (i : list nat) : list nat :=
  map (fun p => nth p i 0) (removelast (discontinuities i)).

(* boundaries.py:141  i[(discontinuities - 1)[1:]] + 1 *)
Definition run_stops (i : list nat) : list nat :=
  map (fun p => nth (p - 1) i 0 + 1) (tl (discontinuities i)).

(* boundaries.py:143-150  inner loop with the running condition_start *)
Fixpoint emit_runs (cond_start shift : nat) (runs : list (nat * nat)) : list dof_slice :=
  match runs with
  | [] => []
  | (start, stop) :: rest =>
      let cond_stop := cond_start + stop - start in
      ((start + shift, stop + shift), (cond_start, cond_stop))
        :: emit_runs cond_stop shift rest
  end.

(* boundaries.py:137-150  node_indices is an array; numpy raises IndexError for an empty
   array (i[[0]]) *)
Definition all_indices_array (i : list nat) (total dim : nat) : result (list dof_slice) :=
  match i with
  | [] => Err IndexError
  | _ => Ok (flat_map (fun d => emit_runs 0 (d * total) (combine (run_starts i) (run_stops i)))
                      (seq 0 dim))
  end.
