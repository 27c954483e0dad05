(* What is handed to the plotting libraries (C95, C96). *)
From Coq Require Import Reals List Arith Bool String Lra Lia.
From Verif Require Import RVec PyModel PlotModel PlotSpec PlotProofs.
Import ListNotations.
Local Open Scope R_scope.
Local Open Scope list_scope.

(* ------------------------------------------------------------------ C95 *)

(* whatever plot_limit_points draws consists of the recorded points in order, cut into batches of
   1000 (each followed by 100 points at the origin) and a rest; only the first call is labelled *)
Theorem C95_drawn : forall data label calls, plot_limit_points data label = Ok calls ->
  exists full last, recorded data = List.concat full ++ last /\
    Forall (fun p => List.length p = 1000%nat) full /\
    (List.length last <= 1100 /\ List.length last <> 1000)%nat /\
    map fst calls = padded full ++ remainder last /\
    map snd calls = match calls with [] => [] | _ :: t => label :: map (fun _ => None) t end.
Proof. exact drawn_points. Qed.
Print Assumptions C95_drawn.

(* fewer than 1000 points: exactly the recorded points, in one call *)
Theorem C95_few : forall data label, (List.length (recorded data) < 1000)%nat ->
  plot_limit_points data label = Ok (map (fun p => (p, label)) (remainder (recorded data))).
Proof. exact few_points. Qed.
Print Assumptions C95_few.

(* when no time brings the number of points to exactly 1000, the plot is exact up to 1100 points
   and runs out of the buffer beyond *)
Theorem C95_skipped : forall data label, ~ reaches 1000 data ->
  plot_limit_points data label =
    if (List.length (recorded data) <=? 1100)%nat
    then Ok (map (fun p => (p, label)) (remainder (recorded data))) else Err IndexError.
Proof. exact skipped. Qed.
Print Assumptions C95_skipped.

(* k zeros at every time: the plot succeeds exactly when k divides 1000 or there are at most 1100 points *)
Theorem C95_steady : forall k data label, (0 < k)%nat -> steady k data ->
  (exists calls, plot_limit_points data label = Ok calls) <->
  (Nat.divide k 1000 \/ (k * List.length data <= 1100)%nat).
Proof. exact steady_plot. Qed.
Print Assumptions C95_steady.

(* "only recorded points are drawn" is false *)
Theorem C95_spurious_refuted : exists calls, plot_limit_points (halves 1000) None = Ok calls /\
  In (0, 0) (List.concat (map fst calls)) /\ ~ In (0, 0) (recorded (halves 1000)).
Proof. exact spurious. Qed.
Print Assumptions C95_spurious_refuted.

(* "every product can be plotted" is false: 367 times with three zeros each *)
Theorem C95_overrun_refuted : plot_limit_points (triples 367) None = Err IndexError.
Proof. exact overrun. Qed.
Print Assumptions C95_overrun_refuted.

Example C95_example : steady 2 [(0, [1 / 4; 3 / 4]); (1, [1 / 3; 2 / 3])] /\
  recorded [(0, [1 / 4; 3 / 4]); (1, [1 / 3; 2 / 3])] = [(0, 1 / 4); (0, 3 / 4); (1, 1 / 3); (1, 2 / 3)] /\
  ~ reaches 1000 (triples 367) /\ steady 3 (triples 367).
Proof.
  split; [repeat constructor |]. split; [reflexivity |]. split; [| apply triples_steady].
  intros [d1 [d2 [Ed L]]]. pose proof (triples_steady 367) as HS. rewrite Ed in HS. apply Forall_app in HS.
  rewrite (steady_length 3 d1 (proj1 HS)) in L. lia.
Qed.

(* ------------------------------------------------------------------ C96 *)

(* plot_in_columns: an even number of states fills the grid row by row *)
Theorem C96_columns : forall m,
  plot_in_columns (2 * m) = Ok (map (fun k => (m, 2%nat, k)) (seq 1 (2 * m))).
Proof. exact columns_even. Qed.
Print Assumptions C96_columns.

(* "any number of states can be plotted" is false for every odd number *)
Theorem C96_columns_refuted : forall m, plot_in_columns (2 * m + 1) = Err ValueError.
Proof. exact columns_odd. Qed.
Print Assumptions C96_columns_refuted.

(* a fresh drawer shows the least window around the nodes in both positions, widened on every
   side by a fifth; drawing again keeps the window *)
Theorem C96_window : forall nodes displaced, nodes <> [] -> displaced <> [] ->
  exists l xa xb ya yb, set_axes_limits no_limits nodes displaced
    = Ok (l, ((xa - (xb - xa) / 5, xb + (xb - xa) / 5), (ya - (yb - ya) / 5, yb + (yb - ya) / 5))) /\
    (forall p, In p (nodes ++ displaced) -> in_window ((xa, xb), (ya, yb)) p) /\
    (exists p, In p (nodes ++ displaced) /\ xa = p 0%nat) /\ (exists p, In p (nodes ++ displaced) /\ xb = p 0%nat) /\
    (exists p, In p (nodes ++ displaced) /\ ya = p 1%nat) /\ (exists p, In p (nodes ++ displaced) /\ yb = p 1%nat) /\
    xa <= xb /\ ya <= yb /\
    (forall nodes' displaced', set_axes_limits l nodes' displaced'
       = Ok (l, ((xa - (xb - xa) / 5, xb + (xb - xa) / 5), (ya - (yb - ya) / 5, yb + (yb - ya) / 5)))).
Proof. exact fresh_limits. Qed.
Print Assumptions C96_window.

(* hence "the drawn nodes lie in the window" is false for a drawer whose state has moved on *)
Theorem C96_window_refuted : exists l w w' nodes displaced displaced' p,
  set_axes_limits no_limits nodes displaced = Ok (l, w) /\
  set_axes_limits l nodes displaced' = Ok (l, w') /\ In p displaced' /\ ~ in_window w' p.
Proof. exact stale_window. Qed.
Print Assumptions C96_window_refuted.

(* the drawn mesh joins exactly the corners of common elements, each pair once *)
Theorem C96_mesh : forall els, Forall (fun e => List.length e = 3%nat /\ NoDup e) els ->
  exists g, draw_mesh els = Ok g /\ simple g /\ forall i j, has_edge g i j <-> joined els i j.
Proof. exact draw_mesh_edges. Qed.
Print Assumptions C96_mesh.

Theorem C96_mesh_solid : forall els, Exists (fun e => List.length e <> 3%nat) els -> draw_mesh els = Err ValueError.
Proof. exact draw_mesh_solid. Qed.
Print Assumptions C96_mesh_solid.

(* the drawn boundary consists of its edges, each once *)
Theorem C96_boundary : forall edges, Forall (fun e => List.length e = 2%nat) edges ->
  exists g, draw_boundary edges = Ok g /\ simple g /\
    forall i j, has_edge g i j <-> In [i; j] edges \/ In [j; i] edges.
Proof. exact draw_boundary_edges. Qed.
Print Assumptions C96_boundary.

(* "draw_dirichlet marks every Dirichlet node" is false: it marks two, however many there are *)
Theorem C96_dirichlet_refuted : forall displaced i j rest, draw_dirichlet displaced (i :: j :: rest)
  = Ok [(displaced i 0%nat, displaced i 1%nat, 1, 0); (displaced j 0%nat, displaced j 1%nat, 1, 0)].
Proof. exact dirichlet_two. Qed.
Print Assumptions C96_dirichlet_refuted.

(* and a body without Dirichlet boundary cannot be drawn without colours *)
Theorem C96_free_refuted : forall displaced nodes, (List.length nodes < 2)%nat ->
  draw_dirichlet displaced nodes = Err IndexError.
Proof. exact dirichlet_few. Qed.
Print Assumptions C96_free_refuted.

Example C96_example : Forall (fun e => List.length e = 3%nat /\ NoDup e) [[0; 1; 2]; [1; 3; 2]]%nat /\
  draw_mesh [[0; 1; 2]; [1; 3; 2]]%nat = Ok [(0, 1); (0, 2); (1, 2); (1, 3); (3, 2)]%nat /\
  draw_boundary [[0; 1]; [1; 3]; [1; 0]]%nat = Ok [(0, 1); (1, 3)]%nat /\
  Exists (fun e : list nat => List.length e <> 3%nat) [[0; 1; 2; 3]]%nat.
Proof.
  split; [repeat constructor; cbn; intuition discriminate |]. split; [reflexivity |]. split; [reflexivity |].
  constructor. discriminate.
Qed.
