(* Model of plotting/membrane.py (m) lines 14-65 and plotting/drawer.py (d): what is handed to
   matplotlib and networkx.  Drawing itself is outside. *)
From Coq Require Import Reals List Arith Bool String.
From Verif Require Import RVec PyModel.
Import ListNotations.
Local Open Scope R_scope.
Local Open Scope list_scope.

(* ---- membrane.py: plot_limit_points ---- *)

(* one call of plt.scatter: points and label *)
Definition scatter := (list (R * R) * option string)%type.

(* m:48-49, 53-54  the buffer (1100 columns: time, zero) and buff_size *)
Record buffer := mkBuffer { column : nat -> R * R; buff_size : nat }.
Definition empty_buffer : buffer := mkBuffer (fun _ => (0, 0)) 0.

(* buff[:, :n] as points *)
Definition columns (b : buffer) (n : nat) : list (R * R) := map (column b) (seq 0 n).

(* m:51-54  one zero *)
Definition put (time zero : R) (b : buffer) : result buffer :=
  if (buff_size b <? 1100)%nat
  then Ok (mkBuffer (fun i => if (i =? buff_size b)%nat then (time, zero) else column b i) (S (buff_size b)))
  else Err IndexError.

(* m:51-54  the zeros of one time *)
Fixpoint put_all (time : R) (zeros : list R) (b : buffer) : result buffer :=
  match zeros with
  | [] => Ok b
  | z :: zs => bind (put time z b) (put_all time zs)
  end.

(* m:50-60  the loop over prod.data.items() and the rest of the buffer; [drawn] are the calls so
   far (an exception discards them) *)
Fixpoint limit_points (data : list (R * list R)) (label : option string) (b : buffer) (drawn : list scatter)
  : result (list scatter) :=
  match data with
  | [] => if (0 <? buff_size b)%nat then Ok (drawn ++ [(columns b (buff_size b), label)]) else Ok drawn
  | (time, zeros) :: data =>
      bind (put_all time zeros b) (fun b =>
        if (buff_size b =? 1000)%nat
        then limit_points data None (mkBuffer (column b) 0) (drawn ++ [(columns b 1100, label)])
        else limit_points data label b drawn)
  end.

(* m:40-65  plot_limit_points; title, axes and show left out *)
Definition plot_limit_points (data : list (R * list R)) (label : option string) : result (list scatter) :=
  limit_points data label empty_buffer [].

(* ---- membrane.py: plot_in_columns ---- *)

(* figure.add_subplot(rows, cols, index): raises unless rows and cols are positive and
   1 <= index <= rows * cols *)
Definition add_subplot (rows cols index : nat) : result (nat * nat * nat) :=
  if ((0 <? rows) && (0 <? cols) && (1 <=? index) && (index <=? rows * cols))%nat
  then Ok (rows, cols, index) else Err ValueError.

(* m:26-32  the axes in which the states are drawn, in order *)
Fixpoint subplots (rows cols i n : nat) : result (list (nat * nat * nat)) :=
  match n with
  | 0%nat => Ok []
  | S n => bind (add_subplot rows cols i) (fun a => bind (subplots rows cols (S i) n) (fun l => Ok (a :: l)))
  end.
Definition plot_in_columns (states : nat) : result (list (nat * nat * nat)) :=
  subplots (states / 2) 2 1 states.

(* ---- drawer.py ---- *)

(* np.min / np.max of a column; ValueError for no entries *)
Fixpoint min_from (x : R) (l : list R) : R := match l with [] => x | y :: l => min_from (Rmin x y) l end.
Fixpoint max_from (x : R) (l : list R) : R := match l with [] => x | y :: l => max_from (Rmax x y) l end.
Definition np_min (l : list R) : result R := match l with [] => Err ValueError | x :: l => Ok (min_from x l) end.
Definition np_max (l : list R) : result R := match l with [] => Err ValueError | x :: l => Ok (max_from x l) end.

(* d:45-48  x_min, x_max, y_min, y_max *)
Record limits := mkLimits { x_min : option R; x_max : option R; y_min : option R; y_max : option R }.
Definition no_limits : limits := mkLimits None None None None.

(* d:115-122 (and 126-133)  a limit that is given or taken from both node arrays *)
Definition limit_min (given : option R) (body displaced : list R) : result R :=
  match given with
  | Some x => Ok x
  | None => bind (np_min body) (fun a => bind (np_min displaced) (fun b => Ok (Rmin a b)))
  end.
Definition limit_max (given : option R) (body displaced : list R) : result R :=
  match given with
  | Some x => Ok x
  | None => bind (np_max body) (fun a => bind (np_max displaced) (fun b => Ok (Rmax a b)))
  end.

Definition col (c : nat) (nodes : list vec) : list R := map (fun p => p c) nodes.

(* d:113-141  set_axes_limits: the limits kept by the drawer, and xlim, ylim *)
Definition set_axes_limits (l : limits) (nodes displaced : list vec) : result (limits * ((R * R) * (R * R))) :=
  bind (limit_min (x_min l) (col 0 nodes) (col 0 displaced)) (fun xa =>
  bind (limit_max (x_max l) (col 0 nodes) (col 0 displaced)) (fun xb =>
  let dx := xb - xa in
  let x_margin := dx * (2 / 10) in
  let xlim := (xa - x_margin, xb + x_margin) in
  bind (limit_min (y_min l) (col 1 nodes) (col 1 displaced)) (fun ya =>
  bind (limit_max (y_max l) (col 1 nodes) (col 1 displaced)) (fun yb =>
  let dy := yb - ya in
  let y_margin := dy * (2 / 10) in
  let ylim := (ya - y_margin, yb + y_margin) in
  Ok (mkLimits (Some xa) (Some xb) (Some ya) (Some yb), (xlim, ylim)))))).

(* d:205-211  draw_dirichlet: the arrows (x, y, v, w); [nodes] is list(set(...)) of the Dirichlet
   boundary in some order, [displaced i] the position of node i *)
Definition draw_dirichlet (displaced : nat -> vec) (nodes : list nat) : result (list (R * R * R * R)) :=
  let rows := map displaced nodes in
  match nth_error rows 0, nth_error rows 1 with
  | Some p, Some q => Ok (map (fun r : vec => (r 0%nat, r 1%nat, 0 + 1, 0 + 0)) [p; q])
  | _, _ => Err IndexError
  end.

(* d:230-239, 250-263  draw_forces: the arrows with a nonzero scale; [force i] is the outer
   density at node i *)
Definition draw_forces (displaced force : nat -> vec) (nodes : list nat) : list (R * R * R * R) :=
  map (fun n => (displaced n 0%nat, displaced n 1%nat, force n 0%nat, force n 1%nat)) nodes.

(* networkx add_edge: an undirected edge that is there already is not added again *)
Definition same_edge (e f : nat * nat) : bool :=
  ((fst e =? fst f) && (snd e =? snd f))%nat || ((fst e =? snd f) && (snd e =? fst f))%nat.
Definition add_edge (g : list (nat * nat)) (e : nat * nat) : list (nat * nat) :=
  if existsb (same_edge e) g then g else g ++ [e].

(* d:166-171  draw_mesh: the edges of the graph; unpacking an element that has not three corners
   raises ValueError *)
Fixpoint mesh_edges (g : list (nat * nat)) (els : list (list nat)) : result (list (nat * nat)) :=
  match els with
  | [] => Ok g
  | [i; j; k] :: els => mesh_edges (add_edge (add_edge (add_edge g (i, j)) (i, k)) (j, k)) els
  | _ :: _ => Err ValueError
  end.
Definition draw_mesh (els : list (list nat)) : result (list (nat * nat)) := mesh_edges [] els.

(* d:303-306  draw_boundary *)
Fixpoint boundary_edges (g : list (nat * nat)) (edges : list (list nat)) : result (list (nat * nat)) :=
  match edges with
  | [] => Ok g
  | (a :: b :: _) :: edges => boundary_edges (add_edge g (a, b)) edges
  | _ :: _ => Err IndexError
  end.
Definition draw_boundary (edges : list (list nat)) : result (list (nat * nat)) := boundary_edges [] edges.
