(* Model of the state of a body and of the products recorded with it.
   Sources: /repo/conmech/state/state.py (cited st:), /repo/conmech/state/products/product.py
   (pr:), penetration.py (pe:).
   Arrays of shape (nodes_count, dimension) live in numbered cells of a store so that views and
   in-place operations are visible; a cell holds the entries component by component, entry
   (node, k) at k * nodes_count + node, which is the order of the vectors of the solvers.
   Simplifications: real numbers instead of doubles; a solver answer that is not of length
   dimension * nodes_count raises ValueError at once (in the code one whose length is a multiple
   of dimension raises it a little later). *)
From Coq Require Import Reals List Arith Bool String.
From Verif Require Import PyModel RVec.
Import ListNotations.
Local Open Scope R_scope.

(* what a constitutive law or a product reads of a state *)
Record view := mkView {
  view_absement : vec;
  view_displacement : vec;
  view_displaced : vec;
  view_velocity : vec;
  view_time : R }.

(* a dictionary with times as keys *)
Fixpoint time_set {V} (d : list (R * V)) (k : R) (v : V) : list (R * V) :=
  match d with
  | [] => [(k, v)]
  | (k', v') :: t => if Req_EM_T k k' then (k', v) :: t else (k', v') :: time_set t k v
  end.

(* del d[k] *)
Fixpoint time_del {V} (d : list (R * V)) (k : R) : result (list (R * V)) :=
  match d with
  | [] => Err (KeyError "time")
  | (k', v') :: t => if Req_EM_T k k' then Ok t else bind (time_del t k) (fun t => Ok ((k', v') :: t))
  end.

Section State.
  (* V: what products record; W: stresses *)
  Context {V W : Type}.

  (* pr:21-27  a product; None: the class Product, whose update is not implemented *)
  Record product := mkProduct {
    p_name : string;
    p_update : option (view -> result V);
    p_data : list (R * V) }.

  (* pr:32-35  copy: always of class Product *)
  Definition product_copy (p : product) : product := mkProduct (p_name p) None (p_data p).

  (* pr:37-42  range: keys of the product itself are gone through, those outside are deleted from
     the copy *)
  Definition product_range (p : product) (start stop : R) : result product :=
    let result := product_copy p in
    let loop :=
      fold_left (fun acc kv =>
          bind acc (fun d =>
            if (if Rle_dec (fst kv) start then true else false) || (if Rlt_dec stop (fst kv) then true else false)
            then time_del d (fst kv) else Ok d))
        (p_data p) (Ok (p_data result)) in
    bind loop (fun d => Ok (mkProduct (p_name result) (p_update result) d)).

  (* products are objects: they live in the store, too *)
  Record store := mkStore { cells : list vec; prods : list product }.

  Definition load (m : store) (r : nat) : vec := nth r (cells m) (fun _ => 0).
  Definition write (m : store) (r : nat) (x : vec) : store :=
    mkStore (firstn r (cells m) ++ match skipn r (cells m) with [] => [] | _ :: t => x :: t end) (prods m).
  Definition alloc (m : store) (x : vec) : store * nat :=
    (mkStore (cells m ++ [x]) (prods m), List.length (cells m)).
  Definition get_product (m : store) (r : nat) : product := nth r (prods m) (mkProduct "" None []).
  Definition set_product (m : store) (r : nat) (p : product) : store :=
    mkStore (cells m) (firstn r (prods m) ++ match skipn r (prods m) with [] => [] | _ :: t => p :: t end).
  Definition new_product (m : store) (p : product) : store * nat :=
    (mkStore (cells m) (prods m ++ [p]), List.length (prods m)).

  (* the class of a state and its additional array *)
  Inductive variant := Plain | Thermal (temperature : nat) | Electric (potential : nat).

  (* st:10-27  State: references to its arrays; setup is not modelled apart from [save] *)
  Record state := mkState {
    absement : nat;
    displacement : nat;
    displaced_nodes : nat;
    velocity : nat;
    extra : variant;
    time : R;
    products : list (string * nat);
    constitutive_law : option (view -> W);
    stress_cache : option W }.

  Definition look (m : store) (s : state) : view :=
    mkView (load m (absement s)) (load m (displacement s)) (load m (displaced_nodes s))
           (load m (velocity s)) (time s).

  Section Body.
    Variables (dimension nodes_count : nat) (nodes : vec).
    Let size := (dimension * nodes_count)%nat.

    Inductive state_class := PlainState | TemperatureState | PiezoelectricState.

    (* st:11-27, 137-139, 161-163  the constructors (body.state, which is never read, is not kept) *)
    Definition new_state (c : state_class) (m : store) : store * state :=
      let '(m1, a) := alloc m (fun _ => 0) in
      let '(m2, u) := alloc m1 (fun _ => 0) in
      let '(m3, x) := alloc m2 nodes in
      let '(m4, v) := alloc m3 (fun _ => 0) in
      match c with
      | PlainState => (m4, mkState a u x v Plain 0 [] None None)
      | TemperatureState =>
          let '(m5, t) := alloc m4 (fun _ => 0) in (m5, mkState a u x v (Thermal t) 0 [] None None)
      | PiezoelectricState =>
          let '(m5, t) := alloc m4 (fun _ => 0) in (m5, mkState a u x v (Electric t) 0 [] None None)
      end.

    (* st:87-89  update_products *)
    Fixpoint update_products (ps : list (string * nat)) (m : store) (look : store -> view) : store * result unit :=
      match ps with
      | [] => (m, Ok tt)
      | (_, r) :: ps =>
          let p := get_product m r in
          match p_update p with
          | None => (m, Err NotImplemented)
          | Some f =>
              match f (look m) with
              | Err e => (m, Err e)
              | Ok v =>
                  update_products ps
                    (set_product m r (mkProduct (p_name p) (p_update p) (time_set (p_data p) (view_time (look m)) v))) look
              end
          end
      end.

    (* st:84-85  inject_product *)
    Definition inject_product (s : state) (name : string) (r : nat) : state :=
      mkState (absement s) (displacement s) (displaced_nodes s) (velocity s) (extra s) (time s)
        (dict_set (products s) name r) (constitutive_law s) (stress_cache s).

    (* st:29-44  set_displacement(vector, time, update_absement); [vector] is the cell of the
       solver's answer, which the state shares from now on *)
    Definition set_displacement (m : store) (s : state) (len vector : nat) (t : R) (update_absement : bool)
      : store * state * result unit :=
      if (len =? size)%nat then
        let s1 := mkState (absement s) vector (displaced_nodes s) (velocity s) (extra s) (time s)
                    (products s) (constitutive_law s) (stress_cache s) in
        let m1 := write m (displaced_nodes s) (fun i => nodes i + load m vector i) in
        let m2 := if update_absement then
                    let dt := t - time s in
                    write m1 (absement s) (fun i => load m1 (absement s) i + dt * load m1 vector i)
                  else m1 in
        let s2 := mkState (absement s) vector (displaced_nodes s) (velocity s) (extra s) t
                    (products s) (constitutive_law s) (stress_cache s) in
        let '(m3, r) := update_products (products s2) m2 (fun m => look m s2) in
        (m3, s2, r)
      else (m, s, Err ValueError).

    (* st:46-55  set_velocity *)
    Definition set_velocity (m : store) (s : state) (len vector : nat) (t : R) (update_displacement : bool)
      : store * state * result unit :=
      if (len =? size)%nat then
        let m2 := if update_displacement then
                    let dt := t - time s in
                    let m1 := write m (displacement s) (fun i => load m (displacement s) i + dt * load m vector i) in
                    write m1 (displaced_nodes s) (fun i => nodes i + load m1 (displacement s) i)
                  else m in
        let s2 := mkState (absement s) (displacement s) (displaced_nodes s) vector (extra s) t
                    (products s) (constitutive_law s) (stress_cache s) in
        let '(m3, r) := update_products (products s2) m2 (fun m => look m s2) in
        (m3, s2, r)
      else (m, s, Err ValueError).

    (* st:146-147, 165-166  set_temperature, set_electric_potential: the array itself is kept *)
    Definition set_extra (s : state) (vector : nat) : state :=
      mkState (absement s) (displacement s) (displaced_nodes s) (velocity s)
        (match extra s with Plain => Plain | Thermal _ => Thermal vector | Electric _ => Electric vector end)
        (time s) (products s) (constitutive_law s) (stress_cache s).

    (* st:57-70  stress *)
    Definition stress (m : store) (s : state) : state * option W :=
      match stress_cache s, constitutive_law s with
      | None, Some law =>
          let w := law (look m s) in
          (mkState (absement s) (displacement s) (displaced_nodes s) (velocity s) (extra s) (time s)
             (products s) (constitutive_law s) (Some w), Some w)
      | c, _ => (s, c)
      end.

    (* copies of all products, in order *)
    Fixpoint copy_products (ps : list (string * nat)) (m : store) : store * list (string * nat) :=
      match ps with
      | [] => (m, [])
      | (n, r) :: ps =>
          let '(m1, r') := new_product m (product_copy (get_product m r)) in
          let '(m2, ps') := copy_products ps m1 in
          (m2, (n, r') :: ps')
      end.

    (* st:98-110, 149-157, 168-176  __copy__ of the three classes: no law, no cached stress;
       products only in the first *)
    Definition copy (m : store) (s : state) : store * state :=
      let '(m0, c) := new_state (match extra s with Plain => PlainState | Thermal _ => TemperatureState
                                                 | Electric _ => PiezoelectricState end) m in
      let m1 := write m0 (absement c) (load m0 (absement s)) in
      let m2 := write m1 (displacement c) (load m1 (displacement s)) in
      let m3 := write m2 (displaced_nodes c) (load m2 (displaced_nodes s)) in
      let m4 := write m3 (velocity c) (load m3 (velocity s)) in
      match extra s, extra c with
      | Plain, _ =>
          let '(m5, ps) := copy_products (products s) m4 in
          (m5, mkState (absement c) (displacement c) (displaced_nodes c) (velocity c) (extra c) (time s) ps None None)
      | Thermal t, Thermal t' | Electric t, Electric t' =>
          (write m4 t' (load m4 t),
           mkState (absement c) (displacement c) (displaced_nodes c) (velocity c) (extra c) (time s) [] None None)
      | _, _ => (m4, c)      (* impossible: c has the class of s *)
      end.
  End Body.
End State.
Arguments store : clear implicits.
Arguments product : clear implicits.
Arguments state : clear implicits.

(* st:112-128  save: the attributes taken away before pickling and given back afterwards *)
Record savable (F S L : Type) := mkSavable {
  outer_source : option F;
  inner_source : option F;
  setup : option S;
  law : option L }.
Arguments mkSavable {F S L}.
Arguments outer_source {F S L}.
Arguments inner_source {F S L}.
Arguments setup {F S L}.
Arguments law {F S L}.

(* attribute assignments *)
Definition with_outer {F S L} (x : savable F S L) (f : option F) := mkSavable f (inner_source x) (setup x) (law x).
Definition with_inner_source {F S L} (x : savable F S L) (f : option F) := mkSavable (outer_source x) f (setup x) (law x).
Definition with_setup {F S L} (x : savable F S L) (s : option S) := mkSavable (outer_source x) (inner_source x) s (law x).
Definition with_law {F S L} (x : savable F S L) (l : option L) := mkSavable (outer_source x) (inner_source x) (setup x) l.

(* st:112-128  save; [dump] is opening the file and pickle.dump of the object as it is at that
   moment (lines 122-123), all that can raise here.  The object is returned as it is left. *)
Definition save {F S L File : Type} (dump : savable F S L -> result File) (x : savable F S L)
  : savable F S L * result File :=
  let fos := outer_source x in
  let x := with_outer x None in
  let fis := inner_source x in
  let x := with_inner_source x None in
  let s := setup x in
  let x := with_setup x None in
  let cl := law x in
  let x := with_law x None in
  match dump x with
  | Err e => (x, Err e)
  | Ok f =>
      let x := with_outer x fos in
      let x := with_inner_source x fis in
      let x := with_setup x s in
      let x := with_law x cl in
      (x, Ok f)
  end.

(* pe:33-39  Penetration.update; [contact] are the indices of mesh.contact_indices (a slice) *)
Definition penetration (nodes_count : nat) (contact : list nat) (v : view) : result R :=
  match map (fun i => view_displaced v (1 * nodes_count + i)%nat) contact with
  | [] => Ok 0
  | x :: l => Ok (fold_left Rmin l x)
  end.
