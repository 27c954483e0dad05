(* Model of the states that examples/BartmanSzwarc_Ochal_Tarzia_2026.py (bot) keeps in files, of the panels it draws
   from them and of the errors it lists: bot 113-125, 194-291, 295-398, 461-537.
   Numbers alpha are given by the way Python prints them ("0.01", "1000", "inf"); a number is taken to be always
   printed in the same way.  A state is any value, simulate any function of the pair, the error of two states
   (bot:139-191, RateModel) any function.  Left out: drawing, printing, labels and rates (RateModel), the clearing
   of callbacks in a state before it is written. *)
From Coq Require Import Arith Bool String Ascii Reals DecimalString List.
Import ListNotations.
Local Open Scope string_scope.
Local Open Scope list_scope.

(* FileNotFoundError, IndexError, ValueError, AssertionError *)
Inductive trouble := NoFile | NoIndex | NoValue | NoState.
Inductive outcome (A : Type) := Done (a : A) | Failed (t : trouble).
Arguments Done {A} a. Arguments Failed {A} t.

(* a pair (alpha, ih) *)
Definition key : Type := string * nat.
Definition key_dec : forall p q : key, {p = q} + {p <> q}.
Proof. intros [a n] [b m]. destruct (string_dec a b) as [->|]; [destruct (Nat.eq_dec n m) as [->|]|]; [left; reflexivity|right|right]; intros E; injection E; auto. Defined.
(* bot:114  f"alpha_{alpha}_ih_{ih}" *)
Definition state_name (p : key) : string :=
  ("alpha_" ++ fst p ++ "_ih_" ++ NilEmpty.string_of_uint (Nat.to_uint (snd p)))%string.

(* string.ascii_lowercase[n]; IndexError beyond the end *)
Definition lowercase : list ascii := list_ascii_of_string "abcdefghijklmnopqrstuvwxyz".
Definition letter (n : nat) : outcome ascii :=
  match nth_error lowercase n with Some c => Done c | None => Failed NoIndex end.

(* the directory: whether it is there, its files, and the simulations that were made, the last one first *)
Record disk (S : Type) := mk_disk { there : bool; file : string -> option S; runs : list key }.
Arguments mk_disk {S} there file runs. Arguments there {S} d. Arguments file {S} d _. Arguments runs {S} d.

(* a panel: letter, pair, values, ends of the scale of colours; None: float("inf"), float("-inf") *)
Definition panel : Type := ascii * key * list R * option R * option R.
(* a curve: letter, pairs with their distance from the last one *)
Definition curve : Type := ascii * list (key * R).

Section Example_.
  Context {S : Type}.
  (* config.force; bool(config.outputs_path) *)
  Variables force write : bool.
  Variable sim : key -> S.
  (* state.temperature.ravel(); _relative_temperature_error(reference, state) *)
  Variable temps : S -> list R.
  Variable error : S -> S -> R.

  Definition andthen {A B} (r : disk S * outcome A) (f : A -> disk S -> disk S * outcome B) : disk S * outcome B :=
    match r with
    | (d, Done a) => f a d
    | (d, Failed t) => (d, Failed t)
    end.

  (* bot:461-492; open(..., "wb+") needs the directory *)
  Definition simulate (p : key) (d : disk S) : disk S * outcome unit :=
    let ran := p :: runs d in
    if write then
      if there d then (mk_disk true (fun n => if string_dec (state_name p) n then Some (sim p) else file d n) ran, Done tt)
      else (mk_disk (there d) (file d) ran, Failed NoFile)
    else (mk_disk (there d) (file d) ran, Done tt).

  (* path.exists() *)
  Definition exists_ (p : key) (d : disk S) : bool := match file d (state_name p) with Some _ => true | None => false end.

  (* bot:117-125 *)
  Definition load_or_simulate (only_ensure : bool) (p : key) (d : disk S) : disk S * outcome (option S) :=
    andthen (if force || negb (exists_ p d) then simulate p d else (d, Done tt)) (fun _ d =>
    if only_ensure then (d, Done None)
    else match file d (state_name p) with
         | Some s => (d, Done (Some s))
         | None => (d, Failed NoFile)
         end).

  (* load_or_simulate(...) and assert state is not None, as in bot:205-206, 221-222, 332-333, 340-341, 369-370 *)
  Definition load (p : key) (d : disk S) : disk S * outcome S :=
    andthen (load_or_simulate false p d) (fun o d => match o with Some s => (d, Done s) | None => (d, Failed NoState) end).

  (* bot:515-518, 531-533 *)
  Fixpoint ensure_all (ps : list key) (d : disk S) : disk S * outcome unit :=
    match ps with
    | [] => (d, Done tt)
    | p :: ps => andthen (load_or_simulate true p d) (fun _ d => ensure_all ps d)
    end.

  (* min(field_min, ...) with field_min infinite at first *)
  Definition lower (a : option R) (x : R) : option R := match a with None => Some x | Some a => Some (Rmin a x) end.
  Definition higher (a : option R) (x : R) : option R := match a with None => Some x | Some a => Some (Rmax a x) end.
  (* bot:200-214; temperature.min() of no values raises *)
  Fixpoint scan (ps : list key) (lo hi : option R) (d : disk S) : disk S * outcome (option R * option R) :=
    match ps with
    | [] => (d, Done (lo, hi))
    | p :: ps =>
        andthen (load p d) (fun s d =>
        match temps s with
        | [] => (d, Failed NoValue)
        | t :: ts => scan ps (lower lo (fold_left Rmin ts t)) (higher hi (fold_left Rmax ts t)) d
        end)
    end.
  (* bot:217-269; n is seq_num before the panel *)
  Fixpoint render (ps : list key) (n : nat) (lo hi : option R) (d : disk S) : disk S * outcome (list panel) :=
    match ps with
    | [] => (d, Done [])
    | p :: ps =>
        andthen (load p d) (fun s d =>
        andthen (d, letter n) (fun c d =>
        andthen (render ps (Datatypes.S n) lo hi d) (fun l d => (d, Done ((c, p, temps s, lo, hi) :: l)))))
    end.
  (* bot:194-291; the rows one after another *)
  Definition draw_temperature_grid (rows : list (list key)) (d : disk S) : disk S * outcome (list panel) :=
    andthen (scan (concat rows) None None d) (fun r d => render (concat rows) 0 (fst r) (snd r) d).

  (* bot:338-348 *)
  Fixpoint distances (reference : S) (ps : list key) (d : disk S) : disk S * outcome (list (key * R)) :=
    match ps with
    | [] => (d, Done [])
    | p :: ps =>
        andthen (load p d) (fun s d =>
        andthen (distances reference ps d) (fun l d => (d, Done ((p, Rmax (error reference s) (/ 10 ^ 16)) :: l))))
    end.
  (* bot:320-363; the maximum with 1e-16 of line 351 is taken above; None leaves its place empty *)
  Fixpoint curves (seqs : list (option (list key))) (n : nat) (d : disk S) : disk S * outcome (list curve) :=
    match seqs with
    | [] => (d, Done [])
    | None :: seqs => curves seqs n d
    | Some seq :: seqs =>
        match rev seq with
        | [] => (d, Failed NoIndex)
        | final :: before =>
            andthen (load final d) (fun reference d =>
            andthen (distances reference (rev before) d) (fun l d =>
            andthen (d, letter n) (fun c d =>
            andthen (curves seqs (Datatypes.S n) d) (fun cs d => (d, Done ((c, l) :: cs))))))
        end
    end.

  (* bot:376-398 *)
  Fixpoint rows_of (reference : S) (alpha : string) (ihs : list nat) (d : disk S) : disk S * outcome (list (nat * R * R)) :=
    match ihs with
    | [] => (d, Done [])
    | ih :: ihs =>
        andthen (load ("inf", ih) d) (fun s_inf d =>
        andthen (load (alpha, ih) d) (fun s_alpha d =>
        andthen (rows_of reference alpha ihs d) (fun l d => (d, Done ((ih, error reference s_inf, error reference s_alpha) :: l)))))
    end.
  (* bot:367-398; alpha is alpha_comp of line 372 *)
  Definition table (alpha : string) (ihs : list nat) (d : disk S) : disk S * outcome (list (nat * R * R)) :=
    match ihs with
    | [] => (d, Failed NoValue)
    | ih :: rest => andthen (load ("inf", fold_left Nat.max rest ih) d) (fun reference d => rows_of reference alpha ihs d)
    end.

  (* bot:521-530 *)
  Definition all_params (grid : list (list key)) (seqs : list (list (option (list key)))) : list key :=
    nodup key_dec (concat grid ++ concat (map (fun o => match o with Some l => l | None => [] end) (concat seqs))).

  (* bot:495-537; order is the order in which the set is passed through.  An exception of the table is caught (447). *)
  Definition main (order : list key -> list key) (alphas : list string) (ihs : list nat) (grid : list (list key))
    (seqs : list (list (option (list key)))) (alpha : string) (d : disk S)
    : disk S * outcome (list panel * list curve * outcome (list (nat * R * R))) :=
    andthen (ensure_all (list_prod alphas ihs) d) (fun _ d =>
    andthen (ensure_all (order (all_params grid seqs)) (mk_disk true (file d) (runs d))) (fun _ d =>
    andthen (draw_temperature_grid grid d) (fun panels d =>
    andthen (curves (concat seqs) 0 d) (fun cs d =>
    let (d, t) := table alpha ihs d in (d, Done (panels, cs, t)))))).
End Example_.

(* bot:21-55; the numbers as Python prints them *)
Definition ALPHAS : list string := ["0.01"; "0.1"; "1"; "10"; "100"; "1000"; "10000"; "100000"; "1000000"; "inf"].
Definition IHS : list nat := [4; 8; 16; 32; 48; 72].
Definition TEMPERATURE_GRID : list (list key) :=
  [[("inf", 4); ("inf", 72)]; [("10", 72); ("100", 72)]; [("0.1", 72); ("1", 72)]; [("0.01", 4); ("0.01", 72)]].
Definition CONVERGENCE_SEQUENCES : list (list (option (list key))) :=
  [[Some (map (fun h => ("0.01", h)) IHS); Some (map (fun h => ("inf", h)) IHS)];
   [Some (map (fun a => (a, 4)) ALPHAS); Some (map (fun a => (a, 72)) ALPHAS)];
   [Some [("0.01", 4); ("0.1", 8); ("1", 8); ("10", 16); ("100", 16); ("1000", 32); ("10000", 32); ("100000", 48); ("1000000", 72); ("inf", 72)]; None]].
