(* Model of the results that the examples keep in files between two runs:
   examples/BartmanSzwarc_Ochal_Sofonea_Tarzia_2025.py (bost) 113-180, examples/BOSK_2024.py (bosk) 65-112,
   examples/Makela_et_al_1998.py (mak) 146-250 and examples/BartmanSzwarc_Bagirrov_Ochal_2025.py (bbo) 207-328.
   A directory is a function from file names (without the constant parts) to contents; the solvers are functions.
   Left out: drawing, printing, the clearing of callbacks in a state before it is written. *)
From Coq Require Import List Arith Bool.
Import ListNotations.

Inductive trouble := NoFile | NotListed.
Inductive outcome (A : Type) := Good (a : A) | Bad (t : trouble).
Arguments Good {A} a. Arguments Bad {A} t.

(* a directory *)
Definition files (K S : Type) := K -> option S.

Section Directory.
  Context {K S : Type} (dec : forall a b : K, {a = b} + {a <> b}).

  (* open(path, "wb+") and pickle.dump *)
  Definition put (f : files K S) (k : K) (s : S) : files K S := fun k' => if dec k k' then Some s else f k'.
  (* try: pickle.load(open(path, "rb")) except IOError *)
  Definition present (f : files K S) (k : K) : bool := match f k with Some _ => true | None => false end.
  (* open(path, "rb") and pickle.load for every name *)
  Fixpoint load_all (f : files K S) (ks : list K) : outcome (list S) :=
    match ks with
    | [] => Good []
    | k :: ks => match f k with
                 | None => Bad NoFile
                 | Some s => match load_all f ks with Good l => Good (s :: l) | Bad t => Bad t end
                 end
    end.

  (* list.index *)
  Fixpoint index (x : K) (l : list K) : option nat :=
    match l with
    | [] => None
    | y :: l => if dec x y then Some 0 else match index x l with Some n => Some (Datatypes.S n) | None => None end
    end.
  (* bost:139, 158  igs[igs.index(x) - 1]; index -1 is the last entry *)
  Definition before (igs : list K) (x : K) : option K :=
    match index x igs with
    | None => None
    | Some 0 => nth_error igs (length igs - 1)
    | Some (Datatypes.S n) => nth_error igs n
    end.

  Section Continuation.
    (* bost:145-155  prepare_setup and solve for the value ig; None: start from setup.initial_displacement,
       Some s: start from the displacement of s *)
    Variable solve : K -> option S -> S.

    (* bost:144-175  the loop; a state that is loaded for the next start replaces the one to be written *)
    Fixpoint simulate_values (igs todo : list K) (start : option S) (f : files K S) : outcome (files K S) :=
      match todo with
      | [] => Good f
      | ig :: rest =>
          let state := solve ig start in
          match rest with
          | [] => Good (put f ig state)
          | next :: _ =>
              match before igs next with
              | None => Bad NotListed
              | Some ig_prev =>
                  if dec ig ig_prev then simulate_values igs rest None (put f ig state)
                  else match f ig_prev with
                       | None => Bad NoFile
                       | Some state' => simulate_values igs rest (Some state') (put f ig state')
                       end
              end
          end
      end.

    (* bost:113-180  main up to the drawing: the directory afterwards and the states that are drawn.
       igs is not empty (line 114) *)
    Definition continue_values (force : bool) (igs : list K) (f : files K S) : outcome (files K S * list S) :=
      let todo := if force then igs else filter (fun ig => negb (present f ig)) igs in
      let simulated :=
        match todo, igs with
        | first :: _, ig0 :: _ =>
            if dec first ig0 then simulate_values igs todo None f
            else match before igs first with
                 | None => Bad NotListed
                 | Some ig_prev => match f ig_prev with
                                   | None => Bad NoFile
                                   | Some state => simulate_values igs todo (Some state) f
                                   end
                 end
        | _, _ => Good f
        end in
      match simulated with
      | Bad t => Bad t
      | Good f' => match load_all f' igs with Good l => Good (f', l) | Bad t => Bad t end
      end.
  End Continuation.
End Directory.

(* bosk:65-70  output_step; int(steps * 0.25) etc. are exact quotients *)
Definition quarters (steps : nat) : list nat := [steps / 4; steps / 2; 3 * steps / 4; steps].

(* bosk:107-108  for step, state in enumerate(states): state.save(...) *)
Fixpoint save_all {S : Type} (f : files nat S) (n : nat) (states : list S) : files nat S :=
  match states with
  | [] => f
  | s :: states => save_all (put Nat.eq_dec f n s) (n + 1) states
  end.

(* bosk:65-112  runner for one name: the states that are drawn and the directory afterwards;
   run steps are the states that WaveSolver.solve puts out *)
Definition wave_runner {S : Type} (run : nat -> list S) (force : bool) (steps : nat) (f : files nat S) : outcome (list S * files nat S) :=
  let to_simulate := force || negb (forallb (present f) (quarters steps)) in
  if to_simulate then Good (run steps, save_all f 0 (run steps))
  else match load_all f (quarters steps) with Good l => Good (l, f) | Bad t => Bad t end.

Section Survey.
  Context {M F L S V : Type} (mdec : forall a b : M, {a = b} + {a <> b}) (fdec : forall a b : F, {a = b} + {a <> b})
    (kdec : forall a b : M * L, {a = b} + {a <> b}).
  (* the force as written in the name of the file, f"{f:.2e}" *)
  Variable label : F -> L.
  (* mak:189-202, bbo:261-274  the solution for a method and a force; None: the usual start.
     mak:203, bbo:282  its loss *)
  Variables (solve : M -> F -> option S -> S) (loss : S -> V).
  (* bbo:247  "qsm" in method; never in mak *)
  Variable keeps : M -> bool.

  (* losses: a dict of dicts *)
  Definition table := M -> F -> option V.
  Definition record (t : table) (m : M) (f : F) (v : V) : table :=
    fun m' f' => if mdec m m' then if fdec f f' then Some v else t m' f' else t m' f'.

  (* mak:174-214, bbo:243-292  the loop; prev: the method and state of the round before *)
  Fixpoint survey_loop (todo : list (M * F)) (prev : option (M * S)) (t : table) (d : files (M * L) S) : table * files (M * L) S :=
    match todo with
    | [] => (t, d)
    | (m, f) :: todo =>
        let start := match prev with
                     | Some (mtd, s) => if keeps m then if mdec mtd m then Some s else None else None
                     | None => None
                     end in
        let state := solve m f start in
        survey_loop todo (Some (m, state)) (record t m f (loss state)) (put kdec d (m, label f) state)
    end.

  (* mak:152-163, bbo:214-227  the pairs to do *)
  Definition survey_todo (force : bool) (methods : list M) (forces : list F) (d : files (M * L) S) : list (M * F) :=
    let pairs := list_prod methods forces in
    if force then pairs else filter (fun p => negb (present d (fst p, label (snd p)))) pairs.

  (* mak:152-217, bbo:214-295  main up to the drawing; the file of losses is written anew if anything was done *)
  Definition survey (force : bool) (methods : list M) (forces : list F) (kept : option table) (d : files (M * L) S) : option table * files (M * L) S :=
    match survey_todo force methods forces d with
    | [] => (kept, d)
    | todo => let '(t, d') := survey_loop todo None (fun _ _ => None) d in (Some t, d')
    end.
End Survey.
