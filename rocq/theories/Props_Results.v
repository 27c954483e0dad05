(* Results that the examples keep in files between two runs (C112). *)
From Coq Require Import List Arith Bool Lia.
From Verif Require Import ResultsModel ResultsSpec ResultsProofs ResultsFinal ResultsWitness ResultsRepeated.
Import ListNotations.

(* a forced run over different values succeeds; each file then holds the solution for its own value, always started from the
   default and never from the solution before; other files are left alone *)
Theorem C112_forced : forall (K S : Type) (dec : forall a b : K, {a = b} + {a <> b}) (solve : K -> option S -> S) igs f,
  NoDup igs -> igs <> [] -> exists f' l, continue_values dec solve true igs f = Good (f', l) /\
  (forall x, In x igs -> f' x = Some (solve x None)) /\ (forall k, ~ In k igs -> f' k = f k) /\ l = map (fun x => solve x None) igs.
Proof. exact @continue_forced. Qed.
Print Assumptions C112_forced.

(* a resumed run succeeds, keeps the files that were there and draws what the files then hold. The file of a missing value x
   holds its solution, started from the kept result of the value before, if the next value is missing too or no later one is;
   if values with files and then a missing one follow, it holds the kept result of the last of these values instead *)
Theorem C112_resumed : forall (K S : Type) (dec : forall a b : K, {a = b} + {a <> b}) (solve : K -> option S -> S) igs f,
  NoDup igs -> igs <> [] -> exists f' l, continue_values dec solve false igs f = Good (f', l) /\
  (forall k, f k <> None -> f' k = f k) /\ (forall k, ~ In k igs -> f' k = f k) /\ map Some l = map f' igs /\
  (forall x, In x igs -> f x = None ->
    (forall p, gap_after f igs x p -> f' x = f p) /\
    (no_gap_after f igs x -> exists g, started f igs x g /\ f' x = Some (solve x g))).
Proof. exact @continue_resumed. Qed.
Print Assumptions C112_resumed.

(* the first value repeated: for its second time the predecessor is the last value, which has no file yet *)
Theorem C112_repeated : forall (K S : Type) (dec : forall a b : K, {a = b} + {a <> b}) (solve : K -> option S -> S) a b z l (f : files K S),
  a <> b -> a <> z -> b <> z -> f z = None -> continue_values dec solve true (a :: b :: a :: l ++ [z]) f = Bad NoFile.
Proof. exact @repeated. Qed.
Print Assumptions C112_repeated.
Example C112_repeated_example : 0 <> 1 /\ 0 <> 2 /\ 1 <> 2 /\ (fun _ : nat => None : option nat) 2 = None.
Proof. repeat split; discriminate. Qed.

(* so the files need not hold solutions for their values *)
Theorem C112_own_refuted : ~ (forall (solve : nat -> option nat -> nat) igs f f' l, NoDup igs -> igs <> [] ->
  (forall k s, f k = Some s -> exists g, s = solve k g) -> continue_values Nat.eq_dec solve false igs f = Good (f', l) ->
  forall x, In x igs -> exists g, f' x = Some (solve x g)).
Proof. exact own_witness. Qed.
Print Assumptions C112_own_refuted.

(* the wave example names its files by position and looks for them by step: whatever was run before, four or more steps are
   always simulated again *)
Theorem C112_again : forall (S : Type) (run : nat -> list S) f force steps, (forall n, length (run n) <= 4) ->
  reached (fun _ => None) (called run) f -> 4 <= steps ->
  exists f', wave_runner run force steps f = Good (run steps, f') /\
    forall k, f' k = match nth_error (run steps) k with Some s => Some s | None => f k end.
Proof. exact @runner_again. Qed.
Print Assumptions C112_again.

(* it never fails *)
Theorem C112_total : forall (S : Type) (run : nat -> list S) f force steps, exists l f', wave_runner run force steps f = Good (l, f').
Proof. exact @runner_total. Qed.
Print Assumptions C112_total.

(* and a run of three steps takes the states of the run before, of whatever length, for its own *)
Theorem C112_stale_refuted : ~ (forall (run : nat -> list nat) f force steps l f', (forall n, length (run n) <= 4) ->
  reached (fun _ => None) (called run) f -> wave_runner run force steps f = Good (l, f') -> l = run steps).
Proof. exact stale_witness. Qed.
Print Assumptions C112_stale_refuted.

(* a forced survey of different methods and forces with different file names: all losses and states are those of the pairs;
   methods that keep their solution start from the one for the force before *)
Theorem C112_survey : forall (M F L S V : Type) (mdec : forall a b : M, {a = b} + {a <> b}) (fdec : forall a b : F, {a = b} + {a <> b})
  (kdec : forall a b : M * L, {a = b} + {a <> b}) (label : F -> L) (solve : M -> F -> option S -> S) (loss : S -> V) (keeps : M -> bool)
  methods forces kept d, NoDup methods -> NoDup forces -> distinct_names label forces -> methods <> [] -> forces <> [] ->
  exists t d', survey mdec fdec kdec label solve loss keeps true methods forces kept d = (Some t, d') /\
    (forall m f s, In m methods -> In (f, s) (combine forces (chain (solve m) (keeps m) None forces)) -> t m f = Some (loss s) /\ d' (m, label f) = Some s) /\
    (forall m f, t m f <> None <-> In m methods /\ In f forces).
Proof. exact @survey_forced. Qed.
Print Assumptions C112_survey.

(* a resumed survey with something to do: afterwards the losses are those of the missing pairs only *)
Theorem C112_survey_resumed : forall (M F L S V : Type) (mdec : forall a b : M, {a = b} + {a <> b}) (fdec : forall a b : F, {a = b} + {a <> b})
  (kdec : forall a b : M * L, {a = b} + {a <> b}) (label : F -> L) (solve : M -> F -> option S -> S) (loss : S -> V) (keeps : M -> bool)
  methods forces kept d m0 f0, In m0 methods -> In f0 forces -> d (m0, label f0) = None ->
  exists t d', survey mdec fdec kdec label solve loss keeps false methods forces kept d = (Some t, d') /\
    (forall m f, t m f <> None <-> In m methods /\ In f forces /\ d (m, label f) = None).
Proof. exact @survey_resumed. Qed.
Print Assumptions C112_survey_resumed.

(* with nothing to do nothing is changed *)
Theorem C112_survey_nothing : forall (M F L S V : Type) (mdec : forall a b : M, {a = b} + {a <> b}) (fdec : forall a b : F, {a = b} + {a <> b})
  (kdec : forall a b : M * L, {a = b} + {a <> b}) (label : F -> L) (solve : M -> F -> option S -> S) (loss : S -> V) (keeps : M -> bool)
  methods forces kept d, (forall m f, In m methods -> In f forces -> d (m, label f) <> None) ->
  survey mdec fdec kdec label solve loss keeps false methods forces kept d = (kept, d).
Proof. exact @survey_nothing. Qed.
Print Assumptions C112_survey_nothing.

(* the losses that were kept for the other pairs are gone *)
Theorem C112_losses_refuted : ~ (forall (label : nat -> nat) (solve : nat -> nat -> option nat -> nat) (loss : nat -> nat) keeps methods forces (t0 t : nat -> nat -> option nat) d d',
  (forall m f, d (m, label f) <> None -> t0 m f <> None) ->
  survey Nat.eq_dec Nat.eq_dec pair_dec label solve loss keeps false methods forces (Some t0) d = (Some t, d') ->
  forall m f, In m methods -> In f forces -> t m f <> None).
Proof. exact losses_witness. Qed.
Print Assumptions C112_losses_refuted.

(* forces that are written alike in the file names overwrite each other *)
Theorem C112_names_refuted : ~ (forall (label : nat -> nat) (solve : nat -> nat -> option nat -> nat) (loss : nat -> nat) keeps methods forces t0 t d d',
  NoDup methods -> NoDup forces ->
  survey Nat.eq_dec Nat.eq_dec pair_dec label solve loss keeps true methods forces t0 d = (Some t, d') ->
  forall m f, In m methods -> In f forces -> exists g, d' (m, label f) = Some (solve m f g)).
Proof. exact names_witness. Qed.
Print Assumptions C112_names_refuted.

(* hypotheses of C112_forced and C112_resumed, both cases *)
Example C112_values_example : NoDup [1; 2; 3] /\ gap_after kept_two [1; 2; 3] 1 2 /\ no_gap_after kept_two [1; 2; 3] 3 /\ kept_two 1 = None /\ kept_two 3 = None.
Proof. split; [repeat constructor; cbn; intuition lia|]. split; [exact two_gap|]. split; [exact two_no_gap|]. split; reflexivity. Qed.
(* of C112_again: after a run of eight steps *)
Example C112_again_example : (forall n, length (four n) <= 4) /\ reached (fun _ => None) (called four) (save_all (fun _ => None) 0 (four 8)).
Proof. split; [intros; cbn; lia|]. apply (one_more _ _ (fun _ => None)); [constructor|]. exists true, 8, (four 8). reflexivity. Qed.
(* of C112_survey: two methods, the second keeps its solution; the states are computed *)
Example C112_survey_example : distinct_names (fun f : nat => f + 1) [3; 4] /\
  exists t d', survey Nat.eq_dec Nat.eq_dec pair_dec (fun f => f + 1) (fun m f g => 100 * m + 10 * f + match g with Some s => s | None => 0 end) (fun s => s + 7)
    (fun m => Nat.eqb m 1) true [0; 1] [3; 4] None (fun _ => None) = (Some t, d') /\
  d' (0, 4) = Some 30 /\ d' (0, 5) = Some 40 /\ d' (1, 4) = Some 130 /\ d' (1, 5) = Some 270 /\ t 1 4 = Some 277.
Proof. split; [intros a b _ _ H; lia|]. eexists. eexists. split; [reflexivity|]. repeat split. Qed.
(* of C112_survey_resumed *)
Example C112_survey_resumed_example : kept_force (0, 1) = None /\ kept_force (0, 0) <> None.
Proof. split; [reflexivity|discriminate]. Qed.
