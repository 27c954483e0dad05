(* C116: states that examples/BartmanSzwarc_Ochal_Tarzia_2026.py keeps in files, panels, curves and table made of them. *)
From Coq Require Import Arith Bool String Ascii Reals Permutation List Lia.
From Verif Require Import GridModel GridSpec GridProofs GridFinal GridTheorems GridFailures.
Import ListNotations.

(* different pairs have different files *)
Theorem C116_names : forall p q, plain (fst p) -> plain (fst q) -> state_name p = state_name q -> p = q.
Proof. exact names. Qed.
Print Assumptions C116_names.

(* whatever was kept before, forced or not: panels, curves and table show the simulations of their own pairs, and all
   panels have the scale from the least to the greatest of the shown values *)
Theorem C116_shown : forall {S} force (sim : key -> S) temps error order alphas ihs grid seqs alpha d,
  ready sim temps order alphas ihs grid seqs alpha ->
  List.length (concat grid) <= 26 ->
  there d = true ->
  force = true \/ honest sim d ->
  exists d' panels cs finest,
    main force true sim temps error order alphas ihs grid seqs alpha d =
      (d', Done (panels, cs, Done (map (fun ih => (ih, error (sim ("inf"%string, finest)) (sim ("inf"%string, ih)), error (sim ("inf"%string, finest)) (sim (alpha, ih)))) ihs))) /\
    (In finest ihs /\ forall ih, In ih ihs -> ih <= finest) /\
    List.length panels = List.length (concat grid) /\
    (forall i p, nth_error (concat grid) i = Some p -> exists lo hi, nth_error panels i = Some (alphabet i, p, temps (sim p), Some lo, Some hi) /\
      least lo (flat_map (fun p => temps (sim p)) (concat grid)) /\ greatest hi (flat_map (fun p => temps (sim p)) (concat grid))) /\
    List.length cs = List.length (sequences (concat seqs)) /\
    forall i before final, nth_error (sequences (concat seqs)) i = Some (before ++ [final]) ->
      nth_error cs i = Some (alphabet i, map (fun p => (p, Rmax (error (sim final) (sim p)) (/ 10 ^ 16))) before).
Proof. intros S force sim temps error order alphas ihs grid seqs alpha d RD FP. exact (shown force sim temps error order alphas ihs grid seqs alpha RD FP d). Qed.
Print Assumptions C116_shown.

(* after a run the file of every pair that it needs is there and holds its simulation *)
Theorem C116_left : forall {S} force (sim : key -> S) temps error order alphas ihs grid seqs alpha d d' r p,
  ready sim temps order alphas ihs grid seqs alpha ->
  List.length (concat grid) <= 26 ->
  there d = true ->
  force = true \/ honest sim d ->
  main force true sim temps error order alphas ihs grid seqs alpha d = (d', r) ->
  asked alphas ihs grid seqs alpha p ->
  file d' (state_name p) = Some (sim p).
Proof. intros S force sim temps error order alphas ihs grid seqs alpha d d' r p RD FP. exact (left_behind force sim temps error order alphas ihs grid seqs alpha RD FP d d' r p). Qed.
Print Assumptions C116_left.

(* without force: each needed pair that has no file is simulated once, no other is *)
Theorem C116_once : forall {S} (sim : key -> S) temps error order alphas ihs grid seqs alpha d d' r,
  ready sim temps order alphas ihs grid seqs alpha ->
  List.length (concat grid) <= 26 ->
  there d = true ->
  honest sim d ->
  main false true sim temps error order alphas ihs grid seqs alpha d = (d', r) ->
  exists new, runs d' = new ++ runs d /\ NoDup new /\ forall p, In p new <-> asked alphas ihs grid seqs alpha p /\ file d (state_name p) = None.
Proof. intros S sim temps error order alphas ihs grid seqs alpha d d' r RD FP. exact (once false sim temps error order alphas ihs grid seqs alpha RD FP d d' r eq_refl). Qed.
Print Assumptions C116_once.

(* a second run simulates nothing *)
Theorem C116_again : forall {S} (sim : key -> S) temps error order alphas ihs grid seqs alpha d d1 r1 d2 r2,
  ready sim temps order alphas ihs grid seqs alpha ->
  List.length (concat grid) <= 26 ->
  there d = true ->
  honest sim d ->
  main false true sim temps error order alphas ihs grid seqs alpha d = (d1, r1) ->
  main false true sim temps error order alphas ihs grid seqs alpha d1 = (d2, r2) ->
  runs d2 = runs d1.
Proof. intros S sim temps error order alphas ihs grid seqs alpha d d1 r1 d2 r2 RD FP. exact (again false sim temps error order alphas ihs grid seqs alpha RD FP d d1 r1 d2 r2 eq_refl). Qed.
Print Assumptions C116_again.

(* with force every single use of a state simulates it anew *)
Theorem C116_forced : forall {S} (sim : key -> S) temps error order alphas ihs grid seqs alpha d d' r,
  ready sim temps order alphas ihs grid seqs alpha ->
  List.length (concat grid) <= 26 ->
  there d = true ->
  main true true sim temps error order alphas ihs grid seqs alpha d = (d', r) ->
  List.length (runs d') = List.length (runs d) + (List.length alphas * List.length ihs + List.length (all_params grid seqs) + 2 * List.length (concat grid) +
    list_sum (map (@List.length key) (sequences (concat seqs))) + 1 + 2 * List.length ihs).
Proof. intros S sim temps error order alphas ihs grid seqs alpha d d' r RD FP. exact (forced true sim temps error order alphas ihs grid seqs alpha RD FP d d' r eq_refl). Qed.
Print Assumptions C116_forced.

(* more panels than letters: IndexError after all the simulations *)
Theorem C116_letters : forall {S} force (sim : key -> S) temps error order alphas ihs grid seqs alpha d,
  ready sim temps order alphas ihs grid seqs alpha ->
  26 < List.length (concat grid) ->
  there d = true ->
  force = true \/ honest sim d ->
  exists d', main force true sim temps error order alphas ihs grid seqs alpha d = (d', Failed NoIndex).
Proof. intros S. exact many. Qed.
Print Assumptions C116_letters.

(* the run makes its directory only after the first simulations: without it the first one is made and lost *)
Theorem C116_directory_refuted : forall {S} force (sim : key -> S) temps error order a alphas i ihs grid seqs alpha d,
  there d = false ->
  file d (state_name (a, i)) = None ->
  main force true sim temps error order (a :: alphas) (i :: ihs) grid seqs alpha d = (mk_disk false (file d) ((a, i) :: runs d), Failed NoFile).
Proof. intros S. exact late. Qed.
Print Assumptions C116_directory_refuted.

(* simulate() writes nothing if the configuration names no directory, but its caller reads the file all the same *)
Theorem C116_unwritten_refuted : forall {S} force (sim : key -> S) temps error order alphas ihs p row grid seqs alpha d,
  file d (state_name p) = None ->
  exists d', main force false sim temps error order alphas ihs ((p :: row) :: grid) seqs alpha d = (d', Failed NoFile).
Proof. intros S. exact unwritten. Qed.
Print Assumptions C116_unwritten_refuted.

(* a state without values ends the run with ValueError, a sequence without pairs with IndexError; without sizes only
   the table fails, which the run survives *)
Theorem C116_values : forall {S} force (sim : key -> S) temps error order alphas ihs grid seqs alpha a p b d,
  (forall l, Permutation (order l) l) ->
  (forall q, asked alphas ihs grid seqs alpha q -> plain (fst q)) ->
  there d = true ->
  force = true \/ honest sim d ->
  concat grid = a ++ p :: b ->
  (forall q, In q a -> temps (sim q) <> []) ->
  temps (sim p) = [] ->
  exists d', main force true sim temps error order alphas ihs grid seqs alpha d = (d', Failed NoValue).
Proof. intros S force sim temps error order alphas ihs grid seqs alpha a p b d O P T H. exact (no_values force sim temps error order alphas ihs grid seqs alpha O P a p b d (conj T H)). Qed.
Print Assumptions C116_values.

Theorem C116_curve : forall {S} force (sim : key -> S) temps error order alphas ihs grid seqs alpha a b d,
  (forall l, Permutation (order l) l) ->
  (forall q, asked alphas ihs grid seqs alpha q -> plain (fst q)) ->
  (forall p, In p (concat grid) -> temps (sim p) <> []) ->
  List.length (concat grid) <= 26 ->
  there d = true ->
  force = true \/ honest sim d ->
  concat seqs = a ++ Some [] :: b ->
  (forall s, In s (sequences a) -> s <> []) ->
  List.length (sequences a) <= 26 ->
  exists d', main force true sim temps error order alphas ihs grid seqs alpha d = (d', Failed NoIndex).
Proof. intros S force sim temps error order alphas ihs grid seqs alpha a b d O P V F T H. exact (empty_curve force sim temps error order alphas ihs grid seqs alpha O P V F a b d (conj T H)). Qed.
Print Assumptions C116_curve.

Theorem C116_sizes : forall {S} force (sim : key -> S) temps error order alphas grid seqs alpha d,
  (forall l, Permutation (order l) l) ->
  (forall q, asked alphas [] grid seqs alpha q -> plain (fst q)) ->
  (forall p, In p (concat grid) -> temps (sim p) <> []) ->
  List.length (concat grid) <= 26 ->
  List.length (sequences (concat seqs)) <= 26 ->
  (forall s, In s (sequences (concat seqs)) -> s <> []) ->
  there d = true ->
  force = true \/ honest sim d ->
  exists d' panels cs, main force true sim temps error order alphas [] grid seqs alpha d = (d', Done (panels, cs, Failed NoValue)).
Proof. intros S. exact no_sizes. Qed.
Print Assumptions C116_sizes.

(* ---------------------------------------------------------------- examples *)
(* the constants of the example, nothing kept *)
Example C116_constants : ready (fun _ => tt) (fun _ => [0%R]) (fun l => l) ALPHAS IHS TEMPERATURE_GRID CONVERGENCE_SEQUENCES "1000000" /\
  List.length (concat TEMPERATURE_GRID) <= 26 /\ honest (fun _ => tt) (mk_disk true (fun _ => None) []).
Proof. split; [exact constants_ready|]. split; [cbn; lia|]. intros p s _ H. discriminate H. Qed.
(* 60 simulations without force, 166 with it *)
Example C116_count : List.length (runs (fst (main false true (fun _ => tt) (fun _ => [0%R]) (fun _ _ => 0%R) (fun l => l) ALPHAS IHS TEMPERATURE_GRID CONVERGENCE_SEQUENCES "1000000"
    (mk_disk true (fun _ => None) [])))) = 60 /\
  List.length ALPHAS * List.length IHS + List.length (all_params TEMPERATURE_GRID CONVERGENCE_SEQUENCES) + 2 * List.length (concat TEMPERATURE_GRID) +
    list_sum (map (@List.length key) (sequences (concat CONVERGENCE_SEQUENCES))) + 1 + 2 * List.length IHS = 166.
Proof. split; vm_compute; reflexivity. Qed.
Example C116_name : state_name ("0.01", 72)%string = "alpha_0.01_ih_72"%string /\ plain "0.01" /\ plain "inf".
Proof. split; [reflexivity|]. split; apply plain_check; reflexivity. Qed.
(* with underscores in the numbers two pairs could share a file *)
Example C116_underscore : state_name ("1", 2)%string = "alpha_1_ih_2"%string /\ ~ plain "1_ih_2".
Proof. split; [reflexivity|]. intros H. apply H. cbn. tauto. Qed.
(* too many panels *)
Example C116_panels : ready (fun _ => tt) (fun _ => [0%R]) (fun l => l) ["1"%string] [4] [repeat ("1"%string, 4) 27] [] "1" /\ 26 < List.length (concat [repeat ("1"%string, 4) 27]).
Proof.
  split; [|cbn; lia]. split; [reflexivity|]. split; [discriminate|]. split; [|split; [discriminate|split; [cbn; lia|intros s []]]].
  intros p [([<-|[]] & _)|[(row & [<-|[]] & J)|[(row & s & [] & _)|([-> | ->] & _)]]]; apply plain_check; try reflexivity.
  apply repeat_spec in J. rewrite J. reflexivity.
Qed.
Example C116_missing : there (mk_disk (S := unit) false (fun _ => None) []) = false /\ file (mk_disk (S := unit) false (fun _ => None) []) (state_name ("0.01"%string, 4)) = None.
Proof. split; reflexivity. Qed.
(* a state without values, a sequence without pairs, no sizes *)
Example C116_early : let t := fun s : bool => if s then [0%R] else [] in
  (exists d', main false true (fun _ => false) t (fun _ _ => 0%R) (fun l => l) [] [] [[("1"%string, 4)]] [] "1" (mk_disk true (fun _ => None) []) = (d', Failed NoValue)) /\
  (exists d', main false true (fun _ => true) t (fun _ _ => 0%R) (fun l => l) [] [] [[("1"%string, 4)]] [[Some []]] "1" (mk_disk true (fun _ => None) []) = (d', Failed NoIndex)) /\
  exists d' panels cs, main false true (fun _ => true) t (fun _ _ => 0%R) (fun l => l) ["1"%string] [] [[("1"%string, 4)]] [] "1" (mk_disk true (fun _ => None) []) = (d', Done (panels, cs, Failed NoValue)).
Proof.
  assert (P : forall a q x, asked a [] [[("1"%string, 4)]] x "1" q -> (x = [] \/ x = [[Some []]]) -> plain (fst q)).
  { intros a q x [(_ & [])|[(row & [<-|[]] & [<-|[]])|[(row & s & I & J & K)|(_ & [])]]] X; [apply plain_check; reflexivity|]. destruct X as [->| ->]; [destruct I|]. destruct I as [<-|[]].
    destruct J as [J|[]]. injection J as <-. destruct K. }
  split; [|split].
  - apply (C116_values false (fun _ => false) _ _ _ _ _ _ _ _ [] ("1"%string, 4) []); try reflexivity; [intros q A; exact (P _ q _ A (or_introl eq_refl))|right; intros p s _ H; discriminate H|intros q []].
  - apply (C116_curve false (fun _ => true) _ _ _ _ _ _ _ _ [] []); try reflexivity; [intros q A; exact (P _ q _ A (or_intror eq_refl))|discriminate|cbn; lia|right; intros p s _ H; discriminate H|intros q []|cbn; lia].
  - apply (C116_sizes false (fun _ => true)); try reflexivity; [intros q A; exact (P _ q _ A (or_introl eq_refl))|discriminate|cbn; lia|cbn; lia|intros s []|right; intros p s _ H; discriminate H].
Qed.
