(* States: C46, C47, C54. *)
From Coq Require Import Reals List Arith ZArith Bool String Lia Lra.
From Verif Require Import PyModel RVec StateModel StateLemmas StateProofs TimeWitness ProductRecords.
Import ListNotations.
Local Open Scope R_scope.

(* ------------------------------------------------------------------ C46 *)

(* before the first read the stress is the law of the fields as they are *)
Theorem C46_first_read : forall V W (m : store V) (s : state W) f, stress_cache s = None -> constitutive_law s = Some f ->
  snd (stress m s) = Some (f (look m s)).
Proof. exact @stress_first. Qed.
Print Assumptions C46_first_read.

(* afterwards it is the first value, whatever store and fields are then *)
Theorem C46_later_reads : forall V W (m m' : store V) (s s' : state W) x, snd (stress m s) = Some x ->
  stress_cache s' = stress_cache (fst (stress m s)) -> snd (stress m' s') = Some x.
Proof. exact @stress_kept. Qed.
Print Assumptions C46_later_reads.

(* no setter forgets it *)
Theorem C46_setters : forall V W dimension nodes_count nodes (m : store V) (s : state W) len c t b,
  stress_cache (snd (fst (set_velocity dimension nodes_count nodes m s len c t b))) = stress_cache s /\
  stress_cache (snd (fst (set_displacement dimension nodes_count nodes m s len c t b))) = stress_cache s.
Proof.
  exact (fun V W d n nodes m s len c t b => conj (proj1 (set_velocity_cache d n nodes m s len c t b))
    (proj1 (set_displacement_cache d n nodes m s len c t b))).
Qed.
Print Assumptions C46_setters.

Example C46_example : stress_cache stressed = None /\ constitutive_law stressed = Some pull.
Proof. split; reflexivity. Qed.

Theorem C46_refuted : exists s1 m s2,
  stress few stressed = (s1, Some (pull (look few stressed))) /\
  set_displacement 2 1 place few s1 2 4 1 false = (m, s2, Ok tt) /\
  snd (stress m s2) <> Some (pull (look m s2)).
Proof. exact stress_stale. Qed.
Print Assumptions C46_refuted.

(* ------------------------------------------------------------------ C47 *)

(* a file is written: all four attributes are back, and the file has none of them *)
Theorem C47_written : forall F S L File (dump : savable F S L -> result File) x f,
  snd (save dump x) = Ok f -> fst (save dump x) = x /\ dump (mkSavable None None None None) = Ok f.
Proof. exact save_ok. Qed.
Print Assumptions C47_written.

(* writing fails: all four are lost *)
Theorem C47_failed : forall F S L File (dump : savable F S L -> result File) x e,
  snd (save dump x) = Err e -> fst (save dump x) = mkSavable None None None None.
Proof. exact save_err. Qed.
Print Assumptions C47_failed.

Example C47_example : let x := mkSavable (Some 1%nat) (Some 2%nat) (Some tt) (Some true) in
  snd (save (fun y => Ok y) x) = Ok (mkSavable None None None None).
Proof. reflexivity. Qed.

Theorem C47_refuted : exists (dump : savable nat unit bool -> result unit) x,
  fst (save dump x) <> x.
Proof.
  exists (fun _ => Err ValueError), (mkSavable (Some 1%nat) (Some 2%nat) (Some tt) (Some true)). discriminate.
Qed.
Print Assumptions C47_refuted.

(* ------------------------------------------------------------------ C54 *)

(* [keys]: the keys of a dictionary, all different *)
Theorem C54_range : forall V (p : product V) a b, NoDup (keys (p_data p)) ->
  exists q, product_range p a b = Ok q /\ p_name q = p_name p /\ NoDup (keys (p_data q)) /\
    forall k v, In (k, v) (p_data q) <-> In (k, v) (p_data p) /\ a < k <= b.
Proof. exact @range_spec. Qed.
Print Assumptions C54_range.

(* recording keeps the keys different, and nothing but the record of that time changes *)
Theorem C54_record : forall V (d : list (R * V)) k v, NoDup (keys d) ->
  NoDup (keys (time_set d k v)) /\
  forall k', time_get (time_set d k v) k' = if Req_EM_T k' k then Some v else time_get d k'.
Proof. exact (fun V d k v N => conj (time_set_nodup d k v N) (time_set_get d k v)). Qed.
Print Assumptions C54_record.

Example C54_example : NoDup (keys (p_data (mkProduct "p" None [(1, 10); (2, 20); (3, 30)]))).
Proof.
  cbn [p_data keys map fst]. repeat (apply NoDup_cons; [cbn [In]; intros H; repeat destruct H as [H|H]; lra|]). apply NoDup_nil.
Qed.

(* a setter that returns has recorded in every product of the state the value of its update
   at the new time, and left the records of all other times *)
Theorem C54_displacement : forall V W dim n nodes (m m' : store V) (s s' : state W) len c t b, NoDup (map snd (products s)) ->
  (forall k r, In (k, r) (products s) -> (r < stock m)%nat) -> set_displacement dim n nodes m s len c t b = (m', s', Ok tt) ->
  forall k r, In (k, r) (products s) -> exists f v, p_update (get_product m r) = Some f /\ f (look m' s') = Ok v /\ p_update (get_product m' r) = Some f /\
    forall t', time_get (p_data (get_product m' r)) t' = if Req_EM_T t' t then Some v else time_get (p_data (get_product m r)) t'.
Proof. exact @displacement_recorded. Qed.
Print Assumptions C54_displacement.

Theorem C54_velocity : forall V W dim n nodes (m m' : store V) (s s' : state W) len c t b, NoDup (map snd (products s)) ->
  (forall k r, In (k, r) (products s) -> (r < stock m)%nat) -> set_velocity dim n nodes m s len c t b = (m', s', Ok tt) ->
  forall k r, In (k, r) (products s) -> exists f v, p_update (get_product m r) = Some f /\ f (look m' s') = Ok v /\ p_update (get_product m' r) = Some f /\
    forall t', time_get (p_data (get_product m' r)) t' = if Req_EM_T t' t then Some v else time_get (p_data (get_product m r)) t'.
Proof. exact @velocity_recorded. Qed.
Print Assumptions C54_velocity.

(* one product that has recorded at 0 the time it saw *)
Example C54_recorded_example :
  let m := mkStore [fun _ => 0; fun _ => 0; fun _ => 0; fun _ => 0; fun _ => 0] [mkProduct "p" (Some (fun v => Ok (view_time v))) [(0, 0)]] in
  let s := mkState 0 1 2 3 Plain 0 [("p"%string, 0%nat)] None None : state unit in
  NoDup (map snd (products s)) /\ (forall k r, In (k, r) (products s) -> (r < stock m)%nat) /\
  (exists m' s', set_displacement 2 1 (fun _ => 0) m s 2 4 1 true = (m', s', Ok tt)) /\
  (exists m' s', set_velocity 2 1 (fun _ => 0) m s 2 4 1 true = (m', s', Ok tt)).
Proof.
  cbv zeta. split; [repeat constructor; intros []|]. split; [intros k r [E|[]]; injection E as _ <-; cbn; lia|].
  split; eexists; eexists; reflexivity.
Qed.

(* the penetration recorded: the lowest second coordinate of a displaced contact node *)
Theorem C54_penetration : forall nodes_count contact v, contact <> [] ->
  exists x, penetration nodes_count contact v = Ok x /\
    (forall i, In i contact -> x <= view_displaced v (nodes_count + i)%nat) /\
    (exists i, In i contact /\ x = view_displaced v (nodes_count + i)%nat).
Proof. exact penetration_spec. Qed.
Print Assumptions C54_penetration.
Example C54_penetration_example : [0%nat; 2%nat] <> [].
Proof. discriminate. Qed.
