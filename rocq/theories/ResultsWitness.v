(* Concrete directories for C112. *)
From Coq Require Import List Arith Bool Lia.
From Verif Require Import ResultsModel ResultsSpec ResultsProofs ResultsFinal.
Import ListNotations.

(* values 1, 2, 3; a result is kept for 2 *)
Definition kept_two : files nat nat := fun k => if Nat.eq_dec k 2 then Some 2 else None.
Definition name_itself : nat -> option nat -> nat := fun k _ => k.
Lemma two_gap : gap_after kept_two [1; 2; 3] 1 2.
Proof. exists [], [], 3, []. repeat split. constructor; [discriminate|constructor]. Qed.
Lemma two_no_gap : no_gap_after kept_two [1; 2; 3] 3.
Proof. exists [1; 2], []. split; [reflexivity|]. left. constructor. Qed.
Lemma own_witness : ~ (forall (solve : nat -> option nat -> nat) igs f f' l, NoDup igs -> igs <> [] ->
  (forall k s, f k = Some s -> exists g, s = solve k g) -> continue_values Nat.eq_dec solve false igs f = Good (f', l) ->
  forall x, In x igs -> exists g, f' x = Some (solve x g)).
Proof.
  intros H. destruct (continue_resumed Nat.eq_dec name_itself [1; 2; 3] kept_two ltac:(repeat constructor; cbn; intuition lia) ltac:(discriminate)) as (f' & l & E & _ & _ & _ & O).
  destruct (H name_itself [1; 2; 3] kept_two f' l ltac:(repeat constructor; cbn; intuition lia) ltac:(discriminate)) with (x := 1) as (g & Q); [|exact E|cbn; tauto|].
  - intros k s K. exists None. unfold kept_two in K. destruct (Nat.eq_dec k 2) as [->|]; [injection K; auto|discriminate].
  - destruct (O 1 ltac:(cbn; tauto) eq_refl) as (G & _). rewrite (G 2 two_gap) in Q. cbn in Q. discriminate.
Qed.

(* four states of a run of n steps, all n *)
Definition four (n : nat) : list nat := [n; n; n; n].
Lemma stale_witness : ~ (forall (run : nat -> list nat) f force steps l f', (forall n, length (run n) <= 4) ->
  reached (fun _ => None) (called run) f -> wave_runner run force steps f = Good (l, f') -> l = run steps).
Proof.
  intros H. assert (R : reached (fun _ => None) (called four) (save_all (fun _ => None) 0 (four 8))).
  { apply (one_more _ _ (fun _ => None)); [constructor|]. exists true, 8, (four 8). reflexivity. }
  assert (Q := H four _ false 3 _ _ ltac:(intros; cbn; lia) R (runner_stale four (fun _ => None) true 8 (four 8) _ eq_refl eq_refl eq_refl eq_refl)). discriminate.
Qed.

Definition pair_dec : forall a b : nat * nat, {a = b} + {a <> b}.
Proof. intros a b. decide equality; apply Nat.eq_dec. Defined.
(* method 0 with the forces 0 and 1; a result and a loss are kept for force 0 *)
Definition kept_force : files (nat * nat) nat := fun k => if pair_dec k (0, 0) then Some 5 else None.
Definition kept_losses : nat -> nat -> option nat := fun m f => if pair_dec (m, f) (0, 0) then Some 5 else None.
Lemma losses_witness : ~ (forall (label : nat -> nat) (solve : nat -> nat -> option nat -> nat) (loss : nat -> nat) keeps methods forces (t0 t : nat -> nat -> option nat) d d',
  (forall m f, d (m, label f) <> None -> t0 m f <> None) ->
  survey Nat.eq_dec Nat.eq_dec pair_dec label solve loss keeps false methods forces (Some t0) d = (Some t, d') ->
  forall m f, In m methods -> In f forces -> t m f <> None).
Proof.
  intros H.
  destruct (survey_resumed Nat.eq_dec Nat.eq_dec pair_dec (fun f => f) (fun _ f _ => f) (fun s => s) (fun _ => false) [0] [0; 1] (Some kept_losses) kept_force 0 1
    ltac:(cbn; tauto) ltac:(cbn; tauto) eq_refl) as (t & d' & E & T).
  assert (Q := H (fun f => f) (fun _ f _ => f) (fun s => s) (fun _ => false) [0] [0; 1] kept_losses t kept_force d'
    (fun m f X => X) E 0 0 ltac:(cbn; tauto) ltac:(cbn; tauto)). apply T in Q. destruct Q as (_ & _ & Q). discriminate.
Qed.
Lemma names_witness : ~ (forall (label : nat -> nat) (solve : nat -> nat -> option nat -> nat) (loss : nat -> nat) keeps methods forces t0 t d d',
  NoDup methods -> NoDup forces ->
  survey Nat.eq_dec Nat.eq_dec pair_dec label solve loss keeps true methods forces t0 d = (Some t, d') ->
  forall m f, In m methods -> In f forces -> exists g, d' (m, label f) = Some (solve m f g)).
Proof.
  intros H.
  destruct (H (fun _ => 0) (fun _ f _ => f) (fun s => s) (fun _ => false) [0] [0; 1] None _ (fun _ => None) _ ltac:(repeat constructor; cbn; tauto)
    ltac:(repeat constructor; cbn; intuition lia) eq_refl 0 0 ltac:(cbn; tauto) ltac:(cbn; tauto)) as (g & Q). discriminate.
Qed.
