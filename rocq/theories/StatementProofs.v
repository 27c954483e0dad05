(* Program logic for the statement model: values of fresh arrays, frame property. *)
From Coq Require Import Reals List Arith Bool String Lia Lra.
From Verif Require Import Common PyModel RVec DofModel DofSpec DirichletModel DirichletSpec DirichletProofs
  StatementModel.
Import ListNotations.
Local Open Scope list_scope.
Local Open Scope R_scope.

(* ------------------------------------------------------------ heaps *)

Lemma set_nth_length {A} k (x : A) l : List.length (set_nth k x l) = List.length l.
Proof. revert k; induction l as [|y l IH]; intros [|k]; simpl; auto. Qed.

Lemma set_nth_same {A} k (x d : A) l : (k < List.length l)%nat -> nth k (set_nth k x l) d = x.
Proof. revert k; induction l as [|y l IH]; intros [|k] H; simpl in *; try lia; auto. apply IH; lia. Qed.

Lemma set_nth_other {A} k j (x d : A) l : k <> j -> nth j (set_nth k x l) d = nth j l d.
Proof. revert k j; induction l as [|y l IH]; intros [|k] [|j] H; simpl; auto; try congruence. Qed.

(* every array of h is still in h' with the same contents *)
Definition hext (h h' : heap) : Prop :=
  (List.length (mats h) <= List.length (mats h'))%nat /\
  (forall a, (a < List.length (mats h))%nat -> nth a (mats h') (fun _ _ => 0) = nth a (mats h) (fun _ _ => 0)) /\
  (List.length (vecs h) <= List.length (vecs h'))%nat /\
  (forall a, (a < List.length (vecs h))%nat -> nth a (vecs h') (fun _ => 0) = nth a (vecs h) (fun _ => 0)).

Lemma hext_refl h : hext h h.
Proof. repeat split; auto. Qed.

Lemma hext_trans h1 h2 h3 : hext h1 h2 -> hext h2 h3 -> hext h1 h3.
Proof.
  intros (A1 & A2 & A3 & A4) (B1 & B2 & B3 & B4). repeat split; try lia.
  - intros a Ha. rewrite B2 by lia. auto.
  - intros a Ha. rewrite B4 by lia. auto.
Qed.

Lemma hext_new_m h A : hext h (mkHeap (mats h ++ [A]) (vecs h)).
Proof.
  repeat split; simpl; auto.
  - rewrite app_length; simpl; lia.
  - intros a Ha. rewrite app_nth1; auto.
Qed.

Lemma hext_new_v h x : hext h (mkHeap (mats h) (vecs h ++ [x])).
Proof.
  repeat split; simpl; auto.
  - rewrite app_length; simpl; lia.
  - intros a Ha. rewrite app_nth1; auto.
Qed.

Lemma hext_store_m h0 h r A : hext h0 h -> (List.length (mats h0) <= m_addr r)%nat -> hext h0 (store_m h r A).
Proof.
  intros (A1 & A2 & A3 & A4) H. unfold store_m. repeat split; simpl; auto.
  - rewrite set_nth_length; auto.
  - intros a Ha. rewrite set_nth_other by lia. auto.
Qed.

Lemma hext_store_v h0 h r x : hext h0 h -> (List.length (vecs h0) <= v_addr r)%nat -> hext h0 (store_v h r x).
Proof.
  intros (A1 & A2 & A3 & A4) H. unfold store_v. repeat split; simpl; auto.
  - rewrite set_nth_length; auto.
  - intros a Ha. rewrite set_nth_other by lia. auto.
Qed.

(* reference r shows the n x m matrix A *)
Definition mval (h : heap) (r : mref) (n m : nat) (A : mat) : Prop :=
  (m_addr r < List.length (mats h))%nat /\ m_rows r = n /\ m_cols r = m /\ meq n m (load_m h r) A.
(* reference r shows the vector x of length n *)
Definition vval (h : heap) (r : vref) (n : nat) (x : vec) : Prop :=
  (v_addr r < List.length (vecs h))%nat /\ v_len r = n /\ veq n (load_v h r) x.

Lemma mval_ext h h' r n m A : hext h h' -> mval h r n m A -> mval h' r n m A.
Proof.
  intros (A1 & A2 & _) (B1 & B2 & B3 & B4). repeat split; auto; try lia.
  unfold load_m. rewrite A2 by auto. exact B4.
Qed.

Lemma vval_ext h h' r n x : hext h h' -> vval h r n x -> vval h' r n x.
Proof.
  intros (_ & _ & A1 & A2) (B1 & B2 & B4). repeat split; auto; try lia.
  unfold load_v. rewrite A2 by auto. exact B4.
Qed.

(* addresses allocated after h *)
Definition mfresh (h : heap) (r : mref) : Prop := (List.length (mats h) <= m_addr r)%nat.
Definition vfresh (h : heap) (r : vref) : Prop := (List.length (vecs h) <= v_addr r)%nat.

Lemma mfresh_ext h h' r : hext h h' -> mfresh h' r -> mfresh h r.
Proof. intros (A1 & _) H. unfold mfresh in *. lia. Qed.
Lemma vfresh_ext h h' r : hext h h' -> vfresh h' r -> vfresh h r.
Proof. intros (_ & _ & A1 & _) H. unfold vfresh in *. lia. Qed.

(* ------------------------------------------------- evaluation rules *)

Section Logic.
  Context {F : Type}.
  Variable integrate : F -> R -> F * result (nat * vec).
  Notation world := (world F).
  Notation M := (@M F).

  (* everything but the heap *)
  Definition same (w w' : world) : Prop :=
    w_force w' = w_force w /\ w_temperature w' = w_temperature w /\
    w_tensor w' = w_tensor w /\ w_relaxation w' = w_relaxation w.

  Lemma same_refl w : same w w.
  Proof. repeat split. Qed.
  Lemma same_trans w1 w2 w3 : same w1 w2 -> same w2 w3 -> same w1 w3.
  Proof. intros (A & B & C & D) (A' & B' & C' & D'). repeat split; congruence. Qed.

  (* m succeeds with a result and a world satisfying Q *)
  Definition ev {A} (m : M A) (w : world) (Q : world -> A -> Prop) : Prop :=
    exists w' a, m w = (w', Ok a) /\ Q w' a.

  Lemma ev_bind {A B} (m : M A) (f : A -> M B) w Q :
    ev m w (fun w1 a => ev (f a) w1 Q) -> ev (mbind m f) w Q.
  Proof.
    intros (w1 & a & H1 & w2 & b & H2 & H3). exists w2, b. split; auto.
    unfold mbind. rewrite H1. exact H2.
  Qed.

  Lemma ev_ret {A} (a : A) w (Q : world -> A -> Prop) : Q w a -> ev (ret a) w Q.
  Proof. intros H. exists w, a. split; [reflexivity|exact H]. Qed.

  Lemma ev_conseq {A} (m : M A) w (Q Q' : world -> A -> Prop) :
    ev m w Q -> (forall w' a, Q w' a -> Q' w' a) -> ev m w Q'.
  Proof. intros (w' & a & H1 & H2) H. exists w', a. auto. Qed.

  Lemma ev_need {A} e (o : option A) a w (Q : world -> A -> Prop) : o = Some a -> Q w a -> ev (need e o) w Q.
  Proof. intros -> H. apply ev_ret; auto. Qed.

  Lemma ev_inverse x w (Q : world -> R -> Prop) : x <> 0 -> Q w (1 / x) -> ev (inverse x) w Q.
  Proof. intros H HQ. unfold inverse. destruct (Req_EM_T x 0); [contradiction|]. apply ev_ret; auto. Qed.

  Lemma ev_get_m r w (Q : world -> mat -> Prop) : Q w (load_m (hp w) r) -> ev (get_m r) w Q.
  Proof. intros H. exists w, (load_m (hp w) r). split; [reflexivity|exact H]. Qed.
  Lemma ev_get_v r w (Q : world -> vec -> Prop) : Q w (load_v (hp w) r) -> ev (get_v r) w Q.
  Proof. intros H. exists w, (load_v (hp w) r). split; [reflexivity|exact H]. Qed.

  Lemma ev_new_m n m A w (Q : world -> mref -> Prop) :
    (forall w' r, hext (hp w) (hp w') -> same w w' -> mfresh (hp w) r -> mval (hp w') r n m A -> Q w' r) ->
    ev (new_m n m A) w Q.
  Proof.
    intros H. eexists; eexists. split; [reflexivity|]. apply H.
    - apply hext_new_m.
    - repeat split.
    - unfold mfresh; simpl; auto.
    - repeat split; simpl.
      + rewrite app_length; simpl; lia.
      + unfold load_m. simpl. rewrite app_nth2, Nat.sub_diag by lia. intros i j _ _. reflexivity.
  Qed.

  Lemma ev_new_v n x w (Q : world -> vref -> Prop) :
    (forall w' r, hext (hp w) (hp w') -> same w w' -> vfresh (hp w) r -> vval (hp w') r n x -> Q w' r) ->
    ev (new_v n x) w Q.
  Proof.
    intros H. eexists; eexists. split; [reflexivity|]. apply H.
    - apply hext_new_v.
    - repeat split.
    - unfold vfresh; simpl; auto.
    - repeat split; simpl.
      + rewrite app_length; simpl; lia.
      + unfold load_v. simpl. rewrite app_nth2, Nat.sub_diag by lia. intros i _. reflexivity.
  Qed.

  Lemma mval_meq h r n m A B : mval h r n m A -> meq n m A B -> mval h r n m B.
  Proof. intros (H1 & H2 & H3 & H4) H. repeat split; auto. intros i j Hi Hj. rewrite H4; auto. Qed.
  Lemma vval_veq h r n x y : vval h r n x -> veq n x y -> vval h r n y.
  Proof. intros (H1 & H2 & H4) H. repeat split; auto. intros i Hi. rewrite H4; auto. Qed.

  Lemma ev_scale_array c a n m A w (Q : world -> mref -> Prop) : mval (hp w) a n m A ->
    (forall w' r, hext (hp w) (hp w') -> same w w' -> mfresh (hp w) r ->
       mval (hp w') r n m (fun i j => A i j * c) -> Q w' r) ->
    ev (scale_array c a) w Q.
  Proof.
    intros (H1 & H2 & H3 & H4) H. unfold scale_array. apply ev_bind, ev_get_m. rewrite H2, H3.
    apply ev_new_m. intros w' r X S Fr V. apply H; auto.
    eapply mval_meq; [exact V|]. intros i j Hi Hj. rewrite H4; auto.
  Qed.

  Lemma ev_add_arrays a b n m A B w (Q : world -> mref -> Prop) :
    mval (hp w) a n m A -> mval (hp w) b n m B ->
    (forall w' r, hext (hp w) (hp w') -> same w w' -> mfresh (hp w) r ->
       mval (hp w') r n m (fun i j => A i j + B i j) -> Q w' r) ->
    ev (add_arrays a b) w Q.
  Proof.
    intros (H1 & H2 & H3 & H4) (G1 & G2 & G3 & G4) H. unfold add_arrays.
    rewrite H2, H3, G2, G3, !Nat.eqb_refl. cbn [andb].
    apply ev_bind, ev_get_m, ev_bind, ev_get_m.
    apply ev_new_m. intros w' r X S Fr V. apply H; auto.
    eapply mval_meq; [exact V|]. intros i j Hi Hj. rewrite H4, G4; auto.
  Qed.

  Lemma ev_copy_array a n m A w (Q : world -> mref -> Prop) : mval (hp w) a n m A ->
    (forall w' r, hext (hp w) (hp w') -> same w w' -> mfresh (hp w) r -> mval (hp w') r n m A -> Q w' r) ->
    ev (copy_array a) w Q.
  Proof.
    intros (H1 & H2 & H3 & H4) H. unfold copy_array. apply ev_bind, ev_get_m. rewrite H2, H3.
    apply ev_new_m. intros w' r X S Fr V. apply H; auto. eapply mval_meq; eauto.
  Qed.

  Lemma mval_top_left h a n m A p q : mval h a n m A -> (p <= n)%nat -> (q <= m)%nat ->
    mval h (top_left a p q) p q A.
  Proof.
    intros (H1 & H2 & H3 & H4) Hp Hq. subst. unfold top_left. repeat split; simpl; auto; try lia.
    intros i j Hi Hj. apply H4; lia.
  Qed.

  Lemma vval_beginning h a n x p : vval h a n x -> (p <= n)%nat -> vval h (beginning a p) p x.
  Proof.
    intros (H1 & H2 & H4) Hp. subst. repeat split; simpl; auto; try lia. intros i Hi. apply H4; lia.
  Qed.

  Lemma ev_matmul a x n m A X w (Q : world -> vref -> Prop) :
    mval (hp w) a n m A -> vval (hp w) x m X ->
    (forall w' r, hext (hp w) (hp w') -> same w w' -> vfresh (hp w) r ->
       vval (hp w') r n (mv m A X) -> Q w' r) ->
    ev (matmul a x) w Q.
  Proof.
    intros (H1 & H2 & H3 & H4) (G1 & G2 & G3) H. unfold matmul. rewrite H3, G2, Nat.eqb_refl.
    apply ev_bind, ev_get_m, ev_bind, ev_get_v. rewrite H2.
    apply ev_new_v. intros w' r E S Fr V. apply H; auto.
    eapply vval_veq; [exact V|]. intros i Hi. apply sum_ext. intros j Hj. rewrite H4, G3; auto.
  Qed.

  Lemma ev_matmul_T a x n m A X w (Q : world -> vref -> Prop) :
    mval (hp w) a n m A -> vval (hp w) x n X ->
    (forall w' r, hext (hp w) (hp w') -> same w w' -> vfresh (hp w) r ->
       vval (hp w') r m (mv n (mT A) X) -> Q w' r) ->
    ev (matmul_T a x) w Q.
  Proof.
    intros (H1 & H2 & H3 & H4) (G1 & G2 & G3) H. unfold matmul_T. rewrite H2, G2, Nat.eqb_refl.
    apply ev_bind, ev_get_m, ev_bind, ev_get_v. rewrite H3.
    apply ev_new_v. intros w' r E S Fr V. apply H; auto.
    eapply vval_veq; [exact V|]. intros i Hi. apply sum_ext. intros j Hj. unfold mT. rewrite H4, G3; auto.
  Qed.

  Lemma ev_add_vectors x y n X Y w (Q : world -> vref -> Prop) :
    vval (hp w) x n X -> vval (hp w) y n Y ->
    (forall w' r, hext (hp w) (hp w') -> same w w' -> vfresh (hp w) r ->
       vval (hp w') r n (fun i => X i + Y i) -> Q w' r) ->
    ev (add_vectors x y) w Q.
  Proof.
    intros (H1 & H2 & H3) (G1 & G2 & G3) H. unfold add_vectors. rewrite H2, G2, Nat.eqb_refl.
    apply ev_bind, ev_get_v, ev_bind, ev_get_v.
    apply ev_new_v. intros w' r E S Fr V. apply H; auto.
    eapply vval_veq; [exact V|]. intros i Hi. rewrite H3, G3; auto.
  Qed.

  Lemma ev_sub_vectors x y n X Y w (Q : world -> vref -> Prop) :
    vval (hp w) x n X -> vval (hp w) y n Y ->
    (forall w' r, hext (hp w) (hp w') -> same w w' -> vfresh (hp w) r ->
       vval (hp w') r n (fun i => X i - Y i) -> Q w' r) ->
    ev (sub_vectors x y) w Q.
  Proof.
    intros (H1 & H2 & H3) (G1 & G2 & G3) H. unfold sub_vectors. rewrite H2, G2, Nat.eqb_refl.
    apply ev_bind, ev_get_v, ev_bind, ev_get_v.
    apply ev_new_v. intros w' r E S Fr V. apply H; auto.
    eapply vval_veq; [exact V|]. intros i Hi. rewrite H3, G3; auto.
  Qed.

  Lemma store_v_val h r n x y : vval h r n x -> vval (store_v h r y) r n y.
  Proof.
    intros (H1 & H2 & _). repeat split; auto.
    - simpl. rewrite set_nth_length; auto.
    - intros i Hi. unfold load_v at 1, store_v. simpl. rewrite set_nth_same by auto. rewrite H2.
      apply Nat.ltb_lt in Hi. rewrite Hi. reflexivity.
  Qed.

  Lemma store_m_val h r n m A B : mval h r n m A -> mval (store_m h r B) r n m B.
  Proof.
    intros (H1 & H2 & H3 & _). repeat split; auto.
    - simpl. rewrite set_nth_length; auto.
    - intros i j Hi Hj. unfold load_m at 1, store_m. simpl. rewrite set_nth_same by auto. rewrite H2, H3.
      apply Nat.ltb_lt in Hi. apply Nat.ltb_lt in Hj. rewrite Hi, Hj. reflexivity.
  Qed.

  Lemma ev_put_v h0 r n x y w (Q : world -> unit -> Prop) :
    hext h0 (hp w) -> vfresh h0 r -> vval (hp w) r n x ->
    (forall w', hext h0 (hp w') -> same w w' -> mats (hp w') = mats (hp w) ->
       vval (hp w') r n y -> Q w' tt) ->
    ev (put_v r y) w Q.
  Proof.
    intros E Fr V H. eexists; exists tt. split; [reflexivity|]. apply H; simpl.
    - apply hext_store_v; auto.
    - repeat split.
    - reflexivity.
    - eapply store_v_val; eauto.
  Qed.

  Lemma ev_put_m h0 r n m A B w (Q : world -> unit -> Prop) :
    hext h0 (hp w) -> mfresh h0 r -> mval (hp w) r n m A ->
    (forall w', hext h0 (hp w') -> same w w' -> vecs (hp w') = vecs (hp w) ->
       mval (hp w') r n m B -> Q w' tt) ->
    ev (put_m r B) w Q.
  Proof.
    intros E Fr V H. eexists; exists tt. split; [reflexivity|]. apply H; simpl.
    - apply hext_store_m; auto.
    - repeat split.
    - reflexivity.
    - eapply store_m_val; eauto.
  Qed.

  (* x += y for an x allocated after h0 *)
  Lemma ev_iadd h0 x y n X Y w (Q : world -> unit -> Prop) :
    hext h0 (hp w) -> vfresh h0 x -> vval (hp w) x n X -> vval (hp w) y n Y ->
    (forall w', hext h0 (hp w') -> same w w' -> mats (hp w') = mats (hp w) ->
       vval (hp w') x n (fun i => X i + Y i) -> Q w' tt) ->
    ev (iadd_vector x y) w Q.
  Proof.
    intros E Fr V V' H. pose proof V as (H1 & H2 & H3). pose proof V' as (G1 & G2 & G3).
    unfold iadd_vector. rewrite H2, G2, Nat.eqb_refl.
    apply ev_bind, ev_get_v, ev_bind, ev_get_v. eapply ev_put_v; eauto.
    intros w' E' S' M' V2. apply H; auto. eapply vval_veq; [exact V2|].
    intros i Hi. rewrite H3, G3; auto.
  Qed.

  (* ------------------------------------------------ StiffnessMatrix *)

  (* s is an object of class ty whose data are the n x m matrix A *)
  Definition sval (h : heap) (s : smat) (ty : nat * nat) (n m : nat) (A : mat) : Prop :=
    sm_type s = ty /\ mval h (sm_data s) n m A.

  Lemma sval_ext h h' s ty n m A : hext h h' -> sval h s ty n m A -> sval h' s ty n m A.
  Proof. intros E [H1 H2]. split; auto. eapply mval_ext; eauto. Qed.

  Lemma ev_sm_scale c s ty n m A w (Q : world -> smat -> Prop) : sval (hp w) s ty n m A ->
    (forall w' r, hext (hp w) (hp w') -> same w w' -> mfresh (hp w) (sm_data r) ->
       sval (hp w') r ty n m (fun i j => A i j * c) -> Q w' r) ->
    ev (sm_scale c s) w Q.
  Proof.
    intros [H1 H2] H. unfold sm_scale. apply ev_bind. eapply ev_scale_array; [exact H2|].
    intros w' r E S Fr V. apply ev_ret. apply H; auto. split; auto.
  Qed.

  Lemma ev_sm_copy s ty n m A w (Q : world -> smat -> Prop) : sval (hp w) s ty n m A ->
    (forall w' r, hext (hp w) (hp w') -> same w w' -> mfresh (hp w) (sm_data r) ->
       sval (hp w') r ty n m A -> Q w' r) ->
    ev (sm_copy s) w Q.
  Proof.
    intros [H1 H2] H. unfold sm_copy. apply ev_bind. eapply ev_copy_array; [exact H2|].
    intros w' r E S Fr V. apply ev_ret. apply H; auto. split; auto.
  Qed.

  Lemma ev_sm_add a b ty n m A B w (Q : world -> smat -> Prop) :
    sval (hp w) a ty n m A -> sval (hp w) b ty n m B ->
    (forall w' r, hext (hp w) (hp w') -> same w w' -> mfresh (hp w) (sm_data r) ->
       sval (hp w') r ty n m (fun i j => A i j + B i j) -> Q w' r) ->
    ev (sm_add a b) w Q.
  Proof.
    intros [H1 H2] [G1 G2] H. unfold sm_add. rewrite H1, G1, !Nat.eqb_refl. cbn [andb]. apply ev_bind.
    eapply ev_add_arrays; [exact H2|exact G2|].
    intros w' r E S Fr V. apply ev_ret. apply H; auto. split; auto.
  Qed.

  Lemma ev_sm_matmul s ty x n m A X w (Q : world -> vref -> Prop) :
    sval (hp w) s ty n m A -> vval (hp w) x m X ->
    (forall w' r, hext (hp w) (hp w') -> same w w' -> vfresh (hp w) r ->
       vval (hp w') r n (mv m A X) -> Q w' r) ->
    ev (sm_matmul s x) w Q.
  Proof. intros [H1 H2] HV H. unfold sm_matmul. eapply ev_matmul; eauto. Qed.

  Lemma ev_sm_matmul_T s ty x n m A X w (Q : world -> vref -> Prop) :
    sval (hp w) s ty n m A -> vval (hp w) x n X ->
    (forall w' r, hext (hp w) (hp w') -> same w w' -> vfresh (hp w) r ->
       vval (hp w') r m (mv n (mT A) X) -> Q w' r) ->
    ev (sm_matmul_T s x) w Q.
  Proof. intros [H1 H2] HV H. unfold sm_matmul_T. eapply ev_matmul_T; eauto. Qed.

  (* SM1 of a d N x d N matrix, d = 2 or 3: the first block *)
  Lemma ev_sm_SM1 s d N A w (Q : world -> smat -> Prop) : d = 2%nat \/ d = 3%nat ->
    sval (hp w) s (d, d) (d * N) (d * N) A ->
    (forall r, sval (hp w) r (1, 1)%nat N N A -> Q w r) ->
    ev (sm_SM1 s) w Q.
  Proof.
    intros Hd [H1 H2] H. unfold sm_SM1. rewrite H1. cbn [fst snd].
    assert (D : (d <> 0)%nat) by (destruct Hd; lia).
    assert (E : (((d =? 2) && (d =? 2)) || ((d =? 3) && (d =? 3)))%nat%bool = true)
      by (destruct Hd; subst; reflexivity).
    rewrite E. apply ev_ret. apply H. split; [reflexivity|]. cbn [sm_data].
    pose proof H2 as (_ & R1 & R2 & _). rewrite R1, R2.
    replace (d * N / d)%nat with N by (rewrite Nat.mul_comm, Nat.div_mul; auto).
    eapply mval_top_left; eauto; nia.
  Qed.

  (* forces *)
  Lemma ev_force t n f w (Q : world -> vref -> Prop) : snd (integrate (w_force w) t) = Ok (n, f) ->
    (forall w' r, hext (hp w) (hp w') -> vfresh (hp w) r -> vval (hp w') r n f ->
       w_temperature w' = w_temperature w -> w_tensor w' = w_tensor w -> w_relaxation w' = w_relaxation w ->
       w_force w' = fst (integrate (w_force w) t) -> Q w' r) ->
    ev (force_integrate integrate t) w Q.
  Proof.
    intros HI H. unfold force_integrate, ev. destruct (integrate (w_force w) t) as [f' r]. simpl in HI. subst r.
    match goal with |- exists _ _, new_v n f ?w1 = _ /\ _ =>
      destruct (ev_new_v n f w1 Q) as (w' & a & E & HQ) end.
    - intros w' r E (S1 & S2 & S3 & S4) Fr V. apply H; auto.
    - exists w', a. auto.
  Qed.

  Lemma ev_temperature t n f w (Q : world -> vref -> Prop) : snd (integrate (w_temperature w) t) = Ok (n, f) ->
    (forall w' r, hext (hp w) (hp w') -> vfresh (hp w) r -> vval (hp w') r n f ->
       w_force w' = w_force w -> w_tensor w' = w_tensor w -> w_relaxation w' = w_relaxation w ->
       w_temperature w' = fst (integrate (w_temperature w) t) -> Q w' r) ->
    ev (temperature_integrate integrate t) w Q.
  Proof.
    intros HI H. unfold temperature_integrate, ev. destruct (integrate (w_temperature w) t) as [f' r].
    simpl in HI. subst r.
    match goal with |- exists _ _, new_v n f ?w1 = _ /\ _ =>
      destruct (ev_new_v n f w1 Q) as (w' & a & E & HQ) end.
    - intros w' r E (S1 & S2 & S3 & S4) Fr V. apply H; auto.
    - exists w', a. auto.
  Qed.

  (* ------------------------------------------------------ frame rule *)

  (* whatever happens (also an exception) the arrays of h0 keep their contents *)
  Definition keeps (h0 : heap) {A} (m : M A) (Q : A -> Prop) : Prop :=
    forall w, hext h0 (hp w) ->
    hext h0 (hp (fst (m w))) /\ match snd (m w) with Ok a => Q a | Err _ => True end.

  Lemma k_bind h0 {A B} (m : M A) (f : A -> M B) Q Q' :
    keeps h0 m Q -> (forall a, Q a -> keeps h0 (f a) Q') -> keeps h0 (mbind m f) Q'.
  Proof.
    intros H1 H2 w Hw. unfold mbind. destruct (H1 w Hw) as [E P]. destruct (m w) as [w1 [a|e]]; simpl in *.
    - apply H2; auto.
    - auto.
  Qed.
  Lemma k_conseq h0 {A} (m : M A) (Q Q' : A -> Prop) : keeps h0 m Q -> (forall a, Q a -> Q' a) -> keeps h0 m Q'.
  Proof. intros H HQ w Hw. destruct (H w Hw) as [E P]. split; auto. destruct (snd (m w)); auto. Qed.
  Lemma k_any h0 {A} (m : M A) Q : keeps h0 m Q -> keeps h0 m (fun _ => True).
  Proof. intros H. eapply k_conseq; eauto. Qed.
  Lemma k_ret h0 {A} (a : A) (Q : A -> Prop) : Q a -> keeps h0 (ret a) Q.
  Proof. intros H w Hw. simpl. auto. Qed.
  Lemma k_raise h0 {A} e (Q : A -> Prop) : keeps h0 (raise e) Q.
  Proof. intros w Hw. simpl. auto. Qed.
  Lemma k_need h0 {A} e (o : option A) : keeps h0 (need e o) (fun _ => True).
  Proof. destruct o; [apply k_ret; auto|apply k_raise]. Qed.
  Lemma k_inverse h0 x : keeps h0 (inverse x) (fun _ => True).
  Proof. unfold inverse. destruct (Req_EM_T x 0); [apply k_raise|apply k_ret; auto]. Qed.
  Lemma k_get_m h0 r : keeps h0 (get_m r) (fun _ => True).
  Proof. intros w Hw. simpl. auto. Qed.
  Lemma k_get_v h0 r : keeps h0 (get_v r) (fun _ => True).
  Proof. intros w Hw. simpl. auto. Qed.
  Lemma k_new_m h0 n m A : keeps h0 (new_m n m A) (mfresh h0).
  Proof.
    intros w Hw. simpl. split; [eapply hext_trans; [exact Hw|apply hext_new_m]|].
    unfold mfresh. simpl. apply Hw.
  Qed.
  Lemma k_new_v h0 n x : keeps h0 (new_v n x) (vfresh h0).
  Proof.
    intros w Hw. simpl. split; [eapply hext_trans; [exact Hw|apply hext_new_v]|].
    unfold vfresh. simpl. apply Hw.
  Qed.
  Lemma k_put_m h0 r A : mfresh h0 r -> keeps h0 (put_m r A) (fun _ => True).
  Proof. intros H w Hw. simpl. split; auto. apply hext_store_m; auto. Qed.
  Lemma k_put_v h0 r x : vfresh h0 r -> keeps h0 (put_v r x) (fun _ => True).
  Proof. intros H w Hw. simpl. split; auto. apply hext_store_v; auto. Qed.

  Ltac kb := eapply k_bind; [|intros ? ?].
  Lemma k_scale_array h0 c a : keeps h0 (scale_array c a) (mfresh h0).
  Proof. unfold scale_array. kb; [apply k_get_m|apply k_new_m]. Qed.
  Lemma k_add_arrays h0 a b : keeps h0 (add_arrays a b) (mfresh h0).
  Proof.
    unfold add_arrays. destruct (_ && _); [|apply k_raise].
    kb; [apply k_get_m|]. kb; [apply k_get_m|apply k_new_m].
  Qed.
  Lemma k_copy_array h0 a : keeps h0 (copy_array a) (mfresh h0).
  Proof. unfold copy_array. kb; [apply k_get_m|apply k_new_m]. Qed.
  Lemma k_matmul h0 a x : keeps h0 (matmul a x) (vfresh h0).
  Proof.
    unfold matmul. destruct (_ =? _)%nat; [|apply k_raise].
    kb; [apply k_get_m|]. kb; [apply k_get_v|apply k_new_v].
  Qed.
  Lemma k_matmul_T h0 a x : keeps h0 (matmul_T a x) (vfresh h0).
  Proof.
    unfold matmul_T. destruct (_ =? _)%nat; [|apply k_raise].
    kb; [apply k_get_m|]. kb; [apply k_get_v|apply k_new_v].
  Qed.
  Lemma k_add_vectors h0 x y : keeps h0 (add_vectors x y) (vfresh h0).
  Proof.
    unfold add_vectors. destruct (_ =? _)%nat; [|apply k_raise].
    kb; [apply k_get_v|]. kb; [apply k_get_v|apply k_new_v].
  Qed.
  Lemma k_sub_vectors h0 x y : keeps h0 (sub_vectors x y) (vfresh h0).
  Proof.
    unfold sub_vectors. destruct (_ =? _)%nat; [|apply k_raise].
    kb; [apply k_get_v|]. kb; [apply k_get_v|apply k_new_v].
  Qed.
  Lemma k_iadd h0 x y : vfresh h0 x -> keeps h0 (iadd_vector x y) (fun _ => True).
  Proof.
    intros H. unfold iadd_vector. destruct (_ =? _)%nat; [|apply k_raise].
    kb; [apply k_get_v|]. kb; [apply k_get_v|apply k_put_v; auto].
  Qed.
  Definition sfresh (h0 : heap) (s : smat) : Prop := mfresh h0 (sm_data s).
  Lemma k_sm_add h0 a b : keeps h0 (sm_add a b) (sfresh h0).
  Proof.
    unfold sm_add. destruct (_ && _); [|apply k_raise].
    kb; [apply k_add_arrays|apply k_ret; auto].
  Qed.
  Lemma k_sm_scale h0 c a : keeps h0 (sm_scale c a) (sfresh h0).
  Proof. unfold sm_scale. kb; [apply k_scale_array|apply k_ret; auto]. Qed.
  Lemma k_sm_copy h0 a : keeps h0 (sm_copy a) (sfresh h0).
  Proof. unfold sm_copy. kb; [apply k_copy_array|apply k_ret; auto]. Qed.
  Lemma k_sm_SM1 h0 a : keeps h0 (sm_SM1 a) (fun _ => True).
  Proof. unfold sm_SM1. destruct (_ || _); [apply k_ret; auto|apply k_raise]. Qed.
  Lemma k_force h0 t : keeps h0 (force_integrate integrate t) (vfresh h0).
  Proof.
    intros w Hw. unfold force_integrate. destruct (integrate (w_force w) t) as [f' [[n x]|e]]; simpl; auto.
    apply (k_new_v h0 n x (mkWorld (hp w) f' (w_temperature w) (w_tensor w) (w_relaxation w))). exact Hw.
  Qed.
  Lemma k_temperature h0 t : keeps h0 (temperature_integrate integrate t) (vfresh h0).
  Proof.
    intros w Hw. unfold temperature_integrate. destruct (integrate (w_temperature w) t) as [f' [[n x]|e]]; simpl; auto.
    apply (k_new_v h0 n x (mkWorld (hp w) (w_force w) f' (w_tensor w) (w_relaxation w))). exact Hw.
  Qed.

  Variable b : body.

  Lemma k_relaxation h0 t : keeps h0 (relaxation b t) (fun _ => True).
  Proof.
    intros w Hw. unfold relaxation. destruct (b_relaxation b) as [f|]; [|simpl; auto].
    destruct (f t) as [tn|e]; [|simpl; auto].
    destruct (match w_tensor w with None => true | Some old => tensor_neq tn old end).
    - destruct (b_relaxation_matrix b tn); [|simpl; auto]. simpl. split; auto.
      eapply hext_trans; [exact Hw|apply hext_new_m].
    - destruct (w_relaxation w); simpl; auto.
  Qed.

  Ltac kstep := first
    [ apply k_ret; exact I | apply k_raise
    | apply k_sm_add | apply k_sm_copy | apply k_sm_scale | apply k_sm_SM1 | apply k_need
    | apply k_inverse | apply k_scale_array | apply k_add_arrays | apply k_matmul | apply k_matmul_T
    | apply k_add_vectors | apply k_sub_vectors | apply k_force | apply k_temperature | apply k_relaxation
    | apply k_iadd; assumption ].

  Lemma k_lhs h0 k var : keeps h0 (left_hand_side b k var) (sfresh h0).
  Proof.
    destruct k; unfold left_hand_side; repeat (first [kstep | kb]); apply k_ret; assumption.
  Qed.

  Lemma k_quasi h0 var : keeps h0 (quasistatic_rhs integrate b var) (vfresh h0).
  Proof. unfold quasistatic_rhs, sm_matmul. repeat (first [kstep | kb]). Qed.

  Lemma k_dynamic h0 var : keeps h0 (dynamic_rhs integrate b var) (vfresh h0).
  Proof. unfold dynamic_rhs, sm_matmul. repeat (first [kstep | kb]). Qed.

  Lemma k_rhs h0 k var : keeps h0 (right_hand_side integrate b k var) (vfresh h0).
  Proof.
    destruct k; unfold right_hand_side, sm_matmul, sm_matmul_T;
      repeat (first [kstep | apply k_quasi | apply k_dynamic | kb]); try (apply k_ret; assumption).
  Qed.

  Lemma k_dirichlet h0 k l r : sfresh h0 l -> vfresh h0 r ->
    keeps h0 (apply_dirichlet_condition b k l r) (fun _ => True).
  Proof.
    intros Hl Hr. unfold apply_dirichlet_condition. destruct (b_conditions b _ _); [|apply k_raise].
    kb; [apply k_get_m|]. kb; [apply k_get_v|]. cbv zeta. kb; [apply k_put_m; exact Hl|apply k_put_v; exact Hr].
  Qed.

  (* update leaves every existing array alone and returns new arrays *)
  Lemma update_frame k var w :
    hext (hp w) (hp (fst (update integrate b k var w))) /\
    match snd (update integrate b k var w) with
    | Ok (l, r) => sfresh (hp w) l /\ vfresh (hp w) r
    | Err _ => True
    end.
  Proof.
    assert (K : keeps (hp w) (update integrate b k var) (fun lr => sfresh (hp w) (fst lr) /\ vfresh (hp w) (snd lr))).
    { unfold update. kb; [apply k_lhs|]. kb; [apply k_rhs|]. kb; [apply k_dirichlet; assumption|].
      apply k_ret. auto. }
    destruct (K w (hext_refl _)) as [E P]. split; auto.
    destruct (snd (update integrate b k var w)) as [[l r]|e]; auto.
  Qed.
End Logic.

(* the frame in terms of reads *)
Lemma update_frame_arrays {F} (integrate : F -> R -> F * result (nat * vec)) b k var (w : world F) :
  let w' := fst (update integrate b k var w) in
  (forall r, (m_addr r < List.length (mats (hp w)))%nat -> load_m (hp w') r = load_m (hp w) r) /\
  (forall r, (v_addr r < List.length (vecs (hp w)))%nat -> load_v (hp w') r = load_v (hp w) r) /\
  (forall l r, snd (update integrate b k var w) = Ok (l, r) ->
     (List.length (mats (hp w)) <= m_addr (sm_data l))%nat /\ (List.length (vecs (hp w)) <= v_addr r)%nat).
Proof.
  intros w'. destruct (update_frame integrate b k var w) as [(_ & A & _ & B) C].
  split; [exact (fun r => A (m_addr r))|]. split; [exact (fun r => B (v_addr r))|].
  intros l r E. rewrite E in C. exact C.
Qed.
