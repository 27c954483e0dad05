(* Model of the statements (the linear systems of all problem kinds) with an explicit heap of
   numpy arrays, so that sharing and in-place updates are visible.
   Sources: /repo/conmech/dynamics/statement.py (cited st:),
   /repo/conmech/struct/stiffness_matrix.py (sm:), /repo/conmech/dynamics/dynamics.py (dyn:).
   Real numbers replace doubles.  A shape mismatch raises ValueError; numpy's broadcasting
   of arrays of length one is not modelled. *)
From Coq Require Import Reals List Arith String Bool.
From Verif Require Import Common PyModel RVec DofModel DirichletModel.
Import ListNotations.
Local Open Scope string_scope.
Local Open Scope list_scope.
Local Open Scope R_scope.

(* ------------------------------------------------------------- arrays *)

(* reference to a two dimensional array or to the top left part of one (a view) *)
Record mref := mkMref { m_addr : nat; m_rows : nat; m_cols : nat }.
(* reference to a one dimensional array or to its beginning (a view) *)
Record vref := mkVref { v_addr : nat; v_len : nat }.

(* the arrays themselves, by address *)
Record heap := mkHeap { mats : list mat; vecs : list vec }.

Definition load_m (h : heap) (r : mref) : mat := nth (m_addr r) (mats h) (fun _ _ => 0).
Definition load_v (h : heap) (r : vref) : vec := nth (v_addr r) (vecs h) (fun _ => 0).

(* l[k] = x *)
Fixpoint set_nth {A} (k : nat) (x : A) (l : list A) : list A :=
  match l, k with
  | [], _ => []
  | _ :: t, O => x :: t
  | y :: t, S k' => y :: set_nth k' x t
  end.

(* assignment to the part of an array that a reference shows *)
Definition store_m (h : heap) (r : mref) (A : mat) : heap :=
  let old := load_m h r in
  mkHeap (set_nth (m_addr r)
            (fun i j => if (i <? m_rows r)%nat && (j <? m_cols r)%nat then A i j else old i j) (mats h))
         (vecs h).
Definition store_v (h : heap) (r : vref) (x : vec) : heap :=
  let old := load_v h r in
  mkHeap (mats h) (set_nth (v_addr r) (fun i => if (i <? v_len r)%nat then x i else old i) (vecs h)).

(* sm:1-7  StiffnessMatrix: class (by its DIMENSION) and data *)
Record smat := mkSmat { sm_type : nat * nat; sm_data : mref }.

(* dyn:30-44  the operators stored by Dynamics; None when the material has no such property *)
Record operator_refs := mkOps {
  o_acceleration : smat;
  o_elasticity : option smat;
  o_viscosity : option smat;
  o_thermal_expansion : option smat;
  o_thermal_conductivity : option smat;
  o_piezoelectricity : option smat;
  o_permittivity : option smat;
  o_poisson : option smat }.

(* a relaxation tensor: coeff[i][j][k] *)
Definition tensor := nat -> nat -> nat -> R.

(* dyn:94  (a != b).any() for 2x2x2 arrays *)
Definition tensor_neq (a b : tensor) : bool :=
  existsb (fun ijk => let '(i, j, k) := ijk in if Req_EM_T (a i j k) (b i j k) then false else true)
    [(0, 0, 0); (0, 0, 1); (0, 1, 0); (0, 1, 1); (1, 0, 0); (1, 0, 1); (1, 1, 0); (1, 1, 1)]%nat.

Section Statements.
  (* F: the attributes of a BodyForces object; integrate: body_forces.py:82-89, the new
     attributes and the resulting array (length and entries) *)
  Context {F : Type}.
  Variable integrate : F -> R -> F * result (nat * vec).

  (* everything that a statement may change *)
  Record world := mkWorld {
    hp : heap;
    w_force : F;                        (* dynamics.force *)
    w_temperature : F;                  (* dynamics.temperature *)
    w_tensor : option tensor;           (* dynamics.__relaxation_tensor *)
    w_relaxation : option smat }.       (* dynamics.__relaxation *)

  Definition M (A : Type) := world -> world * result A.
  Definition ret {A} (a : A) : M A := fun w => (w, Ok a).
  Definition raise {A} (e : py_error) : M A := fun w => (w, Err e).
  Definition mbind {A B} (m : M A) (f : A -> M B) : M B :=
    fun w => let '(w', r) := m w in match r with Ok a => f a w' | Err e => (w', Err e) end.
  Local Notation "x <- m ;; f" := (mbind m (fun x => f)) (at level 61, right associativity).

  Definition with_heap (w : world) (h : heap) : world :=
    mkWorld h (w_force w) (w_temperature w) (w_tensor w) (w_relaxation w).

  (* a new array *)
  Definition new_m (rows cols : nat) (A : mat) : M mref := fun w =>
    (with_heap w (mkHeap (mats (hp w) ++ [A]) (vecs (hp w))),
     Ok (mkMref (List.length (mats (hp w))) rows cols)).
  Definition new_v (len : nat) (x : vec) : M vref := fun w =>
    (with_heap w (mkHeap (mats (hp w)) (vecs (hp w) ++ [x])),
     Ok (mkVref (List.length (vecs (hp w))) len)).
  Definition get_m (r : mref) : M mat := fun w => (w, Ok (load_m (hp w) r)).
  Definition get_v (r : vref) : M vec := fun w => (w, Ok (load_v (hp w) r)).
  Definition put_m (r : mref) (A : mat) : M unit := fun w => (with_heap w (store_m (hp w) r A), Ok tt).
  Definition put_v (r : vref) (x : vec) : M unit := fun w => (with_heap w (store_v (hp w) r x), Ok tt).

  (* value that must not be None *)
  Definition need {A} (e : py_error) (o : option A) : M A :=
    match o with Some a => ret a | None => raise e end.

  (* 1 / x *)
  Definition inverse (x : R) : M R := if Req_EM_T x 0 then raise ZeroDivision else ret (1 / x).

  (* ------------------------------------------------- numpy operations *)

  (* array * scalar *)
  Definition scale_array (c : R) (a : mref) : M mref :=
    A <- get_m a ;; new_m (m_rows a) (m_cols a) (fun i j => A i j * c).

  (* array + array *)
  Definition add_arrays (a b : mref) : M mref :=
    if ((m_rows a =? m_rows b) && (m_cols a =? m_cols b))%nat
    then A <- get_m a ;; B <- get_m b ;; new_m (m_rows a) (m_cols a) (fun i j => A i j + B i j)
    else raise ValueError.

  (* array.copy() *)
  Definition copy_array (a : mref) : M mref := A <- get_m a ;; new_m (m_rows a) (m_cols a) A.

  (* a[:n, :m]: a view *)
  Definition top_left (a : mref) (n m : nat) : mref :=
    mkMref (m_addr a) (Nat.min n (m_rows a)) (Nat.min m (m_cols a)).

  (* x[:n]: a view *)
  Definition beginning (x : vref) (n : nat) : vref := mkVref (v_addr x) (Nat.min n (v_len x)).

  (* array @ vector and array.T @ vector *)
  Definition matmul (a : mref) (x : vref) : M vref :=
    if (m_cols a =? v_len x)%nat
    then A <- get_m a ;; X <- get_v x ;; new_v (m_rows a) (fun i => sum (m_cols a) (fun j => A i j * X j))
    else raise ValueError.
  Definition matmul_T (a : mref) (x : vref) : M vref :=
    if (m_rows a =? v_len x)%nat
    then A <- get_m a ;; X <- get_v x ;; new_v (m_cols a) (fun i => sum (m_rows a) (fun j => A j i * X j))
    else raise ValueError.

  (* x + y, x - y and x += y *)
  Definition add_vectors (x y : vref) : M vref :=
    if (v_len x =? v_len y)%nat
    then X <- get_v x ;; Y <- get_v y ;; new_v (v_len x) (fun i => X i + Y i)
    else raise ValueError.
  Definition sub_vectors (x y : vref) : M vref :=
    if (v_len x =? v_len y)%nat
    then X <- get_v x ;; Y <- get_v y ;; new_v (v_len x) (fun i => X i - Y i)
    else raise ValueError.
  Definition iadd_vector (x y : vref) : M unit :=
    if (v_len x =? v_len y)%nat
    then X <- get_v x ;; Y <- get_v y ;; put_v x (fun i => X i + Y i)
    else raise ValueError.

  (* -------------------------------------------------- StiffnessMatrix *)

  (* sm:16-20  __add__ *)
  Definition sm_add (a b : smat) : M smat :=
    if ((fst (sm_type a) =? fst (sm_type b)) && (snd (sm_type a) =? snd (sm_type b)))%nat
    then d <- add_arrays (sm_data a) (sm_data b) ;; ret (mkSmat (sm_type a) d)
    else raise AssertionError.
  (* sm:7-12  __iadd__ with another StiffnessMatrix: changes self.data in place; the method
     has no return statement, so its value is None (no StiffnessMatrix).  The statement
     x += y binds x to that value. *)
  Definition sm_iadd (a b : smat) : M (option smat) :=
    if ((fst (sm_type a) =? fst (sm_type b)) && (snd (sm_type a) =? snd (sm_type b)))%nat
    then if ((m_rows (sm_data a) =? m_rows (sm_data b)) && (m_cols (sm_data a) =? m_cols (sm_data b)))%nat
         then A <- get_m (sm_data a) ;; B <- get_m (sm_data b) ;;
              _ <- put_m (sm_data a) (fun i j => A i j + B i j) ;; ret None
         else raise ValueError
    else raise AssertionError.
  (* sm:23-24  __imul__ with a number: as above *)
  Definition sm_imul (a : smat) (c : R) : M (option smat) :=
    A <- get_m (sm_data a) ;; _ <- put_m (sm_data a) (fun i j => A i j * c) ;; ret None.
  (* sm:28-32  __mul__, __rmul__ *)
  Definition sm_scale (c : R) (a : smat) : M smat :=
    d <- scale_array c (sm_data a) ;; ret (mkSmat (sm_type a) d).
  (* sm:34-35  copy *)
  Definition sm_copy (a : smat) : M smat :=
    d <- copy_array (sm_data a) ;; ret (mkSmat (sm_type a) d).
  (* sm:40-43  __matmul__ with a vector *)
  Definition sm_matmul (a : smat) (x : vref) : M vref := matmul (sm_data a) x.
  (* sm:54-57  T @ vector *)
  Definition sm_matmul_T (a : smat) (x : vref) : M vref := matmul_T (sm_data a) x.
  (* sm:75-79 and 86-89  SM1 of an SM2 / SM3: a view; other classes have no such attribute *)
  Definition sm_SM1 (a : smat) : M smat :=
    let k := fst (sm_type a) in
    if ((k =? 2) && (snd (sm_type a) =? 2) || (k =? 3) && (snd (sm_type a) =? 3))%nat
    then ret (mkSmat (1, 1)%nat (top_left (sm_data a) (m_rows (sm_data a) / k) (m_cols (sm_data a) / k)))
    else raise AttributeError.

  (* -------------------------------------------------------- statements *)

  (* st:9-17  Variables *)
  Record variables := mkVariables {
    absement : option vref;
    displacement : option vref;
    velocity : option vref;
    temperature : option vref;
    electric_potential : option vref;
    time_step : option R;
    time : option R }.

  (* what a statement reads of the body: mesh dimension and node count, its Dirichlet
     conditions by dimension and name (DirichletModel.mesh_conditions), operators,
     properties.relaxation (None unless ElasticRelaxationProperties; may raise) and
     factory.get_relaxation_tensor applied to _w_matrix *)
  Record body := mkBody {
    b_dimension : nat;
    b_count : nat;
    b_conditions : nat -> string -> result (list condition);
    b_ops : operator_refs;
    b_relaxation : option (option R -> result tensor);
    b_relaxation_matrix : tensor -> result mat }.

  Inductive kind :=
  | StaticPoisson | Wave | StaticDisplacement | QuasistaticRelaxation | QuasistaticVelocity
  | DynamicVelocity | DynamicVelocityWithTemperature | Temperature | Piezoelectric
  | QuasistaticVelocityWithPiezoelectric | DynamicVelocityWithPiezoelectric.

  (* the dimension_in passed to Statement.__init__: st:71, 82, 109, 120, 142, 163, 200, 231 *)
  Definition dimension_in (k : kind) (mesh_dimension : nat) : nat :=
    match k with
    | StaticPoisson | Wave | Temperature | Piezoelectric => 1
    | StaticDisplacement => mesh_dimension
    | _ => 2
    end.

  (* st:27, 232 *)
  Definition dirichlet_cond_name (k : kind) : string :=
    match k with Piezoelectric => "piezo_dirichlet" | _ => "dirichlet" end.

  Section OneBody.
    Variable b : body.

    (* dyn:89-101  relaxation *)
    Definition relaxation (t : option R) : M smat := fun w =>
      match b_relaxation b with
      | None => (w, Err TypeError)
      | Some f =>
          match f t with Err e => (w, Err e) | Ok tn =>
          let changed := match w_tensor w with None => true | Some old => tensor_neq tn old end in
          if changed then
            let w1 := mkWorld (hp w) (w_force w) (w_temperature w) (Some tn) (w_relaxation w) in
            match b_relaxation_matrix b tn with
            | Err e => (w1, Err e)
            | Ok A =>
                let n := (2 * b_count b)%nat in
                (d <- new_m n n A ;;
                 fun w2 => (mkWorld (hp w2) (w_force w2) (w_temperature w2) (w_tensor w2)
                              (Some (mkSmat (2, 2)%nat d)), Ok (mkSmat (2, 2)%nat d))) w1
            end
          else match w_relaxation w with
               | Some s => (w, Ok s)
               | None => (w, Err TypeError)
               end
          end
      end.

    (* dynamics.force.integrate(time) and dynamics.temperature.integrate(time): a new array *)
    Definition force_integrate (t : R) : M vref := fun w =>
      let '(f', r) := integrate (w_force w) t in
      let w1 := mkWorld (hp w) f' (w_temperature w) (w_tensor w) (w_relaxation w) in
      match r with Err e => (w1, Err e) | Ok (n, x) => new_v n x w1 end.
    Definition temperature_integrate (t : R) : M vref := fun w =>
      let '(f', r) := integrate (w_temperature w) t in
      let w1 := mkWorld (hp w) (w_force w) f' (w_tensor w) (w_relaxation w) in
      match r with Err e => (w1, Err e) | Ok (n, x) => new_v n x w1 end.

    Let ops := b_ops b.
    Let ind := b_count b.

    (* update_left_hand_side of every class *)
    Definition left_hand_side (k : kind) (var : variables) : M smat :=
      match k with
      | StaticPoisson =>                                            (* st:73-74 *)
          p <- need AttributeError (o_poisson ops) ;; sm_copy p
      | Wave =>                                                     (* st:84-90 *)
          dt <- need AssertionError (time_step var) ;;
          c <- inverse dt ;;
          m <- sm_SM1 (o_acceleration ops) ;;
          cm <- sm_scale c m ;;
          p <- need TypeError (o_poisson ops) ;;
          pt <- sm_scale dt p ;;
          sm_add cm pt
      | StaticDisplacement =>                                       (* st:111-112 *)
          e <- need AttributeError (o_elasticity ops) ;; sm_copy e
      | QuasistaticRelaxation =>                                    (* st:122-128; time may be None *)
          dt <- need AssertionError (time_step var) ;;
          e <- need AttributeError (o_elasticity ops) ;;
          ec <- sm_copy e ;;
          r <- relaxation (time var) ;;
          rt <- sm_scale dt r ;;
          sm_add ec rt
      | QuasistaticVelocity | QuasistaticVelocityWithPiezoelectric => (* st:144-149 *)
          dt <- need AssertionError (time_step var) ;;
          c <- need TypeError (o_viscosity ops) ;;
          e <- need TypeError (o_elasticity ops) ;;
          et <- sm_scale dt e ;;
          sm_add c et
      | DynamicVelocity | DynamicVelocityWithTemperature
      | DynamicVelocityWithPiezoelectric =>                         (* st:165-172 *)
          dt <- need AssertionError (time_step var) ;;
          c <- need TypeError (o_viscosity ops) ;;
          q <- inverse dt ;;
          m <- sm_scale q (o_acceleration ops) ;;
          cm <- sm_add c m ;;
          e <- need TypeError (o_elasticity ops) ;;
          et <- sm_scale dt e ;;
          sm_add cm et
      | Temperature =>                                              (* st:202-210 *)
          dt <- need AssertionError (time_step var) ;;
          q <- inverse dt ;;
          m <- scale_array q (top_left (sm_data (o_acceleration ops)) ind ind) ;;
          c <- need TypeError (o_thermal_conductivity ops) ;;
          s <- add_arrays m (top_left (sm_data c) ind ind) ;;
          ret (mkSmat (1, 1)%nat s)
      | Piezoelectric =>                                            (* st:234-235 *)
          p <- need AttributeError (o_permittivity ops) ;; sm_copy p
      end.

    (* st:151-158  QuasistaticVelocityStatement.update_right_hand_side *)
    Definition quasistatic_rhs (var : variables) : M vref :=
      u <- need AssertionError (displacement var) ;;
      t <- need AssertionError (time var) ;;
      f <- force_integrate t ;;
      e <- need TypeError (o_elasticity ops) ;;
      eu <- sm_matmul e u ;;
      sub_vectors f eu.

    (* st:174-184  DynamicVelocityStatement.update_right_hand_side *)
    Definition dynamic_rhs (var : variables) : M vref :=
      u <- need AssertionError (displacement var) ;;
      v <- need AssertionError (velocity var) ;;
      dt <- need AssertionError (time_step var) ;;
      t <- need AssertionError (time var) ;;
      e <- need TypeError (o_elasticity ops) ;;
      me <- sm_scale (-1) e ;;
      A <- sm_matmul me u ;;
      q <- inverse dt ;;
      m <- sm_scale q (o_acceleration ops) ;;
      mv <- sm_matmul m v ;;
      _ <- iadd_vector A mv ;;
      f <- force_integrate t ;;
      add_vectors f A.

    (* update_right_hand_side of every class *)
    Definition right_hand_side (k : kind) (var : variables) : M vref :=
      match k with
      | StaticPoisson => temperature_integrate 0                    (* st:76-77 *)
      | Wave =>                                                     (* st:92-104 *)
          u <- need AssertionError (displacement var) ;;
          v <- need AssertionError (velocity var) ;;
          dt <- need AssertionError (time_step var) ;;
          t <- need AssertionError (time var) ;;
          p <- need TypeError (o_poisson ops) ;;
          mp <- sm_scale (-1) p ;;
          A <- sm_matmul mp (beginning u ind) ;;
          q <- inverse dt ;;
          m0 <- sm_SM1 (o_acceleration ops) ;;
          m <- sm_scale q m0 ;;
          mv <- sm_matmul m (beginning v ind) ;;
          _ <- iadd_vector A mv ;;
          f <- force_integrate t ;;
          add_vectors f A
      | StaticDisplacement => force_integrate 0                     (* st:114-115 *)
      | QuasistaticRelaxation =>                                    (* st:130-137 *)
          a <- need AssertionError (absement var) ;;
          t <- need AssertionError (time var) ;;
          f <- force_integrate t ;;
          r <- relaxation (Some t) ;;
          ra <- sm_matmul r a ;;
          sub_vectors f ra
      | QuasistaticVelocity => quasistatic_rhs var
      | DynamicVelocity => dynamic_rhs var
      | DynamicVelocityWithTemperature =>                           (* st:188-195 *)
          r <- dynamic_rhs var ;;
          th <- need AssertionError (temperature var) ;;
          te <- need AttributeError (o_thermal_expansion ops) ;;
          A <- sm_matmul_T te th ;;
          _ <- iadd_vector r A ;;
          ret r
      | Temperature =>                                              (* st:212-226 *)
          v <- need AssertionError (velocity var) ;;
          dt <- need AssertionError (time_step var) ;;
          th <- need AssertionError (temperature var) ;;
          te <- need TypeError (o_thermal_expansion ops) ;;
          mt <- sm_scale (-1) te ;;
          rhs <- sm_matmul mt v ;;
          q <- inverse dt ;;
          m <- scale_array q (top_left (sm_data (o_acceleration ops)) ind ind) ;;
          mth <- matmul m th ;;
          _ <- iadd_vector rhs mth ;;
          ret rhs
      | Piezoelectric =>                                            (* st:237-241 *)
          u <- need AssertionError (displacement var) ;;
          p <- need TypeError (o_piezoelectricity ops) ;;
          sm_matmul p u
      | QuasistaticVelocityWithPiezoelectric =>                     (* st:245-252: (-1) * p.T @ phi *)
          r <- quasistatic_rhs var ;;
          phi <- need AssertionError (electric_potential var) ;;
          p <- need AttributeError (o_piezoelectricity ops) ;;
          mp <- scale_array (-1) (sm_data p) ;;
          A <- matmul_T mp phi ;;
          _ <- iadd_vector r A ;;
          ret r
      | DynamicVelocityWithPiezoelectric =>                         (* st:256-263 *)
          r <- dynamic_rhs var ;;
          phi <- need AssertionError (electric_potential var) ;;
          p <- need AttributeError (o_piezoelectricity ops) ;;
          A <- sm_matmul_T p phi ;;
          _ <- iadd_vector r A ;;
          ret r
      end.

    (* st:40-52  apply_dirichlet_condition: in place on both arrays.  All look-ups are made
       before the first elimination here (only visible if one of them raises). *)
    Definition apply_dirichlet_condition (k : kind) (l : smat) (r : vref) : M unit :=
      match b_conditions b (dimension_in k (b_dimension b)) (dirichlet_cond_name k) with
      | Err e => raise e
      | Ok conds =>
          A <- get_m (sm_data l) ;;
          x <- get_v r ;;
          let sys := apply_dirichlet conds (mkSystem A x) in
          _ <- put_m (sm_data l) (lhs sys) ;;
          put_v r (rhs sys)
      end.

    (* st:35-38  update: the new left_hand_side and right_hand_side *)
    Definition update (k : kind) (var : variables) : M (smat * vref) :=
      l <- left_hand_side k var ;;
      r <- right_hand_side k var ;;
      _ <- apply_dirichlet_condition k l r ;;
      ret (l, r).
  End OneBody.
End Statements.
Arguments world : clear implicits.
