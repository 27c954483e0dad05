(* Model of the classes of problems, of the registry of solvers and of how a driver picks them.
   Sources: /repo/conmech/solvers/_solvers.py (cited reg:), /repo/conmech/scenarios/problems.py (pr:),
   /repo/conmech/solvers/direct.py (di:), /repo/conmech/solvers/optimization/global_optimization.py
   (gl:), /repo/conmech/solvers/optimization/schur_complement.py (sc:),
   /repo/conmech/solvers/optimization/optimization.py (op:), /repo/conmech/solvers/solver.py (so:),
   /repo/conmech/simulations/problem_solver.py (ps:). *)
From Coq Require Import Reals List Arith Bool String Ascii.
From Verif Require Import PyModel RVec StatementModel.
Import ListNotations.
Local Open Scope string_scope.
Local Open Scope list_scope.

(* ------------------------------------------------------------- names *)

(* str.lower; simplification: only the letters of ASCII are changed *)
Definition lower_char (c : ascii) : ascii :=
  let n := nat_of_ascii c in
  if ((65 <=? n) && (n <=? 90))%nat then ascii_of_nat (n + 32) else c.
Fixpoint lower (s : string) : string :=
  match s with
  | EmptyString => EmptyString
  | String c s => String (lower_char c) (lower s)
  end.

(* ------------------------------------------------------------- the registry *)

Section Registry.
  Context {C : Type}.       (* classes of solvers *)

  (* reg:14 *)
  Definition registry := dict (dict C).
  Definition empty_registry : registry :=
    [("static", []); ("quasistatic", []); ("quasistatic relaxation", []); ("dynamic", [])].

  (* reg:31-34  the names of one dictionary; what was added before a failure stays *)
  Fixpoint add_names (dyn : dict C) (names : list string) (c : C) : dict C * result unit :=
    match names with
    | [] => (dyn, Ok tt)
    | name :: names =>
        if dict_in dyn (lower name) then (dyn, Err AssertionError)
        else add_names (dict_set dyn (lower name) c) names c
    end.

  (* reg:29-34 *)
  Fixpoint add_to_dict (reg : registry) (types names : list string) (c : C) : registry * result unit :=
    match types with
    | [] => (reg, Ok tt)
    | d :: types =>
        match dict_get reg d with
        | None => (reg, Err (KeyError d))
        | Some dyn =>
            let '(dyn', r) := add_names dyn names c in
            let reg' := dict_set reg d dyn' in
            match r with
            | Ok _ => add_to_dict reg' types names c
            | Err e => (reg', Err e)
            end
        end
    end.

  (* reg:22-37  register(dynamism, *names)(solver) *)
  Definition dynamism_types (dynamism : string) : list string :=
    if String.eqb dynamism "*" then ["static"; "quasistatic"; "dynamic"] else [dynamism].
  Definition register (reg : registry) (dynamism : string) (names : list string) (c : C) : registry * result unit :=
    add_to_dict reg (dynamism_types dynamism) names c.

  (* a sequence of registrations; one that fails leaves its traces and the others go on *)
  Record registration := mkRegistration { r_dynamism : string; r_names : list string; r_class : C }.
  Fixpoint register_all (reg : registry) (l : list registration) : registry :=
    match l with
    | [] => reg
    | x :: l => register_all (fst (register reg (r_dynamism x) (r_names x) (r_class x))) l
    end.
End Registry.
Arguments registry : clear implicits.
Arguments registration : clear implicits.

(* ------------------------------------------------------------- classes of problems *)

(* pr:33-224; ABC is a class like the others, object is left out *)
Inductive cls :=
  ABC | Problem | StaticProblem | TimeDependentProblem | QuasistaticProblem | DynamicProblem
| PoissonProblem | WaveProblem | ContactWaveProblem | InteriorContactWaveProblem
| DisplacementProblem | StaticDisplacementProblem | TimeDependentDisplacementProblem
| QuasistaticDisplacementProblem | DynamicDisplacementProblem
| TemperatureTimeDependentProblem | PiezoelectricTimeDependentProblem
| RelaxationQuasistaticProblem | TemperatureDynamicProblem
| PiezoelectricQuasistaticProblem | PiezoelectricDynamicProblem.

Definition cls_dec (a b : cls) : {a = b} + {a <> b}.
Proof. decide equality. Defined.

(* the base classes, in the order written *)
Definition bases (c : cls) : list cls :=
  match c with
  | ABC => []
  | Problem => [ABC]                                                                   (* pr:34 *)
  | StaticProblem => [Problem; ABC]                                                    (* pr:60 *)
  | TimeDependentProblem => [Problem; ABC]                                             (* pr:64 *)
  | QuasistaticProblem => [TimeDependentProblem; ABC]                                  (* pr:68 *)
  | DynamicProblem => [TimeDependentProblem; ABC]                                      (* pr:72 *)
  | PoissonProblem => [StaticProblem; ABC]                                             (* pr:77 *)
  | WaveProblem => [DynamicProblem; ABC]                                               (* pr:101 *)
  | ContactWaveProblem => [WaveProblem; ABC]                                           (* pr:118 *)
  | InteriorContactWaveProblem => [ContactWaveProblem; ABC]                            (* pr:123 *)
  | DisplacementProblem => [Problem; ABC]                                              (* pr:128 *)
  | StaticDisplacementProblem => [DisplacementProblem; StaticProblem; ABC]             (* pr:139 *)
  | TimeDependentDisplacementProblem => [DisplacementProblem; ABC]                     (* pr:145 *)
  | QuasistaticDisplacementProblem => [QuasistaticProblem; TimeDependentDisplacementProblem; ABC] (* pr:155 *)
  | DynamicDisplacementProblem => [DynamicProblem; TimeDependentDisplacementProblem; ABC]         (* pr:161 *)
  | TemperatureTimeDependentProblem => [TimeDependentDisplacementProblem; ABC]         (* pr:167 *)
  | PiezoelectricTimeDependentProblem => [TimeDependentDisplacementProblem; ABC]       (* pr:181 *)
  | RelaxationQuasistaticProblem => [QuasistaticDisplacementProblem; ABC]              (* pr:195 *)
  | TemperatureDynamicProblem => [DynamicProblem; TemperatureTimeDependentProblem; ABC]           (* pr:207 *)
  | PiezoelectricQuasistaticProblem =>
      [QuasistaticDisplacementProblem; PiezoelectricTimeDependentProblem; ABC]         (* pr:213-215 *)
  | PiezoelectricDynamicProblem =>
      [DynamicDisplacementProblem; PiezoelectricTimeDependentProblem; ABC]             (* pr:221-223 *)
  end.

(* the order in which Python looks for attributes: the merge of the C3 linearisation takes the
   first head that is in no tail *)
Section C3.
  Context {A : Type}.
  Variable dec : forall a b : A, {a = b} + {a <> b}.

  Definition member (a : A) (l : list A) : bool := if in_dec dec a l then true else false.
  Definition in_tail (a : A) (ls : list (list A)) : bool := existsb (fun l => member a (tl l)) ls.
  Fixpoint candidate (ls all : list (list A)) : option A :=
    match ls with
    | [] => None
    | [] :: ls => candidate ls all
    | (a :: _) :: ls => if in_tail a all then candidate ls all else Some a
    end.
  Definition drop (a : A) (l : list A) : list A :=
    match l with
    | [] => []
    | b :: t => if dec a b then t else l
    end.
  Definition is_empty (l : list A) : bool := match l with [] => true | _ => false end.

  (* fuel: one more than the number of entries *)
  Fixpoint merge_fuel (fuel : nat) (ls : list (list A)) : option (list A) :=
    if forallb is_empty ls then Some []
    else match fuel with
         | O => None
         | S fuel =>
             match candidate ls ls with
             | None => None                    (* TypeError: no consistent order *)
             | Some a => option_map (cons a) (merge_fuel fuel (map (drop a) ls))
             end
         end.
  Definition merge (ls : list (list A)) : option (list A) := merge_fuel (List.length (List.concat ls)) ls.

  Fixpoint all_some {B} (l : list (option B)) : option (list B) :=
    match l with
    | [] => Some []
    | None :: _ => None
    | Some b :: l => option_map (cons b) (all_some l)
    end.

  (* the order of a class written with the bases [bs], given the orders of these *)
  Definition linearise (order : A -> option (list A)) (bs : list A) : option (list A) :=
    match all_some (map order bs) with
    | None => None
    | Some ls => merge (ls ++ [bs])
    end.
End C3.

(* the order of a class of the library; fuel: its depth *)
Fixpoint mro_fuel (fuel : nat) (c : cls) : option (list cls) :=
  match fuel with
  | O => None
  | S fuel => option_map (cons c) (linearise cls_dec (mro_fuel fuel) (bases c))
  end.
Definition mro (c : cls) : list cls :=
  match mro_fuel 10 c with Some l => l | None => [] end.

(* a class of the user: the classes of the library it is written with *)
Definition user_mro (bs : list cls) : option (list cls) := linearise cls_dec (fun c => Some (mro c)) bs.

(* an object is known here by the classes in the order of its class *)
Definition isinstance (l : list cls) (c : cls) : bool := member cls_dec c l.

(* the statements that the classes define themselves; None inside: the method returns None *)
Definition own_statement (c : cls) : option (result (option kind)) :=
  match c with
  | Problem => Some (Err NotImplemented)                                               (* pr:39-41 *)
  | PoissonProblem => Some (Ok None)                                                   (* pr:79-81 *)
  | WaveProblem => Some (Ok (Some Wave))                                               (* pr:104-106 *)
  | StaticDisplacementProblem => Some (Ok (Some StaticDisplacement))                   (* pr:140-142 *)
  | QuasistaticDisplacementProblem => Some (Ok (Some QuasistaticVelocity))             (* pr:156-158 *)
  | DynamicDisplacementProblem => Some (Ok (Some DynamicVelocity))                     (* pr:162-164 *)
  | RelaxationQuasistaticProblem => Some (Ok (Some QuasistaticRelaxation))             (* pr:198-200 *)
  | TemperatureDynamicProblem => Some (Ok (Some DynamicVelocityWithTemperature))       (* pr:208-210 *)
  | PiezoelectricQuasistaticProblem => Some (Ok (Some QuasistaticVelocityWithPiezoelectric)) (* pr:216-218 *)
  | _ => None
  end.
Definition own_second (c : cls) : option (option kind) :=
  match c with
  | Problem => Some None                                                               (* pr:43-45 *)
  | PoissonProblem => Some (Some StaticPoisson)                                        (* pr:83-85 *)
  | TemperatureTimeDependentProblem => Some (Some Temperature)                         (* pr:172-174 *)
  | PiezoelectricTimeDependentProblem => Some (Some Piezoelectric)                     (* pr:186-188 *)
  | _ => None
  end.

(* attribute look-up: the first class in the order that has it *)
Fixpoint first_of {A B} (own : A -> option B) (l : list A) : option B :=
  match l with
  | [] => None
  | a :: l => match own a with Some b => Some b | None => first_of own l end
  end.
Definition statement_of (l : list cls) : result (option kind) :=
  match first_of own_statement l with Some r => r | None => Err AttributeError end.
Definition second_statement_of (l : list cls) : result (option kind) :=
  match first_of own_second l with Some r => Ok r | None => Err AttributeError end.

(* ------------------------------------------------------------- the solvers of the library *)

Inductive solver_class :=
  Direct
| StaticGlobal | QuasistaticGlobal | RelaxedGlobal | DynamicGlobal
| StaticSchur | QuasistaticSchur | RelaxedSchur | DynamicSchur.

(* the decorators in the order they are run: di:18-20 (from the bottom), gl:25-56, sc:142-178 *)
Definition registrations : list (registration solver_class) :=
  let global := ["global"; "global optimization"] in
  let schur := ["schur"; "schur complement"; "schur complement method"] in
  [mkRegistration "static" ["direct"] Direct;
   mkRegistration "dynamic" ["direct"] Direct;
   mkRegistration "static" global StaticGlobal;
   mkRegistration "quasistatic" global QuasistaticGlobal;
   mkRegistration "quasistatic relaxation" global RelaxedGlobal;
   mkRegistration "dynamic" global DynamicGlobal;
   mkRegistration "static" schur StaticSchur;
   mkRegistration "quasistatic" schur QuasistaticSchur;
   mkRegistration "quasistatic relaxation" schur RelaxedSchur;
   mkRegistration "dynamic" schur DynamicSchur].
Definition installed : registry solver_class := register_all empty_registry registrations.

(* reg:41-51 *)
Definition dynamism_of (l : list cls) : result string :=
  if isinstance l RelaxationQuasistaticProblem then Ok "quasistatic relaxation"
  else if isinstance l StaticProblem then Ok "static"
  else if isinstance l QuasistaticProblem then Ok "quasistatic"
  else if isinstance l DynamicProblem then Ok "dynamic"
  else Err ValueError.

(* reg:40-53 *)
Definition get_by_name {C} (reg : registry C) (name : string) (l : list cls) : result C :=
  bind (dynamism_of l) (fun d =>
  bind (dict_item reg d) (fun dyn =>
  dict_item dyn (lower name))).

(* __str__: di:48-49, gl:13-14, sc:65-66 *)
Definition str_of (c : solver_class) : string :=
  match c with
  | Direct => "direct"
  | StaticGlobal | QuasistaticGlobal | RelaxedGlobal | DynamicGlobal => "global optimization"
  | StaticSchur | QuasistaticSchur | RelaxedSchur | DynamicSchur => "schur"
  end.

(* the subclasses of Optimization, op:58 *)
Definition is_optimization (c : solver_class) : bool := match c with Direct => false | _ => true end.

(* ------------------------------------------------------------- what the solvers hand over *)

(* so:41-47  the arrays of a solver, by reference, its time step and its clock *)
Record given := mkGiven { g_b : vref; g_u : vref; g_v : vref; g_t : vref; g_p : vref; g_dt : R; g_time : R }.

(* so:53-63  Solver.__init__ *)
Definition initial_variables (g : given) : variables :=
  mkVariables (Some (g_b g)) (Some (g_u g)) (Some (g_v g)) (Some (g_t g)) (Some (g_p g)) (Some (g_dt g)) (Some (g_time g)).

(* iterate(): None when it does nothing (so:70-71) *)
Definition iterate_variables (c : solver_class) (g : given) : option variables :=
  match c with
  | Direct | StaticGlobal | StaticSchur => None
  | QuasistaticGlobal                                                                  (* gl:32-40 *)
  | QuasistaticSchur =>                                                                (* sc:149-157 *)
      Some (mkVariables None (Some (g_u g)) None None (Some (g_p g)) (Some (g_dt g)) (Some (g_time g)))
  | RelaxedGlobal =>                                                                   (* gl:45-52 *)
      Some (mkVariables (Some (g_b g)) (Some (g_u g)) None None None (Some (g_dt g)) None)
  | RelaxedSchur =>                                                                    (* sc:165-173 *)
      Some (mkVariables (Some (g_b g)) (Some (g_u g)) None None None (Some (g_dt g)) (Some (g_time g)))
  | DynamicGlobal                                                                      (* gl:57-67 *)
  | DynamicSchur =>                                                                    (* sc:179-189 *)
      Some (mkVariables None (Some (g_u g)) (Some (g_v g)) (Some (g_t g)) (Some (g_p g)) (Some (g_dt g)) (Some (g_time g)))
  end.

(* ------------------------------------------------------------- picking the solvers *)

(* ps:81-82 *)
Record picked := mkPicked { p_first : option (solver_class * kind); p_second : option (solver_class * kind) }.

Section Pick.
  Context {L : Type}.       (* contact laws *)
  Variable reg : registry solver_class.
  Variable classes : list cls.            (* of the problem *)
  Variables law law_2 : option L.         (* getattr(problem, "contact_law", None), "contact_law_2" *)
  (* Solver.__init__ (so:27-66): may raise in statement.update *)
  Variable base_init : kind -> result unit.
  (* what the constructors do once they have the law (di:38-46, op:74-103, sc:32-45) *)
  Variable rest_init : solver_class -> kind -> option L -> result unit.

  (* the constructors: op:74-81 reads the attributes of the law before asking whether there is one *)
  Definition construct (c : solver_class) (k : kind) (contact : option L) : result (solver_class * kind) :=
    bind (base_init k) (fun _ =>
    match is_optimization c, contact with
    | true, None => Err AttributeError
    | _, _ => bind (rest_init c k contact) (fun _ => Ok (c, k))
    end).

  (* ps:102-117 *)
  Definition set_step_solver (value : string) (p : picked) : picked * result unit :=
    match get_by_name reg value classes with
    | Err e => (p, Err e)
    | Ok c =>
        match statement_of classes with
        | Err e => (p, Err e)
        | Ok None => (mkPicked None (p_second p), Ok tt)
        | Ok (Some k) =>
            match construct c k law with
            | Err e => (p, Err e)
            | Ok s => (mkPicked (Some s) (p_second p), Ok tt)
            end
        end
    end.

  (* ps:119-134 *)
  Definition set_second_step_solver (value : string) (p : picked) : picked * result unit :=
    match get_by_name reg value classes with
    | Err e => (p, Err e)
    | Ok c =>
        match second_statement_of classes with
        | Err e => (p, Err e)
        | Ok None => (mkPicked (p_first p) None, Ok tt)
        | Ok (Some k) =>
            match construct c k law_2 with
            | Err e => (p, Err e)
            | Ok s => (mkPicked (p_first p) (Some s), Ok tt)
            end
        end
    end.

  (* ps:89-91  str(self.step_solver) *)
  Definition solving_method (p : picked) : string :=
    match p_first p with None => "None" | Some (c, _) => str_of c end.

  (* ps:93-96 *)
  Definition set_solving_method (value : string) (p : picked) : picked * result unit :=
    match set_step_solver value p with
    | (p1, Err e) => (p1, Err e)
    | (p1, Ok _) => set_second_step_solver value p1
    end.

  (* ps:98-100 *)
  Definition refresh_solvers (p : picked) : picked * result unit :=
    match set_step_solver (solving_method p) p with
    | (p1, Err e) => (p1, Err e)
    | (p1, Ok _) => set_second_step_solver (solving_method p1) p1
    end.
End Pick.
