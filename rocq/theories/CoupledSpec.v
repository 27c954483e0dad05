(* Independent specification of the runs of coupled problems (C104, C105): in every time step a velocity
   and a second field (temperature, electric potential) are improved in turn. *)
From Coq Require Import Reals List Arith.
From Verif Require Import RVec StateModel TimeSpec.
Local Open Scope R_scope.

(* [first t u v y x]: x answers for the velocity at time t, from displacement u and velocity v and with
   the second field y; [second u x e y]: y answers for the second field, with the new displacement u, the
   new velocity x and the second field e before the step *)
Section Turns.
  Variables (size nodes : nat).
  Variable first : R -> vec -> vec -> vec -> vec -> Prop.
  Variable second : vec -> vec -> vec -> vec -> Prop.

  (* r passes from the fields u, v, e: velocities x 1 .. x r, second fields y 0 = e, y 1 .. y r *)
  Definition turns (dt t : R) (u v e : vec) (r : nat) (x y : nat -> vec) : Prop :=
    y O = e /\
    forall i, (i < r)%nat ->
      first t u v (y i) (x (S i)) /\
      second (fun c => u c + dt * x (S i) c) (x (S i)) e (y (S i)).

  (* velocity x and second field y answer to each other: the step that the passes aim at *)
  Definition balanced (dt t : R) (u v e x y : vec) : Prop :=
    first t u v y x /\ second (fun c => u c + dt * x c) x e y.

  (* n steps *)
  Definition coupled_motion (dt : R) (u0 v0 e0 : vec) (n : nat) (u v e : nat -> vec) : Prop :=
    u O = u0 /\ v O = v0 /\ e O = e0 /\
    forall j, (j < n)%nat ->
      (forall i, u (S j) i = u j i + dt * v (S j) i) /\
      exists r x y, turns dt (INR (S j) * dt) (u j) (v j) (e j) r x y /\ stops size nodes r x y /\
        v (S j) = x r /\ e (S j) = y r.

  (* the state after q steps *)
  Definition shows_coupled (dt : R) (u v e : nat -> vec) (q : nat) (w : view) (extras : list vec) : Prop :=
    view_time w = INR q * dt /\ view_displacement w = u q /\ view_velocity w = v q /\ extras = (e q :: nil)%list.
End Turns.
