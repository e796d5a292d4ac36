(** * Demonic executions.

    An execution of a program is a sequence of operations with {e arbitrary} answers: the file
    system may change between any two operations, the tables may be modified by other threads
    at any moment.  Every sequential run, history and interleaving of [Run.v] is an instance
    (see [ExecP.v]). *)
From Coq Require Import List.
From Verif Require Import Str Path Json Types Prog Run.
Import ListNotations.

(** One operation and the answer it got. *)
Definition ev := {o : op & ans o}.
Definition mkev (o : op) (x : ans o) : ev := existT ans o x.

(** [exec p tr r]: [p] can finish with outcome [r] after the operations and answers [tr]. *)
Inductive exec {A : Type} : prog A -> list ev -> outcome A -> Prop :=
| ExRet : forall a, exec (Ret a) [] (Done a)
| ExPanic : forall m, exec (Panic m) [] (Panicked m)
| ExFuel : exec OutOfFuel [] NoFuel
| ExDo : forall o k x tr r, exec (k x) tr r -> exec (Do o k) (mkev o x :: tr) r.
