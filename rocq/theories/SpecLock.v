(** * What the theorems about locks say. *)
From Coq Require Import String.
From Coq Require Import List Arith NArith Bool.
From Verif Require Import Str Path Types Prog Run Lock.
Import ListNotations.

(** The thread has a next operation, and no thread, itself included, holds the lock it needs, be
    it for reading or writing. *)
Definition can_go {A} (H : hashing) (ts : list (thread A)) (t : thread A) : Prop :=
  exists o k, t_prog t = Do o k /\ forall l m, needs H o = Some (l, m) -> forall t', In t' ts -> ~ In l (t_held t').
Definition finished {A} (t : thread A) : Prop := forall o k, t_prog t <> Do o k.
(** The thread has to wait: it wants to write to a shard another thread reads. *)
Definition waits {A} (H : hashing) (ts : list (thread A)) (t : thread A) : Prop :=
  exists o k l t', t_prog t = Do o k /\ needs H o = Some (l, Writing) /\ In t' ts /\ In l (t_held t').
