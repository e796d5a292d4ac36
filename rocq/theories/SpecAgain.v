(** * What C67 asks of the disk *)
From Coq Require Import List NArith Bool.
From Verif Require Import Str Path Json Types Prog Run.
Import ListNotations.

(** The canonical path of a file is absolute, names a file, and is its own canonical path. *)
Definition canonical (fs : fsys) : Prop := forall p q, f_file fs p = true -> f_canon fs p = Some q ->
  is_abs q = true /\ f_file fs q = true /\ f_canon fs q = Some q.
(** '?' is 63, '#' is 35. *)
Definition no_marks (p : path) : Prop := ~ In 63%N p /\ ~ In 35%N p.
