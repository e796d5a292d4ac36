(** * Targets that stay inside, on disks where ".." is a directory *)
From Coq Require Import String.
From Coq Require Import List NArith Bool.
From Verif Require Import Str Path Json Types Parse Prog Run.

(** No file has a path that ends in "..". *)
Definition dotdot_dirs (fs : fsys) : Prop := forall p, f_file fs (p ++ lit "/..") = false.
(** A relative target without empty segments; it may end in "..". *)
Definition no_empty_segment (c : str) : Prop :=
  r_kind (parse c) = Relative /\ forall a b, r_target (parse c) <> a ++ lit "//" ++ b.
