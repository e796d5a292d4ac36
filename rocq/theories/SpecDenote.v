(** * Requests that denote a path *)
From Coq Require Import String.
From Coq Require Import List NArith Bool.
From Verif Require Import Str Path Json Types Parse Prog Run SpecRun SpecLoad SpecCache.
Import ListNotations.

(** Asked from [base], the text [req] is a path ("./x", "../x", "/x", …), denotes [p], and carries query [q] and
    fragment [f]. *)
Definition denotes (base : path) (req : str) (p : path) (q f : str) : Prop :=
  path_kind (r_kind (parse req)) /\ r_query (parse req) = q /\ r_fragment (parse req) = f /\
  p = match r_target (parse req) with [] => base | [46%N] => base | t => join base t end.
(** The answers to two requests: the same file, query and fragment, or both ignored; or both fail, each with its own
    "Resolve .. failed" message or with two spellings of the same text. *)
Definition no_such (base : path) (req : str) : str :=
  lit "Resolve '" ++ r_target (parse req) ++ r_query (parse req) ++ r_fragment (parse req) ++ lit "' failed in '" ++ base ++ lit "'".
Definition same_for (base : path) (req : str) (base' : path) (req' : str) (a b : answer) : Prop :=
  match a, b with
  | AResolve (Ok x), AResolve (Ok y) => x = y
  | AResolve (Err e), AResolve (Err e') => (e = no_such base req /\ e' = no_such base' req') \/ same_text e e'
  | _, _ => False
  end.
