(** * Disks whose files say the same in other words (C64) *)
From Coq Require Import String.
From Coq Require Import List Arith NArith Bool.
From Verif Require Import Str Path Json Types Prog Desc Resolve Run SpecRun SpecJsonText.
Import ListNotations.

(** Both texts are documents for the same value or none is one, and the other parser makes the
    same of them. *)
Definition retold (float : str -> option str) (jc : str -> jsonc_res) (x y : option str) : Prop :=
  match x, y with
  | Some s, Some t => (forall v, document float s v <-> document float t v) /\ jc s = jc t
  | None, None => True
  | _, _ => False
  end.
(** The same files and directories, with the same times. *)
Definition retold_fs float jc (fs fs' : fsys) : Prop := forall p,
  f_file fs p = f_file fs' p /\ f_dir fs p = f_dir fs' p /\ f_exists fs p = f_exists fs' p /\ f_mtime fs p = f_mtime fs' p /\
  f_canon fs p = f_canon fs' p /\ retold float jc (f_read fs p) (f_read fs' p).
(** The same calls, with such disks between them. *)
Definition retold_event float jc (e e' : event) : Prop :=
  match e, e' with
  | ECall c, ECall c' => c = c'
  | EFs fs, EFs fs' => retold_fs float jc fs fs'
  | _, _ => False
  end.
