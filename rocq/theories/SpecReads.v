(** * How often a file is read *)
From Coq Require Import List Arith NArith Bool.
From Verif Require Import Str Path Json Types Prog Run SpecCache.
Import ListNotations.

(** The reads of file [fp], however its path is spelled, in one program run. *)
Fixpoint reads_in {A} (fs : fsys) (fp : path) (p : prog A) (st : state) : nat :=
  match p with
  | Do o k => (match o with ORead q => if path_eqb q fp then 1 else 0 | _ => 0 end) +
              reads_in fs fp (k (fst (step fs st o))) (snd (step fs st o))
  | _ => 0
  end.
(** The reads of [fp] by the calls of resolver [id] in a history of calls and changes of the disk. *)
Fixpoint reads_by (id : nat) (fp : path) (fs : fsys) (st : state) (h : list event) : nat :=
  match h with
  | [] => 0
  | EFs fs' :: r => reads_by id fp fs' st r
  | ECall c :: r => (if Nat.eqb (rv_id (call_resolver c)) id then reads_in fs fp (call_prog c) st else 0) +
                    reads_by id fp fs (snd (run fs (call_prog c) st)) r
  end.
(** The times [fp] was given another modification time. *)
Definition same_time (a b : meta_res) : bool :=
  match a, b with MTime t, MTime t' => N.eqb t t' | MErr, MErr | MNoTime, MNoTime => true | _, _ => false end.
Fixpoint edits (fp : path) (fs : fsys) (h : list event) : nat :=
  match h with
  | [] => 0
  | ECall _ :: r => edits fp fs r
  | EFs fs' :: r => (if same_time (f_mtime fs fp) (f_mtime fs' fp) then 0 else 1) + edits fp fs' r
  end.
