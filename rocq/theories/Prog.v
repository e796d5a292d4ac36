(** * Effectful computations: a free monad of atomic operations.

    An operation is one interaction of the crate with the outside world: a file-system call,
    one [DashMap] call, or the (random) iteration order of a freshly built [HashMap]. *)
From Coq Require Import String.
From Coq Require Import List Arith NArith Bool.
From Verif Require Import Str Path Json Types.
Import ListNotations.

(** Result of [fs::metadata(p)?.modified()]  (src/fs.rs:29-32): metadata failed, no
    modification time, or the time in nanoseconds. *)
Inductive meta_res := MErr | MNoTime | MTime (t : N).

Inductive op : Set :=
| OIsFile (p : path)                          (* Path::is_file *)
| OIsDir (p : path)                           (* Path::is_dir *)
| OExists (p : path)                          (* Path::exists *)
| ORead (p : path)                            (* fs::read_to_string, None = error *)
| OMtime (p : path)                           (* fs::metadata(p).modified() *)
| OCanon (p : path)                           (* Path::canonicalize, None = error *)
| OPkgGet (c : nat) (p : path)                (* cache.file_dir_to_pkg_info.get *)
| OPkgDrop (c : nat) (p : path)               (* drop of the guard ([Ref]) that [get] returned *)
| OPkgPut (c : nat) (p : path) (v : option pkg)   (* .insert *)
| OExpGet (c : nat) (k : str)                 (* cache.exports_content_to_tree.get *)
| OExpPut (c : nat) (k : str) (t : ptn)       (* .insert *)
| OImpGet (c : nat) (k : str)                 (* cache.imports_content_to_tree.get *)
| OFileGet (r : nat) (p : path)               (* fs.cached_file.get: stored mtime *)
| OFilePut (r : nat) (p : path) (s : str) (t : N) (* fs.cached_file.insert *)
| ODbgHas (r : nat) (p : path)                (* dbg_read_map.contains_key *)
| ODbgAdd (r : nat) (p : path)                (* dbg_read_map.insert *)
| ODbgDel (r : nat) (p : path)                (* dbg_read_map.remove *)
| OOrder.                                     (* iteration order of a new HashMap *)

Definition ans (o : op) : Type :=
  match o with
  | OIsFile _ | OIsDir _ | OExists _ | ODbgHas _ _ => bool
  | ORead _ => option str
  | OMtime _ => meta_res
  | OCanon _ => option path
  | OPkgGet _ _ => option (option pkg)
  | OExpGet _ _ | OImpGet _ _ => option ptn
  | OFileGet _ _ => option (str * N)
  | OPkgDrop _ _ | OPkgPut _ _ _ | OExpPut _ _ _ | OFilePut _ _ _ _ | ODbgAdd _ _ | ODbgDel _ _ => unit
  | OOrder => list nat
  end.

Inductive prog (A : Type) : Type :=
| Ret (a : A)
| Panic (m : str)
| OutOfFuel
| Do (o : op) (k : ans o -> prog A).
Arguments Ret {A} _. Arguments Panic {A} _. Arguments OutOfFuel {A}. Arguments Do {A} _ _.

Fixpoint bind {A B} (p : prog A) (f : A -> prog B) : prog B :=
  match p with
  | Ret a => f a
  | Panic m => Panic m
  | OutOfFuel => OutOfFuel
  | Do o k => Do o (fun x => bind (k x) f)
  end.
Notation "x <- p ;; q" := (bind p (fun x => q)) (at level 61, p at next level, right associativity).
Notation "p ;;; q" := (bind p (fun _ => q)) (at level 61, right associativity).

Definition act (o : op) : prog (ans o) := Do o (fun x => Ret x).

(** A pure computation as a program. *)
Definition lift {A} (p : pcomp A) : prog A :=
  match p with PRet a => Ret a | PPanic m => Panic m | PFuel => OutOfFuel end.

(** The [?] operator on a program returning a [Result]. *)
Definition try_ {A B} (p : prog (result A)) (f : A -> prog (result B)) : prog (result B) :=
  r <- p ;; match r with Ok a => f a | Err e => Ret (Err e) end.

(** [ResolverStats::and_then]  (src/lib.rs:137-142) *)
Definition and_then (p : prog stats) (f : info -> prog stats) : prog stats :=
  s <- p ;; match s with Resolving i => f i | _ => Ret s end.

Definition p_unreachable : str := lit "internal error: entered unreachable code".

(** [ResolverStats::extract_info]  (src/lib.rs:148-154) *)
Definition extract_info (s : stats) : prog info :=
  match s with
  | Resolving i => Ret i
  | SError _ i => Ret i
  | Success _ => Panic p_unreachable
  end.
