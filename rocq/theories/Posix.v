(** * A concrete file system: directory tree with symbolic links, POSIX path resolution.

    Used for examples, refutation witnesses and for replaying the repository's tests; the
    theorems quantify over arbitrary [fsys]. *)
From Coq Require Import String.
From Coq Require Import List Arith NArith Bool.
From Verif Require Import Str Path Json Types Prog Run.
Import ListNotations.

Inductive node :=
| NFile (content : str) (mtime : N)
| NDir (l : list (str * node))
| NLink (target : str).

Fixpoint lookup (root : node) (names : list str) : option node :=
  match names with
  | [] => Some root
  | n :: r => match root with
              | NDir l => match imap_get l n with Some c => lookup c r | None => None end
              | _ => None
              end
  end.

(** Path resolution: [cur] is the current directory (names from the root, reversed); [fuel]
    bounds the nesting of symbolic links. *)
Fixpoint walk_path (fuel : nat) (root : node) : list str -> list str -> option (list str) :=
  fix go (cur : list str) (segs : list str) : option (list str) :=
    match segs with
    | [] => Some cur
    | s :: r =>
        match lookup root (rev cur) with
        | Some (NDir l) =>
            if str_eqb s [] || str_eqb s s_dot then go cur r
            else if str_eqb s s_dotdot then go (tl cur) r
            else match imap_get l s with
                 | None => None
                 | Some (NLink t) =>
                     match fuel with
                     | 0 => None
                     | S f => match walk_path f root (if is_abs t then [] else cur) (split_on c_slash t) with
                              | Some cur' => go cur' r
                              | None => None
                              end
                     end
                 | Some _ => go (s :: cur) r
                 end
        | _ => None
        end
    end.

Definition posix_resolve (fuel : nat) (root : node) (cwd : list str) (p : path) : option (list str) :=
  match p with
  | [] => None
  | _ => walk_path fuel root (if is_abs p then [] else rev cwd) (split_on c_slash p)
  end.
Definition posix_node fuel root cwd p : option node :=
  match posix_resolve fuel root cwd p with Some names => lookup root (rev names) | None => None end.

Definition posix_fs (fuel : nat) (root : node) (cwd : list str) : fsys := {|
  f_file := fun p => match posix_node fuel root cwd p with Some (NFile _ _) => true | _ => false end;
  f_dir := fun p => match posix_node fuel root cwd p with Some (NDir _) => true | _ => false end;
  f_exists := fun p => match posix_node fuel root cwd p with Some _ => true | _ => false end;
  f_read := fun p => match posix_node fuel root cwd p with Some (NFile s _) => Some s | _ => None end;
  f_mtime := fun p => match posix_node fuel root cwd p with
                      | Some (NFile _ t) => MTime t
                      | Some _ => MTime 0%N
                      | None => MErr
                      end;
  f_canon := fun p => match posix_resolve fuel root cwd p with
                      | Some names => Some (c_slash :: join_on c_slash (rev names))
                      | None => None
                      end
|}.
