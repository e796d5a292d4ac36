(** * How much a call does *)
From Coq Require Import String.
From Coq Require Import List Arith NArith Bool.
From Verif Require Import Str Path Json Types Prog Run Exec Posix Demo.
Import ListNotations.

(** The operations (questions to the disk and uses of the tables) a program run performs. *)
Fixpoint work {A} (fs : fsys) (p : prog A) (st : state) : nat :=
  match p with
  | Do o k => S (work fs (k (fst (step fs st o))) (snd (step fs st o)))
  | _ => 0
  end.

(** A package with [n] directories inside each other; all but the last have the same description, with two main fields
    that both name the next directory (the code takes the second one from the directory the first one named). *)
Fixpoint nest (n : nat) : node :=
  match n with
  | 0 => D [("package.json", PJ "Q")]%string
  | S m => D [("package.json", PJ "P"); ("d", nest m)]%string
  end.
Definition deep (n : nat) : node := D [("d", D [("package.json", PJ "P"); ("index.js", F); ("d", nest n)])]%string.
Definition texts70 : list (string * json) := [("P", O [("module", S_ "./d"); ("main", S_ "../d")]); ("Q", O [])]%string.
Definition R70 : resolver := mkR (with_fields dflt [lit "module"; lit "main"]) texts70.
(** The files and directories of a tree. *)
Fixpoint entries (t : node) : nat :=
  match t with NDir l => S (fold_right (fun kv n => entries (snd kv) + n) 0 l) | _ => 1 end.
(** What the disk was asked, it answered truthfully (nothing is said about the tables: other threads use them too). *)
Definition from_disk (fs : fsys) (e : ev) : Prop :=
  match e with
  | existT _ o x =>
      match o return ans o -> Prop with
      | OIsFile p => fun x => x = f_file fs p
      | OIsDir p => fun x => x = f_dir fs p
      | ORead p => fun x => x = f_read fs p
      | OMtime p => fun x => x = f_mtime fs p
      | _ => fun _ => True
      end x
  end.
(** A directory without node_modules/x/index in the inner directory; the outer one has an index of its own. *)
Definition t70 : node := D [("a", D [("node_modules", D [("x", D [])])]); ("node_modules", D [("index.node", F)])]%string.
Definition R70n : resolver := mkR (with_desc dflt None) [].
Definition t70s : node := D [("a", D [("b", D [])])]%string.
