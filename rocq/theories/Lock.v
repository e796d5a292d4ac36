(** * The locks of the tables.

    A [DashMap] is an array of shards, each behind a reader-writer lock; the hash of the key
    selects the shard.  [get] locks the shard for reading and, if it finds the key, returns a
    guard ([Ref]) that keeps the lock until it is dropped; the guards of [contains_key],
    [insert] and [remove], and of [get] where the code copies the value at once
    (src/fs.rs:42-44, src/description.rs:74, 89), end with the operation.  The only guard that
    lives longer is that of src/description.rs:180, up to [OPkgDrop]. *)
From Coq Require Import String.
From Coq Require Import List Arith NArith Bool.
From Verif Require Import Str Path Json Types Parse Map Prog Desc Resolve Top Run.
Import ListNotations.

Inductive table := TPkg (c : nat) | TExp (c : nat) | TImp (c : nat) | TFile (r : nat) | TDbg (r : nat).
(** The shard of a key; number of shards and hash functions are arbitrary. *)
Record hashing := mkHash { h_path : table -> list comp -> nat; h_str : table -> str -> nat }.
(** A lock: table and number of the shard. *)
Definition lock : Set := (table * nat)%type.
Inductive mode := Reading | Writing.
Definition table_eqb (a b : table) : bool :=
  match a, b with
  | TPkg c, TPkg d | TExp c, TExp d | TImp c, TImp d | TFile c, TFile d | TDbg c, TDbg d => Nat.eqb c d
  | _, _ => false
  end.
Definition lock_eqb (a b : lock) : bool := table_eqb (fst a) (fst b) && Nat.eqb (snd a) (snd b).

Section Locks.
Variable H : hashing.
Definition path_lock (t : table) (p : path) : lock := (t, h_path H t (components p)).
Definition str_lock (t : table) (k : str) : lock := (t, h_str H t k).

(** The lock an operation takes. *)
Definition needs (o : op) : option (lock * mode) :=
  match o with
  | OPkgGet c p => Some (path_lock (TPkg c) p, Reading)
  | OPkgPut c p _ => Some (path_lock (TPkg c) p, Writing)
  | OExpGet c k => Some (str_lock (TExp c) k, Reading)
  | OExpPut c k _ => Some (str_lock (TExp c) k, Writing)
  | OImpGet c k => Some (str_lock (TImp c) k, Reading)
  | OFileGet r p => Some (path_lock (TFile r) p, Reading)
  | OFilePut r p _ _ => Some (path_lock (TFile r) p, Writing)
  | ODbgHas r p => Some (path_lock (TDbg r) p, Reading)
  | ODbgAdd r p | ODbgDel r p => Some (path_lock (TDbg r) p, Writing)
  | _ => None
  end.
Fixpoint drop_one (l : lock) (held : list lock) : list lock :=
  match held with
  | [] => []
  | x :: r => if lock_eqb x l then r else x :: drop_one l r
  end.
(** The guards a thread holds after the operation was answered. *)
Definition held_after (o : op) : ans o -> list lock -> list lock :=
  match o return ans o -> list lock -> list lock with
  | OPkgGet c p => fun x held => match x with Some _ => path_lock (TPkg c) p :: held | None => held end
  | OPkgDrop c p => fun _ held => drop_one (path_lock (TPkg c) p) held
  | _ => fun _ held => held
  end.

(** A thread: the guards it holds and what it still has to do. *)
Record thread (A : Type) := mkThread { t_held : list lock; t_prog : prog A }.
Arguments mkThread {A} _ _. Arguments t_held {A} _. Arguments t_prog {A} _.
Definition start {A} (p : prog A) : thread A := mkThread [] p.

(** Held guards only read, so only a writer has to wait for them. *)
Definition granted (held : list lock) (o : op) : bool :=
  match needs o with Some (l, Writing) => negb (existsb (lock_eqb l) held) | _ => true end.

(** One step of thread [i]; nothing happens if it has ended or has to wait. *)
Fixpoint set_nth {A} (i : nat) (x : A) (l : list A) : list A :=
  match l, i with
  | [], _ => []
  | _ :: r, 0 => x :: r
  | y :: r, S i' => y :: set_nth i' x r
  end.
Definition locked_step {A} (fs : fsys) (i : nat) (ts : list (thread A)) (st : state) : list (thread A) * state :=
  match nth_error ts i with
  | Some t =>
      match t_prog t with
      | Do o k =>
          if granted (flat_map t_held ts) o then
            let (x, st') := step fs st o in (set_nth i (mkThread (held_after o x (t_held t)) (k x)) ts, st')
          else (ts, st)
      | _ => (ts, st)
      end
  | None => (ts, st)
  end.
(** Which thread moves next, and the file system at that moment. *)
Fixpoint locked_run {A} (sched : list (fsys * nat)) (ts : list (thread A)) (st : state) : list (thread A) * state :=
  match sched with
  | [] => (ts, st)
  | (fs, i) :: r => let (ts', st') := locked_step fs i ts st in locked_run r ts' st'
  end.
End Locks.
Arguments mkThread {A} _ _. Arguments t_held {A} _. Arguments t_prog {A} _.
