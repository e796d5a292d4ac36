(** * Worlds and executions.

    A world is a file system (arbitrary answers to the queries of [Prog.op]) and the contents
    of all in-memory tables. *)
From Coq Require Import String.
From Coq Require Import List Arith NArith Bool.
From Verif Require Import Str Path Json Types Parse Map Prog Desc Resolve Top.
Import ListNotations.

(** The file system as the crate sees it.  The functions take the raw spelling of a path. *)
Record fsys := mkFs {
  f_file : path -> bool;            (* Path::is_file *)
  f_dir : path -> bool;             (* Path::is_dir *)
  f_exists : path -> bool;          (* Path::exists *)
  f_read : path -> option str;      (* fs::read_to_string *)
  f_mtime : path -> meta_res;       (* fs::metadata + modified *)
  f_canon : path -> option path     (* Path::canonicalize *)
}.

(** The tables.  [s_pkg], [s_exp], [s_imp] belong to a [ResolverCache] (src/cache.rs:8-13),
    [s_file] to a [CacheFile] (src/fs.rs:11-14), [s_dbg] to a [DebugReadMap]
    (src/cache.rs:15-32).  Path keys are compared by components, as [PathBuf] hashes and
    compares.  [s_ord] is the stream of hash-map iteration orders still to be drawn. *)
Record state := mkSt {
  s_pkg : nat -> list comp -> option (option pkg);
  s_exp : nat -> str -> option ptn;
  s_imp : nat -> str -> option ptn;
  s_file : nat -> list comp -> option (str * N);
  s_dbg : nat -> list comp -> bool;
  s_ord : nat -> list nat
}.

(** All tables empty. *)
Definition empty_state (seeds : nat -> list nat) : state :=
  mkSt (fun _ _ => None) (fun _ _ => None) (fun _ _ => None) (fun _ _ => None)
       (fun _ _ => false) seeds.

Definition upd_path {A} (m : nat -> list comp -> A) (n : nat) (k : list comp) (v : A)
  : nat -> list comp -> A :=
  fun n' k' => if Nat.eqb n' n && comps_eqb k' k then v else m n' k'.
Definition upd_str {A} (m : nat -> str -> A) (n : nat) (k : str) (v : A) : nat -> str -> A :=
  fun n' k' => if Nat.eqb n' n && str_eqb k' k then v else m n' k'.

Definition set_pkg (st : state) m := mkSt m (s_exp st) (s_imp st) (s_file st) (s_dbg st) (s_ord st).
Definition set_exp (st : state) m := mkSt (s_pkg st) m (s_imp st) (s_file st) (s_dbg st) (s_ord st).
Definition set_file (st : state) m := mkSt (s_pkg st) (s_exp st) (s_imp st) m (s_dbg st) (s_ord st).
Definition set_dbg (st : state) m := mkSt (s_pkg st) (s_exp st) (s_imp st) (s_file st) m (s_ord st).
Definition set_ord (st : state) m := mkSt (s_pkg st) (s_exp st) (s_imp st) (s_file st) (s_dbg st) m.

(** Effect of one operation. *)
Definition step (fs : fsys) (st : state) (o : op) : ans o * state :=
  match o return ans o * state with
  | OIsFile p => (f_file fs p, st)
  | OIsDir p => (f_dir fs p, st)
  | OExists p => (f_exists fs p, st)
  | ORead p => (f_read fs p, st)
  | OMtime p => (f_mtime fs p, st)
  | OCanon p => (f_canon fs p, st)
  | OPkgGet c p => (s_pkg st c (components p), st)
  | OPkgDrop c p => (tt, st)
  | OPkgPut c p v => (tt, set_pkg st (upd_path (s_pkg st) c (components p) (Some v)))
  | OExpGet c k => (s_exp st c k, st)
  | OExpPut c k t => (tt, set_exp st (upd_str (s_exp st) c k (Some t)))
  | OImpGet c k => (s_imp st c k, st)
  | OFileGet r p => (s_file st r (components p), st)
  | OFilePut r p s t => (tt, set_file st (upd_path (s_file st) r (components p) (Some (s, t))))
  | ODbgHas r p => (s_dbg st r (components p), st)
  | ODbgAdd r p => (tt, set_dbg st (upd_path (s_dbg st) r (components p) true))
  | ODbgDel r p => (tt, set_dbg st (upd_path (s_dbg st) r (components p) false))
  | OOrder => (s_ord st 0, set_ord st (fun n => s_ord st (S n)))
  end.

Inductive outcome (A : Type) := Done (a : A) | Panicked (m : str) | NoFuel.
Arguments Done {A} _. Arguments Panicked {A} _. Arguments NoFuel {A}.

(** Sequential execution on an unchanging file system. *)
Fixpoint run {A} (fs : fsys) (p : prog A) (st : state) : outcome A * state :=
  match p with
  | Ret a => (Done a, st)
  | Panic m => (Panicked m, st)
  | OutOfFuel => (NoFuel, st)
  | Do o k => let (x, st') := step fs st o in run fs (k x) st'
  end.
Definition out {A} (fs : fsys) (st : state) (p : prog A) : outcome A := fst (run fs p st).

(** ** Calls of the public API, histories, concurrent executions *)
Inductive call :=
| CResolve (R : resolver) (fuel : nat) (base : path) (req : str)
| CSide (R : resolver) (fuel : nat) (p : path).
Inductive answer :=
| AResolve (r : result rresult)
| ASide (r : result (option (path * option side_effects))).
Definition call_prog (c : call) : prog answer :=
  match c with
  | CResolve R fuel base req => r <- resolve R fuel base req ;; Ret (AResolve r)
  | CSide R fuel p => r <- load_side_effects R fuel p ;; Ret (ASide r)
  end.

(** A history: calls served one after the other, with arbitrary file-system changes between
    them. *)
Inductive event := ECall (c : call) | EFs (fs : fsys).
Fixpoint run_history (fs : fsys) (st : state) (h : list event) : list (outcome answer) * fsys * state :=
  match h with
  | [] => ([], fs, st)
  | EFs fs' :: r => run_history fs' st r
  | ECall c :: r =>
      let (o, st') := run fs (call_prog c) st in
      let '(os, fs'', st'') := run_history fs st' r in (o :: os, fs'', st'')
  end.

(** One step of thread [i]; a finished thread does nothing. *)
Definition thread_step {A} (fs : fsys) (st : state) (p : prog A) : prog A * state :=
  match p with
  | Do o k => let (x, st') := step fs st o in (k x, st')
  | _ => (p, st)
  end.
Fixpoint step_nth {A} (fs : fsys) (st : state) (i : nat) (l : list (prog A)) : list (prog A) * state :=
  match l, i with
  | [], _ => ([], st)
  | p :: r, 0 => let (p', st') := thread_step fs st p in (p' :: r, st')
  | p :: r, S i' => let (r', st') := step_nth fs st i' r in (p :: r', st')
  end.
(** Interleaved execution: the schedule says which thread performs the next atomic step. *)
Fixpoint run_sched {A} (fs : fsys) (sched : list nat) (st : state) (l : list (prog A))
  : list (prog A) * state :=
  match sched with
  | [] => (l, st)
  | i :: r => let (l', st') := step_nth fs st i l in run_sched fs r st' l'
  end.
