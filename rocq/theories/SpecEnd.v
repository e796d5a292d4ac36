(** * Ending while the disk changes (C63) *)
From Coq Require Import String.
From Coq Require Import List Arith NArith Bool.
From Verif Require Import Str Path Json Types Parse Map Prog Desc Resolve Run SpecRun SpecLoad SpecCache SpecTerm SpecDesc.
Import ListNotations.

(** An endless schedule: whose turn it is, and how the disk then is.  Its first [n] steps. *)
Definition first (sched : nat -> fsys * nat) (n : nat) : list (fsys * nat) := map sched (seq 0 n).
(** The [i]th thread has its turn again and again. *)
Definition fair (sched : nat -> fsys * nat) (i : nat) : Prop := forall n, exists m, n <= m /\ snd (sched m) = i.
(** The [i]th thread after [n] steps of threads that begin as [l]. *)
Definition state_at (sched : nat -> fsys * nat) (st : state) (l : list call) (n i : nat) : option (outcome answer) :=
  option_map SpecCache.settled (nth_error (fst (run_moving (first sched n) st (map call_prog l))) i).
(** It comes to an answer (or a panic) after some time; it never does. *)
Definition finishes (sched : nat -> fsys * nat) (st : state) (l : list call) (i : nat) : Prop :=
  exists n o, state_at sched st l n i = Some o /\ o <> NoFuel.
Definition never_finishes (sched : nat -> fsys * nat) (st : state) (l : list call) (i : nat) : Prop :=
  forall n, state_at sched st l n i = Some NoFuel.
(** On all disks that occur in steps of the [i]th thread the directories are those of [fs], and so are the directories
    with a description file [name]. *)
Definition in_place (fs : fsys) (name : str) (sched : nat -> fsys * nat) (i : nat) : Prop :=
  forall n fs', sched n = (fs', i) -> forall p, f_dir fs' p = f_dir fs p /\ f_file fs' (join p name) = f_file fs (join p name).
(** [fs'] has the directories of [fs], and the same description files (named by [nm]) with the same texts and times;
    other files may differ in any way. *)
Definition calm (nm : nat -> str) (fs fs' : fsys) : Prop := forall p,
  f_dir fs' p = f_dir fs p /\
  forall c, f_file fs' (join p (nm c)) = f_file fs (join p (nm c)) /\ f_read fs' (join p (nm c)) = f_read fs (join p (nm c)) /\
            f_mtime fs' (join p (nm c)) = f_mtime fs (join p (nm c)).
(** Earlier calls, with the disk changing between them only as [calm] allows. *)
Definition calm_history (nm : nat -> str) (fs : fsys) (h : list event) (js : str -> option json) : Prop :=
  Forall (fun e => match e with ECall c => client js nm (call_resolver c) | EFs fs' => calm nm fs fs' end) h.
(** The files in [keep] are there, with the same texts, or not there, as in [fs]. *)
Definition kept (keep : path -> Prop) (fs fs' : fsys) : Prop := forall p, keep p -> f_file fs' p = f_file fs p /\ f_read fs' p = f_read fs p.
(** What may be answered while only other files change; the tables hold what is on the disk. *)
Definition calm_answer (nm : nat -> str) (keep : path -> Prop) (fs : fsys) (R : resolver) (o : op) : ans o -> Prop :=
  match o as o return ans o -> Prop with
  | OIsFile p => fun x => keep p \/ (exists c d, p = join d (nm c)) -> x = f_file fs p
  | ORead p => fun x => keep p \/ (exists c d, p = join d (nm c)) -> x = f_read fs p
  | OMtime p => fun x => (exists c d, p = join d (nm c)) -> x = f_mtime fs p
  | OExists _ | OCanon _ => fun _ => True
  | o => true_answer fs R o
  end.
(** The conditions of C16 for one call; the tsconfig and the files it extends are in [keep]. *)
Definition call_kept (nm : nat -> str) (keep : path -> Prop) (fs : fsys) (c : call) : Prop :=
  match c with
  | CResolve R _ base req => is_abs base = true /\ no_cycles fs R /\ stops (rewritten (rv_opts R)) (r_target (parse req)) /\
      forall loc, o_tsconfig (rv_opts R) = Some loc -> stops (rewritten (rv_opts R)) [] /\
        exists rank, ranked fs R (calm_answer nm keep fs) loc rank /\ forall p, rank p <> None -> keep p
  | CSide _ _ p => is_abs p = true
  end.
