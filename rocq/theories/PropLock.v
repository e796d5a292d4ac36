(** * C55: calls that run at the same time cannot block each other forever.

    [locked_run] (Lock.v) adds the locks of the tables to the interleaved execution: a thread that
    wants to write to a shard waits as long as some thread, be it itself, holds a guard on it. *)
From Coq Require Import String.
From Coq Require Import List Arith NArith Bool.
From Verif Require Import Str Path Json Types Prog Desc Resolve Top Run Posix Demo SpecRun SpecLoad SpecCache SpecJson SpecTerm SpecDesc SpecEnd PosixP PropCacheP PropTermP EndP PropEndP Lock SpecLock LockP LiveP PropLockP.
Import ListNotations.

(** A thread that holds a guard has a next operation, and nobody holds the lock it needs: guards
    are held for a few steps and never left behind. *)
Theorem C55_holder_goes_on : forall H l sched st t,
  let ts := fst (locked_run H sched (map (fun c => start (call_prog c)) l) st) in
  In t ts -> t_held t <> [] -> can_go H ts t.
Proof. exact fin_55_holder. Qed.
Print Assumptions C55_holder_goes_on.
(** So there is no deadlock, not even if readers had to wait for readers. *)
Theorem C55_no_deadlock : forall H l sched st,
  let ts := fst (locked_run H sched (map (fun c => start (call_prog c)) l) st) in
  Forall finished ts \/ exists t, In t ts /\ can_go H ts t.
Proof. exact fin_55_alive. Qed.
Print Assumptions C55_no_deadlock.
(** Whatever has happened, all calls can still be brought to an end. *)
Theorem C55_completes : forall H l sched st fs, exists sched',
  Forall finished (fst (locked_run H (sched ++ map (fun i => (fs, i)) sched') (map (fun c => start (call_prog c)) l) st)).
Proof. exact fin_55_ends. Qed.
Print Assumptions C55_completes.
(** Executions with locks are among those of [run_sched], so the theorems about these hold for
    them. *)
Theorem C55_locks_restrict : forall H l fs sched st, exists sched', run_sched fs sched' st (map call_prog l) =
  (map t_prog (fst (locked_run H (map (fun i => (fs, i)) sched) (map (fun c => start (call_prog c)) l) st)),
   snd (locked_run H (map (fun i => (fs, i)) sched) (map (fun c => start (call_prog c)) l) st)).
Proof. exact fin_55_refines. Qed.
Print Assumptions C55_locks_restrict.
(** The same while the disk changes: the steps that find the lock taken are left out. *)
Theorem C55_locks_restrict_moving : forall H l sched st, exists sched', incl sched' sched /\ run_moving sched' st (map call_prog l) =
  (map t_prog (fst (locked_run H sched (map (fun c => start (call_prog c)) l) st)),
   snd (locked_run H sched (map (fun c => start (call_prog c)) l) st)).
Proof. exact fin_55_moving. Qed.
Print Assumptions C55_locks_restrict_moving.
(** If every thread has its turn again and again then all of them finish, or use up the steps they were given, whatever
    happens to the disk; having to wait in some of its turns holds no thread up for ever. *)
Theorem C55_fair : forall H l sched st, (forall i, i < length l -> fair sched i) ->
  exists n, Forall finished (fst (locked_run H (first sched n) (map (fun c => start (call_prog c)) l) st)).
Proof. exact fin_55_fair. Qed.
Print Assumptions C55_fair.
(** Under the conditions of C16 they come to an answer (or a panic); the number of steps they need to be given depends on the
    calls only. *)
Theorem C55_live : forall fs, sane_fs fs -> forall js, (forall s j, js s = Some j -> wf_json j) -> forall nm, no_clash fs js nm ->
  forall l, Forall (fun c => client js nm (call_resolver c) /\ call_plain fs c) l ->
  exists N, forall f H h seeds sched, N <= f -> Forall (fun c => client js nm (call_resolver c)) h ->
  (forall i, i < length l -> fair sched i) -> (forall n, fst (sched n) = fs) ->
  exists n, Forall (fun t => SpecCache.settled (t_prog t) <> NoFuel)
    (fst (locked_run H (first sched n) (map (fun c => start (call_prog (with_fuel c f))) l) (snd (run_history fs (empty_state seeds) (map ECall h))))).
Proof. exact fin_55_plain. Qed.
Print Assumptions C55_live.
(** So they do while files other than descriptions, tsconfigs and what these extend change (C63). *)
Theorem C55_live_calm : forall fs, sane_fs fs -> forall js, (forall s j, js s = Some j -> wf_json j) -> forall nm, no_clash fs js nm ->
  forall keep l, Forall (fun c => client js nm (call_resolver c) /\ call_kept nm keep fs c) l ->
  exists N, forall f H h seeds sched, N <= f -> calm_history nm fs h js ->
  (forall i, i < length l -> fair sched i) -> (forall n, SpecEnd.calm nm fs (fst (sched n)) /\ kept keep fs (fst (sched n))) ->
  exists n, Forall (fun t => SpecCache.settled (t_prog t) <> NoFuel)
    (fst (locked_run H (first sched n) (map (fun c => start (call_prog (with_fuel c f))) l) (snd (run_history fs (empty_state seeds) h)))).
Proof. exact fin_55_kept. Qed.
Print Assumptions C55_live_calm.
(** Two calls re-read one description: the second has to wait for the first, which can go on, and
    both come to their ends. *)
Example C55_ex :
  (exists t0 t1, at55 s55 = [t0; t1] /\ t_held t0 = [(TPkg 0, 0)] /\ waits H55 [t0; t1] t1 /\ can_go H55 [t0; t1] t0) /\
  exists t0 t1, at55 (s55 ++ repeat 0 20 ++ repeat 1 20) = [t0; t1] /\ t_prog t0 = Ret (ASide (Ok (Some (lit "/r/package.json", Some (SEBool false))))) /\ t_prog t1 = t_prog t0.
Proof. exact ex55. Qed.
(** Two calls take turns while a file comes and goes, with one lock for each table. *)
Example C55_live_ex :
  ((forall n, SpecEnd.calm nmc w16 (fst (sched55 n))) /\ (forall i, i < 2 -> fair sched55 i) /\ client (js_of T16) nmc R16 /\
   forall f, Forall (fun c => call_plain w16 c) (l55 f)) /\
  Forall finished (fst (locked_run H55 (first sched55 200) (map (fun c => start (call_prog c)) (l55 60)) st0)) /\
  ~ Forall finished (fst (locked_run H55 (first sched55 40) (map (fun c => start (call_prog c)) (l55 60)) st0)).
Proof. exact live55. Qed.
