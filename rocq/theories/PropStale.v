(** * Every outcome after any history (C61)

    Without conditions on the disk, on what the files hold, on the resolvers and the caches they share,
    or on how the disk changed between the calls: every outcome is one that the reference search
    (SpecFull.v) allows on the disk as it now stands, if the descriptions it uses are such as
    [consulted] (SpecStale.v) says, that is, read now, or read earlier and kept.  Debug builds are included.
    [keyed]: the configuration files have no repeated keys. *)
From Coq Require Import String.
From Coq Require Import List Arith NArith Bool.
From Verif Require Import Str StrP Path Json Types Parse Map Prog Desc Resolve Top Run Posix Demo SpecRun SpecLoad SpecCache SpecJson SpecNode SpecWorld SpecFull SpecChange SpecDesc SpecStale PropCacheP StaleP MoveP PropStaleP.
Import ListNotations.

(** After any calls and any changes on disk. *)
Theorem C61_any : forall fs0 h seeds c, keyed c ->
  let '(_, fs, st) := run_history fs0 (empty_state seeds) h in
  allowed (consulted (each (fun x => In x (systems fs0 h))) (fun R => In R (call_resolver c :: callers h)) (standing fs)) (standing fs) c (out fs st (call_prog c)).
Proof. exact fin_61. Qed.
Print Assumptions C61_any.

(** And among concurrent calls after them, under every schedule. *)
Theorem C61_concurrent : forall fs0 h seeds l sched, Forall keyed l ->
  let '(_, fs, st) := run_history fs0 (empty_state seeds) h in
  Forall2 (fun c p => allowed (consulted (each (fun x => In x (systems fs0 h))) (fun R => In R (map call_resolver l ++ callers h)) (standing fs)) (standing fs) c (settled p)) l
    (fst (run_sched fs sched st (map call_prog l))).
Proof. exact fin_61_sched. Qed.
Print Assumptions C61_concurrent.

(** On a disk that stands still, with the conditions of C60, nothing more is allowed than what C60
    allows: the descriptions are those on the disk. *)
Theorem C61_still : forall fs, sane_fs fs -> forall js, (forall s j, js s = Some j -> wf_json j) -> forall nm, no_clash fs js nm ->
  forall crew : resolver -> Prop, (forall R, crew R -> client js nm R) -> forall R, crew R ->
  forall p x, consulted (each (fun x => x = fs)) crew (standing fs) R p x -> some_desc fs R p x.
Proof. exact consulted_right. Qed.
Print Assumptions C61_still.

(** A description is edited within the refresh period, or removed: the answers are those of before, and
    C60 would not allow them. *)
Example C61_ex : (forall f base req, keyed (CResolve R61 f base req)) /\
  (after61 w61b (CResolve R61 40 (lit "/") (lit "./r")) = at_path "/r/a.js" /\
   out w61b st0 (call_prog (CResolve R61 40 (lit "/") (lit "./r"))) = at_path "/r/b.js" /\
   after61 w61c (CSide R61 40 (lit "/r")) = Done (ASide (Ok (Some (lit "/r/package.json", Some (SEBool false))))) /\
   out w61c st0 (call_prog (CSide R61 40 (lit "/r"))) = Done (ASide (Ok None))) /\
  consulted (each (fun w => In w (systems w61a (h61 w61c)))) (fun R => In R [R61; R61]) (standing w61c) R61 (lit "/r") (Has (Some pk61)) /\
  ~ some_desc w61c R61 (lit "/r") (Has (Some pk61)).
Proof. exact (conj keyed61 (conj runs61 gone61)). Qed.

(** The disk may also have changed while the earlier calls, concurrent ones, were under way, between any
    two of their steps ([run_moving]).  Then what was read is what was answered by one or another of
    the file systems there have been ([among]). *)
Theorem C61_moving : forall seen calls sched seeds, Forall (fun x => seen (fst x)) sched -> forall fs c, seen fs -> keyed c ->
  allowed (consulted (fun w => w = among seen) (fun R => In R (map call_resolver (c :: calls))) (standing fs)) (standing fs) c
    (out fs (snd (run_moving sched (empty_state seeds) (map call_prog calls))) (call_prog c)).
Proof. exact fin_61_moving. Qed.
Print Assumptions C61_moving.
Theorem C61_moving_concurrent : forall seen calls sched seeds, Forall (fun x => seen (fst x)) sched -> forall fs l sched', seen fs -> Forall keyed l ->
  Forall2 (fun c p => allowed (consulted (fun w => w = among seen) (fun R => In R (map call_resolver (l ++ calls))) (standing fs)) (standing fs) c (settled p)) l
    (fst (run_sched fs sched' (snd (run_moving sched (empty_state seeds) (map call_prog calls))) (map call_prog l))).
Proof. exact fin_61_moving_sched. Qed.
Print Assumptions C61_moving_concurrent.

(** A description is replaced after its text and before its time was read: the old text stays in use
    with the time of the new file, although this time is later than any refresh period.  Replaced
    between the calls, it would be read again. *)
Example C61_moving_ex : Forall (fun x => seen61 (fst x)) sched61 /\
  (out w61d torn61 (call_prog (CResolve R61 40 (lit "/") (lit "./r"))) = at_path "/r/a.js" /\
   out w61d st0 (call_prog (CResolve R61 40 (lit "/") (lit "./r"))) = at_path "/r/b.js" /\
   (let '(_, fs, st) := run_history w61a st0 (h61 w61d) in out fs st (call_prog (CResolve R61 40 (lit "/") (lit "./r")))) = at_path "/r/b.js").
Proof. exact (conj seen61_sched torn61_runs). Qed.
