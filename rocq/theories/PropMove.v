(** * Calls during which the disk changes (C62)

    [run_moving] executes concurrent calls in any interleaving, and every step finds the disk as it then
    is; nothing is assumed about how it changes, about what the files hold, or about the resolvers and
    the caches they share.  Every outcome is one that the reference search (SpecFull.v) allows if each
    of its questions to the disk is answered by one or another of the file systems that this call
    met ([among (during sched i)]), and if the descriptions are such as [consulted] (SpecStale.v)
    says: read in this call, or kept from a reading in any of the calls.
    [keyed]: the configuration files have no repeated keys. *)
From Coq Require Import String.
From Coq Require Import List Arith NArith Bool.
From Verif Require Import Str StrP Path Json Types Parse Map Prog Desc Resolve Top Run Posix Demo SpecRun SpecLoad SpecCache SpecDesc SpecWorld SpecFull SpecStale SpecJson SpecEnd PosixP PropCacheP PropChangeP MoveP PropTermP EndP CalmP PropEndP PropMoveP.
Import ListNotations.

Theorem C62_moving : forall calls sched seeds i c p, nth_error calls i = Some c -> keyed c ->
  nth_error (fst (run_moving sched (empty_state seeds) (map call_prog calls))) i = Some p ->
  allowed (consulted (fun w => w = among (overall sched)) (fun R => In R (map call_resolver calls)) (among (during sched i)))
    (among (during sched i)) c (SpecCache.settled p).
Proof. exact fin_62. Qed.
Print Assumptions C62_moving.

(** If the disk stands still meanwhile, this is what C61 says. *)
Theorem C62_still : forall (S : world -> Prop) crew fs c o,
  allowed (consulted S crew (among (fun x => x = fs))) (among (fun x => x = fs)) c o <-> allowed (consulted S crew (standing fs)) (standing fs) c o.
Proof. exact fin_62_still. Qed.
Print Assumptions C62_still.

(** A path that is returned is that of a file that the call met: it was a file in one of its steps, and
    the path returned is its real path in one of them, or what it is spelled without dots. *)
Theorem C62_found : forall calls sched seeds i R f base req x, nth_error calls i = Some (CResolve R f base req) -> values_nodup R ->
  nth_error (fst (run_moving sched (empty_state seeds) (map call_prog calls))) i = Some (Ret (AResolve (Ok (RInfo x)))) ->
  exists fs q, In (fs, i) sched /\ f_file fs q = true /\
    if o_symlinks (rv_opts R) then exists fs', In (fs', i) sched /\ f_canon fs' q = Some (i_path x) else i_path x = normalize_path_without_link q.
Proof. exact fin_62_found. Qed.
Print Assumptions C62_found.

(** a.json gives way to a.js while a call looks for "./a": at any moment one of them is there, but the
    call may find none, or may find a.json and then no real path of it. *)
Example C62_ex : keyed c62 /\ moved62 0 = [at_path "/r/a.js"] /\ moved62 60 = [at_path "/r/a.json"] /\
  moved62 12 = [Done (AResolve (Err (lit "Resolve './a' failed in '/r'")))] /\ moved62 13 = [Done (AResolve (Err (lit "Path normalized failed")))].
Proof. exact (conj keyed62 runs62). Qed.

(** While only files other than the description files change, and under the conditions of C60, the descriptions are
    those on the disk, up to the spelling of their directories and the order of their browser entries ([some_desc]):
    whatever the tables hold after earlier calls [h], and whatever other calls do meanwhile. *)
Theorem C62_calm : forall fs, sane_fs fs -> forall js, (forall s j, js s = Some j -> wf_json j) -> forall nm, no_clash fs js nm ->
  forall h seeds l sched i c p, calm_history nm fs h js -> Forall (fun c => client js nm (call_resolver c) /\ keyed c) l ->
  Forall (fun e => SpecEnd.calm nm fs (fst e)) sched -> nth_error l i = Some c ->
  nth_error (fst (run_moving sched (snd (run_history fs (empty_state seeds) h)) (map call_prog l))) i = Some p ->
  allowed (some_desc fs) (among (during sched i)) c (SpecCache.settled p).
Proof. exact fin_62_calm. Qed.
Print Assumptions C62_calm.
(** The file src/y.js goes away after the call, before its last step, before the call begins. *)
Example C62_calm_ex : (sane_fs w16 /\ (forall s j, js_of T16 s = Some j -> wf_json j) /\ no_clash w16 (js_of T16) nmc /\ client (js_of T16) nmc R16 /\
   forall k, Forall (fun e => SpecEnd.calm nmc w16 (fst e)) (sched63 k)) /\
  moved63 60 = [at_path "/r/src/y.js"] /\ moved63 32 = [Done (AResolve (Err (lit "Path normalized failed")))] /\
  moved63 0 = [Done (AResolve (Err (lit "Resolve '@/y' failed in '/r'")))].
Proof. exact (conj (conj (posix_sane _ _ _) (conj wf16 (conj clash16 (conj client16 calm63)))) runs63). Qed.
