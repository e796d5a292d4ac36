(** * Debug builds and release builds (C57, and C15, C37, C41 for debug builds).

    A debug build keeps a record of the descriptions it has read, and panics when it reads one
    twice without a reason (src/description.rs:30-42, 186-189); it also asserts that a result
    has an empty target (src/normalize.rs:53-56).  [released] (SpecDebug.v) is the same resolver in a
    release build, [double_read] the panic of the check, [same_tables] equality of all tables but the
    record. *)
From Coq Require Import String.
From Coq Require Import List Arith NArith Bool.
From Verif Require Import Str StrP Path Json Types Parse Map Prog Desc Resolve Top Run Posix Demo SpecRun SpecLoad SpecCache SpecJson SpecTerm SpecPanic SpecDesc SpecChange PropCacheP PropChangeP SpecDebug DebugP PropDebugP.
Import ListNotations.
Local Open Scope string_scope.
Local Open Scope list_scope.

(** In every interleaving of calls, while the disk changes, what a debug build does is what the
    release build does with some of the steps left out: the same tables, and for every call that
    has ended the same end, unless the check stopped it. *)
Theorem C57_release : forall sched st cs, exists sched', part sched' sched /\
  Forall2 follows (fst (run_moving sched st (map call_prog cs))) (fst (run_moving sched' st (map call_prog (map released_call cs)))) /\
  same_tables (snd (run_moving sched st (map call_prog cs))) (snd (run_moving sched' st (map call_prog (map released_call cs)))).
Proof. exact follow_moving. Qed.
Print Assumptions C57_release.

(** Calls one after the other: either the check stops one of them, or all answers and all tables
    are those of the release build. *)
Theorem C57_history : forall h fs st,
  (exists m, In (Panicked m) (fst (fst (run_history fs st h))) /\ double_read m) \/
  (fst (fst (run_history fs st h)) = fst (fst (run_history fs st (map released_event h))) /\
   same_tables (snd (run_history fs st h)) (snd (run_history fs st (map released_event h)))).
Proof. exact fin_57_history. Qed.
Print Assumptions C57_history.

(** The check never stops a call of a history in which every description can be read: whatever is
    edited, added or removed between the calls, and however many resolvers share a cache. *)
Theorem C57_unnoticed : forall h fs seeds, orderly (callers h) (systems fs h) ->
  fst (fst (run_history fs (empty_state seeds) h)) = fst (fst (run_history fs (empty_state seeds) (map released_event h))) /\
  same_tables (snd (run_history fs (empty_state seeds) h)) (snd (run_history fs (empty_state seeds) (map released_event h))).
Proof. exact same_answers. Qed.
Print Assumptions C57_unnoticed.
(** A debug build reads /r/package.json, and again after an edit. *)
Example C57_ex : orderly (callers h57) (systems (W t41a) h57) /\
  rv_debug Rd = true /\ exists a e b q, fst (fst (run_history (W t41a) st0 h57)) = [a; Done (AResolve (Err e)); b; q] /\
  gives a "/r/a.js" /\ gives b "/r/b.js" /\ gives q "/r/node_modules/q/q.js" /\
  s_dbg (snd (run_history (W t41a) st0 h57)) 0 (components (lit "/r/package.json")) = true.
Proof. exact (conj h57_orderly ex57). Qed.

(** Concurrent calls are stopped by the check on the same conditions: both find no entry, both
    read. *)
Theorem C57_unnoticed_concurrent_refuted : exists fs cs sched, orderly (map call_resolver cs) [fs] /\
  (exists a m, map settled (fst (run_sched fs sched st0 (map call_prog cs))) = [a; Panicked m] /\ gives a "/r/a.js" /\ double_read m) /\
  exists a b, map settled (fst (run_sched fs sched st0 (map call_prog (map released_call cs)))) = [a; b] /\ gives a "/r/a.js" /\ gives b "/r/a.js".
Proof. exact race57_any. Qed.
Print Assumptions C57_unnoticed_concurrent_refuted.

(** C37 for debug builds: a call answers after any calls as on empty tables. *)
Theorem C37_debug_partial : forall fs, sane_fs fs -> forall js, (forall s j, js s = Some j -> wf_json j) ->
  forall nm, no_clash fs js nm -> forall h seeds seeds' c f, orderly (map call_resolver (c :: h)) [fs] ->
  Forall (fun c => client js nm (released (call_resolver c))) (c :: h) -> steady fs js c ->
  same_outcome same_answer (out fs (snd (run_history fs (empty_state seeds) (map ECall h))) (call_prog c))
                           (out fs (empty_state seeds') (call_prog (with_fuel c f))).
Proof. exact fin_37_debug. Qed.
Print Assumptions C37_debug_partial.

(** C41 for debug builds: edits and additions are noticed. *)
Theorem C41_debug_partial : forall js, (forall s j, js s = Some j -> wf_json j) ->
  forall nm, (forall c, is_abs (nm c) = false) -> forall own dur fs0 h seeds seeds' c f,
  texts_apart js (written_on (fun n => exists k, n = nm k) (systems fs0 h)) ->
  Forall (fun fs => sane_fs fs /\ forall k, all_readable js (nm k) fs) (systems fs0 h) ->
  ForallOrdPairs (fun fs fs' => forall k, noticeable (nm k) dur fs fs') (systems fs0 h) ->
  Forall (fun R => member js nm own dur (released R)) (call_resolver c :: callers h) ->
  let '(_, fs, st) := run_history fs0 (empty_state seeds) h in
  steady fs js c ->
  same_outcome same_answer (out fs st (call_prog c)) (out fs (empty_state seeds') (call_prog (with_fuel c f))).
Proof. exact fin_41_debug. Qed.
Print Assumptions C41_debug_partial.

(** C15 for debug builds, where every description can be read. *)
Theorem C15_debug_partial : forall ascii h fs seeds, orderly (callers h) (systems fs h) -> history_tidy ascii fs (map released_event h) ->
  served_tidy ascii fs (map released_event h) (fst (fst (run_history fs (empty_state seeds) h))).
Proof. exact fin_15_debug. Qed.
Print Assumptions C15_debug_partial.
(** The conditions hold of the history above. *)
Example C57_conditions : history_tidy true (W t41a) (map released_event h57) /\ no_clash (W t41a) (js_of T41) (fun _ => lit "package.json") /\
  (forall s j, js_of T41 s = Some j -> wf_json j) /\ texts_apart (js_of T41) (written_on (fun n => exists k : nat, n = lit "package.json") (systems (W t41a) h57)) /\
  (forall fs, steady fs (js_of T41) (askd "/" "./r")) /\ Forall sane_fs (systems (W t41a) h57) /\
  Forall (fun R => SpecChange.member (js_of T41) (fun _ => lit "package.json") (fun _ => 0) 1000000000%N (released R)) (call_resolver (askd "/" "./r") :: callers h57) /\
  ForallOrdPairs (fun fs fs' => noticeable (lit "package.json") 1000000000%N fs fs') (systems (W t41a) h57).
Proof. exact cond57. Qed.
