(** * Changes of the disk between calls (C40, C41).

    [systems fs0 h] (SpecChange.v) are the file systems of a history in order, [callers h] the
    resolvers that call.  [member]: parser, name of the description files and refresh period as
    given, one cache per resolver, release build. *)
From Coq Require Import String.
From Coq Require Import List Arith NArith Bool Sorted.
From Verif Require Import Str StrP Path Json Types Parse Map Prog Desc Resolve Top Run Posix Demo SpecRun SpecLoad SpecCache SpecJson PosixP SpecChange ChangeP PropCacheP PropChangeP.
Import ListNotations.
Local Open Scope string_scope.
Local Open Scope list_scope.

(** C41, where it holds: after any history of calls and changes, a call answers as on empty
    tables (that is, from what is on disk now), when between any two times description files
    were only edited, with a modification time later by the refresh period, or added where they
    do not take over from an older one for a directory that had none.
    What is missing is false ([C41_changes_noticed_refuted]): other changes are not noticed. *)
Theorem C41_changes_noticed_partial : forall js, (forall s j, js s = Some j -> wf_json j) ->
  forall nm, (forall c, is_abs (nm c) = false) -> forall own dur fs0 h seeds seeds' c f,
  texts_apart js (written_on (fun n => exists k, n = nm k) (systems fs0 h)) ->
  Forall (fun fs => sane_fs fs /\ forall k, all_readable js (nm k) fs) (systems fs0 h) ->
  ForallOrdPairs (fun fs fs' => forall k, noticeable (nm k) dur fs fs') (systems fs0 h) ->
  Forall (member js nm own dur) (callers h) -> member js nm own dur (call_resolver c) ->
  let '(_, fs, st) := run_history fs0 (empty_state seeds) h in
  steady fs js c ->
  same_outcome same_answer (out fs st (call_prog c)) (out fs (empty_state seeds') (call_prog (with_fuel c f))).
Proof. exact changes_agree. Qed.
Print Assumptions C41_changes_noticed_partial.

(** The same with the changes read off the disk: every tree results from the one before by edits
    and additions ([grown], SpecChange.v), and every description in it is well-formed. *)
Theorem C41_on_disk_partial : forall js, (forall s j, js s = Some j -> wf_json j) ->
  forall name dur, file_name name -> forall fuel cwd t0 ts fs0 h own seeds seeds' c f, texts_apart js (text_in name (t0 :: ts)) ->
  (exists l, lookup t0 cwd = Some (NDir l)) ->
  systems fs0 h = map (fun t => posix_fs fuel t cwd) (t0 :: ts) ->
  Sorted (grown name dur) (t0 :: ts) -> Forall (good_tree js name) (t0 :: ts) ->
  Forall (member js (fun _ => name) own dur) (callers h) -> member js (fun _ => name) own dur (call_resolver c) ->
  let '(_, fs, st) := run_history fs0 (empty_state seeds) h in
  steady fs js c ->
  same_outcome same_answer (out fs st (call_prog c)) (out fs (empty_state seeds') (call_prog (with_fuel c f))).
Proof. exact disk_changes. Qed.
Print Assumptions C41_on_disk_partial.
(** /r's description is edited and a package q is added; the tables know the old description. *)
Example C41_on_disk_ex :
  ((forall s j, js_of T41 s = Some j -> wf_json j) /\ texts_apart (js_of T41) (text_in (lit "package.json") [t41a; t41b]) /\ file_name (lit "package.json") /\
   Sorted (grown (lit "package.json") 1000000000%N) [t41a; t41b] /\ Forall (good_tree (js_of T41) (lit "package.json")) [t41a; t41b] /\
   Forall (member (js_of T41) (fun _ => lit "package.json") (fun _ => 0) 1000000000%N) (callers h41) /\
   steady (W t41b) (js_of T41) (ask "/r" "q")) /\
  exists st, snd (run_history (W t41a) st0 h41) = st /\ systems (W t41a) h41 = map W [t41a; t41b] /\
  (exists e, out (W t41a) st0 (call_prog (ask "/r" "q")) = Done (AResolve (Err e))) /\
  gives (out (W t41a) st0 (call_prog (ask "/" "./r"))) "/r/a.js" /\
  s_pkg st 0 (components (lit "/r")) <> None /\
  gives (out (W t41b) st (call_prog (ask "/" "./r"))) "/r/b.js" /\
  gives (out (W t41b) st (call_prog (ask "/r" "q"))) "/r/node_modules/q/q.js".
Proof.
  exact (conj (conj T41_wf (conj (T41_apart _) (conj t41_name (conj t41_grown (conj t41_good (conj (t41_members (fun _ => 0) eq_refl) (t41_steady _ _ _)))))))
              t41_answers).
Qed.

(** C40 does not extend to concurrent calls: /r's description has been rewritten two periods
    later, two calls start after that, and one of them answers from the old content.  The other
    has stored the new modification time but not yet the new description. *)
Theorem C40_concurrent_refuted : exists sched p q,
  fst (run_sched (w40 "B" 2000000001%N) sched stA (map call_prog [c40; c40])) = [p; q] /\
  gives (settled p) "/r/b.js" /\ gives (settled q) "/r/a.js" /\
  gives (out (w40 "B" 2000000001%N) stA (call_prog c40)) "/r/b.js".
Proof. exact race40. Qed.
Print Assumptions C40_concurrent_refuted.
