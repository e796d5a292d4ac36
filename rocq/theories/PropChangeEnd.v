(** * Calls end after changes of the disk (C41).

    The theorems of PropChange.v compare outcomes unless one of the two calls runs out of fuel.
    Here it is shown that neither does: [same_end] (SpecTerm.v) leaves no third case. *)
From Coq Require Import String.
From Coq Require Import List Arith NArith Bool Sorted.
From Verif Require Import Str StrP Path Json Types Parse Map Prog Desc Resolve Top Run Posix Demo SpecRun SpecLoad SpecCache SpecJson SpecTerm PosixP SpecChange PropCacheP PropChangeP ChangeEndP PropChangeEndP.
Import ListNotations.
Local Open Scope string_scope.
Local Open Scope list_scope.

(** C41, where it holds: the bound [N] depends only on what is on disk now and on the call, not
    on the history, however long it is, and not on what the disk was before.  The condition
    [call_plain_by] speaks of the disk as it is now ([C16_modest_partial] gives it from the files). *)
Theorem C41_changes_noticed_ends_partial : forall js, (forall s j, js s = Some j -> wf_json j) ->
  forall nm, (forall c, is_abs (nm c) = false) -> forall own dur fs, sane_fs fs ->
  forall c, member js nm own dur (call_resolver c) -> steady fs js c -> call_plain_by fs (fun _ => disk_answer fs) c ->
  exists N, forall fs0 h seeds seeds' f f', N <= f -> N <= f' ->
  texts_apart js (written_on (fun n => exists k, n = nm k) (systems fs0 h)) ->
  Forall (fun fs => sane_fs fs /\ forall k, all_readable js (nm k) fs) (systems fs0 h) ->
  ForallOrdPairs (fun fs fs' => forall k, noticeable (nm k) dur fs fs') (systems fs0 h) ->
  Forall (member js nm own dur) (callers h) ->
  snd (fst (run_history fs0 (empty_state seeds) h)) = fs ->
  same_end same_answer (out fs (snd (run_history fs0 (empty_state seeds) h)) (call_prog (with_fuel c f)))
                       (out fs (empty_state seeds') (call_prog (with_fuel c f'))).
Proof. exact changes_end. Qed.
Print Assumptions C41_changes_noticed_ends_partial.

(** The same with the changes read off the disk: [t] is the last tree. *)
Theorem C41_on_disk_ends_partial : forall js, (forall s j, js s = Some j -> wf_json j) ->
  forall name dur, file_name name -> forall fuel cwd t own c,
  member js (fun _ => name) own dur (call_resolver c) -> steady (posix_fs fuel t cwd) js c ->
  call_plain_by (posix_fs fuel t cwd) (fun _ => disk_answer (posix_fs fuel t cwd)) c ->
  exists N, forall t0 ts fs0 h seeds seeds' f f', N <= f -> N <= f' -> texts_apart js (text_in name (t0 :: ts)) ->
  (exists l, lookup t0 cwd = Some (NDir l)) ->
  systems fs0 h = map (fun t => posix_fs fuel t cwd) (t0 :: ts) -> last (t0 :: ts) t0 = t ->
  Sorted (grown name dur) (t0 :: ts) -> Forall (good_tree js name) (t0 :: ts) ->
  Forall (member js (fun _ => name) own dur) (callers h) ->
  same_end same_answer (out (posix_fs fuel t cwd) (snd (run_history fs0 (empty_state seeds) h)) (call_prog (with_fuel c f)))
                       (out (posix_fs fuel t cwd) (empty_state seeds') (call_prog (with_fuel c f'))).
Proof. exact disk_ends. Qed.
Print Assumptions C41_on_disk_ends_partial.
(** The world of [C41_on_disk_ex] meets the further condition. *)
Example C41_on_disk_ends_ex :
  (member (js_of T41) (fun _ => lit "package.json") (fun _ => 0) 1000000000%N (call_resolver (ask "/r" "q")) /\
   steady (W t41b) (js_of T41) (ask "/r" "q") /\ call_plain_by (W t41b) (fun _ => disk_answer (W t41b)) (ask "/r" "q") /\
   systems (W t41a) h41 = map W [t41a; t41b] /\ last [t41a; t41b] t41a = t41b) /\
  gives (out (W t41b) (snd (run_history (W t41a) st0 h41)) (call_prog (ask "/r" "q"))) "/r/node_modules/q/q.js".
Proof. exact ends41. Qed.
