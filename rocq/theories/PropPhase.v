(** * Concurrent calls between changes of the disk (C65).

    [phases fs0 st0 h fs st] (SpecPhase.v): a history of phases, each of them any number of calls
    at once, interleaved in any way, all of which come to their end, or a change of the disk.
    While such a phase lasts a call may answer from an old description
    ([C40_concurrent_refuted]): one thread has noted the new time and not yet the new description.
    When all calls have ended, nothing of that is left. *)
From Coq Require Import String.
From Coq Require Import List Arith NArith Bool Sorted.
From Verif Require Import Str StrP Path Json Types Parse Map Prog Desc Resolve Top Run Posix Demo SpecRun SpecLoad SpecCache SpecJson SpecTerm PosixP SpecChange PropCacheP PropChangeP SpecPhase PhaseP PropPhaseP.
Import ListNotations.
Local Open Scope string_scope.
Local Open Scope list_scope.

(** The next call answers as on empty tables, under the conditions of
    [C41_changes_noticed_partial] on the changes. *)
Theorem C65_phases : forall js, (forall s j, js s = Some j -> wf_json j) ->
  forall nm, (forall c, is_abs (nm c) = false) -> forall own dur fs0 h fs st seeds seeds' c f,
  phases fs0 (empty_state seeds) h fs st ->
  texts_apart js (written_on (fun n => exists k, n = nm k) (phase_systems fs0 h)) ->
  Forall (fun fs => sane_fs fs /\ forall k, all_readable js (nm k) fs) (phase_systems fs0 h) ->
  ForallOrdPairs (fun fs fs' => forall k, noticeable (nm k) dur fs fs') (phase_systems fs0 h) ->
  Forall (member js nm own dur) (phase_callers h) -> member js nm own dur (call_resolver c) -> steady fs js c ->
  same_outcome same_answer (out fs st (call_prog c)) (out fs (empty_state seeds') (call_prog (with_fuel c f))).
Proof. exact phases_agree. Qed.
Print Assumptions C65_phases.

(** With a bound that depends neither on the history nor on what was on disk before. *)
Theorem C65_phases_end : forall js, (forall s j, js s = Some j -> wf_json j) ->
  forall nm, (forall c, is_abs (nm c) = false) -> forall own dur fs, sane_fs fs ->
  forall c, member js nm own dur (call_resolver c) -> steady fs js c -> call_plain_by fs (fun _ => disk_answer fs) c ->
  exists N, forall fs0 h st seeds seeds' f f', N <= f -> N <= f' ->
  phases fs0 (empty_state seeds) h fs st ->
  texts_apart js (written_on (fun n => exists k, n = nm k) (phase_systems fs0 h)) ->
  Forall (fun fs => sane_fs fs /\ forall k, all_readable js (nm k) fs) (phase_systems fs0 h) ->
  ForallOrdPairs (fun fs fs' => forall k, noticeable (nm k) dur fs fs') (phase_systems fs0 h) ->
  Forall (member js nm own dur) (phase_callers h) ->
  same_end same_answer (out fs st (call_prog (with_fuel c f))) (out fs (empty_state seeds') (call_prog (with_fuel c f'))).
Proof. exact phases_end. Qed.
Print Assumptions C65_phases_end.

(** The same with the changes read off the directory tree. *)
Theorem C65_on_disk : forall js, (forall s j, js s = Some j -> wf_json j) ->
  forall name dur, file_name name -> forall fuel cwd t0 ts fs0 h fs st own seeds seeds' c f,
  phases fs0 (empty_state seeds) h fs st -> texts_apart js (text_in name (t0 :: ts)) ->
  (exists l, lookup t0 cwd = Some (NDir l)) -> phase_systems fs0 h = map (fun t => posix_fs fuel t cwd) (t0 :: ts) ->
  Sorted (grown name dur) (t0 :: ts) -> Forall (good_tree js name) (t0 :: ts) ->
  Forall (member js (fun _ => name) own dur) (phase_callers h) -> member js (fun _ => name) own dur (call_resolver c) -> steady fs js c ->
  same_outcome same_answer (out fs st (call_prog c)) (out fs (empty_state seeds') (call_prog (with_fuel c f))).
Proof. exact phases_disk. Qed.
Print Assumptions C65_on_disk.
Theorem C65_on_disk_end : forall js, (forall s j, js s = Some j -> wf_json j) ->
  forall name dur, file_name name -> forall fuel cwd t own c,
  member js (fun _ => name) own dur (call_resolver c) -> steady (posix_fs fuel t cwd) js c ->
  call_plain_by (posix_fs fuel t cwd) (fun _ => disk_answer (posix_fs fuel t cwd)) c ->
  exists N, forall t0 ts fs0 h fs st seeds seeds' f f', N <= f -> N <= f' ->
  phases fs0 (empty_state seeds) h fs st -> texts_apart js (text_in name (t0 :: ts)) ->
  (exists l, lookup t0 cwd = Some (NDir l)) -> phase_systems fs0 h = map (fun t => posix_fs fuel t cwd) (t0 :: ts) -> last (t0 :: ts) t0 = t ->
  Sorted (grown name dur) (t0 :: ts) -> Forall (good_tree js name) (t0 :: ts) ->
  Forall (member js (fun _ => name) own dur) (phase_callers h) ->
  same_end same_answer (out fs st (call_prog (with_fuel c f))) (out fs (empty_state seeds') (call_prog (with_fuel c f'))).
Proof. exact phases_disk_end. Qed.
Print Assumptions C65_on_disk_end.

(** Histories of single calls are such phases. *)
Theorem C65_histories : forall h fs st, exists ph, let '(_, fs', st') := run_history fs st h in
  phases fs st ph fs' st' /\ phase_systems fs ph = systems fs h /\ phase_callers ph = callers h.
Proof. exact history_phases. Qed.
Print Assumptions C65_histories.

(** Two calls at once, then /r's description is edited and a package added, then two calls at
    once, of which one answers from the old description; the call after them does not. *)
Example C65_ex :
  (texts_apart (js_of T41) (text_in (lit "package.json") [t41a; t41b]) /\ file_name (lit "package.json") /\
   phase_systems (W t41a) h65 = map W [t41a; t41b] /\ last [t41a; t41b] t41a = t41b /\
   Sorted (grown (lit "package.json") 1000000000%N) [t41a; t41b] /\ Forall (good_tree (js_of T41) (lit "package.json")) [t41a; t41b] /\
   Forall (member (js_of T41) (fun _ => lit "package.json") (fun _ => 0) 1000000000%N) (phase_callers h65) /\
   steady (W t41b) (js_of T41) (ask "/" "./r") /\ phases (W t41a) st0 h65 (W t41b) st65) /\
  (exists st p q st', snd (run_sched (W t41a) alternate st0 (map call_prog [ask "/" "./r"; ask "/r" "q"])) = st /\
   run_sched (W t41b) race st (map call_prog [ask "/" "./r"; ask "/" "./r"]) = ([p; q], st') /\ gives (settled p) "/r/b.js" /\ gives (settled q) "/r/a.js") /\
  gives (out (W t41b) st65 (call_prog (ask "/" "./r"))) "/r/b.js".
Proof.
  exact (conj (conj (T41_apart _) (conj t41_name (conj eq_refl (conj eq_refl (conj t41_grown (conj t41_good (conj members65 (conj (t41_steady _ _ _) phases65)))))))) answers65).
Qed.

(** That all calls have ended is necessary: a call that has stopped in between makes the next one
    answer from the old description. *)
Theorem C65_waiting_refuted : exists cs sched ps st' c,
  run_sched (W t41b) sched (snd (run_sched (W t41a) alternate st0 (map call_prog [ask "/" "./r"; ask "/r" "q"]))) (map call_prog cs) = (ps, st') /\
  ~ Forall over ps /\ gives (out (W t41b) st' (call_prog c)) "/r/a.js" /\ gives (out (W t41b) st0 (call_prog c)) "/r/b.js".
Proof. exact waiting65. Qed.
Print Assumptions C65_waiting_refuted.
