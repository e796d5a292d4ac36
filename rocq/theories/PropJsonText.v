(** * The text of description files (C64)

    In all other theorems the parser of description files is any function.  Here it is the one the crate
    calls, [serde_json::from_str] (JsonText.v), against the grammar of JSON (SpecJsonText.v).
    [float l]: what is printed for the 64-bit float nearest to the literal [l]; any function. *)
From Coq Require Import String.
From Coq Require Import List Arith NArith Bool Sorted.
From Verif Require Import Str StrP Path Json Types Parse Map Prog Desc Resolve Top Run Posix Demo SpecRun SpecJson SpecCache SpecChange SpecDesc JsonText SpecJsonText JsonTextP JsonRoundP SpecRetell RetellP PropJsonTextP.
Import ListNotations.

(** The parser accepts the documents of the grammar and nothing else, and gives the value they spell: of
    repeated keys the last value at the place of the first, at most 127 arrays and objects inside each other. *)
Theorem C64_reads : forall float s v, from_str float s = Some v <-> document float s v.
Proof. exact reads_document. Qed.
Print Assumptions C64_reads.
Theorem C64_unique : forall float s v v', document float s v -> document float s v' -> v = v'.
Proof. exact unique. Qed.
Print Assumptions C64_unique.
Example C64_reads_ex : from_str nofloat t64 = Some v64 /\ Forall (fun s => from_str nofloat s = None) bad64 /\
  (exists v, from_str nofloat (deep64 127) = Some v) /\ from_str nofloat (deep64 128) = None.
Proof. exact ex64. Qed.

(** What C16, C37, C60 and others ask of the parser is so, if numbers are printed for floats. *)
Theorem C64_wf : forall float, prints_numbers float -> forall s v, from_str float s = Some v -> wf_json v.
Proof. exact from_str_wf. Qed.
Print Assumptions C64_wf.
(** A value that is printed (as it is for the keys of the table of exports) is read back as it was, ... *)
Theorem C64_prints_back : forall float v, readable float 127 v -> from_str float (to_string v) = Some v.
Proof. exact from_str_text. Qed.
Print Assumptions C64_prints_back.
(** ... and these are all the values of texts, if floats, once printed, are printed so again. *)
Theorem C64_values : forall float, prints_once float -> forall v, (exists s, document float s v) <-> readable float 127 v.
Proof. exact image. Qed.
Print Assumptions C64_values.
Example C64_values_ex : prints_once zero64 /\ from_str zero64 (lit "[-0, -0.0 ,-0e0]") = Some (JArr (repeat (JNum (lit "-0.0")) 3)) /\
  from_str zero64 (lit "[-0.0,-0.0,-0.0]") = Some (JArr (repeat (JNum (lit "-0.0")) 3)) /\ from_str zero64 (lit "0.0") = None.
Proof. exact ex64_zero. Qed.
Example C64_wf_ex : prints_numbers zero64 /\ wf_json v64 /\ readable nofloat 127 v64 /\ ~ readable nofloat 2 v64.
Proof. exact ex64_wf. Qed.

(** A file that holds no document is reported as such. *)
Theorem C64_invalid : forall float fs seeds R f p name s t, rv_json R = from_str float -> o_desc (rv_opts R) = Some name ->
  f_dir fs p = true -> f_file fs (join p name) = true -> f_read fs (join p name) = Some s -> f_mtime fs (join p name) = MTime t ->
  ~ (exists v, document float s v) ->
  out fs (empty_state seeds) (call_prog (CSide R (S f) p)) = Done (ASide (Err (lit "Parse " ++ join p name ++ lit " failed"))).
Proof. exact fin_64_invalid. Qed.
Print Assumptions C64_invalid.
Example C64_invalid_ex : from_str nofloat (lit "{""name"":""p"",}") = None /\
  out w64b st0 (call_prog (CSide R64 60 (lit "/r/node_modules/p"))) = Done (ASide (Err (lit "Parse /r/node_modules/p/package.json failed"))).
Proof. exact ex64_invalid. Qed.

(** How a file is spelled has no influence on anything: if on two disks all files with the same path spell the same
    value, and are modified at the same times, then any history of calls, with such changes of both disks between
    them, has the same outcomes, whatever the state. *)
Theorem C64_spelling : forall float jc h h' fs fs' st, retold_fs float jc fs fs' -> Forall2 (retold_event float jc) h h' ->
  Forall (fun e => match e with ECall c => rv_json (call_resolver c) = from_str float /\ rv_jsonc (call_resolver c) = jc | _ => True end) h ->
  fst (fst (run_history fs st h)) = fst (fst (run_history fs' st h')).
Proof. exact fin_64_history. Qed.
Print Assumptions C64_spelling.
(** So it is for concurrent calls during which the disks change. *)
Theorem C64_spelling_moving : forall float jc sched sched' l st, Forall2 (fun e e' => retold_fs float jc (fst e) (fst e') /\ snd e = snd e') sched sched' ->
  Forall (fun c => rv_json (call_resolver c) = from_str float /\ rv_jsonc (call_resolver c) = jc) l ->
  map SpecCache.settled (fst (run_moving sched st (map call_prog l))) = map SpecCache.settled (fst (run_moving sched' st (map call_prog l))).
Proof. exact fin_64_moving. Qed.
Print Assumptions C64_spelling_moving.
(** A description with other white space, escapes and repeated keys; another value has other outcomes. *)
Example C64_spelling_ex : (retold_fs nofloat (fun _ => JCNone) w64 (reworded p64' w64) /\ Forall2 (retold_event nofloat (fun _ => JCNone)) (h64 p64) (h64 p64')) /\
  p64 <> p64' /\ outs64 p64' = [at64 "/r/node_modules/p/lib/a.js"; at64 "/r/node_modules/p/lib/a.js"; side64] /\
  outs64 p64'' = [at64 "/r/node_modules/p/lib/b.js"; at64 "/r/node_modules/p/lib/b.js"; side64].
Proof. exact (conj (conj reworded64 events64) ex64_runs). Qed.

(** The conditions of C37, C40 and C41 can be met with this parser. *)
Example C64_disk_ex : (texts_apart (from_str nofloat) (text_in (lit "package.json") [t64a; t64b]) /\ Sorted (grown (lit "package.json") 1000000000%N) [t64a; t64b] /\
    Forall (good_tree (from_str nofloat) (lit "package.json")) [t64a; t64b] /\ prints_numbers nofloat /\
    member (from_str nofloat) (fun _ => lit "package.json") (fun _ => 0) 1000000000%N R64) /\
  fst (fst (run_history (W t64a) st0 [ECall c64])) = [at64 "/r/node_modules/p/lib/a.js"] /\
  out (W t64b) (snd (run_history (W t64a) st0 h64c)) (call_prog c64) = at64 "/r/node_modules/p/lib/b.js".
Proof. exact ex64_disk. Qed.
