(** * A description file is read once for each version of it (C68)

    [reads_by] counts the reads of a file by the calls of one resolver in a history, [edits] how often its modification
    time is changed in it (SpecReads.v). *)
From Coq Require Import String.
From Coq Require Import List Arith NArith Bool.
From Verif Require Import Str Path Json Types Parse Map Prog Desc Resolve Top Run Posix Demo SpecRun SpecLoad SpecCache SpecChange SpecReads PropChangeP PropReadsP.
Import ListNotations.

(** Whatever the tables held before, whatever else changes on the disk between the calls, and whoever else uses the same
    cache, in release and debug builds.  The description of [d] can be read throughout; the resolver has a refresh
    period and no tsconfig. *)
Theorem C68_once : forall R name d, o_desc (rv_opts R) = Some name -> is_abs name = false -> (0 < rv_duration R)%N -> o_tsconfig (rv_opts R) = None -> d <> [] ->
  forall h fs st, Forall (fun fs' => sane_fs fs' /\ exists pk, described fs' (rv_json R) name d = PRet (Ok pk)) (systems fs h) ->
  Forall (fun R' => rv_id R' = rv_id R -> R' = R) (callers h) ->
  reads_by (rv_id R) (join d name) fs st h <= S (edits (join d name) fs h).
Proof. exact fin_68. Qed.
Print Assumptions C68_once.
(** Two calls read /r/package.json once, those after an edit once more; the other resolver on the cache reads it once. *)
Example C68_ex : reads_by 0 (lit "/r/package.json") (W t41a) st0 h68 = 2 /\ edits (lit "/r/package.json") (W t41a) h68 = 1 /\
  reads_by 0 (lit "/r/package.json") (W t41a) st0 (firstn 3 h68) = 1 /\ reads_by 1 (lit "/r/package.json") (W t41a) st0 h68 = 1 /\
  Forall (fun fs' => sane_fs fs' /\ exists pk, described fs' (rv_json R68) (lit "package.json") (lit "/r") = PRet (Ok pk)) (systems (W t41a) h68).
Proof. exact ex68. Qed.

(** [Resolver::default()] has a refresh period of 0 (src/lib.rs:73, src/fs.rs:11): it reads the file at every lookup. *)
Theorem C68_default_refuted : exists R fs h st, R = default_resolver 0 0 false (js_of T41) (jsc_of T41) /\ Forall (eq R) (callers h) /\
  edits (lit "/r/package.json") fs h = 0 /\ (exists pk, described fs (rv_json R) (lit "package.json") (lit "/r") = PRet (Ok pk)) /\
  1 < reads_by (rv_id R) (lit "/r/package.json") fs st h.
Proof. exact default68_any. Qed.
Print Assumptions C68_default_refuted.

(** A description that is no JSON is read by every call that meets it. *)
Theorem C68_malformed_refuted : exists R fs h st e, rv_duration R = 1000000000%N /\ Forall (eq R) (callers h) /\
  edits (lit "/r/package.json") fs h = 0 /\ described fs (rv_json R) (lit "package.json") (lit "/r") = PRet (Err e) /\
  1 < reads_by (rv_id R) (lit "/r/package.json") fs st h.
Proof. exact malformed68_any. Qed.
Print Assumptions C68_malformed_refuted.
