(** * The refresh periods of the resolvers that can be made (C40) *)
From Coq Require Import String.
From Coq Require Import List Arith NArith Bool.
From Verif Require Import Str WitnessP Path Json Types Parse Map Prog Desc Resolve Top Run Posix Demo SpecRun SpecLoad SpecJson SpecCache SpecTime SpecChange ColdP PropCacheP PropPeriodP.
Import ListNotations.

(** C40 with the periods of the resolvers that can be made: a second for [Resolver::new]; none for [Resolver::default], which
    reads a description again each time, unless its time has gone back. *)
Theorem C40_new_partial : forall js, (forall s j, js s = Some j -> wf_json j) ->
  forall h fs0 seeds o k id debug jc name f p v, let R := new_resolver o k id debug js jc in
  texts_apart js (written_on (fun n => In (Some n) (map (fun R => o_desc (rv_opts R)) (R :: callers h))) (systems fs0 h)) ->
  Forall (fun R => rv_json R = js) (R :: callers h) ->
  let '(_, fs, st) := run_history fs0 (empty_state seeds) h in
  o_desc (rv_opts R) = Some name -> f_dir fs p = true -> s_pkg st k (components p) = Some v -> f_file fs (join p name) = true ->
  (exists old t0 t1, s_file st id (components (join p name)) = Some (old, t0) /\ f_mtime fs (join p name) = MTime t1 /\ (t0 + seconds 1 <= t1)%N) ->
  exists seed, out fs st (load_pkg_file R (S f) p) = answer_of seed (described fs js name p).
Proof. exact fin_40_new. Qed.
Print Assumptions C40_new_partial.
Theorem C40_new_kept : forall fs o k id debug js jc name f p st v, let R := new_resolver o k id debug js jc in
  o_desc o = Some name -> f_dir fs p = true -> s_pkg st k (components p) = Some v ->
  (exists old t0 t1, s_file st id (components (join p name)) = Some (old, t0) /\ f_mtime fs (join p name) = MTime t1 /\ (t0 <= t1 < t0 + seconds 1)%N) ->
  run fs (load_pkg_file R (S f) p) st = (Done (Ok v), st).
Proof. exact fin_40_kept. Qed.
Print Assumptions C40_new_kept.
Theorem C40_default_partial : forall js, (forall s j, js s = Some j -> wf_json j) ->
  forall h fs0 seeds k id debug jc name f p v, let R := default_resolver k id debug js jc in
  texts_apart js (written_on (fun n => In (Some n) (map (fun R => o_desc (rv_opts R)) (R :: callers h))) (systems fs0 h)) ->
  Forall (fun R => rv_json R = js) (R :: callers h) ->
  let '(_, fs, st) := run_history fs0 (empty_state seeds) h in
  o_desc (rv_opts R) = Some name -> f_dir fs p = true -> s_pkg st k (components p) = Some v -> f_file fs (join p name) = true ->
  (exists old t0 t1, s_file st id (components (join p name)) = Some (old, t0) /\ f_mtime fs (join p name) = MTime t1 /\ (t0 <= t1)%N) ->
  exists seed, out fs st (load_pkg_file R (S f) p) = answer_of seed (described fs js name p).
Proof. exact fin_40_default. Qed.
Print Assumptions C40_default_partial.
(** Of two contents with the same time, the default resolver gives the new one. *)
Example C40_default_ex : ((exists st, snd (run_history (w40 "A" 1000000000) st0 h40) = st /\ s_file st 0 (components (lit "/r/package.json")) = Some (lit "A", seconds 1)) /\
  (exists st, snd (run_history (w40 "A" 1000000000) st0 [ECall (CResolve Rd40 40 (lit "/") (lit "./r"))]) = st /\
     gives (out (w40 "B" 1000000000) st (call_prog (CResolve Rd40 40 (lit "/") (lit "./r")))) "/r/b.js"))%N%string.
Proof. exact d40_ok. Qed.
