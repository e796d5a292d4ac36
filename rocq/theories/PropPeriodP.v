(** * The refresh periods of the resolvers that can be made: proofs for PropPeriod.v *)
From Coq Require Import String.
From Coq Require Import List Arith NArith Bool.
From Verif Require Import Str WitnessP Path Json Types Parse Map Prog Desc Resolve Top Run Posix Demo SpecRun SpecLoad SpecJson SpecCache SpecTime SpecChange ColdP HistP PropCacheP.
Import ListNotations.

Lemma fin_40_new : forall js, (forall s j, js s = Some j -> wf_json j) ->
  forall h fs0 seeds o k id debug jc name f p v, let R := new_resolver o k id debug js jc in
  texts_apart js (written_on (fun n => In (Some n) (map (fun R => o_desc (rv_opts R)) (R :: callers h))) (systems fs0 h)) ->
  Forall (fun R => rv_json R = js) (R :: callers h) ->
  let '(_, fs, st) := run_history fs0 (empty_state seeds) h in
  o_desc (rv_opts R) = Some name -> f_dir fs p = true -> s_pkg st k (components p) = Some v -> f_file fs (join p name) = true ->
  (exists old t0 t1, s_file st id (components (join p name)) = Some (old, t0) /\ f_mtime fs (join p name) = MTime t1 /\ (t0 + seconds 1 <= t1)%N) ->
  exists seed, out fs st (load_pkg_file R (S f) p) = answer_of seed (described fs js name p).
Proof.
  intros js Hjs h fs0 seeds o k id debug jc name f p v R H1 H2. pose proof (reread_history js Hjs h fs0 seeds R name f p v H1 H2) as H.
  destruct (run_history fs0 (empty_state seeds) h) as [[a fs] st]. intros E1 E2 E3 E4 (old & t0 & t1 & T1 & T2 & T3).
  apply (H E1 E2 E3 E4). right. exists old, t0, t1. split; [exact T1|]. split; [exact T2|]. exact T3.
Qed.
Lemma fin_40_default : forall js, (forall s j, js s = Some j -> wf_json j) ->
  forall h fs0 seeds k id debug jc name f p v, let R := default_resolver k id debug js jc in
  texts_apart js (written_on (fun n => In (Some n) (map (fun R => o_desc (rv_opts R)) (R :: callers h))) (systems fs0 h)) ->
  Forall (fun R => rv_json R = js) (R :: callers h) ->
  let '(_, fs, st) := run_history fs0 (empty_state seeds) h in
  o_desc (rv_opts R) = Some name -> f_dir fs p = true -> s_pkg st k (components p) = Some v -> f_file fs (join p name) = true ->
  (exists old t0 t1, s_file st id (components (join p name)) = Some (old, t0) /\ f_mtime fs (join p name) = MTime t1 /\ (t0 <= t1)%N) ->
  exists seed, out fs st (load_pkg_file R (S f) p) = answer_of seed (described fs js name p).
Proof.
  intros js Hjs h fs0 seeds  k id debug jc name f p v R H1 H2. pose proof (reread_history js Hjs h fs0 seeds R name f p v H1 H2) as H.
  destruct (run_history fs0 (empty_state seeds) h) as [[a fs] st]. intros E1 E2 E3 E4 (old & t0 & t1 & T1 & T2 & T3).
  apply (H E1 E2 E3 E4). right. exists old, t0, t1. split; [exact T1|]. split; [exact T2|]. cbn. rewrite N.add_0_r. exact T3.
Qed.
Lemma fin_40_kept : forall fs o k id debug js jc name f p st v, let R := new_resolver o k id debug js jc in
  o_desc o = Some name -> f_dir fs p = true -> s_pkg st k (components p) = Some v ->
  (exists old t0 t1, s_file st id (components (join p name)) = Some (old, t0) /\ f_mtime fs (join p name) = MTime t1 /\ (t0 <= t1 < t0 + seconds 1)%N) ->
  run fs (load_pkg_file R (S f) p) st = (Done (Ok v), st).
Proof. intros fs o k id debug js jc name f p st v R E1 E2 E3 H. apply (kept fs R name E1 f p st v E2 E3). right. exact H. Qed.
Definition Rd40 : resolver := default_resolver 0 0 false (js_of T40) (jsc_of []).
Lemma d40_ok : ((exists st, snd (run_history (w40 "A" 1000000000) st0 h40) = st /\ s_file st 0 (components (lit "/r/package.json")) = Some (lit "A", seconds 1)) /\
  (exists st, snd (run_history (w40 "A" 1000000000) st0 [ECall (CResolve Rd40 40 (lit "/") (lit "./r"))]) = st /\
     gives (out (w40 "B" 1000000000) st (call_prog (CResolve Rd40 40 (lit "/") (lit "./r")))) "/r/b.js"))%N%string.
Proof. split; eexists; (split; [vm_compute; reflexivity|]); [vm_compute; reflexivity|]. eexists. split; vm_compute; reflexivity. Qed.
