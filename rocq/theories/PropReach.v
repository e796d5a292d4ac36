(** * Whether a call ends does not depend on the tables (C59)

    [call_absolute c] (SpecTerm.v): the base directory and the location of the tsconfig file, or
    the path of a side-effects query, are absolute.  [steady fs js c] (SpecCache.v) as in C37.
    Nothing is assumed about cycles of aliases, fields or tsconfig files: the calls in question
    are those that come to an end once. *)
From Coq Require Import String.
From Coq Require Import List Arith NArith Bool.
From Verif Require Import Str StrP Path Json Types Parse Map Prog Desc Resolve Top Run Posix Demo SpecRun SpecLoad SpecCache SpecJson SpecTerm PosixP PropCacheP PropTermP PropReachP.
Import ListNotations.

(** A call that ends after one history, with one bound on the steps, ends after every history
    with every large enough bound, and in the same way. *)
Theorem C59_ends_always : forall fs, sane_fs fs -> forall js, (forall s j, js s = Some j -> wf_json j) ->
  forall nm, no_clash fs js nm -> forall c, client js nm (call_resolver c) -> steady fs js c -> call_absolute c ->
  forall h0 seeds0, Forall (fun c => client js nm (call_resolver c)) h0 ->
  out fs (snd (run_history fs (empty_state seeds0) (map ECall h0))) (call_prog c) <> NoFuel ->
  exists N, forall f h seeds, N <= f -> Forall (fun c => client js nm (call_resolver c)) h ->
  same_end same_answer (out fs (snd (run_history fs (empty_state seeds0) (map ECall h0))) (call_prog c))
                       (out fs (snd (run_history fs (empty_state seeds) (map ECall h))) (call_prog (with_fuel c f))).
Proof. exact fin_59. Qed.
Print Assumptions C59_ends_always.

(** The same for calls that run at the same time: at any time, under every schedule, each of them
    has a next step or has ended as it ends alone. *)
Theorem C59_ends_concurrent : forall fs, sane_fs fs -> forall js, (forall s j, js s = Some j -> wf_json j) ->
  forall nm, no_clash fs js nm -> forall l, Forall (fun c => client js nm (call_resolver c) /\ steady fs js c /\ call_absolute c /\
    exists h0 seeds0, Forall (fun c => client js nm (call_resolver c)) h0 /\
      out fs (snd (run_history fs (empty_state seeds0) (map ECall h0))) (call_prog c) <> NoFuel) l ->
  exists N, forall f h seeds sched, N <= f -> Forall (fun c => client js nm (call_resolver c)) h ->
  Forall2 (fun c p => (exists o k, p = Do o k) \/
      forall h0 seeds0, Forall (fun c => client js nm (call_resolver c)) h0 ->
      out fs (snd (run_history fs (empty_state seeds0) (map ECall h0))) (call_prog c) <> NoFuel ->
      same_end same_answer (out fs (snd (run_history fs (empty_state seeds0) (map ECall h0))) (call_prog c)) (settled p))
    l (fst (run_sched fs sched (snd (run_history fs (empty_state seeds) (map ECall h))) (map (fun c => call_prog (with_fuel c f)) l))).
Proof. exact fin_59_sched. Qed.
Print Assumptions C59_ends_concurrent.

(** A package whose main field names its own directory: a request for it never ends, a request for
    a file in it does. *)
Example C59_ex : (sane_fs we /\ (forall s j, js_of Te s = Some j -> wf_json j) /\ no_clash we (js_of Te) nmc /\ client (js_of Te) nmc Re) /\
  (let c := CResolve Re 20 (lit "/r") (lit "./p/package.json") in
   steady we (js_of Te) c /\ call_absolute c /\ gives (out we st0 (call_prog c)) "/r/p/package.json") /\
  forall h seeds f, Forall (fun c => client (js_of Te) nmc (call_resolver c)) h ->
  out we (snd (run_history we (empty_state seeds) (map ECall h))) (call_prog (CResolve Re f (lit "/r") (lit "./p"))) = NoFuel.
Proof. exact C59_ex_p. Qed.
