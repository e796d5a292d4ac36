(** * C15, where it holds: no panics but two.

    The conditions ([call_tidy], [history_tidy] in SpecPanic.v) exclude the causes of
    [C15_no_panic_refuted] (PropRefuted.v): debug builds; an "exports" or "imports" field of the
    wrong shape, "imports" that is no object, a browser field with a value [true]; a scope without
    a package name; a tsconfig of the wrong shape, or that
    extends such a file.  Two causes remain: [unreachable!()], and the theorems say when, and a
    slice inside a character, which is excluded by [ascii = true], texts in ASCII only. *)
From Coq Require Import String.
From Coq Require Import List Arith NArith Bool.
From Verif Require Import Str StrP Path Json Types Parse Map Prog Desc Resolve Top Run Posix Demo SpecRun SpecMap SpecLoad SpecCache SpecJson SpecTerm SpecPanic PropCacheP PropTermP PropPanicP.
Import ListNotations.

(** Whatever calls were made before, by whatever resolvers, and however the disk has changed. *)
Theorem C15_no_panic_partial : forall ascii h fs seeds, history_tidy ascii fs h ->
  served_tidy ascii fs h (fst (fst (run_history fs (empty_state seeds) h))).
Proof. exact fin_15. Qed.
Print Assumptions C15_no_panic_partial.
(** Ten calls on a disk with "exports", "imports", browser fields and a tsconfig; two of them ask
    for directories without main file. *)
Example C15_ex : history_tidy true w15t h15 /\
  (exists o1 o2 o3 o4 o5 o6 o7 o8 o9 o10, fst (fst (run_history w15t st0 h15)) = [o1; o2; o3; o4; o5; o6; o7; o8; o9; o10] /\
  gives o1 "/r/node_modules/p/b.js" /\ gives o2 "/r/node_modules/p/lib/a.js" /\ fails o3 /\ gives o4 "/r/x.js" /\ gives o5 "/r/node_modules/p/lib/a.js" /\
  gives o6 "/r/src/y.js" /\ gives o7 "/r/x.js" /\ o8 = Panicked p_unreachable /\ o9 = Panicked p_unreachable /\ fails o10)%string.
Proof. exact (conj h15_tidy h15_runs). Qed.
(** A package subpath and a package name that are not ASCII ([e15] is U+00E9). *)
Example C15_unicode_ex : history_tidy false w15u (map ECall [c15u (lit "p/a/" ++ e15); c15u (e15 ++ lit "/x")]) /\
  exists i, fst (fst (run_history w15u st0 (map ECall [c15u (lit "p/a/" ++ e15); c15u (e15 ++ lit "/x")]))) = [Done (AResolve (Ok (RInfo i))); Panicked p_boundary] /\
  i_path i = lit "/r/node_modules/p/lib/" ++ e15 ++ lit ".js".
Proof. exact unicode15. Qed.
(** Calls that run at the same time. *)
Theorem C15_concurrent_partial : forall ascii h fs fs' seeds l sched, history_tidy ascii fs h -> Forall (call_tidy ascii fs') l ->
  Forall2 (fun c p => only_main_missing ascii fs' c (settled p)) l
    (fst (run_sched fs' sched (snd (run_history fs (empty_state seeds) h)) (map call_prog l))).
Proof. exact fin_15_sched. Qed.
Print Assumptions C15_concurrent_partial.
Example C15_concurrent_ex : Forall (call_tidy true w15t) [c15 "p/a/a"; c15 "./d"] /\
  exists p, fst (run_sched w15t (alternate 80) st0 (map call_prog [c15 "p/a/a"; c15 "./d"])) = [p; Panic p_unreachable] /\
  gives (settled p) "/r/node_modules/p/lib/a.js".
Proof. exact sched15. Qed.
(** With the conditions of C16 ([call_plain]) there is an answer. *)
Theorem C15_answer_partial : forall ascii fs, sane_fs fs -> forall js, (forall s j, js s = Some j -> wf_json j) -> forall nm, no_clash fs js nm ->
  forall c, client js nm (call_resolver c) -> call_plain fs c -> call_tidy ascii fs c ->
  exists N, forall f h seeds, N <= f -> Forall (fun c => client js nm (call_resolver c) /\ call_tidy ascii fs c) h ->
  answered ascii fs c (out fs (snd (run_history fs (empty_state seeds) (map ECall h))) (call_prog (with_fuel c f))).
Proof. exact fin_15_answer. Qed.
Print Assumptions C15_answer_partial.
Example C15_answer_ex : let c := CResolve R16 40 (lit "/r") (lit "@/y") in
  (sane_fs w16 /\ (forall s j, js_of T16 s = Some j -> wf_json j) /\ no_clash w16 (js_of T16) nmc /\
   client (js_of T16) nmc (call_resolver c) /\ call_plain w16 c /\ call_tidy true w16 c) /\ gives (out w16 st0 (call_prog c)) "/r/src/y.js".
Proof. exact answer15. Qed.
(** The condition on tsconfig files, for files that extend one another by relative paths. *)
Theorem C15_tsconfig_partial : forall ascii fs R, sane_fs fs ->
  (forall loc, o_tsconfig (rv_opts R) = Some loc -> exists l, chain fs R (loc :: l) /\ Forall (ts_file_tidy ascii fs R) (loc :: l)) ->
  tsconfig_tidy ascii fs R.
Proof. exact chain_tidy. Qed.
Print Assumptions C15_tsconfig_partial.
Example C15_tsconfig_ex : chain w16t R16t l16t /\ Forall (ts_file_tidy true w16t R16t) l16t /\
  call_tidy true w16t (CResolve R16t 40 (lit "/r") (lit "@/y")) /\
  gives (out w16t st0 (call_prog (CResolve R16t 40 (lit "/r") (lit "@/y")))) "/r/src/y.js".
Proof. exact (conj chain16t (conj files16t (conj tidy16t answer16t))). Qed.
(** If nothing rewrites requests, a request for a package, or an internal one, cannot panic
    otherwise than by that slice, ... *)
Theorem C15_package_partial : forall ascii fs0 fs h seeds R f base req, history_tidy ascii fs0 h -> call_tidy ascii fs (CResolve R f base req) -> direct (rv_opts R) ->
  get_target_kind (r_target (parse req)) = Normal \/ get_target_kind (r_target (parse req)) = Internal ->
  forall m, out fs (snd (run_history fs0 (empty_state seeds) h)) (call_prog (CResolve R f base req)) = Panicked m -> m = p_boundary /\ ascii = false.
Proof. exact fin_15_package. Qed.
Print Assumptions C15_package_partial.
(** ... and a request for a path only if the path is a directory without main file. *)
Theorem C15_path_partial : forall ascii fs0 fs h seeds R f base req, history_tidy ascii fs0 h -> call_tidy ascii fs (CResolve R f base req) -> direct (rv_opts R) ->
  forall d, d = (if str_eqb (r_target (parse req)) [] || str_eqb (r_target (parse req)) s_dot then base else join base (r_target (parse req))) ->
  f_dir fs d = false \/ Exists (fun p => f_file fs p = true) (main_file_paths R d (o_main_files (rv_opts R))) ->
  forall m, out fs (snd (run_history fs0 (empty_state seeds) h)) (call_prog (CResolve R f base req)) = Panicked m -> m = p_boundary /\ ascii = false.
Proof. exact fin_15_path. Qed.
Print Assumptions C15_path_partial.
Example C15_direct_ex : history_tidy true w15t h15 /\ direct (rv_opts R15d) /\
  (call_tidy true w15t (CResolve R15d 40 (lit "/r") (lit "p/a/a")) /\ get_target_kind (r_target (parse (lit "p/a/a"))) = Normal /\
   gives (out w15t (snd (run_history w15t st0 h15)) (call_prog (CResolve R15d 40 (lit "/r") (lit "p/a/a")))) "/r/node_modules/p/lib/a.js") /\
  (call_tidy true w15t (CResolve R15d 40 (lit "/r") (lit "./node_modules/p")) /\
   Exists (fun p => f_file w15t p = true) (main_file_paths R15d (lit "/r/./node_modules/p") (o_main_files (rv_opts R15d))) /\
   gives (out w15t (snd (run_history w15t st0 h15)) (call_prog (CResolve R15d 40 (lit "/r") (lit "./node_modules/p")))) "/r/node_modules/p/index.js").
Proof. exact direct15. Qed.
