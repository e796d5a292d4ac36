(** * The resolver against the whole reference search (C58)

    SpecFull.v defines, without tables, programs or bounds, what a request comes to for all options
    together ([comes_to]): a file, "ignored", a failure with its message, or a panic.  It comes to
    one thing at most, and every run gives exactly that, after any calls and among any concurrent
    ones.  [described]: the order of the entries of browser fields and of "paths" does not matter
    (C27) and the configuration files have no repeated keys. *)
From Coq Require Import String.
From Coq Require Import List Arith NArith Bool.
From Verif Require Import Str StrP Path Json Types Parse Map Prog Desc Resolve Top Run Posix Demo SpecRun SpecLoad SpecExports SpecCache SpecJson SpecTerm SpecNode SpecWorld SpecFull PosixP JsonP FullP PropCacheP PropTermP PropFullP.
Import ListNotations.

Theorem C58_unique : forall fs R, values_nodup R -> forall base req a a',
  comes_to fs R base (parse req) a -> comes_to fs R base (parse req) a' -> a = a'.
Proof. exact full_unique. Qed.
Print Assumptions C58_unique.

(** After any sequence of calls. *)
Theorem C58_described : forall fs, sane_fs fs -> forall js, (forall s j, js s = Some j -> wf_json j) ->
  forall nm, no_clash fs js nm -> forall h seeds c, Forall (fun c => client js nm (call_resolver c)) h ->
  client js nm (call_resolver c) -> described fs c ->
  as_described fs c (out fs (snd (run_history fs (empty_state seeds) (map ECall h))) (call_prog c)).
Proof. exact fin_58. Qed.
Print Assumptions C58_described.

(** Among concurrent calls, under every schedule. *)
Theorem C58_concurrent : forall fs, sane_fs fs -> forall js, (forall s j, js s = Some j -> wf_json j) ->
  forall nm, no_clash fs js nm -> forall l h sched seeds, Forall (fun c => client js nm (call_resolver c)) h ->
  Forall (fun c => client js nm (call_resolver c) /\ described fs c) l ->
  Forall2 (fun c p => as_described fs c (settled p)) l
    (fst (run_sched fs sched (snd (run_history fs (empty_state seeds) (map ECall h))) (map call_prog l))).
Proof. exact fin_58_sched. Qed.
Print Assumptions C58_concurrent.

(** Where the reference search comes to something, that is what is delivered for all large enough
    bounds, whatever calls were made before. *)
Theorem C58_reached : forall fs, sane_fs fs -> forall js, (forall s j, js s = Some j -> wf_json j) ->
  forall nm, no_clash fs js nm -> forall R base req a, client js nm R -> described fs (CResolve R 0 base req) ->
  call_absolute (CResolve R 0 base req) -> comes_to fs R base (parse req) a ->
  exists N, forall f h seeds, N <= f -> Forall (fun c => client js nm (call_resolver c)) h ->
    delivers fs R a (out fs (snd (run_history fs (empty_state seeds) (map ECall h))) (call_prog (CResolve R f base req))).
Proof. exact fin_58_reach. Qed.
Print Assumptions C58_reached.
(** The runs of a request end, for some bound, exactly if the reference search comes to something. *)
Theorem C58_ends_iff : forall fs, sane_fs fs -> forall js, (forall s j, js s = Some j -> wf_json j) ->
  forall nm, no_clash fs js nm -> forall R base req, client js nm R -> described fs (CResolve R 0 base req) ->
  call_absolute (CResolve R 0 base req) ->
  (exists a, comes_to fs R base (parse req) a) <->
  (exists f h seeds, Forall (fun c => client js nm (call_resolver c)) h /\
    out fs (snd (run_history fs (empty_state seeds) (map ECall h))) (call_prog (CResolve R f base req)) <> NoFuel).
Proof. exact fin_58_iff. Qed.
Print Assumptions C58_ends_iff.
(** With the conditions of C16 every request comes to something. *)
Theorem C58_total : forall fs, sane_fs fs -> forall js, (forall s j, js s = Some j -> wf_json j) ->
  forall nm, no_clash fs js nm -> forall R base req, client js nm R -> described fs (CResolve R 0 base req) ->
  call_plain fs (CResolve R 0 base req) ->
  exists a N, comes_to fs R base (parse req) a /\
    forall f h seeds, N <= f -> Forall (fun c => client js nm (call_resolver c)) h ->
    delivers fs R a (out fs (snd (run_history fs (empty_state seeds) (map ECall h))) (call_prog (CResolve R f base req))).
Proof. exact fin_58_ends. Qed.
Print Assumptions C58_total.

(** An alias, prefer_relative, an imports field, a tsconfig that extends another, "ignored", an
    error. *)
Example C58_ex : (sane_fs w58 /\ (forall s j, js_of T58 s = Some j -> wf_json j) /\ no_clash w58 (js_of T58) nmc /\ client (js_of T58) nmc R58 /\
   forall req, call_plain w58 (CResolve R58 0 (lit "/r/src") req)) /\
  (Forall (fun q => described w58 (CResolve R58 0 (lit "/r/src") (lit q))) ["@/u?q"; "x"; "#d"; "~/u"; "fs"; "nope"]%string) /\
  (comes_to w58 R58 (lit "/r/src") (parse (lit "@/u?q")) (Finds (lit "/r/src/./../lib/u.js") (lit "?q") []) /\
   comes_to w58 R58 (lit "/r/src") (parse (lit "x")) (Finds (lit "/r/src/./x.js") [] []) /\
   comes_to w58 R58 (lit "/r/src") (parse (lit "#d")) (Finds (lit "/r/./src/d.js") [] []) /\
   comes_to w58 R58 (lit "/r/src") (parse (lit "~/u")) (Finds (lit "/r/./lib/u.js") [] []) /\
   comes_to w58 R58 (lit "/r/src") (parse (lit "fs")) Skips /\
   comes_to w58 R58 (lit "/r/src") (parse (lit "nope")) (Fails (lit "Resolve 'nope' failed in '/r/src'"))) /\
  (res w58 R58 "/r/src" "@/u?q" = Demo.found "/r/lib/u.js" "?q" "" /\ res w58 R58 "/r/src" "x" = Demo.found "/r/src/x.js" "" "" /\
   res w58 R58 "/r/src" "#d" = Demo.found "/r/src/d.js" "" "" /\ res w58 R58 "/r/src" "~/u" = Demo.found "/r/lib/u.js" "" "" /\
   res w58 R58 "/r/src" "fs" = Done (Ok RIgnored) /\ res w58 R58 "/r/src" "nope" = Demo.failed "Resolve 'nope' failed in '/r/src'")%string.
Proof. exact C58_ex_p. Qed.

(** A browser field, a directory without main file, a main field that leads to such a one. *)
Example C58_ex_browser : (sane_fs w58b /\ (forall s j, js_of T58b s = Some j -> wf_json j) /\ no_clash w58b (js_of T58b) nmc /\ client (js_of T58b) nmc R58b) /\
  (forall f base req, described w58b (CResolve R58b f base req)) /\
  (comes_to w58b R58b (lit "/r/src") (parse (lit "./x")) (Finds (lit "/r/./src/y.js") [] []) /\
   comes_to w58b R58b (lit "/r/src") (parse (lit "./h")) Crashes /\
   exists a, comes_to w58b R58b (lit "/r/src") (parse (lit "m")) a /\ a <> Crashes) /\
  (res w58b R58b "/r/src" "./x" = Demo.found "/r/src/y.js" "" "" /\ res w58b R58b "/r/src" "./h" = Panicked p_unreachable /\
   res w58b R58b "/r/src" "m" = Demo.found "/r/node_modules/m/index.js" "" "")%string.
Proof. exact C58_ex_browser_p. Qed.
