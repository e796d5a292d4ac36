(** * The resolver against a reference search (C54)

    SpecNode.v defines, without tables, programs or bounds, what a request leads to: [reference].
    It leads to one answer at most, and the resolver gives it, after any calls and among any
    concurrent ones.  [referred]: the aliases, prefer_relative and the tsconfig do not concern the
    request, the browser field is off, and a package name followed by a subpath is
    ASCII.  [astray]: the search meets
    a directory without main file, or an exports target that starts with # (see
    [C15_no_panic_refuted] and [C12_same_specifier_refuted] for what happens then). *)
From Coq Require Import String.
From Coq Require Import List Arith NArith Bool.
From Verif Require Import Str StrP Path Json Types Parse Map Prog Desc Resolve Top Run Posix Demo SpecRun SpecLoad SpecExports SpecCache SpecJson SpecTerm SpecNode PosixP JsonP PropCacheP PropTermP PropNodeP.
Import ListNotations.

Theorem C54_unique : forall fs R base req a a', sane_fs fs -> referred R base (parse req) ->
  reference fs R base (parse req) a -> reference fs R base (parse req) a' -> a = a'.
Proof. exact fin_54_unique. Qed.
Print Assumptions C54_unique.

(** After any sequence of calls. *)
Theorem C54_reference : forall fs, sane_fs fs -> forall js, (forall s j, js s = Some j -> wf_json j) ->
  forall nm, no_clash fs js nm -> forall h seeds c, Forall (fun c => client js nm (call_resolver c)) h ->
  client js nm (call_resolver c) -> call_referred c ->
  as_reference fs c (out fs (snd (run_history fs (empty_state seeds) (map ECall h))) (call_prog c)).
Proof. exact fin_54. Qed.
Print Assumptions C54_reference.

(** Among concurrent calls, under every schedule. *)
Theorem C54_concurrent : forall fs, sane_fs fs -> forall js, (forall s j, js s = Some j -> wf_json j) ->
  forall nm, no_clash fs js nm -> forall l h sched seeds, Forall (fun c => client js nm (call_resolver c)) h ->
  Forall (fun c => client js nm (call_resolver c) /\ call_referred c) l ->
  Forall2 (fun c p => as_reference fs c (settled p)) l
    (fst (run_sched fs sched (snd (run_history fs (empty_state seeds) (map ECall h))) (map call_prog l))).
Proof. exact fin_54_sched. Qed.
Print Assumptions C54_concurrent.

(** From an absolute directory the answer is reached for all large enough bounds. *)
Theorem C54_reached : forall fs, sane_fs fs -> forall js, (forall s j, js s = Some j -> wf_json j) ->
  forall nm, no_clash fs js nm -> forall R base req a, client js nm R -> referred R base (parse req) ->
  is_abs base = true -> reference fs R base (parse req) a ->
  exists N, forall f h seeds, N <= f -> Forall (fun c => client js nm (call_resolver c)) h ->
  exists x, out fs (snd (run_history fs (empty_state seeds) (map ECall h))) (call_prog (CResolve R f base req)) = Done (AResolve x) /\
    agrees (delivered fs R base (parse req) a) x.
Proof. exact fin_54_ends. Qed.
Print Assumptions C54_reached.

(** C11 in these terms: the nearest directory with a verdict on its node_modules ([level]) decides, whatever lies in the
    farther ones; the directories are [base], its parent and so on ([up_chain]). *)
Theorem C11_nearest_decides : forall fs, sane_fs fs -> forall js, (forall s j, js s = Some j -> wf_json j) ->
  forall nm, no_clash fs js nm -> forall h seeds R f base req opk near d far a, Forall (fun c => client js nm (call_resolver c)) h ->
  client js nm R -> referred R base (parse req) -> r_kind (parse req) = Normal ->
  has_desc fs R (join (join base MODULE) (r_target (parse req))) opk -> up_chain base (near ++ d :: far) ->
  Forall (fun e => level fs R (parse req) e None) near -> level fs R (parse req) d (Some a) ->
  let o := out fs (snd (run_history fs (empty_state seeds) (map ECall h))) (call_prog (CResolve R f base req)) in
  o = NoFuel \/ exists x, o = Done (AResolve x) /\ agrees (delivered fs R base (parse req) a) x.
Proof. exact fin_11_decides. Qed.
Print Assumptions C11_nearest_decides.
(** If none has one, the generic failure. *)
Theorem C11_none_decides : forall fs, sane_fs fs -> forall js, (forall s j, js s = Some j -> wf_json j) ->
  forall nm, no_clash fs js nm -> forall h seeds R f base req opk l, Forall (fun c => client js nm (call_resolver c)) h ->
  client js nm R -> referred R base (parse req) -> r_kind (parse req) = Normal ->
  has_desc fs R (join (join base MODULE) (r_target (parse req))) opk -> up_chain base l ->
  Forall (fun e => level fs R (parse req) e None) l ->
  let o := out fs (snd (run_history fs (empty_state seeds) (map ECall h))) (call_prog (CResolve R f base req)) in
  o = NoFuel \/ exists e, o = Done (AResolve (Err e)) /\ respelled (lit "Resolve '" ++ request_display (parse req) ++ lit "' failed in '" ++ base ++ lit "'") e.
Proof. exact fin_11_none. Qed.
Print Assumptions C11_none_decides.
(** C34 in these terms: the nearest directory with the package, whose exports field selects nothing usable. *)
Theorem C34_on_disk : forall fs, sane_fs fs -> forall js, (forall s j, js s = Some j -> wf_json j) ->
  forall nm, no_clash fs js nm -> forall h seeds R f base req opk near d far pk tree n s l, Forall (fun c => client js nm (call_resolver c)) h ->
  client js nm R -> referred R base (parse req) -> r_kind (parse req) = Normal ->
  has_desc fs R (join (join base MODULE) (r_target (parse req))) opk -> up_chain base (near ++ d :: far) ->
  Forall (fun e => level fs R (parse req) e None) near ->
  f_dir fs (join d MODULE) = true -> has_desc fs R (join (join d MODULE) (r_target (parse req))) (Some pk) -> f_dir fs (join (join d MODULE) n) = true ->
  bare_parts (r_target (parse req)) n s -> f_exists fs (join (join d MODULE) n) = true -> contains (p_dir pk) MODULE = true -> p_exports pk = Some tree ->
  field_process FExports tree (exports_request s (r_query (parse req)) (r_fragment (parse req))) (o_conditions (rv_opts R)) = PRet (Ok l) ->
  Forall (fun c => ~ usable fs pk c) l ->
  let o := out fs (snd (run_history fs (empty_state seeds) (map ECall h))) (call_prog (CResolve R f base req)) in
  o = NoFuel \/ exists e, o = Done (AResolve (Err e)) /\ respelled (lit "Package path " ++ r_target (parse req) ++ lit " is not exported") e.
Proof. exact fin_34_closed. Qed.
Print Assumptions C34_on_disk.

(** A relative file, a package whose main field is a directory, an exports field whose first
    target is missing, a path that is not exported. *)
Example C54_ex : (sane_fs w54 /\ (forall s j, js_of T54 s = Some j -> wf_json j) /\ no_clash w54 (js_of T54) nmc /\ client (js_of T54) nmc R54 /\
   forall req, call_plain w54 (CResolve R54 0 (lit "/r/src") req)) /\
  (Forall (fun q => referred R54 (lit "/r/src") (parse (lit q))) ["./x?q"; "p"; "e/sub"; "e/lib/sub.js"]%string) /\
  (reference w54 R54 (lit "/r/src") (parse (lit "./x?q")) (Found (lit "/r/src/./x.js") (lit "?q") []) /\
   reference w54 R54 (lit "/r/src") (parse (lit "p")) (Found (lit "/r/node_modules/./p/./lib/./index.js") [] []) /\
   reference w54 R54 (lit "/r/src") (parse (lit "e/sub")) (Found (lit "/r/node_modules/e/./lib/sub.js") [] []) /\
   reference w54 R54 (lit "/r/src") (parse (lit "e/lib/sub.js")) (Fail (lit "Package path e/lib/sub.js is not exported"))) /\
  (res w54 R54 "/r/src" "./x?q" = Demo.found "/r/src/x.js" "?q" "" /\ res w54 R54 "/r/src" "p" = Demo.found "/r/node_modules/p/lib/index.js" "" "" /\
   res w54 R54 "/r/src" "e/sub" = Demo.found "/r/node_modules/e/lib/sub.js" "" "" /\
   res w54 R54 "/r/src" "e/lib/sub.js" = Demo.failed "Package path e/lib/sub.js is not exported")%string.
Proof. exact C54_ex_p. Qed.
(** The directories of the third and the fourth of these, and of one that is nowhere. *)
Example C11_levels_ex : (up_chain (lit "/r/src") ([lit "/r/src"] ++ lit "/r" :: [lit "/"]) /\
  Forall (fun q => level w54 R54 (parse (lit q)) (lit "/r/src") None) ["e/sub"; "e/lib/sub.js"; "z"] /\
  level w54 R54 (parse (lit "e/sub")) (lit "/r") (Some (Found (lit "/r/node_modules/e/./lib/sub.js") [] [])) /\
  level w54 R54 (parse (lit "e/lib/sub.js")) (lit "/r") (Some (Fail (lit "Package path e/lib/sub.js is not exported"))) /\
  level w54 R54 (parse (lit "z")) (lit "/r") None /\ level w54 R54 (parse (lit "z")) (lit "/") None /\
  res w54 R54 "/r/src" "z" = Demo.failed "Resolve 'z' failed in '/r/src'")%string.
Proof. exact C11_levels_ex_p. Qed.
