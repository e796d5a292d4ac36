(** * Properties a user would expect and that the code does not have: witnesses.

    [res w R base req] resolves on a fresh resolver in world [w]; [res_at st w R base req] with
    tables [st]; [after st w R base req] are the tables after that call; [ends_at o p]: the
    call succeeded with path [p]; [panics o]: it panicked.  The worlds and resolvers are
    defined in [WitnessP.v], with [Demo.v]'s notation for directory trees. *)
From Coq Require Import String.
From Coq Require Import List Arith NArith Bool.
From Verif Require Import Str Path Json Types Parse Map Prog Desc Resolve Top Run Posix Demo WitnessP FuelP PropRefutedP.
Import ListNotations.
Local Open Scope string_scope.

(** C12.  [pkg] is asked for in /r/a; the nearer node_modules holds an empty directory [pkg],
    the farther one a proper package [pkg], which is what /r itself gets; the call answers with
    another file, whose path does not even contain "pkg". *)
Theorem C12_same_specifier_refuted : exists fs R p,
  f_file fs (lit "/r/node_modules/pkg/index.js") = true /\
  ends_at (res fs R "/r" "pkg") "/r/node_modules/pkg/index.js" /\
  ends_at (res fs R "/r/a" "pkg") p /\ contains (lit p) (lit "pkg") = false.
Proof. exact p_C12_same_specifier_refuted. Qed.
Print Assumptions C12_same_specifier_refuted.

(** C15.  Panics: an existing directory without main file; [exports] that is null or a nested
    array; [imports] that is a string; [browser] with a [true] entry; a scope name alone; a
    non-ASCII package name; a tsconfig with a non-string baseUrl; a tsconfig pattern cutting a
    character; a second read of a malformed package.json in a debug build. *)
Theorem C15_no_panic_refuted :
  panics (res w15 Rr "/r" "./d") /\
  panics (res w15 (mkR dflt [("P", O [("exports", JNull)])]) "/r" "p") /\
  panics (res w15 (mkR dflt [("P", O [("exports", JArr [JArr [S_ "./x.js"]])])]) "/r" "p") /\
  panics (res w15 (mkR dflt [("P", O [("imports", S_ "./x.js")])]) "/r" "p") /\
  panics (res w15 (mkR dflt [("P", O [("browser", O [("./x.js", JBool true)])])]) "/r" "p") /\
  panics (res w15 (mkR dflt [("P", O [("exports", O [(".", S_ "./x.js")])])]) "/r" "@p") /\
  panics (out w15 st0 (resolve Rr 40 (lit "/r") (e_acute ++ lit "/x")%list)) /\
  panics (res w15 (mkR (with_tsconfig dflt (Some (lit "/r/tsconfig.json")))
     [("P", O [("compilerOptions", O [("baseUrl", JNull)])])]) "/r" "p") /\
  panics (out w15 st0 (resolve (mkR (with_tsconfig dflt (Some (lit "/r/tsconfig.json")))
     [("P", O [("compilerOptions", O [("baseUrl", S_ "."); ("paths", O [("a*", JArr [])])])])]) 40 (lit "/r") (e_acute ++ lit "x")%list)) /\
  panics (let R := new_resolver dflt 0 0 true (js_of []) (jsc_of []) in
          res_at (after st0 w15 R "/r" "p") w15 R "/r" "p").
Proof. exact C15_w. Qed.
Print Assumptions C15_no_panic_refuted.

(** C16.  No amount of fuel is enough: two aliases exchanging [a] and [b], on any file system
    and in any state; an imports entry naming itself; two browser entries naming each other; a
    tsconfig extending itself; a base directory given as a relative path. *)
Theorem C16_alias_cycle_refuted : exists R, forall fs st base fuel, contains base MODULE = false ->
  out fs st (resolve R fuel base (lit "a")) = NoFuel.
Proof. exact p_C16_alias_cycle_refuted. Qed.
Print Assumptions C16_alias_cycle_refuted.
Theorem C16_termination_refuted :
  (forall fuel, out wi st0 (resolve Ri fuel (lit "/r") (lit "#a")) = NoFuel) /\
  (forall fuel, out wb st0 (resolve Rb fuel (lit "/r") (lit "./a")) = NoFuel) /\
  (forall fuel st, out wt st (resolve Rt fuel (lit "/r") (lit "x")) = NoFuel) /\
  (forall fuel, out wr st0 (resolve Rr fuel (lit "d") (lit "./x.js")) = NoFuel).
Proof. exact p_C16_termination_refuted. Qed.
Print Assumptions C16_termination_refuted.

(** C19.  An alias for "foo" rewrites "foobar". *)
Theorem C19_whole_segments_refuted : exists fs,
  ends_at (res fs (mkR (with_alias dflt [(lit "foo", ATarget (lit "/r/lib"))]) []) "/r" "foobar") "/r/libbar.js" /\
  ends_at (res fs (mkR dflt []) "/r" "foobar") "/r/node_modules/foobar/index.js".
Proof. exact p_C19_whole_segments_refuted. Qed.
Print Assumptions C19_whole_segments_refuted.

(** C23.  "module": "a", "main": "b", where a/ is a directory without main file: alone, main
    gives b.js; after the failed attempt with module it gives a/b.js. *)
Theorem C23_main_fields_independent_refuted :
  panics (res w23 (R23 [lit "module"]) "/r" "./p") /\
  ends_at (res w23 (R23 [lit "main"]) "/r" "./p") "/r/p/b.js" /\
  ends_at (res w23 (R23 [lit "module"; lit "main"]) "/r" "./p") "/r/p/a/b.js".
Proof. exact C23_w. Qed.
Print Assumptions C23_main_fields_independent_refuted.

(** C27.  [st0] and [st0'] only differ in the iteration order of the next hash map: browser
    keys "./a" and "./a.js"; tsconfig patterns "l*" and "*b". *)
Theorem C27_order_independent_refuted :
  ends_at (res_at st0 w27 R27 "/r" "./a") "/r/x.js" /\
  ends_at (res_at st0' w27 R27 "/r" "./a") "/r/y.js" /\
  ends_at (res_at st0 w27 R27t "/r" "lib") "/r/x.js" /\
  ends_at (res_at st0' w27 R27t "/r" "lib") "/r/y.js".
Proof. exact C27_w. Qed.
Print Assumptions C27_order_independent_refuted.

(** C37, C38, C43.  The imports field of one package and the exports field of another are the
    same JSON text.  The imports tree is stored in the exports table, so a call that loads the
    first package changes the answer of the second. *)
Theorem C37_transparent_refuted : exists fs R,
  ends_at (res fs R "/r" "p") "/r/node_modules/p/i.js" /\
  ends_at (res fs R "/r" "./i") "/r/i.js" /\
  res_at (after st0 fs R "/r" "./i") fs R "/r" "p" = failed "Package path p is not exported".
Proof. exact p_C37_transparent_refuted. Qed.
Print Assumptions C37_transparent_refuted.
Theorem C38_concurrent_refuted : exists fs R sched,
  ends_at (res fs R "/r" "p") "/r/node_modules/p/i.js" /\
  nth_error (fst (run_sched fs sched st0
    [resolve R 40 (lit "/r") (lit "./i"); resolve R 40 (lit "/r") (lit "p")])) 1 =
  Some (Ret (Err (lit "Package path p is not exported"))).
Proof. exact p_C38_concurrent_refuted. Qed.
Print Assumptions C38_concurrent_refuted.
Theorem C43_kinds_share_refuted : exists fs R p pk v t,
  out fs (after st0 fs R "/r" "./i") (load_pkg_file R 40 p) = Done (Ok (Some pk)) /\
  jget (p_raw pk) (lit "exports") = Some v /\ build_exports v = PRet (Ok t) /\ p_exports pk <> Some t.
Proof. exact p_C43_kinds_share_refuted. Qed.
Print Assumptions C43_kinds_share_refuted.

(** C39.  A resolver for bower.json fills the shared cache; a resolver for package.json then
    answers with bower.json's main. *)
Theorem C39_shared_cache_refuted : exists fs R R', rv_cache R = rv_cache R' /\
  ends_at (res fs R' "/r" "p") "/r/node_modules/p/index.js" /\
  ends_at (res_at (after st0 fs R "/r" "p") fs R' "/r" "p") "/r/node_modules/p/b.js".
Proof. exact p_C39_shared_cache_refuted. Qed.
Print Assumptions C39_shared_cache_refuted.

(** C41.  An edit 0.9 s later, a deletion, a creation and a replacement by an older file are
    missed (or turned into an error). *)
Theorem C41_changes_noticed_refuted :
  (ends_at (res_at st41 (wv "B" 900000000%N) R41 "/" "./r") "/r/a.js" /\
   ends_at (res (wv "B" 900000000%N) R41 "/" "./r") "/r/b.js") /\
  (ends_at (res_at st41 wno R41 "/" "./r") "/r/a.js" /\ ends_at (res wno R41 "/" "./r") "/r/index.js") /\
  (res_at (after st0 (wnew false) R41i "/r/s" "./a") (wnew true) R41i "/r/s" "#x" = failed "Resolve '#x' failed in '/r/s'" /\
   ends_at (res (wnew true) R41i "/r/s" "#x") "/r/s/a.js") /\
  (res_at (after st0 (wv "A" 10%N) R41 "/" "./r") (wv "B" 5%N) R41 "/" "./r" = failed "Compare SystemTime failed in /./r/package.json" /\
   ends_at (res (wv "B" 5%N) R41 "/" "./r") "/r/b.js").
Proof. exact (conj C41_edit_w (conj C41_delete_w (conj C41_create_w C41_older_w))). Qed.
Print Assumptions C41_changes_noticed_refuted.

(** C42.  A description becomes malformed: the first call reports it, the second serves the old
    content. *)
Theorem C42_errors_repeated_refuted : let w := wv "bad" 3000000000%N in
  res_at st41 w R41 "/" "./r" = failed "Parse /./r/package.json failed" /\
  ends_at (res_at (after st41 w R41 "/" "./r") w R41 "/" "./r") "/r/a.js".
Proof. exact C42_w. Qed.
Print Assumptions C42_errors_repeated_refuted.

(** C47.  baseUrl "./src" of /r/base/tsconfig.json, used directly and through an extending
    /r/tsconfig.json. *)
Theorem C47_inherited_base_refuted :
  ends_at (res w47 R47 "/r" "lib/x") "/r/src/x.js" /\
  ends_at (res w47 (mkR (with_tsconfig dflt (Some (lit "/r/base/tsconfig.json"))) [("B", O [("compilerOptions", O [("baseUrl", S_ "./src"); ("paths", O [("lib/*", JArr [S_ "*"])])])])]) "/r" "lib/x") "/r/base/src/x.js".
Proof. exact C47_w. Qed.
Print Assumptions C47_inherited_base_refuted.
