(** * Every outcome is one that the reference search allows (C60); described calls after changes
      on disk (C58)

    C58 says what a call delivers where the order of the entries of browser fields and of "paths"
    does not matter.  In general that order differs from run to run (C27), and a description keeps the
    spelling of the directory under which it was read first.  [may_come_to] (SpecFull.v) is the
    reference search with any order and any such spelling at every step.  Nothing else can be
    delivered: [as_allowed] allows no other answer and no other panic.  [keyed]: the configuration
    files have no repeated keys. *)
From Coq Require Import String.
From Coq Require Import List Arith NArith Bool.
From Verif Require Import Str StrP Path Json Types Parse Map Prog Desc Resolve Top Run Posix Demo WitnessP SpecRun SpecLoad SpecExports SpecCache SpecJson SpecTerm SpecNode SpecWorld SpecFull SpecChange SpecDebug PosixP AllowP PropCacheP PropChangeP PropDebugP PropAllowP.
Import ListNotations.

(** What the reference search with the order of the files comes to is allowed. *)
Theorem C60_reference : forall fs R base r a, comes_to fs R base r a -> may_come_to fs R base r a.
Proof. exact come_among. Qed.
Print Assumptions C60_reference.

(** After any sequence of calls. *)
Theorem C60_allowed : forall fs, sane_fs fs -> forall js, (forall s j, js s = Some j -> wf_json j) ->
  forall nm, no_clash fs js nm -> forall h seeds c, Forall (fun c => client js nm (call_resolver c)) h ->
  client js nm (call_resolver c) -> keyed c ->
  as_allowed fs c (out fs (snd (run_history fs (empty_state seeds) (map ECall h))) (call_prog c)).
Proof. exact fin_60. Qed.
Print Assumptions C60_allowed.

(** Among concurrent calls, under every schedule. *)
Theorem C60_concurrent : forall fs, sane_fs fs -> forall js, (forall s j, js s = Some j -> wf_json j) ->
  forall nm, no_clash fs js nm -> forall l h sched seeds, Forall (fun c => client js nm (call_resolver c)) h ->
  Forall (fun c => client js nm (call_resolver c) /\ keyed c) l ->
  Forall2 (fun c p => as_allowed fs c (settled p)) l
    (fst (run_sched fs sched (snd (run_history fs (empty_state seeds) (map ECall h))) (map call_prog l))).
Proof. exact fin_60_sched. Qed.
Print Assumptions C60_concurrent.

(** With the conditions of C16 every call delivers one of them. *)
Theorem C60_total : forall fs, sane_fs fs -> forall js, (forall s j, js s = Some j -> wf_json j) ->
  forall nm, no_clash fs js nm -> forall R base req, client js nm R -> values_nodup R -> call_plain fs (CResolve R 0 base req) ->
  exists N, forall f h seeds, N <= f -> Forall (fun c => client js nm (call_resolver c)) h ->
    exists a, may_come_to fs R base (parse req) a /\
      SpecFull.gives (standing fs) R a (out fs (snd (run_history fs (empty_state seeds) (map ECall h))) (call_prog (CResolve R f base req))).
Proof. exact fin_60_ends. Qed.
Print Assumptions C60_total.

(** Two keys of a browser field, two patterns of "paths": two answers are allowed, and both occur. *)
Example C60_ex : (sane_fs w27 /\ ((forall s j, js_of T27 s = Some j -> wf_json j) /\ (forall s j, js_of T27t s = Some j -> wf_json j)) /\
   (no_clash w27 (js_of T27) nmc /\ no_clash w27 (js_of T27t) nmc) /\ client (js_of T27) nmc R27 /\ client (js_of T27t) nmc R27t /\
   forall f base req, keyed (CResolve R27 f base req) /\ keyed (CResolve R27t f base req)) /\
  (may_come_to w27 R27 (lit "/r") (parse (lit "./a")) (Finds (lit "/r/./x.js") [] []) /\
   may_come_to w27 R27 (lit "/r") (parse (lit "./a")) (Finds (lit "/r/./y.js") [] [])) /\
  (may_come_to w27 R27t (lit "/r") (parse (lit "lib")) (Finds (spot "./x.js") [] []) /\
   may_come_to w27 R27t (lit "/r") (parse (lit "lib")) (Finds (spot "./y.js") [] [])) /\
  (ends_at (res_at st0 w27 R27 "/r" "./a") "/r/x.js" /\ ends_at (res_at st0' w27 R27 "/r" "./a") "/r/y.js" /\
   ends_at (res_at st0 w27 R27t "/r" "lib") "/r/x.js" /\ ends_at (res_at st0' w27 R27t "/r" "lib") "/r/y.js")%string.
Proof.
  exact (conj (conj (posix_sane _ _ _) (conj wf27 (conj clash27 (conj client27 (conj client27t keyed27)))))
              (conj may27_browser (conj may27_paths C27_w))).
Qed.
(** A pattern that would cut the target inside a character. *)
Example C60_ex_torn : comes_to w15 R15t (lit "/r") (parse (e_acute ++ lit "x")) Crashes /\
  panics (out w15 st0 (resolve R15t 40 (lit "/r") (e_acute ++ lit "x"))).
Proof. exact (conj torn15 torn15_run). Qed.
(** A side-effects call: the spelling of whoever asked first. *)
Example C60_ex_side : (sane_fs w60 /\ (forall s j, js_of T60 s = Some j -> wf_json j) /\ no_clash w60 (js_of T60) nmc /\ client (js_of T60) nmc R60) /\
  side60 [] = Done (ASide (Ok (Some (lit "/r/package.json", Some (SEBool false))))) /\
  side60 [CSide R60 40 (lit "/r/.")] = Done (ASide (Ok (Some (lit "/r/./package.json", Some (SEBool false))))).
Proof. exact (conj (conj (posix_sane _ _ _) (conj wf60 (conj clash60 client60))) sides60). Qed.

(** After calls and changes on disk that are noticed (as in C41): what is allowed is what the disk
    now says. *)
Theorem C60_changes : forall js, (forall s j, js s = Some j -> wf_json j) ->
  forall nm, (forall c, is_abs (nm c) = false) -> forall own dur fs0 h seeds c,
  texts_apart js (written_on (fun n => exists k, n = nm k) (systems fs0 h)) ->
  Forall (fun fs => sane_fs fs /\ forall k, all_readable js (nm k) fs) (systems fs0 h) ->
  ForallOrdPairs (fun fs fs' => forall k, noticeable (nm k) dur fs fs') (systems fs0 h) ->
  Forall (member js nm own dur) (callers h) -> member js nm own dur (call_resolver c) -> keyed c ->
  let '(_, fs, st) := run_history fs0 (empty_state seeds) h in as_allowed fs c (out fs st (call_prog c)).
Proof. exact fin_60_changes. Qed.
Print Assumptions C60_changes.
(** For described calls: exactly what the reference comes to. *)
Theorem C58_changes : forall js, (forall s j, js s = Some j -> wf_json j) ->
  forall nm, (forall c, is_abs (nm c) = false) -> forall own dur fs0 h seeds c,
  texts_apart js (written_on (fun n => exists k, n = nm k) (systems fs0 h)) ->
  Forall (fun fs => sane_fs fs /\ forall k, all_readable js (nm k) fs) (systems fs0 h) ->
  ForallOrdPairs (fun fs fs' => forall k, noticeable (nm k) dur fs fs') (systems fs0 h) ->
  Forall (member js nm own dur) (callers h) -> member js nm own dur (call_resolver c) ->
  let '(_, fs, st) := run_history fs0 (empty_state seeds) h in described fs c -> as_described fs c (out fs st (call_prog c)).
Proof. exact fin_58_changes. Qed.
Print Assumptions C58_changes.
(** A debug build delivers what is allowed for the release build ([released], SpecDebug.v). *)
Theorem C60_debug : forall js, (forall s j, js s = Some j -> wf_json j) ->
  forall nm, (forall c, is_abs (nm c) = false) -> forall own dur fs0 h seeds c,
  texts_apart js (written_on (fun n => exists k, n = nm k) (systems fs0 h)) ->
  Forall (fun fs => sane_fs fs /\ forall k, all_readable js (nm k) fs) (systems fs0 h) ->
  ForallOrdPairs (fun fs fs' => forall k, noticeable (nm k) dur fs fs') (systems fs0 h) ->
  Forall (fun R => member js nm own dur (released R)) (call_resolver c :: callers h) -> keyed c ->
  let '(_, fs, st) := run_history fs0 (empty_state seeds) h in as_allowed fs (released_call c) (out fs st (call_prog c)).
Proof. exact fin_60_debug. Qed.
Print Assumptions C60_debug.
(** A description is edited and a package is added between the calls; the new package is found. *)
Example C60_changes_ex : ((forall s j, js_of T41 s = Some j -> wf_json j) /\ texts_apart (js_of T41) (written_on (fun n => exists k, n = nmc k) (systems (W t41a) h41)) /\
   (Forall (fun fs => sane_fs fs /\ forall k : nat, all_readable (js_of T41) (nmc k) fs) (systems (W t41a) h41) /\
    ForallOrdPairs (fun fs fs' => forall k : nat, noticeable (nmc k) 1000000000%N fs fs') (systems (W t41a) h41)) /\
   (forall base req, Forall (member (js_of T41) nmc o41 1000000000%N) (call_resolver (ask base req) :: callers h41)) /\
   (forall base req, Forall (fun R => member (js_of T41) nmc o41 1000000000%N (released R)) (call_resolver (askd base req) :: callers h57)) /\
   forall fs base req, described fs (ask base req)) /\
  (exists st, snd (run_history (W t41a) st0 h41) = st /\ snd (fst (run_history (W t41a) st0 h41)) = W t41b /\
     out (W t41b) st (call_prog (ask "/r" "q")) = Done (AResolve (Ok (RInfo (mkInfo (lit "/r/node_modules/q/q.js") (mkReq [] [] [] Relative)))))) /\
  exists st, snd (run_history (W t41a) st0 h57) = st /\ snd (fst (run_history (W t41a) st0 h57)) = W t41b /\
     out (W t41b) st (call_prog (askd "/r" "q")) = Done (AResolve (Ok (RInfo (mkInfo (lit "/r/node_modules/q/q.js") (mkReq [] [] [] Relative))))).
Proof.
  exact (conj (conj T41_wf (conj (T41_apart _) (conj systems41 (conj members41 (conj members57 described41))))) (conj ex60_changes ex60_debug)).
Qed.
