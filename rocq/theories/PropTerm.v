(** * Termination (C16), and the table properties for calls that end (C37-C39).

    [call_plain fs c] (SpecTerm.v): the base directory is absolute and the steps by which a
    resolution can start over (alias, "imports", browser and main fields) cannot be repeated for
    ever, nor can the "extends" of tsconfig files.  For a side-effects query it only says that
    the path is absolute.  Without these conditions C16 is false ([C16_termination_refuted],
    [C16_alias_cycle_refuted] in PropRefuted.v, and below). *)
From Coq Require Import String.
From Coq Require Import List Arith NArith Bool.
From Verif Require Import Str StrP Path Json Types Parse Map Prog Desc Resolve Top Run Posix Demo SpecRun SpecLoad SpecCache SpecJson SpecMap SpecTerm PosixP JsonP PropCacheP PropTermP.
Import ListNotations.

(** C16, where it holds: a bound [N] on the steps that depends neither on the tables nor on the
    calls made before. *)
Theorem C16_terminates_partial : forall fs, sane_fs fs -> forall js, (forall s j, js s = Some j -> wf_json j) ->
  forall nm, no_clash fs js nm -> forall c, client js nm (call_resolver c) -> call_plain fs c ->
  exists N, forall f h seeds, N <= f -> Forall (fun c => client js nm (call_resolver c)) h ->
  out fs (snd (run_history fs (empty_state seeds) (map ECall h))) (call_prog (with_fuel c f)) <> NoFuel.
Proof. exact fin_16. Qed.
Print Assumptions C16_terminates_partial.
(** The same for calls that run at the same time, under every schedule. *)
Theorem C16_terminates_concurrent_partial : forall fs, sane_fs fs -> forall js, (forall s j, js s = Some j -> wf_json j) ->
  forall nm, no_clash fs js nm -> forall l, Forall (fun c => client js nm (call_resolver c) /\ call_plain fs c) l ->
  exists N, forall f h seeds sched, N <= f -> Forall (fun c => client js nm (call_resolver c)) h ->
  ~ In OutOfFuel (fst (run_sched fs sched (snd (run_history fs (empty_state seeds) (map ECall h)))
                         (map (fun c => call_prog (with_fuel c f)) l))).
Proof. exact fin_16_sched. Qed.
Print Assumptions C16_terminates_concurrent_partial.
(** A sufficient condition that can be read off the options and the description files. *)
Theorem C16_modest_partial : forall fs R f base req, sane_fs fs -> is_abs base = true -> modest fs R ->
  alias_flat (rv_opts R) -> (forall loc, o_tsconfig (rv_opts R) = Some loc -> exists l, chain fs R (loc :: l)) ->
  call_plain fs (CResolve R f base req) /\ call_plain_by fs (fun _ => disk_answer fs) (CResolve R f base req).
Proof. exact modest_plains. Qed.
Print Assumptions C16_modest_partial.
(** An alias, preferred relative paths, "imports", browser and main fields, all in use. *)
Example C16_ex : (sane_fs w16 /\ modest w16 R16 /\ alias_flat o16 /\ call_plain w16 (CResolve R16 40 (lit "/r/src") (lit "p"))) /\
 (gives (out w16 st0 (call_prog (CResolve R16 40 (lit "/r/src") (lit "p")))) "/r/node_modules/p/lib/index.js" /\
  gives (out w16 st0 (call_prog (CResolve R16 40 (lit "/r/src") (lit "#a")))) "/r/x.js" /\
  gives (out w16 st0 (call_prog (CResolve R16 40 (lit "/r") (lit "p/m.js")))) "/r/node_modules/p/b.js" /\
  gives (out w16 st0 (call_prog (CResolve R16 40 (lit "/r") (lit "@/y")))) "/r/src/y.js")%string.
Proof. exact (conj (conj (posix_sane _ _ _) (conj modest16 (conj flat16 (plain16 40 (lit "/r/src") (lit "p") eq_refl)))) answers16). Qed.
(** A tsconfig that extends a file which extends a third one. *)
Example C16_extends_ex : (modest w16t R16t /\ chain w16t R16t l16t /\
  call_plain w16t (CResolve R16t 40 (lit "/r") (lit "@/y"))) /\
  gives (out w16t st0 (call_prog (CResolve R16t 40 (lit "/r") (lit "@/y")))) "/r/src/y.js".
Proof. exact (conj (conj modest16t (conj chain16t (plain16t 40 (lit "/r") (lit "@/y") eq_refl))) answer16t). Qed.
(** A package whose main field is the empty string has itself as main directory, spelled "p/./",
    then "p/././", ...: whatever the bound.  (On a real disk the length of a path is bounded, and
    the recursion ends there or with the stack.) *)
Theorem C16_empty_main_refuted : exists fs R base req, sane_fs fs /\ is_abs base = true /\ o_alias (rv_opts R) = [] /\ o_browser (rv_opts R) = false /\
  o_tsconfig (rv_opts R) = None /\ forall f, out fs st0 (call_prog (CResolve R f base req)) = NoFuel.
Proof. exact C16_empty_p. Qed.
Print Assumptions C16_empty_main_refuted.

(** C37, for calls that end: both runs come to an end, with the same answer. *)
Theorem C37_transparent_ends_partial : forall fs, sane_fs fs -> forall js, (forall s j, js s = Some j -> wf_json j) ->
  forall nm, no_clash fs js nm -> forall c, client js nm (call_resolver c) -> steady fs js c -> call_plain fs c ->
  exists N, forall h seeds seeds' f f', N <= f -> N <= f' -> Forall (fun c => client js nm (call_resolver c)) h ->
  same_end same_answer (out fs (snd (run_history fs (empty_state seeds) (map ECall h))) (call_prog (with_fuel c f)))
                       (out fs (empty_state seeds') (call_prog (with_fuel c f'))).
Proof. exact fin_37_ends. Qed.
Print Assumptions C37_transparent_ends_partial.
(** C38, for calls that end: at any time every thread either has a next step or has ended with
    the answer it has alone on empty tables. *)
Theorem C38_concurrent_ends_partial : forall fs, sane_fs fs -> forall js, (forall s j, js s = Some j -> wf_json j) ->
  forall nm, no_clash fs js nm -> forall l, Forall (fun c => client js nm (call_resolver c) /\ steady fs js c /\ call_plain fs c) l ->
  exists N, forall h seeds seeds' sched f f', N <= f -> N <= f' -> Forall (fun c => client js nm (call_resolver c)) h ->
  Forall2 (fun c p => (exists o k, p = Do o k) \/ same_end same_answer (settled p) (out fs (empty_state seeds') (call_prog (with_fuel c f'))))
          l (fst (run_sched fs sched (snd (run_history fs (empty_state seeds) (map ECall h))) (map (fun c => call_prog (with_fuel c f)) l))).
Proof. exact fin_38_ends. Qed.
Print Assumptions C38_concurrent_ends_partial.
(** C39, for calls that end. *)
Theorem C39_shared_ends_partial : forall fs, sane_fs fs -> forall js, (forall s j, js s = Some j -> wf_json j) ->
  forall nm, no_clash fs js nm -> forall c k i, client js nm (call_resolver c) -> steady fs js c -> call_plain fs c ->
  nm k = nm (rv_cache (call_resolver c)) ->
  exists N, forall h seeds seeds' f f', N <= f -> N <= f' -> Forall (fun c => client js nm (call_resolver c)) h ->
  same_end same_answer (out fs (snd (run_history fs (empty_state seeds) (map ECall h))) (call_prog (with_fuel c f)))
                       (out fs (empty_state seeds') (call_prog (with_fuel (moved c k i) f'))).
Proof. exact fin_39_ends. Qed.
Print Assumptions C39_shared_ends_partial.
(** C25, C27 and C29, for calls that end. *)
Theorem C25_browser_off_ends_partial : forall fs, sane_fs fs -> forall nm js1 js2 R k i base req,
  (forall s j, js1 s = Some j -> wf_json j) -> (forall s j, js2 s = Some j -> wf_json j) ->
  no_clash fs js1 nm -> no_clash fs js2 nm ->
  parsers_but_browser js1 js2 -> o_browser (rv_opts R) = false ->
  client js1 nm R -> nm k = nm (rv_cache R) -> patterns_clear fs R (r_target (parse req)) ->
  call_plain fs (CResolve R 0 base req) -> call_plain fs (CResolve (with_parser R js2 k i) 0 base req) ->
  exists N, forall h1 h2 seeds1 seeds2 f1 f2, N <= f1 -> N <= f2 ->
  Forall (fun c => client js1 nm (call_resolver c)) h1 -> Forall (fun c => client js2 nm (call_resolver c)) h2 ->
  same_end same_answer
    (out fs (snd (run_history fs (empty_state seeds1) (map ECall h1))) (call_prog (CResolve R f1 base req)))
    (out fs (snd (run_history fs (empty_state seeds2) (map ECall h2))) (call_prog (CResolve (with_parser R js2 k i) f2 base req))).
Proof. exact fin_25_ends. Qed.
Print Assumptions C25_browser_off_ends_partial.
Example C25_ends_ex : parsers_but_browser (js_of Tc) (js_of Tn) /\ patterns_clear wc Ro (lit "p") /\
  call_plain wc (CResolve Ro 0 (lit "/r") (lit "p")) /\ call_plain wc (CResolve (with_parser Ro (js_of Tn) 3 4) 0 (lit "/r") (lit "p")).
Proof. exact ends25. Qed.
Theorem C27_resolution_ends_partial : forall fs, sane_fs fs -> forall js, (forall s j, js s = Some j -> wf_json j) ->
  forall nm, no_clash fs js nm -> forall c k i, client js nm (call_resolver c) -> steady fs js c -> call_plain fs c ->
  nm k = nm (rv_cache (call_resolver c)) ->
  exists N, forall seeds seeds' f f', N <= f -> N <= f' ->
  same_end same_answer (out fs (empty_state seeds) (call_prog (with_fuel c f))) (out fs (empty_state seeds') (call_prog (with_fuel (moved c k i) f'))).
Proof. exact fin_27_ends. Qed.
Print Assumptions C27_resolution_ends_partial.
Theorem C29_resolution_ends_partial : forall fs, sane_fs fs -> forall nm js R l k i base req,
  (forall s j, js s = Some j -> wf_json j) -> no_clash fs js nm ->
  (forall name fld v c, o_desc (rv_opts R) = Some name -> fld = lit "exports" \/ fld = lit "imports" ->
     field_on fs js name fld v -> json_key c v -> (In c (o_conditions (rv_opts R)) <-> In c l)) ->
  client js nm R -> nm k = nm (rv_cache R) -> steady fs js (CResolve R 0 base req) ->
  call_plain fs (CResolve R 0 base req) -> call_plain fs (CResolve (with_conditions R l k i) 0 base req) ->
  exists N, forall h1 h2 seeds1 seeds2 f1 f2, N <= f1 -> N <= f2 ->
  Forall (fun c => client js nm (call_resolver c)) h1 -> Forall (fun c => client js nm (call_resolver c)) h2 ->
  same_end same_answer
    (out fs (snd (run_history fs (empty_state seeds1) (map ECall h1))) (call_prog (CResolve R f1 base req)))
    (out fs (snd (run_history fs (empty_state seeds2) (map ECall h2))) (call_prog (CResolve (with_conditions R l k i) f2 base req))).
Proof. exact fin_29_ends. Qed.
Print Assumptions C29_resolution_ends_partial.
Example C29_ends_ex : (forall name fld v c, o_desc (rv_opts R29) = Some name -> fld = lit "exports" \/ fld = lit "imports" ->
    field_on wc (js_of T29) name fld v -> json_key c v ->
    (In c (o_conditions (rv_opts R29)) <-> In c [lit "zzz"; lit "node"; lit "node"])) /\
  call_plain wc (CResolve R29 0 (lit "/r") (lit "p")) /\ call_plain wc (CResolve (with_conditions R29 [lit "zzz"; lit "node"; lit "node"] 1 1) 0 (lit "/r") (lit "p")).
Proof. exact ends29. Qed.
(** The world of [C16_ex] meets all these conditions. *)
Example C37_ends_ex : (forall s j, js_of T16 s = Some j -> wf_json j) /\ no_clash w16 (js_of T16) nmc /\
  let c := CResolve R16 40 (lit "/r/src") (lit "p") in
  client (js_of T16) nmc (call_resolver c) /\ steady w16 (js_of T16) c /\ call_plain w16 c.
Proof. exact (conj wf16 (conj clash16 (conj client16 (conj (steady16 40 (lit "/r/src") (lit "p")) (plain16 40 (lit "/r/src") (lit "p") eq_refl))))). Qed.
