(** * Properties C08, C10, C13, C14, C48, C49: what every call of the public API guarantees.

    [exec p tr r] is an arbitrary execution: [tr] lists the operations performed and the answers
    received, which are unconstrained (the file system and all caches may change at any
    moment).  The forms over [out] and [run_sched] are the instances for an unchanging file
    system, run alone or interleaved with other calls. *)
From Coq Require Import String.
From Coq Require Import List Arith NArith Bool.
From Verif Require Import Str Path Json Types Parse Map Prog Desc Resolve Top Run Exec SpecApi SpecError Posix Demo PropApiP SpecCarry CarryP.
Import ListNotations.

(** C08 *)
Theorem C08_success_was_a_file : forall R fuel base req tr i,
  exec (resolve R fuel base req) tr (Done (Ok (RInfo i))) ->
  exists p, In (mkev (OIsFile p) true) tr /\ r_target (i_req i) = [] /\
    (o_symlinks (rv_opts R) = true -> In (mkev (OCanon p) (Some (i_path i))) tr) /\
    (o_symlinks (rv_opts R) = false -> i_path i = normalize_path_without_link p).
Proof. exact C08_success_p. Qed.
Print Assumptions C08_success_was_a_file.
Theorem C08_success_on_disk : forall fs st R fuel base req i,
  out fs st (resolve R fuel base req) = Done (Ok (RInfo i)) ->
  exists p, f_file fs p = true /\ r_target (i_req i) = [] /\
    (o_symlinks (rv_opts R) = true -> f_canon fs p = Some (i_path i)) /\
    (o_symlinks (rv_opts R) = false -> i_path i = normalize_path_without_link p).
Proof. exact C08_run_p. Qed.
Print Assumptions C08_success_on_disk.
Theorem C08_success_concurrent : forall fs sched st l l' st' n R fuel base req i,
  run_sched fs sched st l = (l', st') ->
  nth_error l n = Some (resolve R fuel base req) -> nth_error l' n = Some (Ret (Ok (RInfo i))) ->
  exists p, f_file fs p = true /\ r_target (i_req i) = [] /\
    (o_symlinks (rv_opts R) = true -> f_canon fs p = Some (i_path i)) /\
    (o_symlinks (rv_opts R) = false -> i_path i = normalize_path_without_link p).
Proof. exact C08_sched_p. Qed.
Print Assumptions C08_success_concurrent.
Example C08_ex :
  res w1 R1 "/r" "./l?q" = found "/r/d/b.js" "?q" "" /\ res w1 R1off "/r/d" "./../l.js" = found "/r/l.js" "" "".
Proof. exact C08_ex_p. Qed.
Example C08_ex_sched :
  fst (run_sched w1 (alternate 30) st0 two) =
  [Ret (Ok (RInfo (mkInfo (lit "/r/a.js") (mkReq [] [] [] Relative))));
   Ret (Ok (RInfo (mkInfo (lit "/r/d/b.js") (mkReq [] [] [] Relative))))].
Proof. exact C08_ex_sched_p. Qed.

(** C10 *)
Theorem C10_enforced_extension : forall R fuel base req tr i, o_enforce (rv_opts R) = Some true ->
  exec (resolve R fuel base req) tr (Done (Ok (RInfo i))) ->
  exists q ext, In ext (o_extensions (rv_opts R)) /\ In (mkev (OIsFile (q ++ ext)) true) tr /\
    (o_symlinks (rv_opts R) = true -> In (mkev (OCanon (q ++ ext)) (Some (i_path i))) tr) /\
    (o_symlinks (rv_opts R) = false -> i_path i = normalize_path_without_link (q ++ ext)).
Proof. exact C10_enforced_p. Qed.
Print Assumptions C10_enforced_extension.
Theorem C10_new_resolver : forall o cache id debug js jsc,
  let o' := rv_opts (new_resolver o cache id debug js jsc) in
  (o_enforce o = None -> (o_enforce o' = Some true <-> In [] (o_extensions o)) /\
                         (o_enforce o' = Some false <-> ~ In [] (o_extensions o))) /\
  (forall b, o_enforce o = Some b -> o' = o).
Proof. exact C10_new_p. Qed.
Print Assumptions C10_new_resolver.
Example C10_ex : o_enforce (rv_opts Renf) = Some true /\ o_enforce (rv_opts R1) = Some false /\
  res w1 Renf "/r" "./a.js" = found "/r/a.js" "" "" /\ o_enforce (rv_opts Rnoenf) = Some false.
Proof. exact C10_ex_p. Qed.
Example C10_ex2 : res w1 Rstrict "/r" "./a" = found "/r/a.js" "" "" /\
  res w1 Rstrict "/r" "./a.js" = failed "Resolve './a.js' failed in '/r'" /\
  res w1 R1 "/r" "./a.js" = found "/r/a.js" "" "".
Proof. exact C10_ex2_p. Qed.

(** C13: the internal marker is never returned, whatever the answers. *)
Theorem C13_no_marker : forall R fuel base req tr, ~ exec (resolve R fuel base req) tr (Done (Err (lit "T0"))).
Proof. exact C13_marker_p. Qed.
Print Assumptions C13_no_marker.
(** No file is ever found: the answer is the generic failure for the request as passed (or a
    [false] alias). *)
Theorem C13_nothing_exists : forall R fuel base req tr r, o_tsconfig (rv_opts R) = None ->
  (forall p, ~ In (mkev (OIsFile p) true) tr) ->
  (forall c p pk, ~ In (mkev (OPkgGet c p) (Some (Some pk))) tr) ->
  exec (resolve R fuel base req) tr (Done r) ->
  r = Err (lit "Resolve '" ++ req ++ lit "' failed in '" ++ base ++ lit "'") \/ r = Ok RIgnored.
Proof. exact C13_nofile_p. Qed.
Print Assumptions C13_nothing_exists.
(** Whatever happens, every other error has its reason in what the call met ([blame] in SpecError.v):
    a description file or tsconfig that cannot be used, an exports or imports field that refuses
    the request, a file that cannot be canonicalised. *)
Theorem C13_every_error : forall R fuel base req tr e, exec (resolve R fuel base req) tr (Done (Err e)) ->
  e = lit "Resolve '" ++ req ++ lit "' failed in '" ++ base ++ lit "'" \/ blame R tr e.
Proof. exact C13_every_p. Qed.
Print Assumptions C13_every_error.
Example C13_every_ex : res w13 (R13 None) "/r" "e/gone" = failed "Package path e/gone is not exported" /\
  res w13 (R13 None) "/r" "e/x/" = failed "Only requesting file allowed" /\
  res w13 (R13 (Some (lit "/r/ts.json"))) "/r" "e/gone" = failed "Parse /r/ts.json failed. Error: bad" /\
  res w13 (R13 None) "/r" "f" = failed "Resolve 'f' failed in '/r'".
Proof. exact C13_every_ex_p. Qed.
(** Without exports and imports fields every error is the generic one, except complaints about
    a description file ([desc_err]) and a failing canonicalisation. *)
Theorem C13_generic_message : forall R fuel base req tr e, o_tsconfig (rv_opts R) = None ->
  (forall s j, rv_json R s = Some j -> jget j (lit "exports") = None /\ jget j (lit "imports") = None) ->
  (forall c p pk, In (mkev (OPkgGet c p) (Some (Some pk))) tr -> p_exports pk = None /\ p_imports pk = None) ->
  exec (resolve R fuel base req) tr (Done (Err e)) ->
  e = lit "Resolve '" ++ req ++ lit "' failed in '" ++ base ++ lit "'" \/ desc_err e \/
  e = norm_failed /\ exists p, In (mkev (OIsFile p) true) tr.
Proof. exact C13_plain_p. Qed.
Print Assumptions C13_generic_message.
Theorem C13_generic_message_no_description : forall R fuel base req tr e,
  o_tsconfig (rv_opts R) = None -> o_desc (rv_opts R) = None ->
  exec (resolve R fuel base req) tr (Done (Err e)) ->
  e = lit "Resolve '" ++ req ++ lit "' failed in '" ++ base ++ lit "'" \/
  e = norm_failed /\ exists p, In (mkev (OIsFile p) true) tr.
Proof. exact C13_nodesc_p. Qed.
Print Assumptions C13_generic_message_no_description.
Example C13_ex : exists tr,
  (forall p, ~ In (mkev (OIsFile p) true) tr) /\
  (forall c p pk, ~ In (mkev (OPkgGet c p) (Some (Some pk))) tr) /\
  exec (resolve R1 40 (lit "/r") (lit "m/x?q#f")) tr (Done (Err (lit "Resolve 'm/x?q#f' failed in '/r'"))).
Proof. exact C13_ex_p. Qed.
Example C13_ex_hyp : forall s j, rv_json R2 s = Some j -> jget j (lit "exports") = None /\ jget j (lit "imports") = None.
Proof. exact R2_plain. Qed.
Example C13_ex2 :
  res w2 R2 "/r" "good" = found "/r/node_modules/good/index.js" "" "" /\
  res w2 R2 "/r" "good/x" = failed "Resolve 'good/x' failed in '/r'" /\
  res w2 R2 "/r" "bad" = failed "Parse /r/node_modules/bad/package.json failed".
Proof. exact C13_ex2_p. Qed.

(** C14: false as stated, a relative path none of whose ancestors is a directory leaks the
    marker ... *)
Theorem C14_side_effects_marker_refuted : exists fs st R fuel p,
  out fs st (load_side_effects R fuel p) = Done (Err (lit "T0")).
Proof. exact C14_refuted_p. Qed.
Print Assumptions C14_side_effects_marker_refuted.
(** ... true for absolute paths as long as the root answers that it is a directory.  Missing:
    relative paths. *)
Theorem C14_side_effects_marker_partial : forall R fuel p tr, is_abs p = true ->
  (forall q, components q = [CRoot] -> ~ In (mkev (OIsDir q) false) tr) ->
  ~ exec (load_side_effects R fuel p) tr (Done (Err (lit "T0"))).
Proof. exact C14_partial_p. Qed.
Print Assumptions C14_side_effects_marker_partial.
Example C14_ex : out w2 st0 (load_side_effects R2 40 (lit "/r/node_modules/bad")) =
  Done (Err (lit "Parse /r/node_modules/bad/package.json failed")) /\
  out w2 st0 (load_side_effects R2 40 (lit "/nowhere/at/all")) = Done (Ok None).
Proof. exact C14_ex_p. Qed.

(** C48: false for all options: an alias may turn a path request into a package request whose
    exports pattern swallows the query ... *)
Theorem C48_query_carried_refuted : exists fs st R fuel base req i,
  r_kind (parse req) = Relative /\ out fs st (resolve R fuel base req) = Done (Ok (RInfo i)) /\
  r_query (i_req i) <> r_query (parse req).
Proof. exact C48_refuted_p. Qed.
Print Assumptions C48_query_carried_refuted.
(** ... true without alias, browser remapping and tsconfig paths ... *)
Theorem C48_path_request_partial : forall R fuel base req tr i,
  o_tsconfig (rv_opts R) = None -> o_alias (rv_opts R) = [] -> o_browser (rv_opts R) = false ->
  (r_kind (parse req) = Relative \/ r_kind (parse req) = AbsolutePosix \/ r_kind (parse req) = AbsoluteWin) ->
  exec (resolve R fuel base req) tr (Done (Ok (RInfo i))) ->
  r_query (i_req i) = r_query (parse req) /\ r_fragment (i_req i) = r_fragment (parse req).
Proof. exact C48_path_p. Qed.
Print Assumptions C48_path_request_partial.
(** ... and for every request (aliased or not) when no description has exports or imports. *)
Theorem C48_any_request_partial : forall R fuel base req tr i, o_tsconfig (rv_opts R) = None ->
  (forall s j, rv_json R s = Some j -> jget j (lit "exports") = None /\ jget j (lit "imports") = None) ->
  (forall c p pk, In (mkev (OPkgGet c p) (Some (Some pk))) tr -> p_exports pk = None /\ p_imports pk = None) ->
  exec (resolve R fuel base req) tr (Done (Ok (RInfo i))) ->
  r_query (i_req i) = r_query (parse req) /\ r_fragment (i_req i) = r_fragment (parse req).
Proof. exact C48_plain_p. Qed.
Print Assumptions C48_any_request_partial.
(** Whatever the options, the tables and the files (which may change at any moment): query and fragment are together those of
    the request, or those of a target that an exports or imports field met on the way gave, or, with a tsconfig, empty. *)
Theorem C48_sources : forall R fuel base req tr i, exec (resolve R fuel base req) tr (Done (Ok (RInfo i))) ->
  same_tail_of (i_req i) (parse req) \/ (o_tsconfig (rv_opts R) <> None /\ r_query (i_req i) = [] /\ r_fragment (i_req i) = []) \/
  exists c, given R tr c /\ same_tail_of (i_req i) (parse c).
Proof. exact fin_48_sources. Qed.
Print Assumptions C48_sources.
(** All three occur. *)
Example C48_sources_ex : res w3t R3t "/r" "p/a?q" = found "/r/node_modules/p/lib.js" "?t" "#u" /\
  res w3t R3t "/r" "m?q" = found "/r/node_modules/p/lib.js" "" "" /\
  res w3t R3t "/r" "./node_modules/p/lib?q" = found "/r/node_modules/p/lib.js" "?q" "".
Proof. exact C48_sources_ex_p. Qed.
Theorem C48_join_order : forall i, info_join i = i_path i ++ r_query (i_req i) ++ r_fragment (i_req i).
Proof. exact C48_join_p. Qed.
Print Assumptions C48_join_order.
Example C48_ex : r_kind (parse (lit "./a?b#c")) = Relative /\
  res w1 R1 "/r" "./a?b#c" = found "/r/a.js" "?b" "#c" /\
  res w2 R2 "/r" "good?b" = found "/r/node_modules/good/index.js" "?b" "" /\
  info_join (mkInfo (lit "/r/a.js") (mkReq [] (lit "?b") (lit "#c") Relative)) = lit "/r/a.js?b#c".
Proof. exact C48_ex_p. Qed.

(** C49 *)
Theorem C49_symlinks_on : forall R fuel base req tr, o_symlinks (rv_opts R) = true ->
  (forall i, exec (resolve R fuel base req) tr (Done (Ok (RInfo i))) ->
     exists p, In (mkev (OIsFile p) true) tr /\ In (mkev (OCanon p) (Some (i_path i))) tr) /\
  (forall p r, In (mkev (OCanon p) None) tr -> exec (resolve R fuel base req) tr (Done r) ->
     r = Err (lit "Path normalized failed")).
Proof. exact C49_on_p. Qed.
Print Assumptions C49_symlinks_on.
Theorem C49_symlinks_off : forall R fuel base req tr r, exec (resolve R fuel base req) tr r ->
  o_symlinks (rv_opts R) = false -> forall p x, ~ In (mkev (OCanon p) x) tr.
Proof. exact exec_canon_off. Qed.
Print Assumptions C49_symlinks_off.
Example C49_ex : res (canon_none w1) R1 "/r" "./a" = failed "Path normalized failed" /\
  res (canon_none w1) R1off "/r" "./a" = found "/r/a.js" "" "" /\
  res w1 R1 "/r" "./l" = found "/r/d/b.js" "" "" /\ res w1 R1off "/r" "./l" = found "/r/l.js" "" "".
Proof. exact C49_ex_p. Qed.
