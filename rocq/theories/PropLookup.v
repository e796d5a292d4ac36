(** * Files, directories, node_modules, aliases, internal requests
      (C09, C11, C12, C17-C20, C23, C24, C26, C27, C34, C50).

    Statements hold for every file system [fs], every content of the tables [st] and every fuel
    at which the run is considered.  [load_pkg_file R n p] is the lookup of the description for
    path [p] (C21 and the C37 group say what it finds).  [get_path (mkInfo base (parse req))] is
    the path a relative or absolute request denotes. *)
From Coq Require Import String.
From Coq Require Import List Arith NArith Bool Lia Permutation.
From Verif Require Import Str StrP Path Json Types Parse Map Prog Desc Resolve Top Run Exec ExecP Posix Demo WitnessP SpecRun TsP LookupP LookupTopP PropLookupP.
Import ListNotations.

(** C09.  A path request, nothing remapped: the candidates are the exact path (unless
    enforce_extension is on) and the path with each extension, in option order; the first one
    that is a file is the answer, and the trace of operations shows that beyond the description
    lookup only the candidates up to it are checked. *)
Theorem C09_first_candidate : forall fs R f base req st opk st1 l1 q l2, rv_debug R = false ->
  no_remap R base (r_target (parse req)) -> path_kind (r_kind (parse req)) ->
  run fs (load_pkg_file R (S f) (get_path (mkInfo base (parse req)))) st = (Done (Ok opk), st1) ->
  browser_silent (rv_opts R) opk (mkInfo base (parse req)) ->
  file_candidates (rv_opts R) (get_path (mkInfo base (parse req))) = l1 ++ q :: l2 -> no_file fs l1 -> f_file fs q = true ->
  let found := Done (Success (RInfo (mkInfo q (mkReq [] (r_query (parse req)) (r_fragment (parse req)) Relative)))) in
  run fs (resolve R (S f) base req) st = (final_answer fs R found, st1) /\
  run_tr fs (resolve R (S f) base req) st =
    run_tr fs (load_pkg_file R (S f) (get_path (mkInfo base (parse req)))) st ++
    map (fun p => mkev (OIsFile p) false) l1 ++ [mkev (OIsFile q) true] ++ final_ops fs R found.
Proof. exact path_file_top. Qed.
Print Assumptions C09_first_candidate.
(** Directory resolution comes only after all of them have failed. *)
Theorem C09_directory_last : forall fs R f base req st opk st1, rv_debug R = false ->
  no_remap R base (r_target (parse req)) -> path_kind (r_kind (parse req)) ->
  run fs (load_pkg_file R (S f) (get_path (mkInfo base (parse req)))) st = (Done (Ok opk), st1) ->
  browser_silent (rv_opts R) opk (mkInfo base (parse req)) ->
  no_file fs (file_candidates (rv_opts R) (get_path (mkInfo base (parse req)))) ->
  run fs (resolve R (S f) base req) st =
    let (r, st') := run fs (resolve_as_dir R (load_pkg_file R (S f)) (S f) (mkInfo base (parse req))) st1 in
    (final_answer fs R (settled (mkInfo base (parse req)) r), st').
Proof. exact path_dir_top. Qed.
Print Assumptions C09_directory_last.

Example C09_ex : (
  no_remap R09 (lit "/r") (r_target (parse (lit "./a?q"))) /\ path_kind (r_kind (parse (lit "./a?q"))) /\
  (exists opk st1, run w09 (load_pkg_file R09 40 (get_path (mkInfo (lit "/r") (parse (lit "./a?q"))))) st0 = (Done (Ok opk), st1) /\
     browser_silent (rv_opts R09) opk (mkInfo (lit "/r") (parse (lit "./a?q")))) /\
  file_candidates (rv_opts R09) (get_path (mkInfo (lit "/r") (parse (lit "./a?q")))) =
    ([lit "/r/./a"; lit "/r/./a.ts"] ++ lit "/r/./a.js" :: [lit "/r/./a.json"])%list /\
  no_file w09 [lit "/r/./a"; lit "/r/./a.ts"] /\ f_file w09 (lit "/r/./a.js") = true /\
  res w09 R09 "/r" "./a?q" = found "/r/a.js" "?q" "" /\ res w09 R09 "/r" "./b" = found "/r/b" "" "")%string.
Proof. exact p_C09_ex. Qed.

(** C11.  A bare specifier, nothing remapped: the directories from the base to the root are
    visited in this order; the first that decides ([walk]) determines the answer. *)
Theorem C11_walk : forall fs R f base req st opk st1 l x st', rv_debug R = false ->
  no_remap R base (r_target (parse req)) -> r_kind (parse req) = Normal ->
  run fs (load_pkg_file R (S f) (join (join base MODULE) (r_target (parse req)))) st = (Done (Ok opk), st1) ->
  browser_silent (rv_opts R) opk (mkInfo base (parse req)) -> up_chain base l ->
  run fs (resolve R (S f) base req) st = (Done x, st') ->
  exists s, walk (fun i => run fs (modules_level R (load_pkg_file R (S f)) (S f) i)) l (mkInfo base (parse req)) st1 s st' /\
    Done x = final_answer fs R (settled (mkInfo base (parse req)) (Done s)).
Proof. exact bare_top. Qed.
Print Assumptions C11_walk.
(** The chain of directories always exists, and is unique by its definition. *)
Theorem C11_chain_exists : forall p, exists l, up_chain p l.
Proof. exact up_chain_total. Qed.
Print Assumptions C11_chain_exists.
(** A directory without node_modules costs one check and passes the request on. *)
Theorem C11_absent_level : forall fs R load f i st, f_dir fs (join (i_path i) MODULE) = false ->
  run fs (modules_level R load f i) st = (Done (inr (Resolving i)), st) /\
  run_tr fs (modules_level R load f i) st = [mkev (OIsDir (join (i_path i) MODULE)) false].
Proof. exact p_C11_absent_level. Qed.
Print Assumptions C11_absent_level.
(** If no level decides, the generic failure. *)
Theorem C11_nothing_found : forall fs R f base req st opk st1 l st2 x st', rv_debug R = false ->
  no_remap R base (r_target (parse req)) -> r_kind (parse req) = Normal ->
  run fs (load_pkg_file R (S f) (join (join base MODULE) (r_target (parse req)))) st = (Done (Ok opk), st1) ->
  browser_silent (rv_opts R) opk (mkInfo base (parse req)) -> up_chain base l ->
  all_pass (fun i => run fs (modules_level R (load_pkg_file R (S f)) (S f) i)) l (parse req) st1 st2 ->
  run fs (resolve R (S f) base req) st = (Done x, st') ->
  x = Err (lit "Resolve '" ++ request_display (parse req) ++ lit "' failed in '" ++ base ++ lit "'") /\ st' = st2.
Proof. exact bare_nothing. Qed.
Print Assumptions C11_nothing_found.
Example C11_ex : (
  up_chain (lit "/r/a") [lit "/r/a"; lit "/r"; lit "/"] /\
  no_remap Rr (lit "/r/a") (r_target (parse (lit "p"))) /\ r_kind (parse (lit "p")) = Normal /\
  (exists opk st1, run w11 (load_pkg_file Rr 40 (join (join (lit "/r/a") MODULE) (lit "p"))) st0 = (Done (Ok opk), st1) /\
     browser_silent (rv_opts Rr) opk (mkInfo (lit "/r/a") (parse (lit "p")))) /\
  res w11 Rr "/r/a" "p" = found "/r/node_modules/p/index.js" "" "" /\
  res w11 Rr "/r/a" "q" = found "/r/a/node_modules/q.js" "" "" /\
  res w11 Rr "/r/a" "z" = failed "Resolve 'z' failed in '/r/a'" /\
  (exists st2, all_pass (fun i => run w11 (modules_level Rr (load_pkg_file Rr 40) 40 i)) [lit "/r/a"; lit "/r"; lit "/"] (parse (lit "z")) st0 st2))%string.
Proof. exact p_C11_ex. Qed.

(** C12, the part that holds (see [C12_same_specifier_refuted]; the full statement, that every
    level is searched for [parse req], fails).  A level that passes the search on hands over its
    own request, unless an existing directory was entered in which nothing was found, in which
    case the specifier is gone. *)
Theorem C12_passed_on_partial : forall fs R load f i st i1 st1,
  run fs (modules_level R load f i) st = (Done (inr (Resolving i1)), st1) ->
  i1 = i \/ exists j, f_dir fs (get_path j) = true /\ i1 = dir_info j.
Proof. exact p_C12_passed_on_partial. Qed.
Print Assumptions C12_passed_on_partial.
(** So the specifier is kept wherever the level has no directory (file or nothing) of that name
    and no exports field. *)
Theorem C12_same_specifier_partial : forall fs R load f d r st opk st2 i1 st1,
  r_kind r = Normal -> starts_with_char (r_target r) c_hash = false ->
  run fs (load (join (join d MODULE) (r_target r))) st = (Done (Ok opk), st2) ->
  (forall pk, opk = Some pk -> p_exports pk = None) -> o_browser (rv_opts R) = false ->
  f_dir fs (join (join d MODULE) (lit "./" ++ r_target r)) = false ->
  run fs (modules_level R load (S f) (mkInfo d r)) st = (Done (inr (Resolving i1)), st1) -> i1 = mkInfo d r.
Proof. exact p_C12_same_specifier_partial. Qed.
Print Assumptions C12_same_specifier_partial.
Example C12_ex : exists opk st2 st1,
  run w11 (load_pkg_file Rr 40 (join (join (lit "/r/a") MODULE) (lit "p"))) st0 = (Done (Ok opk), st2) /\
  (forall pk, opk = Some pk -> p_exports pk = None) /\ f_dir w11 (join (join (lit "/r/a") MODULE) (lit "./" ++ lit "p")) = false /\
  run w11 (modules_level Rr (load_pkg_file Rr 40) 40 (mkInfo (lit "/r/a") (parse (lit "p")))) st0 =
    (Done (inr (Resolving (mkInfo (lit "/r/a") (parse (lit "p"))))), st1).
Proof. exact p_C12_ex. Qed.

(** C17, C18.  The attempts made for a request whose base directory does not contain the text
    "node_modules": [cs] are the rewritten targets of the matching aliases in list order
    ([alias_plan]: the matched prefix replaced, the rest kept), with the same base directory,
    query and fragment ([retarget]); then the relative spelling if prefer_relative asks for it;
    then ([plain R] has neither aliases nor prefer_relative) the request itself.  [b] says that
    a matching [Ignored] alias ends the list: the default is then [Ignored]. *)
Theorem C18_attempts : forall fs R f base req cs b st r st', rv_debug R = false -> o_tsconfig (rv_opts R) = None ->
  contains base MODULE = false -> alias_plan (r_target (parse req)) (o_alias (rv_opts R)) cs b ->
  run fs (resolve R (S f) base req) st = (r, st') ->
  let i := mkInfo base (parse req) in
  exists r0, r = final_answer fs R r0 /\
  first_of (map (fun t => run fs (resolve_ R (load_pkg_file R (S f)) f (retarget i t))) (cs ++ if b then [] else prefer_list R i))
    (if b then (fun st => (Done (Success RIgnored), st)) else run fs (resolve_ (plain R) (load_pkg_file R (S f)) (S f) i)) st r0 st'.
Proof. exact attempts_top. Qed.
Print Assumptions C18_attempts.
(** The plan exists for all targets and alias lists. *)
Theorem C18_plan_exists : forall t l, exists cs b, alias_plan t l cs b.
Proof. exact alias_plan_total. Qed.
Print Assumptions C18_plan_exists.
(** With an alias list none of whose entries matches, or under node_modules, the call is equal to
    the call of a resolver without aliases. *)
Theorem C18_no_alias_under_node_modules : forall fs R fuel base req a b st, rv_debug R = false -> o_tsconfig (rv_opts R) = None ->
  base = a ++ MODULE ++ b ->
  run fs (resolve R fuel base req) st = run fs (resolve (no_alias R) fuel base req) st.
Proof. exact p_C18_no_alias_under_node_modules. Qed.
Print Assumptions C18_no_alias_under_node_modules.
(** But the test is textual: in the directory /my_node_modules, which is not under node_modules,
    the alias is not applied either. *)

Theorem C18_lookalike_directory_refuted : exists fs R, (
  o_alias (rv_opts R) = [(lit "foo", ATarget (lit "./x"))] /\
  res fs R "/src" "foo" = found "/src/x.js" "" "" /\
  f_file fs (lit "/my_node_modules/x.js") = true /\
  res fs R "/my_node_modules" "foo" = failed "Resolve 'foo' failed in '/my_node_modules'")%string.
Proof. exact p_C18_lookalike_directory_refuted. Qed.
Print Assumptions C18_lookalike_directory_refuted.
(** C17 for one alias. *)
Theorem C17_rewrite : forall fs R f base req from to rest st r st', rv_debug R = false -> o_tsconfig (rv_opts R) = None ->
  o_alias (rv_opts R) = [(from, ATarget to)] -> o_prefer_relative (rv_opts R) = false -> contains base MODULE = false ->
  r_target (parse req) = from ++ rest -> ~ prefix to (from ++ rest) ->
  run fs (resolve R (S f) base req) st = (r, st') ->
  let i := mkInfo base (parse req) in
  let i' := mkInfo base (mkReq (to ++ rest) (r_query (parse req)) (r_fragment (parse req)) (get_target_kind (to ++ rest))) in
  exists r0, r = final_answer fs R r0 /\
  first_of [run fs (resolve_ R (load_pkg_file R (S f)) f i')] (run fs (resolve_ (plain R) (load_pkg_file R (S f)) (S f) i)) st r0 st'.
Proof. exact p_C17_rewrite. Qed.
Print Assumptions C17_rewrite.

Example C17_ex : (
  alias_plan (lit "foo/x") (o_alias (rv_opts R17)) [lit "./none/x"; lit "./lib/x"; lit "./yfoo/x"] false /\
  alias_plan (lit "bar") (o_alias (rv_opts R17)) [] true /\
  res w17 R17 "/r" "foo/x?q#f" = found "/r/lib/x.js" "?q" "#f" /\ res w17 R17 "/r" "foo/z" = found "/r/node_modules/foo/z.js" "" "" /\
  res w17 R17 "/r" "bar" = Done (Ok RIgnored) /\
  res w17 (mkR (with_alias dflt [(lit "foo", ATarget (lit "./lib"))]) []) "/r" "foo/x?q" = found "/r/lib/x.js" "?q" "")%string.
Proof. exact p_C17_ex. Qed.

(** C19, the part that holds (whole segments are not respected, see [C19_alias_segment_refuted]):
    an alias whose key is not a textual prefix of the target has no effect. *)
Theorem C19_other_keys_partial : forall fs R fuel base req st, rv_debug R = false -> o_tsconfig (rv_opts R) = None ->
  Forall (fun a => ~ prefix (fst a) (r_target (parse req))) (o_alias (rv_opts R)) ->
  o_prefer_relative (rv_opts R) = false \/ Forall (fun a => ~ prefix (fst a) (lit "./" ++ r_target (parse req))) (o_alias (rv_opts R)) ->
  run fs (resolve R fuel base req) st = run fs (resolve (no_alias R) fuel base req) st.
Proof. exact p_C19_other_keys_partial. Qed.
Print Assumptions C19_other_keys_partial.
Example C19_ex : (Forall (fun a => ~ prefix (fst a) (r_target (parse (lit "goo")))) (o_alias (rv_opts R18)) /\
  res w18 R18 "/src" "./x" = found "/src/x.js" "" "")%string.
Proof. exact p_C19_ex. Qed.

(** C20.  prefer_relative, when no alias concerns the target: one attempt with "./" before it
    (none for targets that already start with "./" or "../", none with the option off); if it
    fails, the resolution by a resolver with the option off. *)
Theorem C20_prefer_relative : forall fs R f base req st r st', rv_debug R = false -> o_tsconfig (rv_opts R) = None ->
  alias_none R base (r_target (parse req)) -> run fs (resolve R (S f) base req) st = (r, st') ->
  let i := mkInfo base (parse req) in
  exists r0, r = final_answer fs R r0 /\
  first_of (map (fun t => run fs (resolve_ R (load_pkg_file R (S f)) f (retarget i t))) (prefer_list R i))
    (run fs (resolve_ (prefer_off R) (load_pkg_file R (S f)) (S f) i)) st r0 st'.
Proof. exact prefer_top. Qed.
Print Assumptions C20_prefer_relative.
Example C20_ex : (let on := mkR (with_prefer dflt true) [] in
  prefer_list on (mkInfo (lit "/r") (parse (lit "p"))) = [lit "./p"] /\ prefer_list Rr (mkInfo (lit "/r") (parse (lit "p"))) = [] /\
  res w20 on "/r" "p" = found "/r/p.js" "" "" /\ res w20 Rr "/r" "p" = found "/r/node_modules/p/index.js" "" "" /\
  res w20 on "/r" "q" = found "/r/node_modules/q/index.js" "" "")%string.
Proof. exact p_C20_ex. Qed.

(** C23, the part that holds.  A directory with its own description: the strings of the main
    fields, in option order and up to one that is "." or "./" ([main_plan]), are resolved
    relative to the directory; the first that resolves decides; then come the main files.  The
    hypothesis on failing directories is what the full statement does without
    ([C23_main_fields_independent_refuted]): a main field that names an existing directory
    resolves.  The browser field is taken to be silent about the entries. *)
Theorem C23_main_fields_partial : forall fs R load f i st pk st1 ms r st', f_dir fs (get_path i) = true ->
  run fs (load (get_path i)) st = (Done (Ok (Some pk)), st1) -> components (p_dir pk) = components (get_path i) ->
  main_plan (p_raw pk) (o_main_fields (rv_opts R)) ms ->
  (forall m, In m (ms ++ map (fun x => lit "./" ++ x) (o_main_files (rv_opts R))) ->
     browser_silent (rv_opts R) (Some pk) (with_target (dir_info i) m)) ->
  (forall m, In m ms -> no_file fs (file_candidates (rv_opts R) (join (get_path i) m)) -> f_dir fs (join (get_path i) m) = true ->
     forall st s st', run fs (resolve_as_dir R load f (with_target (dir_info i) m)) st = (Done s, st') -> is_success s = true) ->
  run fs (resolve_as_dir R load (S f) i) st = (r, st') ->
  first_of (map (fun m => run fs (and_then (resolve_as_file R (with_target (dir_info i) m)) (resolve_as_dir R load f))) ms)
    (fun st => (Done (main_file_result R fs (dir_info i)), st)) st1 r st'.
Proof. exact p_C23_main_fields_partial. Qed.
Print Assumptions C23_main_fields_partial.
Theorem C23_plan_exists : forall j l, exists ms, main_plan j l ms.
Proof. exact main_plan_total. Qed.
Print Assumptions C23_plan_exists.

Example C23_ex : exists pk st1, (let i := mkInfo (lit "/r") (parse (lit "./d")) in
  f_dir w23e (get_path i) = true /\ run w23e (load_pkg_file R23e 40 (get_path i)) st0 = (Done (Ok (Some pk)), st1) /\
  components (p_dir pk) = components (get_path i) /\
  main_plan (p_raw pk) (o_main_fields (rv_opts R23e)) [lit "./no"; lit "./b"] /\
  f_dir w23e (join (get_path i) (lit "./no")) = false /\ f_file w23e (lit "/r/./d/./b.js") = true /\
  res w23e R23e "/r" "./d" = found "/r/d/b.js" "" "")%string.
Proof. exact p_C23_ex. Qed.

(** C24.  When no main field is in play, a path request that is a directory is answered by the
    first existing candidate among its main files, each with the extension rules. *)
Theorem C24_main_files : forall fs R f base req st opk st1 opk2 st2 q, rv_debug R = false ->
  no_remap R base (r_target (parse req)) -> path_kind (r_kind (parse req)) ->
  let i := mkInfo base (parse req) in
  run fs (load_pkg_file R (S f) (get_path i)) st = (Done (Ok opk), st1) -> browser_silent (rv_opts R) opk i ->
  no_file fs (file_candidates (rv_opts R) (get_path i)) -> f_dir fs (get_path i) = true ->
  run fs (load_pkg_file R (S f) (get_path i)) st1 = (Done (Ok opk2), st2) ->
  (forall pk, opk2 = Some pk -> components (p_dir pk) <> components (get_path i) \/ main_plan (p_raw pk) (o_main_fields (rv_opts R)) []) ->
  (forall m, In m (o_main_files (rv_opts R)) -> browser_silent (rv_opts R) opk2 (with_target (dir_info i) (lit "./" ++ m))) ->
  first_file fs (main_file_paths R (get_path i) (o_main_files (rv_opts R))) q ->
  run fs (resolve R (S f) base req) st = (final_answer fs R (Done (picked i q)), st2).
Proof. exact p_C24_main_files. Qed.
Print Assumptions C24_main_files.
(** With a description of its own, see [C23_main_fields_partial]: the main files come after all
    the main fields. *)

Example C24_ex : (let i := mkInfo (lit "/r") (parse (lit "./d")) in
  no_file w24 (file_candidates (rv_opts R24) (get_path i)) /\ f_dir w24 (get_path i) = true /\
  (exists st1 st2, run w24 (load_pkg_file R24 40 (get_path i)) st0 = (Done (Ok None), st1) /\ run w24 (load_pkg_file R24 40 (get_path i)) st1 = (Done (Ok None), st2)) /\
  first_file w24 (main_file_paths R24 (get_path i) (o_main_files (rv_opts R24))) (lit "/r/./d/./index.json") /\
  res w24 R24 "/r" "./d" = found "/r/d/index.json" "" "")%string.
Proof. exact p_C24_ex. Qed.

(** C26.  With browser_field on: the first key [k] in the iteration order of the table that
    matches the request decides (C27 covers the order): the request becomes the end [e] of the
    chain starting at its value: [Ignored], or the target [t] relative to the package directory
    with query and fragment kept, which is resolved as a file or directory if it is a path and
    in node_modules otherwise ([final_step]). *)
Theorem C26_browser_chain : forall fs R load i st pk st1 l1 k v l2 e, no_remap R (i_path i) (r_target (i_req i)) ->
  r_kind (i_req i) = get_target_kind (r_target (i_req i)) -> starts_with_char (r_target (i_req i)) c_hash = false ->
  run fs (load (match r_kind (i_req i) with Normal => join (join (i_path i) MODULE) (r_target (i_req i)) | _ => get_path i end)) st = (Done (Ok (Some pk)), st1) ->
  o_browser (rv_opts R) = true ->
  p_alias pk = l1 ++ (k, v) :: l2 -> browser_key (rv_opts R) (p_dir pk) i k ->
  (forall k' v', In (k', v') l1 -> ~ browser_key (rv_opts R) (p_dir pk) i k') ->
  chain (imap_get (p_alias pk)) v e ->
  exists n, forall f, n <= f -> run fs (resolve_ R load (S f) i) st =
    match e with
    | AIgnored => (Done (Success RIgnored), st1)
    | ATarget t => let (r, st') := run fs (final_step R load (S f) (mkInfo (p_dir pk) (req_with_target (i_req i) t))) st1 in (settled i r, st')
    end.
Proof. exact p_C26_browser_chain. Qed.
Print Assumptions C26_browser_chain.
Theorem C26_chain_end_unique : forall get v e e', chain get v e -> chain get v e' -> e = e'.
Proof. exact p_C26_chain_end_unique. Qed.
Print Assumptions C26_chain_end_unique.

Example C26_ex : exists pk st1, (let i := mkInfo (lit "/r") (parse (lit "./a?q")) in
  run w26 (load_pkg_file R26 40 (get_path i)) st0 = (Done (Ok (Some pk)), st1) /\
  (exists l2, p_alias pk = ([] ++ (lit "./a", ATarget (lit "./b")) :: l2)%list) /\ browser_key (rv_opts R26) (p_dir pk) i (lit "./a") /\
  (forall k' v', In (k', v') (p_alias pk) -> browser_key (rv_opts R26) (p_dir pk) i k' -> k' = lit "./a" /\ v' = ATarget (lit "./b")) /\
  chain (imap_get (p_alias pk)) (ATarget (lit "./b")) (ATarget (lit "./c.js")) /\
  res w26 R26 "/r" "./a?q" = found "/r/c.js" "?q" "" /\ res w26 R26 "/r" "./x" = Done (Ok RIgnored))%string.
Proof. exact p_C26_ex. Qed.

(** C27, the part that holds (the answer can depend on the order, [C27_hash_order_refuted]): if
    at most one browser key concerns the request, the order of the table is irrelevant ... *)
Theorem C27_browser_order_partial : forall R f pk i l, Permutation (p_alias pk) l -> NoDup (map fst (p_alias pk)) ->
  (forall k v k' v', In (k, v) (p_alias pk) -> In (k', v') (p_alias pk) -> browser_key (rv_opts R) (p_dir pk) i k ->
     browser_key (rv_opts R) (p_dir pk) i k' -> k = k') ->
  alias_field_apply R f (Some (mkPkg (p_dir pk) (p_name pk) (p_version pk) l (p_exports pk) (p_imports pk) (p_side pk) (p_raw pk))) i =
  alias_field_apply R f (Some pk) i.
Proof. exact browser_order. Qed.
Print Assumptions C27_browser_order_partial.
(** ... in particular for all bare specifiers, whose key is compared as text. *)
Theorem C27_bare_order_partial : forall R f pk i l, r_kind (i_req i) = Normal ->
  Permutation (p_alias pk) l -> NoDup (map fst (p_alias pk)) ->
  alias_field_apply R f (Some (mkPkg (p_dir pk) (p_name pk) (p_version pk) l (p_exports pk) (p_imports pk) (p_side pk) (p_raw pk))) i =
  alias_field_apply R f (Some pk) i.
Proof. exact p_C27_bare_order_partial. Qed.
Print Assumptions C27_bare_order_partial.
Example C27_ex : (let m := [(lit "./a", ATarget (lit "./b")); (lit "q", AIgnored)] in
  Permutation m (rev m) /\ NoDup (map fst m) /\
  let pk l := mkPkg (lit "/r") None None l None None None JNull in
  let i := mkInfo (lit "/r") (parse (lit "./a")) in
  alias_field_apply R26 5 (Some (pk (rev m))) i = Ret (Resolving (mkInfo (lit "/r") (parse (lit "./b")))))%string.
Proof. exact p_C27_ex. Qed.

(** C34.  A bare specifier [n] (a package name with subpath [sub]): the levels [pre] pass, in
    [d] the package directory exists and the description [pk] found has the exports tree [tree],
    which selects nothing, or fails, or selects only candidates that are not files (or leave the
    package).  Then the answer is the error; nothing else is consulted (the tables are those
    after loading [pk]). *)
Theorem C34_encapsulation : forall fs R f base req n sub st opk st1 pre d post st2 pk st3 tree y x st', rv_debug R = false ->
  no_remap R base (r_target (parse req)) -> r_kind (parse req) = Normal -> (r_target (parse req) <> n -> ascii_str n) ->
  run fs (load_pkg_file R (S f) (join (join base MODULE) (r_target (parse req)))) st = (Done (Ok opk), st1) ->
  browser_silent (rv_opts R) opk (mkInfo base (parse req)) -> up_chain base (pre ++ d :: post) ->
  all_pass (fun i => run fs (modules_level R (load_pkg_file R (S f)) (S f) i)) pre (parse req) st1 st2 ->
  bare_parts (r_target (parse req)) n sub ->
  f_dir fs (join d MODULE) = true -> f_dir fs (join (join d MODULE) n) = true -> f_exists fs (join (join d MODULE) n) = true ->
  run fs (load_pkg_file R (S f) (join (join d MODULE) (r_target (parse req)))) st2 = (Done (Ok (Some pk)), st3) ->
  contains (p_dir pk) MODULE = true -> p_exports pk = Some tree ->
  field_process FExports tree (exports_request sub (r_query (parse req)) (r_fragment (parse req))) (o_conditions (rv_opts R)) = PRet y ->
  (forall l c, y = Ok l -> In c l ->
     f_file fs (get_path (mkInfo (p_dir pk) (parse c))) = false \/ check_target (r_target (parse c)) = PRet false) ->
  run fs (resolve R (S f) base req) st = (Done x, st') ->
  x = Err (match y with Ok _ => lit "Package path " ++ r_target (parse req) ++ lit " is not exported" | Err e => e end) /\ st' = st3.
Proof. exact not_exported_top. Qed.
Print Assumptions C34_encapsulation.

Example C34_ex : (exists opk st1 pk st3 tree,
  run w34 (load_pkg_file R34 40 (join (join (lit "/r/s") MODULE) (lit "p/x"))) st0 = (Done (Ok opk), st1) /\
  browser_silent (rv_opts R34) opk (mkInfo (lit "/r/s") (parse (lit "p/x"))) /\
  up_chain (lit "/r/s") ([lit "/r/s"] ++ lit "/r" :: [lit "/"])%list /\
  all_pass (fun i => run w34 (modules_level R34 (load_pkg_file R34 40) 40 i)) [lit "/r/s"] (parse (lit "p/x")) st1 st1 /\
  bare_parts (r_target (parse (lit "p/x"))) (lit "p") (lit "./x") /\
  run w34 (load_pkg_file R34 40 (join (join (lit "/r") MODULE) (lit "p/x"))) st1 = (Done (Ok (Some pk)), st3) /\
  contains (p_dir pk) MODULE = true /\ p_exports pk = Some tree /\
  field_process FExports tree (lit "./x") (o_conditions (rv_opts R34)) = PRet (Ok []) /\
  res w34 R34 "/r/s" "p/x" = failed "Package path p/x is not exported" /\
  res w34 R34 "/r/s" "p/z" = failed "Package path p/z is not exported" /\
  res w34 R34 "/r/s" "p/y" = found "/r/node_modules/p/y.js" "" "")%string.
Proof. exact p_C34_ex. Qed.

(** C50.  A [#] request with a description whose imports field does not match it: the call fails
    and after the description lookup no operation at all is performed. *)
Theorem C50_unmatched : forall fs R f base req st pk root st1, rv_debug R = false ->
  no_remap R base (r_target (parse req)) -> starts_with_char (r_target (parse req)) c_hash = true ->
  run fs (load_pkg_file R (S f) (get_path (mkInfo base (parse req)))) st = (Done (Ok (Some pk)), st1) -> p_imports pk = Some root ->
  forall y, field_process FImports root (r_target (parse req)) (o_conditions (rv_opts R)) = PRet y ->
  (forall a l, y <> Ok (a :: l)) ->
  run fs (resolve R (S f) base req) st = (Done (Err (match y with Ok _ => lit "Package path " ++ r_target (parse req) ++ lit " is not exported" | Err e => e end)), st1) /\
  run_tr fs (resolve R (S f) base req) st = run_tr fs (load_pkg_file R (S f) (get_path (mkInfo base (parse req)))) st.
Proof. exact internal_top. Qed.
Print Assumptions C50_unmatched.
(** Matched: the first selected target decides, relative to the package directory (paths; a
    target that is a package name goes through node_modules, one that starts with # through the
    imports field again): an existing file inside the package is resolved, anything else is the
    error. *)
Theorem C50_matched : forall fs R load f i st pk root st1 item rest, no_remap R (i_path i) (r_target (i_req i)) ->
  r_kind (i_req i) = get_target_kind (r_target (i_req i)) -> starts_with_char (r_target (i_req i)) c_hash = true ->
  run fs (load (get_path i)) st = (Done (Ok (Some pk)), st1) -> p_imports pk = Some root ->
  field_process FImports root (r_target (i_req i)) (o_conditions (rv_opts R)) = PRet (Ok (item :: rest)) ->
  path_kind (r_kind (parse item)) -> browser_silent (rv_opts R) (Some pk) (mkInfo (p_dir pk) (parse item)) ->
  let i' := mkInfo (p_dir pk) (parse item) in
  (f_file fs (get_path i') = true -> check_target (r_target (parse item)) = PRet true ->
     run fs (resolve_ R load (S f) i) st =
     let (r, st') := run fs (and_then (resolve_as_file R i') (resolve_as_dir R load (S f))) st1 in (settled i r, st')) /\
  (f_file fs (get_path i') = false \/ check_target (r_target (parse item)) = PRet false ->
     run fs (resolve_ R load (S f) i) st = (settled i (Done (SError (lit "Package path " ++ r_target (i_req i) ++ lit " is not exported") i')), st1)).
Proof. exact p_C50_matched. Qed.
Print Assumptions C50_matched.
(** Without an imports field (or without a description) the request is looked up in node_modules
    like a package name. *)
Theorem C50_answered_elsewhere_refuted : exists fs R p, (
  ends_at (res fs R "/r" "#x") p /\ contains (lit p) (lit "node_modules/#x") = true /\
  forall fuel pk st, run fs (load_pkg_file R fuel (lit "/r/#x")) st0 = (Done (Ok (Some pk)), st) -> p_imports pk = None)%string.
Proof. exact p_C50_answered_elsewhere_refuted. Qed.
Print Assumptions C50_answered_elsewhere_refuted.
Example C50_ex : (exists pk root st1,
  run w50 (load_pkg_file R50 40 (get_path (mkInfo (lit "/r") (parse (lit "#x"))))) st0 = (Done (Ok (Some pk)), st1) /\
  p_imports pk = Some root /\ field_process FImports root (lit "#x") (o_conditions (rv_opts R50)) = PRet (Ok []) /\
  field_process FImports root (lit "#y") (o_conditions (rv_opts R50)) = PRet (Ok [lit "./x.js"]) /\
  res w50 R50 "/r" "#x" = failed "Package path #x is not exported" /\
  res w50 R50 "/r" "#y" = found "/r/x.js" "" "" /\
  res w50 R50 "/r" "#z" = failed "Package path #z is not exported")%string.
Proof. exact p_C50_ex. Qed.
