(** * A resolved path resolves to itself (C67)

    The answer [i], written as one text ([info_join]: path, query, fragment) and given back as a request from any directory
    [base] to the same or another resolver, is found again.  Of the disk: the canonical path of a file is that of a file
    and its own canonical path ([canonical], SpecAgain.v), which the POSIX file systems of Posix.v are. *)
From Coq Require Import String.
From Coq Require Import List Arith NArith Bool.
From Verif Require Import Str Path Json Types Parse Map Prog Desc Resolve Top Run Posix Demo WitnessP SpecRun SpecLoad SpecCache SpecJson SpecNode SpecAgain PropApiP PropAgainP.
Import ListNotations.

(** Whatever the tables held before either call.  The second resolver does not rewrite the path ([no_remap],
    [browser_silent]), does not insist on extensions, and the description that applies to the path can be read. *)
Theorem C67_again : forall fs R0 f0 base0 req0 st0 i R f base st opk st1,
  out fs st0 (resolve R0 f0 base0 req0) = Done (Ok (RInfo i)) -> o_symlinks (rv_opts R0) = o_symlinks (rv_opts R) ->
  (o_symlinks (rv_opts R) = true -> canonical fs) -> (o_symlinks (rv_opts R) = false -> is_abs (i_path i) = true /\ f_file fs (i_path i) = true) ->
  no_marks (i_path i) -> rv_debug R = false -> no_remap R base (i_path i) -> o_enforce (rv_opts R) <> Some true ->
  run fs (load_pkg_file R (S f) (i_path i)) st = (Done (Ok opk), st1) -> browser_silent (rv_opts R) opk (mkInfo base (parse (info_join i))) ->
  out fs st (resolve R (S f) base (info_join i)) = Done (Ok (RInfo (mkInfo (i_path i) (mkReq [] (r_query (i_req i)) (r_fragment (i_req i)) Relative)))).
Proof. exact fin_67. Qed.
Print Assumptions C67_again.
(** After any calls; the description that applies is the one on the disk. *)
Theorem C67_after_history : forall fs, sane_fs fs -> forall js, (forall s j, js s = Some j -> wf_json j) -> forall nm, no_clash fs js nm ->
  forall R0 f0 base0 req0 st0 i h seeds R f base opk,
  out fs st0 (resolve R0 f0 base0 req0) = Done (Ok (RInfo i)) -> o_symlinks (rv_opts R0) = o_symlinks (rv_opts R) ->
  (o_symlinks (rv_opts R) = true -> canonical fs) -> (o_symlinks (rv_opts R) = false -> is_abs (i_path i) = true /\ f_file fs (i_path i) = true) ->
  no_marks (i_path i) -> Forall (fun c => client js nm (call_resolver c)) h -> client js nm R -> o_browser (rv_opts R) = false ->
  no_remap R base (i_path i) -> o_enforce (rv_opts R) <> Some true -> has_desc fs R (i_path i) opk ->
  let o := out fs (snd (run_history fs (empty_state seeds) (map ECall h))) (call_prog (CResolve R f base (info_join i))) in
  o = NoFuel \/ o = Done (AResolve (Ok (RInfo (mkInfo (i_path i) (mkReq [] (r_query (i_req i)) (r_fragment (i_req i)) Relative))))).
Proof. exact fin_67_disk. Qed.
Print Assumptions C67_after_history.
Theorem C67_posix : forall fuel root, canonical (posix_fs fuel root []).
Proof. exact posix_canonical. Qed.
Print Assumptions C67_posix.

(** Each condition is needed.  A directory with '#' in its name. *)
Theorem C67_marks_refuted : exists fs R base req i e, canonical fs /\ (exists o js jc, R = new_resolver o 0 0 false js jc) /\ is_abs base = true /\ o_alias (rv_opts R) = [] /\
  o_prefer_relative (rv_opts R) = false /\ o_enforce (rv_opts R) = Some false /\
  out fs st0 (resolve R 40 base req) = Done (Ok (RInfo i)) /\ out fs st0 (resolve R 40 base (info_join i)) = Done (Err e).
Proof. exact C67_marks_p. Qed.
Print Assumptions C67_marks_refuted.
(** prefer_relative takes the absolute path for a relative one first, and finds another file. *)
Theorem C67_prefer_refuted : exists fs R base req i i', canonical fs /\ (exists o js jc, R = new_resolver o 0 0 false js jc) /\ is_abs base = true /\ o_alias (rv_opts R) = [] /\
  no_marks (i_path i) /\ o_enforce (rv_opts R) = Some false /\
  out fs st0 (resolve R 40 base req) = Done (Ok (RInfo i)) /\ out fs st0 (resolve R 40 base (info_join i)) = Done (Ok (RInfo i')) /\ i_path i' <> i_path i.
Proof. exact C67_prefer_p. Qed.
Print Assumptions C67_prefer_refuted.
(** enforce_extension. *)
Theorem C67_enforce_refuted : exists fs R base req i e, canonical fs /\ (exists o js jc, R = new_resolver o 0 0 false js jc) /\ is_abs base = true /\ o_alias (rv_opts R) = [] /\
  no_marks (i_path i) /\ o_prefer_relative (rv_opts R) = false /\
  out fs st0 (resolve R 40 base req) = Done (Ok (RInfo i)) /\ out fs st0 (resolve R 40 base (info_join i)) = Done (Err e).
Proof. exact C67_enforce_p. Qed.
Print Assumptions C67_enforce_refuted.
(** With symlinks off the path returned need not exist: ".." behind a link to a directory. *)
Theorem C67_links_refuted : exists fs R base req i e, sane_fs fs /\ (exists o js jc, R = new_resolver o 0 0 false js jc) /\ is_abs base = true /\ o_alias (rv_opts R) = [] /\
  no_marks (i_path i) /\ o_prefer_relative (rv_opts R) = false /\ o_enforce (rv_opts R) = Some false /\ o_symlinks (rv_opts R) = false /\
  out fs st0 (resolve R 40 base req) = Done (Ok (RInfo i)) /\ out fs st0 (resolve R 40 base (info_join i)) = Done (Err e).
Proof. exact C67_links_p. Qed.
Print Assumptions C67_links_refuted.

(** A link, with query and fragment. *)
Example C67_ex : (canonical w1 /\ res w1 R1 "/r" "./l?q#f" = found "/r/d/b.js" "?q" "#f" /\
  info_join (mkInfo (lit "/r/d/b.js") (mkReq [] (lit "?q") (lit "#f") Relative)) = lit "/r/d/b.js?q#f" /\
  no_marks (lit "/r/d/b.js") /\ no_remap R1 (lit "/elsewhere") (lit "/r/d/b.js") /\ o_enforce (rv_opts R1) <> Some true /\
  (exists opk st1, run w1 (load_pkg_file R1 40 (lit "/r/d/b.js")) st0 = (Done (Ok opk), st1)) /\ o_browser (rv_opts R1) = false /\
  res w1 R1 "/elsewhere" "/r/d/b.js?q#f" = found "/r/d/b.js" "?q" "#f")%string.
Proof. exact C67_ex_p. Qed.
