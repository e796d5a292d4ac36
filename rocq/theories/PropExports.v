(** * Packages reached by name: exports, self reference, imports (C33, C50-C53).

    [comes_to] (SpecExports.v): a request for a package comes to a directory on its way up, and
    the description that applies there is [pk].  [internal_of]: a request starting with # meets a
    description with an imports field.  All statements hold for any contents of the tables. *)
From Coq Require Import String.
From Coq Require Import List Arith NArith Bool.
From Verif Require Import Str StrP Path Json Types Parse Map Prog Desc Resolve Top Run Posix Demo SpecRun SpecMap SpecParse SpecExports ExportsP PropExportsP.
Import ListNotations.
Local Open Scope string_scope.
Local Open Scope list_scope.

(** C51: the first selected target that is a file (and accepted by the check for escaping ones)
    is the answer, with the extension rules applied to it, and nothing more is looked up. *)
Theorem C51_exports_decide : forall fs R f base req n sub st d pk st' tree l c q x st'',
  comes_to fs R f base req n sub st d pk st' -> installed fs d n pk -> p_exports pk = Some tree ->
  selects R tree req sub l -> first_usable fs pk l c -> path_kind (r_kind (parse c)) ->
  browser_silent (rv_opts R) (Some pk) (mkInfo (p_dir pk) (parse c)) ->
  first_file fs (file_candidates (rv_opts R) (target_file pk c)) q ->
  run fs (resolve R (S f) base req) st = (Done x, st'') ->
  Done x = final_answer fs R (Done (picked (mkInfo (p_dir pk) (parse c)) q)) /\ st'' = st'.
Proof. exact fin_51. Qed.
Print Assumptions C51_exports_decide.
Example C51_ex : (exists st', comes_to w51 R51 39 (lit "/r/s") (lit "q/x") (lit "q") (lit "./x") st0 (lit "/r") pk51 st') /\
  exists tree, p_exports pk51 = Some tree /\
  selects R51 tree (lit "q/x") (lit "./x") [lit "./none.js"; lit "./l/../l/x.js"; lit "./z.js"] /\
  installed w51 (lit "/r") (lit "q") pk51 /\
  first_usable w51 pk51 [lit "./none.js"; lit "./l/../l/x.js"; lit "./z.js"] (lit "./l/../l/x.js") /\
  res w51 R51 "/r/s" "q/x" = found "/r/node_modules/q/l/x.js" "" "".
Proof. exact (conj w51_comes w51_selected). Qed.

(** C33 for whole resolutions: what is found through exports lies in the package directory.
    Targets with empty segments or ending in ".." are excluded: for them it is false
    ([C33_check_target_refuted]).  With symlinks on, the canonical path may be elsewhere. *)
Theorem C33_exports_partial : forall fs R f base req n sub st d pk st' tree l r st'',
  comes_to fs R f base req n sub st d pk st' -> installed fs d n pk \/ p_name pk = Some n -> p_exports pk = Some tree ->
  selects R tree req sub l -> Forall well_formed_target l ->
  (forall c, In c l -> browser_silent (rv_opts R) (Some pk) (mkInfo (p_dir pk) (parse c))) ->
  ~ enforced (rv_opts R) -> o_symlinks (rv_opts R) = false -> is_abs (p_dir pk) = true ->
  run fs (resolve R (S f) base req) st = (Done (Ok r), st'') ->
  exists i, r = RInfo i /\ within (p_dir pk) (i_path i).
Proof. exact exports_inside. Qed.
Print Assumptions C33_exports_partial.
Example C33_exports_ex : Forall well_formed_target [lit "./none.js"; lit "./l/../l/x.js"; lit "./z.js"] /\
  p_dir pk51 = lit "/r/node_modules/q" /\ within (lit "/r/node_modules/q") (lit "/r/node_modules/q/l/x.js").
Proof. exact w51_inside. Qed.
(** The same for imports, through any number of names that refer to each other. *)
Theorem C33_imports_partial : forall R pk root t last item, p_imports pk = Some root ->
  imports_chain root (o_conditions (rv_opts R)) t last item -> starts_with_char t c_hash = true -> well_formed_target item ->
  ~ enforced (rv_opts R) -> o_symlinks (rv_opts R) = false -> is_abs (p_dir pk) = true ->
  exists n, forall fs f base req st st1 r st2, n <= f -> r_target (parse req) = t -> internal_of fs R f base req st pk root st1 ->
    browser_silent (rv_opts R) (Some pk) (mkInfo (p_dir pk) (parse item)) ->
    run fs (resolve R (S f) base req) st = (Done (Ok r), st2) ->
    exists i, r = RInfo i /\ within (p_dir pk) (i_path i).
Proof. exact fin_33i. Qed.
Print Assumptions C33_imports_partial.

(** C50: names that refer to each other ([imports_chain]) are followed to the end; the path found
    there decides, and the error names the last name. *)
Theorem C50_chain : forall R pk root t last item, p_imports pk = Some root ->
  imports_chain root (o_conditions (rv_opts R)) t last item -> starts_with_char t c_hash = true -> path_kind (r_kind (parse item)) ->
  exists n, forall fs f base req st st1, n <= f -> r_target (parse req) = t -> internal_of fs R f base req st pk root st1 ->
    (forall q, usable fs pk item -> browser_silent (rv_opts R) (Some pk) (mkInfo (p_dir pk) (parse item)) ->
       first_file fs (file_candidates (rv_opts R) (target_file pk item)) q ->
       run fs (resolve R (S f) base req) st = (final_answer fs R (Done (picked (mkInfo (p_dir pk) (parse item)) q)), st1)) /\
    (~ usable fs pk item ->
       run fs (resolve R (S f) base req) st = (Done (Err (lit "Package path " ++ last ++ lit " is not exported")), st1)).
Proof. exact fin_50. Qed.
Print Assumptions C50_chain.
Example C50_chain_ex : exists root st1, internal_of w53 R53 39 (lit "/r") (lit "#i") st0 pk53 root st1 /\
  imports_chain root (o_conditions (rv_opts R53)) (lit "#i") (lit "#j") (lit "./i.js") /\ usable w53 pk53 (lit "./i.js") /\
  imports_chain root (o_conditions (rv_opts R53)) (lit "#g") (lit "#h") (lit "./nope") /\
  well_formed_target (lit "./i.js") /\
  res w53 R53 "/r" "#i" = found "/r/i.js" "" "" /\ res w53 R53 "/r" "#g" = failed "Package path #h is not exported".
Proof. exact w53_internal. Qed.

(** C52, where it holds: the package that applies to a directory on the way up is called like the
    package asked for, and there is a node_modules directory beside its description. *)
Theorem C52_self_reference_partial : forall fs R f base req n sub st d pk st' tree x st'',
  comes_to fs R f base req n sub st d pk st' -> p_name pk = Some n -> p_exports pk = Some tree ->
  run fs (resolve R (S f) base req) st = (Done x, st'') ->
  (forall l c q, selects R tree req sub l -> first_usable fs pk l c -> path_kind (r_kind (parse c)) ->
     browser_silent (rv_opts R) (Some pk) (mkInfo (p_dir pk) (parse c)) ->
     first_file fs (file_candidates (rv_opts R) (target_file pk c)) q ->
     Done x = final_answer fs R (Done (picked (mkInfo (p_dir pk) (parse c)) q)) /\ st'' = st') /\
  (forall l, selects R tree req sub l -> Forall (fun c => ~ usable fs pk c) l ->
     x = Err (lit "Package path " ++ r_target (parse req) ++ lit " is not exported") /\ st'' = st').
Proof. exact fin_52. Qed.
Print Assumptions C52_self_reference_partial.
Example C52_ex : exists st' tree, comes_to (w52 true) R52 39 (lit "/r/src") (lit "p/x") (lit "p") (lit "./x") st0 (lit "/r") pk52 st' /\
  p_name pk52 = Some (lit "p") /\ p_exports pk52 = Some tree /\
  selects R52 tree (lit "p/x") (lit "./x") [lit "./lib/x.js"] /\ first_usable (w52 true) pk52 [lit "./lib/x.js"] (lit "./lib/x.js") /\
  res (w52 true) R52 "/r/src" "p/x" = found "/r/lib/x.js" "" "" /\
  res (w52 true) R52 "/r/src" "p/y" = failed "Package path p/y is not exported".
Proof. exact w52_comes. Qed.
(** Without any node_modules directory the package does not find itself. *)
Theorem C52_no_node_modules_refuted : exists fs R, (exists pk tree st', run fs (load_pkg_file R 40 (lit "/r/src")) st0 = (Done (Ok (Some pk)), st') /\
    p_name pk = Some (lit "p") /\ p_exports pk = Some tree /\ selects R tree (lit "p/x") (lit "./x") [lit "./lib/x.js"] /\
    first_usable fs pk [lit "./lib/x.js"] (lit "./lib/x.js")) /\
  res fs R "/r/src" "p/x" = failed "Resolve 'p/x' failed in '/r/src'".
Proof. exact w52_alone. Qed.
Print Assumptions C52_no_node_modules_refuted.
(** A request for another package, whose name only begins like that of the requesting package, is
    answered from the exports of the requesting package. *)
Theorem C52_other_name_refuted : exists fs R n, n <> lit "p" /\ bare_parts (lit "pq/x") n (lit "./x") /\
  (forall pk st', run fs (load_pkg_file R 40 (lit "/r/src")) st0 = (Done (Ok (Some pk)), st') -> p_name pk = Some (lit "p")) /\
  f_exists fs (lit "/r/node_modules/pq") = false /\
  res fs R "/r/src" "pq/x" = found "/r/lib/x.js" "" "".
Proof. exact w52_other. Qed.
Print Assumptions C52_other_name_refuted.

(** C53, where it holds: an imports target that is a package name, for packages with an exports
    field that selects a file. *)
Theorem C53_imports_package_partial : forall R pk root t last item, p_imports pk = Some root ->
  imports_chain root (o_conditions (rv_opts R)) t last item -> starts_with_char t c_hash = true -> r_kind (parse item) = Normal ->
  exists n, forall fs f base req st st1 m sub pk' st2 tree l c q, n <= f -> r_target (parse req) = t -> internal_of fs R f base req st pk root st1 ->
    bare_parts (r_target (parse item)) m sub ->
    run fs (load_pkg_file R (S f) (join (join (p_dir pk) MODULE) (r_target (parse item)))) st1 = (Done (Ok (Some pk')), st2) ->
    f_exists fs (join (join (p_dir pk) MODULE) m) = true -> contains (p_dir pk') MODULE = true -> p_exports pk' = Some tree ->
    selects R tree item sub l -> first_usable fs pk' l c -> path_kind (r_kind (parse c)) ->
    browser_silent (rv_opts R) (Some pk') (mkInfo (p_dir pk') (parse c)) ->
    browser_silent (rv_opts R) (Some pk) (mkInfo (p_dir pk') (parse c)) ->
    first_file fs (file_candidates (rv_opts R) (target_file pk' c)) q ->
    run fs (resolve R (S f) base req) st = (final_answer fs R (Done (picked (mkInfo (p_dir pk') (parse c)) q)), st2).
Proof. exact fin_53. Qed.
Print Assumptions C53_imports_package_partial.
Example C53_ex : exists root st1 pk' st2 tree, internal_of w53 R53 39 (lit "/r") (lit "#e") st0 pk53 root st1 /\
  imports_chain root (o_conditions (rv_opts R53)) (lit "#e") (lit "#f") (lit "ex/y") /\
  run w53 (load_pkg_file R53 40 (lit "/r/node_modules/ex/y")) st1 = (Done (Ok (Some pk')), st2) /\ p_exports pk' = Some tree /\
  selects R53 tree (lit "ex/y") (lit "./y") [lit "./y.js"] /\ first_usable w53 pk' [lit "./y.js"] (lit "./y.js") /\
  res w53 R53 "/r" "#e" = found "/r/node_modules/ex/y.js" "" "".
Proof. exact w53_package. Qed.
(** A package without exports field is not found through imports, although a direct request from
    the same directory finds it. *)
Theorem C53_imports_package_refuted : exists fs R root pk st1, internal_of fs R 39 (lit "/r") (lit "#d") st0 pk root st1 /\
  imports_chain root (o_conditions (rv_opts R)) (lit "#d") (lit "#d") (lit "dep") /\
  res fs R "/r" "dep" = found "/r/node_modules/dep/m.js" "" "" /\
  res fs R "/r" "#d" = failed "Package path #d is not exported".
Proof. exact w53_direct. Qed.
Print Assumptions C53_imports_package_refuted.
