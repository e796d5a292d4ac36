(** * Properties C28-C33, C35, C36: the exports/imports field.

    [from_json] reads a field from JSON, [build_field] builds its tree and [field_process] answers
    a request; the rules are those of [SpecMap.v] and [SpecField.v], which know neither the
    tree nor its indices. *)
From Coq Require Import String.
From Coq Require Import List Arith NArith ZArith Bool Permutation.
From Verif Require Import Str Json Types Map SpecMap SpecField Demo PropMapP.
Import ListNotations.

(** Fields used by the examples. *)



(** C28 *)
Theorem C28_condition_matching : forall j m names, from_json j = PRet (MCond m) ->
  exists r, conditional_mapping m names = PRet r /\ choose names m r /\ (forall r', choose names m r' -> r' = r).
Proof. exact C28_p. Qed.
Print Assumptions C28_condition_matching.
Theorem C28_condition_matching_nested : forall m names, distinct (MCond m) ->
  exists r, conditional_mapping m names = PRet r /\ choose names m r /\ (forall r', choose names m r' -> r' = r).
Proof. exact C28_nested_p. Qed.
Print Assumptions C28_condition_matching_nested.
Example C28_ex :
  let m := [(lit "node", MCond [(lit "deno", MDirect (lit "x")); (lit "browser", MDirect (lit "y"))]); (lit "import", MDirect (lit "z")); (lit "default", MDirect (lit "w"))] in
  conditional_mapping m [lit "import"; lit "node"] = PRet (Ok (Some (MDirect (lit "z")))) /\
  conditional_mapping m [lit "node"; lit "browser"] = PRet (Ok (Some (MDirect (lit "y")))) /\
  conditional_mapping m [] = PRet (Ok (Some (MDirect (lit "w")))) /\
  conditional_mapping (rev m) [] = PRet (Err (lit "Default condition should be last one")).
Proof. exact p_C28_ex. Qed.

(** C29 *)
Theorem C29_names_as_set : forall fk j root req names names', build_field fk j = PRet (Ok root) ->
  (forall c, json_key c j -> (In c names <-> In c names')) ->
  field_process fk root req names = field_process fk root req names'.
Proof. exact C29_p. Qed.
Print Assumptions C29_names_as_set.
Corollary C29_permuted : forall fk j root req names names', build_field fk j = PRet (Ok root) -> Permutation names names' ->
  field_process fk root req names = field_process fk root req names'.
Proof. exact p_C29_permuted. Qed.
Print Assumptions C29_permuted.
Corollary C29_unused_or_repeated : forall fk j root req names c, build_field fk j = PRet (Ok root) ->
  In c names \/ ~ json_key c j -> field_process fk root req (c :: names) = field_process fk root req names.
Proof. exact p_C29_unused_or_repeated. Qed.
Print Assumptions C29_unused_or_repeated.
Example C29_ex : (field_answer FExports j1 "." ["node"; "import"; "node"; "zzz"] = strs ["./in.mjs"] /\
  field_answer FExports j1 "." ["import"; "node"] = strs ["./in.mjs"] /\ field_answer FExports j1 "." ["import"] = strs ["./main.js"])%string.
Proof. exact p_C29_ex. Qed.

(** C30: selection and the resulting answer. *)
Theorem C30_selection : forall fk j m root sub names, from_json j = PRet (MCond m) -> build_field fk j = PRet (Ok root) ->
  subpaths fk m -> good_sub fk sub ->
  exists o, selects (sub_entries (pre_of fk) m) sub o /\ (forall o', selects (sub_entries (pre_of fk) m) sub o' -> o' = o) /\
    serves fk names sub o (field_process fk root (pre_of fk ++ sub) names).
Proof. exact C30_serves_p. Qed.
Print Assumptions C30_selection.
Theorem C30_order_irrelevant : forall fk j j' m m' root root' sub names,
  from_json j = PRet (MCond m) -> from_json j' = PRet (MCond m') -> Permutation m m' ->
  build_field fk j = PRet (Ok root) -> build_field fk j' = PRet (Ok root') -> subpaths fk m -> good_sub fk sub ->
  field_process fk root (pre_of fk ++ sub) names = field_process fk root' (pre_of fk ++ sub) names.
Proof. exact C30_order_p. Qed.
Print Assumptions C30_order_irrelevant.
(** The package itself. *)
Theorem C30_root : forall j v root names, from_json j = PRet v -> build_field FExports j = PRet (Ok root) ->
  (forall m, v = MCond m -> dot_only m) ->
  (forall w, root_value v w -> serves FExports names [] (Some (w, PExact [], [])) (field_process FExports root (lit ".") names)) /\
  ((forall w, ~ root_value v w) -> field_process FExports root (lit ".") names = PRet (Ok [])).
Proof. exact C30_root_p. Qed.
Print Assumptions C30_root.
Example C30_ex : (field_answer FExports j1 "./a" [] = strs ["./a.js"] /\ field_answer FExports j1 "./f/q/r" [] = strs ["./star/q/r.js"] /\
  field_answer FExports j1 "./f/xy" ["node"] = strs ["./x/y"; "./n/y"] /\ field_answer FExports j1 "./b" [] = strs [] /\
  field_answer FImports (O [("#a/*", S_ "x/*"); ("#a/", S_ "y/")]) "#a/b" [] = strs ["x/b"])%string.
Proof. exact p_C30_ex. Qed.
Example C30_ex_hyp : good_sub FExports (lit "f/q/r") /\ exists m root, from_json j1 = PRet (MCond m) /\
  build_field FExports j1 = PRet (Ok root) /\ subpaths FExports m /\ dot_only m.
Proof. exact p_C30_ex_hyp. Qed.

(** C31: the full statement fails, '$' is doubled and an exact key's target may be rewritten. *)
Theorem C31_substitution_refuted : exists j m root v p x l out sub,
  from_json j = PRet (MCond m) /\ build_field FExports j = PRet (Ok root) /\ good_sub FExports sub /\
  selects (sub_entries (pre_of FExports) m) sub (Some (v, p, x)) /\ targets [] v (Ok l) /\
  field_process FExports root (pre_of FExports ++ sub) [] = PRet (Ok out) /\ ~ Forall2 (substituted p x) l out.
Proof. exact p_C31_substitution_refuted. Qed.
Print Assumptions C31_substitution_refuted.
Example C31_exact_ex : (field_answer FExports (O [("./a/b", S_ "./s/*.js")]) "./a/b" [] = strs ["./s/b.js"])%string.
Proof. exact p_C31_exact_ex. Qed.
(** What holds: without '$' in the subpath, and without '*' in the targets of an exact key. *)
Theorem C31_substitution_partial : forall fk j m root sub names v p x out,
  from_json j = PRet (MCond m) -> build_field fk j = PRet (Ok root) -> subpaths fk m -> good_sub fk sub ->
  selects (sub_entries (pre_of fk) m) sub (Some (v, p, x)) ->
  field_process fk root (pre_of fk ++ sub) names = PRet (Ok out) -> ~ In 36%N sub ->
  exists l, targets names v (Ok l) /\
    ((forall s t, p = PExact s -> In t l -> ~ In 42%N t) -> Forall2 (substituted p x) l out).
Proof. exact C31_partial_p. Qed.
Print Assumptions C31_substitution_partial.
Example C31_ex : (field_answer FExports j1 "./f/xy/z" ["node"] = strs ["./x/y/z"; "./n/y/z"] /\
  field_answer FExports (O [("./f/", S_ "./src/")]) "./f/a*b" [] = strs ["./src/a*b"])%string.
Proof. exact p_C31_ex. Qed.

(** C32: a target starting with '*' can become absolute or start with "../". *)
Theorem C32_relative_refuted : exists j root req out s, build_field FExports j = PRet (Ok root) /\
  field_process FExports root req [] = PRet (Ok out) /\ In s out /\ leaves_package s.
Proof. exact p_C32_relative_refuted. Qed.
Print Assumptions C32_relative_refuted.
(** What holds: no target that leaves the package unless some target written in the field starts
    with '*'. *)
Theorem C32_relative_partial : forall j root req names out s, build_field FExports j = PRet (Ok root) ->
  (forall t, json_string t j -> forall r, t <> lit "*" ++ r) ->
  field_process FExports root req names = PRet (Ok out) -> In s out -> ~ leaves_package s.
Proof. exact C32_p. Qed.
Print Assumptions C32_relative_partial.
(** No other answer leaves the package. *)
Theorem C32_only_star : forall j root req names out s, build_field FExports j = PRet (Ok root) ->
  field_process FExports root req names = PRet (Ok out) -> In s out -> leaves_package s ->
  exists r x, json_string (lit "*" ++ r) j /\ s = fill (lit "*" ++ r) x.
Proof. exact C32_only_star_p. Qed.
Print Assumptions C32_only_star.
Theorem C32_bad_target_rejected : forall j m root sub names v p x l t,
  from_json j = PRet (MCond m) -> build_field FExports j = PRet (Ok root) -> subpaths FExports m -> good_sub FExports sub ->
  selects (sub_entries (pre_of FExports) m) sub (Some (v, p, x)) -> targets names v (Ok l) -> In t l -> leaves_package t ->
  exists e, field_process FExports root (pre_of FExports ++ sub) names = PRet (Err e).
Proof. exact C32_bad_p. Qed.
Print Assumptions C32_bad_target_rejected.
Example C32_ex_hyp : let j := JObj [(lit "./f/*", JStr (lit "./star/*.js"))] in
  (forall t, json_string t j -> forall r, t <> lit "*" ++ r) /\ field_answer FExports j "./f/../../x" [] = PRet (Ok [lit "./star/../../x.js"]).
Proof. exact p_C32_ex_hyp. Qed.
Example C32_ex : (exists e, field_answer FExports (O [("./*", A_ [S_ "./ok/*"; S_ "../*"])]) "./a" [] = PRet (Err e))%string.
Proof. exact p_C32_ex. Qed.

(** C33: [check_target] lets some escaping targets through. *)
Theorem C33_check_target_refuted : exists p, check_target p = PRet true /\ ~ stays_inside p.
Proof. exact p_C33_check_target_refuted. Qed.
Print Assumptions C33_check_target_refuted.
Example C33_ex_last : check_target (lit "./a/../..") = PRet true /\ ~ stays_inside (lit "./a/../..").
Proof. exact p_C33_ex_last. Qed.
Theorem C33_check_target_partial : forall p, (forall a b, p <> a ++ lit "//" ++ b) -> (forall b, p <> lit "/" ++ b) ->
  p <> lit ".." -> (forall a, p <> a ++ lit "/..") -> check_target p = PRet true -> stays_inside p.
Proof. exact C33_p. Qed.
Print Assumptions C33_check_target_partial.
(** What the check does, for all texts: the segments before the last are counted ([counted]), and the count may not go below
    zero. *)
Theorem C33_check_target_exact : forall p, check_target p = PRet true <->
  forall n, n < length (split_on 47%N p) -> (0 <= count (firstn n (split_on 47%N p)))%Z.
Proof. exact C33_exact_p. Qed.
Print Assumptions C33_check_target_exact.
(** Targets that stay inside pass it, if no name before the last segment begins with "."; others may be turned down. *)
Theorem C33_check_target_accepts : forall p, (forall s, In s (removelast (split_on 47%N p)) -> plain_segment s) ->
  stays_inside p -> check_target p = PRet true.
Proof. exact C33_accepts_p. Qed.
Print Assumptions C33_check_target_accepts.
Theorem C33_too_strict_refuted : exists p, stays_inside p /\ check_target p = PRet false.
Proof. exact C33_too_strict_p. Qed.
Print Assumptions C33_too_strict_refuted.
Theorem C33_check_target_total : forall p, exists b, check_target p = PRet b.
Proof. exact check_total. Qed.
Print Assumptions C33_check_target_total.
Example C33_ex : check_target (lit "./a/../b.js") = PRet true /\ stays_inside (lit "./a/../b.js") /\
  check_target (lit "./a/../../b.js") = PRet false.
Proof. exact p_C33_ex. Qed.

(** C35 *)
Theorem C35_trailing_slash_rejected : forall fk root req names, (exists r, req = r ++ lit "/") ->
  exists e, field_process fk root req names = PRet (Err e).
Proof. exact C35_request_p. Qed.
Print Assumptions C35_trailing_slash_rejected.
Theorem C35_exports_keys : forall j m, from_json j = PRet (MCond m) ->
  ((forall k v, In (k, v) m -> ~ subpath_key k) \/ (forall k v, In (k, v) m -> exports_key_ok k)) /\
    (exists root, build_field FExports j = PRet (Ok root)) \/
  ~ ((forall k v, In (k, v) m -> ~ subpath_key k) \/ (forall k v, In (k, v) m -> exports_key_ok k)) /\
    (exists e, build_field FExports j = PRet (Err e)).
Proof. exact C35_exports_p. Qed.
Print Assumptions C35_exports_keys.
(** ... where [exports_key_ok] has to admit "/", which the property does not list. *)
Theorem C35_slash_key_refuted : exists j root, j = O [("/", S_ "./a")]%string /\ build_field FExports j = PRet (Ok root) /\
  field_process FExports root (lit ".") [] = PRet (Ok [lit "./a"]).
Proof. exact p_C35_slash_key_refuted. Qed.
Print Assumptions C35_slash_key_refuted.
Theorem C35_imports_keys : forall j m, from_json j = PRet (MCond m) ->
  (forall k v, In (k, v) m -> imports_key_ok k) /\ (exists root, build_field FImports j = PRet (Ok root)) \/
  ~ (forall k v, In (k, v) m -> imports_key_ok k) /\ (exists e, build_field FImports j = PRet (Err e)).
Proof. exact C35_imports_p. Qed.
Print Assumptions C35_imports_keys.
Example C35_ex : ((exists e, build_field FExports (O [("./a", S_ "x"); ("node", S_ "y")]) = PRet (Err e)) /\
  (exists e, build_field FExports (O [(".a", S_ "x")]) = PRet (Err e)) /\
  (exists e, build_field FImports (O [("#/a", S_ "x")]) = PRet (Err e)) /\
  (exists r, build_field FImports (O [("#a", S_ "x")]) = PRet (Ok r)) /\
  (exists e, field_answer FExports j1 "./f/" [] = PRet (Err e)))%string.
Proof. exact p_C35_ex. Qed.

(** C36 *)
Theorem C36_candidates : forall fk j m root sub names v p x out,
  from_json j = PRet (MCond m) -> build_field fk j = PRet (Ok root) -> subpaths fk m -> good_sub fk sub ->
  selects (sub_entries (pre_of fk) m) sub (Some (v, p, x)) ->
  field_process fk root (pre_of fk ++ sub) names = PRet (Ok out) ->
  exists l, targets names v (Ok l) /\ (forall l', targets names v l' -> l' = Ok l) /\
    (forall t, In t l -> target_valid fk p t) /\ Forall2 (rewritten sub p x) l out.
Proof. exact C36_p. Qed.
Print Assumptions C36_candidates.
Example C36_ex : (field_answer FExports j1 "./f/xy" ["deno"] = strs ["./x/y"; "./d/y"])%string.
Proof. exact p_C36_ex. Qed.
