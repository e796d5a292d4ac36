(** * Properties C01-C07: requests, classification, path normalisation. *)
From Coq Require Import String.
From Coq Require Import List Arith NArith Bool.
From Verif Require Import Str Path Json Types Parse SpecParse ParseP PathP PropParseP.
Import ListNotations.

(** C01: target ++ query ++ fragment is the request string. *)
Theorem C01_split_lossless : forall s t q f, parse_identifier s = (t, q, f) -> t ++ q ++ f = s.
Proof. exact parse_identifier_lossless. Qed.
Print Assumptions C01_split_lossless.
Theorem C01_display_roundtrip : forall s, request_display (parse s) = s.
Proof. exact request_display_parse. Qed.
Print Assumptions C01_display_roundtrip.
Example C01_ex : parse_identifier (lit "./a?b#c?d#e") = (lit "./a", lit "?b", lit "#c?d#e").
Proof. vm_compute. reflexivity. Qed.

(** C02: the split is canonical, and any canonical split of the string is the one computed. *)
Theorem C02_split_canonical : forall s t q f, parse_identifier s = (t, q, f) -> canonical_split t q f.
Proof. exact parse_identifier_canonical. Qed.
Print Assumptions C02_split_canonical.
Theorem C02_split_unique : forall s t q f, canonical_split t q f -> t ++ q ++ f = s ->
  parse_identifier s = (t, q, f).
Proof. exact parse_identifier_unique. Qed.
Print Assumptions C02_split_unique.
Example C02_ex : canonical_split (lit "#a") (lit "?b") (lit "#c?d") /\
  parse_identifier (lit "#a?b#c?d") = (lit "#a", lit "?b", lit "#c?d").
Proof. exact C02_ex_p. Qed.

(** C03: the five classes, in priority order; together they cover every target, and the class
    is the kind stored in the request. *)
Theorem C03_kind_table : forall t,
  (looks_internal t -> get_target_kind t = Internal) /\
  (looks_posix t -> get_target_kind t = AbsolutePosix) /\
  (looks_relative t -> get_target_kind t = Relative) /\
  (~ looks_internal t -> ~ looks_posix t -> ~ looks_relative t -> looks_win t -> get_target_kind t = AbsoluteWin) /\
  (~ looks_internal t -> ~ looks_posix t -> ~ looks_relative t -> ~ looks_win t -> get_target_kind t = Normal).
Proof. exact get_target_kind_table. Qed.
Print Assumptions C03_kind_table.
(** Conversely each kind is only given to targets of that class, whatever the request. *)
Theorem C03_kind_inverse : forall s,
  let t := r_target (parse s) in
  match r_kind (parse s) with
  | Internal => looks_internal t
  | AbsolutePosix => looks_posix t
  | Relative => looks_relative t
  | AbsoluteWin => looks_win t
  | Normal => ~ looks_internal t /\ ~ looks_posix t /\ ~ looks_relative t /\ ~ looks_win t
  end.
Proof. exact C03_inverse_p. Qed.
Print Assumptions C03_kind_inverse.
Example C03_ex : looks_win (lit "c:\x") /\ ~ looks_relative (lit ".a") /\
  get_target_kind (lit "c:\x") = AbsoluteWin /\ get_target_kind (lit ".a") = Normal /\
  get_target_kind (lit "ab:/") = Normal.
Proof. exact C03_ex_p. Qed.

(** C04: false as stated: the table contains "assert/,strict" instead of "assert/strict". *)
Theorem C04_builtin_refuted : exists t, In t node_core_modules /\ is_build_in_module t = false.
Proof. exact C04_refuted_p. Qed.
Print Assumptions C04_builtin_refuted.
Theorem C04_builtin_spurious_refuted : exists t, is_build_in_module t = true /\ ~ In t node_core_modules.
Proof. exact C04_spurious_p. Qed.
Print Assumptions C04_builtin_spurious_refuted.
(** Missing from the full statement: exactly the two specifiers excluded here. *)
Theorem C04_builtin_partial : forall t, t <> lit "assert/strict" -> t <> lit "assert/,strict" ->
  (is_build_in_module t = true <-> In t node_core_modules).
Proof. exact builtin_iff. Qed.
Print Assumptions C04_builtin_partial.
Example C04_ex : is_build_in_module (lit "fs/promises") = true /\ is_build_in_module (lit "fs/") = false.
Proof. vm_compute. auto. Qed.

(** C05: the result is the normal spelling of the location obtained by stack evaluation, made of
    plain names only; normalisation is idempotent and keeps absoluteness. *)
Theorem C05_normalize_evaluates : forall p abs up names, denote p = (abs, up, names) ->
  normalize_path_without_link p = spell abs names /\ Forall plain_name names.
Proof. exact normalize_spec. Qed.
Print Assumptions C05_normalize_evaluates.
Theorem C05_normalize_idempotent : forall p,
  normalize_path_without_link (normalize_path_without_link p) = normalize_path_without_link p.
Proof. exact normalize_idem. Qed.
Print Assumptions C05_normalize_idempotent.
Theorem C05_normalize_components : forall p c, In c (components (normalize_path_without_link p)) ->
  c = CRoot \/ exists n, c = CNormal n /\ plain_name n.
Proof. exact C05_components_p. Qed.
Print Assumptions C05_normalize_components.
Theorem C05_normalize_absolute : forall p, is_abs (normalize_path_without_link p) = is_abs p.
Proof. exact C05_absolute_p. Qed.
Print Assumptions C05_normalize_absolute.
Example C05_ex : normalize_path_without_link (lit "/../a/.//b/../c/") = lit "/a/c" /\
  denote (lit "/../a/.//b/../c/") = (true, 0, [lit "a"; lit "c"]).
Proof. vm_compute. auto. Qed.

(** C06: false as stated: leading ".." of a relative path are dropped. *)
Theorem C06_relative_meaning_refuted : exists p, is_abs p = false /\
  denote (normalize_path_without_link p) <> denote p.
Proof. exact C06_refuted_p. Qed.
Print Assumptions C06_relative_meaning_refuted.
(** Full statement: [forall p, denote (normalize_path_without_link p) = denote p].  It holds for
    every path that does not climb above its start; otherwise exactly the climbing is lost. *)
Theorem C06_meaning_partial : forall p abs up names, denote p = (abs, up, names) ->
  denote (normalize_path_without_link p) = (abs, 0, names).
Proof. exact C06_partial_p. Qed.
Print Assumptions C06_meaning_partial.
Example C06_ex : denote (lit "a/../b/./c") = (false, 0, [lit "b"; lit "c"]) /\
  denote (lit "../a") = (false, 1, [lit "a"]).
Proof. vm_compute. auto. Qed.

(** C07: effective path of a request relative to a base. *)
Theorem C07_effective_path : forall base r,
  let t := r_target r in let p := get_path (mkInfo base r) in
  (t = [] \/ t = lit "." -> p = base) /\
  (forall x, t = lit "/" ++ x -> p = t) /\
  (t <> [] -> t <> lit "." -> (forall x, t <> lit "/" ++ x) ->
     (base = [] -> p = t) /\
     (forall b, base = b ++ lit "/" -> p = base ++ t) /\
     (base <> [] -> (forall b, base <> b ++ lit "/") -> p = base ++ lit "/" ++ t)).
Proof. exact C07_p. Qed.
Print Assumptions C07_effective_path.
(** At the level of locations: for a non-absolute target it is the base's components followed
    by the target's, for any spelling of the base. *)
Theorem C07_effective_path_denotes : forall base base' r,
  components base = components base' ->
  components (get_path (mkInfo base r)) = components (get_path (mkInfo base' r)).
Proof. exact C07_congr_p. Qed.
Print Assumptions C07_effective_path_denotes.
Example C07_ex : get_path (mkInfo (lit "/a") (parse (lit "./b?q"))) = lit "/a/./b" /\
  get_path (mkInfo (lit "/a/") (parse (lit "b"))) = lit "/a/b" /\
  get_path (mkInfo (lit "/a") (parse (lit "/b"))) = lit "/b".
Proof. vm_compute. auto. Qed.
