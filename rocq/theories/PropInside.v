(** * Exports and imports targets stay inside the package: targets that end in ".." (C33)

    The check does not examine the last segment of a target ([C33_ex_last]).  On a disk where no path that ends in ".." is a
    file ([dotdot_dirs], SpecInside.v) it need not; [C33_posix]: the tree of Posix.v is such a disk. *)
From Coq Require Import String.
From Coq Require Import List Arith NArith Bool.
From Verif Require Import Str Path Json Types Parse Map Prog Desc Resolve Top Run Posix Demo SpecRun SpecMap SpecParse SpecExports SpecInside PropInsideP.
Import ListNotations.

(** As C33_exports_partial, but targets may end in "..".  Missing: targets with empty segments, for which it is false. *)
Theorem C33_exports_dotdot_partial : forall fs R f base req n sub st d pk st' tree l r st'', dotdot_dirs fs ->
  comes_to fs R f base req n sub st d pk st' -> installed fs d n pk \/ p_name pk = Some n -> p_exports pk = Some tree ->
  selects R tree req sub l -> Forall no_empty_segment l ->
  (forall c, In c l -> browser_silent (rv_opts R) (Some pk) (mkInfo (p_dir pk) (parse c))) ->
  ~ enforced (rv_opts R) -> o_symlinks (rv_opts R) = false -> is_abs (p_dir pk) = true ->
  run fs (resolve R (S f) base req) st = (Done (Ok r), st'') ->
  exists i, r = RInfo i /\ within (p_dir pk) (i_path i).
Proof. exact fin_33e. Qed.
Print Assumptions C33_exports_dotdot_partial.
(** The first two targets end in ".."; the first leaves the package and passes the check.  The third is found. *)
Example C33_exports_dotdot_ex : (exists st', comes_to w33 (R33 u33) 39 (lit "/r/s") (lit "q/x") (lit "q") (lit "./x") st0 (lit "/r") (pk33 u33) st') /\
  installed w33 (lit "/r") (lit "q") (pk33 u33) /\
  (exists tree, p_exports (pk33 u33) = Some tree /\ selects (R33 u33) tree (lit "q/x") (lit "./x") [lit "./l/../.."; lit "./l/.."; lit "./z.js"]) /\
  Forall no_empty_segment [lit "./l/../.."; lit "./l/.."; lit "./z.js"] /\
  check_target (lit "./l/../..") = PRet true /\ dotdot_dirs w33 /\
  out w33 st0 (resolve (R33 u33) 40 (lit "/r/s") (lit "q/x")) = Done (Ok (RInfo (mkInfo (lit "/r/node_modules/q/z.js") (mkReq [] [] [] Relative)))).
Proof. exact ex33. Qed.
(** As C33_imports_partial. *)
Theorem C33_imports_dotdot_partial : forall R pk root t last item, p_imports pk = Some root ->
  imports_chain root (o_conditions (rv_opts R)) t last item -> starts_with_char t c_hash = true -> no_empty_segment item ->
  ~ enforced (rv_opts R) -> o_symlinks (rv_opts R) = false -> is_abs (p_dir pk) = true ->
  exists n, forall fs f base req st st1 r st2, dotdot_dirs fs -> n <= f -> r_target (parse req) = t -> internal_of fs R f base req st pk root st1 ->
    browser_silent (rv_opts R) (Some pk) (mkInfo (p_dir pk) (parse item)) ->
    run fs (resolve R (S f) base req) st = (Done (Ok r), st2) ->
    exists i, r = RInfo i /\ within (p_dir pk) (i_path i).
Proof. exact fin_33im. Qed.
Print Assumptions C33_imports_dotdot_partial.
Theorem C33_posix : forall fuel root cwd, dotdot_dirs (posix_fs fuel root cwd).
Proof. exact posix_dotdot. Qed.
Print Assumptions C33_posix.
(** With an empty segment a whole call returns a file outside the package. *)
Theorem C33_escape_refuted : exists fs R f base req n sub st d pk st' tree c i, dotdot_dirs fs /\ comes_to fs R f base req n sub st d pk st' /\
  installed fs d n pk /\ p_exports pk = Some tree /\ selects R tree req sub [c] /\ r_kind (parse c) = Relative /\
  o_browser (rv_opts R) = false /\ ~ enforced (rv_opts R) /\ o_symlinks (rv_opts R) = false /\ is_abs (p_dir pk) = true /\
  out fs st (resolve R (S f) base req) = Done (Ok (RInfo i)) /\ ~ within (p_dir pk) (i_path i).
Proof. exact fin_33_escape. Qed.
Print Assumptions C33_escape_refuted.
