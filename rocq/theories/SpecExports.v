(** * Packages reached by name (C33, C51, C52). *)
From Coq Require Import String.
From Coq Require Import List Arith NArith Bool.
From Verif Require Import Str Path Json Types Parse Map Prog Desc Resolve Top Run SpecRun SpecParse StrP.
Import ListNotations.

(** The search for the bare specifier [req] (package name [n] with subpath [sub]) made from
    [base] comes to the directory [d], whose node_modules directory exists: no alias,
    prefer_relative, tsconfig or browser rule concerns it, the directories below [d] have passed,
    and the description that applies to d/node_modules/req is [pk].  The tables were [st] in the
    beginning and are [st'] now. *)
Definition comes_to (fs : fsys) (R : resolver) (f : nat) (base : path) (req n sub : str) (st : state) (d : path) (pk : pkg) (st' : state) : Prop :=
  rv_debug R = false /\ no_remap R base (r_target (parse req)) /\ r_kind (parse req) = Normal /\ (r_target (parse req) <> n -> ascii_str n) /\
  bare_parts (r_target (parse req)) n sub /\
  exists opk st1 pre post st2,
    run fs (load_pkg_file R (S f) (join (join base MODULE) (r_target (parse req)))) st = (Done (Ok opk), st1) /\
    browser_silent (rv_opts R) opk (mkInfo base (parse req)) /\ up_chain base (pre ++ d :: post) /\
    all_pass (fun i => run fs (modules_level R (load_pkg_file R (S f)) (S f) i)) pre (parse req) st1 st2 /\
    f_dir fs (join d MODULE) = true /\
    run fs (load_pkg_file R (S f) (join (join d MODULE) (r_target (parse req)))) st2 = (Done (Ok (Some pk)), st').
(** [pk] is an installed package called [n]: found in node_modules. *)
Definition installed (fs : fsys) (d : path) (n : str) (pk : pkg) : Prop :=
  f_dir fs (join (join d MODULE) n) = true /\ f_exists fs (join (join d MODULE) n) = true /\ contains (p_dir pk) MODULE = true.
(** The targets that the exports field [tree] selects for the request. *)
Definition selects (R : resolver) (tree : ptn) (req sub : str) (l : list str) : Prop :=
  field_process FExports tree (exports_request sub (r_query (parse req)) (r_fragment (parse req))) (o_conditions (rv_opts R)) = PRet (Ok l).
(** A target of the package that may be used: an existing file that the check for escaping
    targets accepts (what this check is worth is C33). *)
Definition target_file (pk : pkg) (c : str) : path := get_path (mkInfo (p_dir pk) (parse c)).
Definition usable (fs : fsys) (pk : pkg) (c : str) : Prop :=
  f_file fs (target_file pk c) = true /\ check_target (r_target (parse c)) = PRet true.
(** [c] is the first usable one of [l]. *)
Definition first_usable (fs : fsys) (pk : pkg) (l : list str) (c : str) : Prop :=
  exists l1 l2, l = l1 ++ c :: l2 /\ Forall (fun x => ~ usable fs pk x) l1 /\ usable fs pk c.
(** [q] denotes a location in the directory [p] or below. *)
Definition within (p q : path) : Prop :=
  exists abs up names more, denote p = (abs, up, names) /\ denote q = (abs, up, names ++ more).
(** A relative target without empty segments that does not end in "..". *)
Definition well_formed_target (c : str) : Prop :=
  r_kind (parse c) = Relative /\ (forall a b, r_target (parse c) <> a ++ lit "//" ++ b) /\
  (forall a, ~ (r_target (parse c) = lit ".." \/ r_target (parse c) = a ++ lit "/..")).

(** ** Imports *)
(** The first target selected for the name [t] is looked up again as long as it starts with #;
    the last name is [last] and its target [item]. *)
Inductive imports_chain (root : ptn) (names : list str) : str -> str -> str -> Prop :=
| ICEnd t item rest : field_process FImports root t names = PRet (Ok (item :: rest)) ->
    starts_with_char (r_target (parse item)) c_hash = false -> imports_chain root names t t item
| ICNext t item rest last e : field_process FImports root t names = PRet (Ok (item :: rest)) ->
    starts_with_char (r_target (parse item)) c_hash = true ->
    imports_chain root names (r_target (parse item)) last e -> imports_chain root names t last e.
(** The request [req], made from [base], starts with #, no alias or tsconfig rule concerns it,
    and the description [pk] that applies to [base] has the imports field [root]. *)
Definition internal_of (fs : fsys) (R : resolver) (f : nat) (base : path) (req : str) (st : state) (pk : pkg) (root : ptn) (st' : state) : Prop :=
  rv_debug R = false /\ no_remap R base (r_target (parse req)) /\ starts_with_char (r_target (parse req)) c_hash = true /\
  run fs (load_pkg_file R (S f) (get_path (mkInfo base (parse req)))) st = (Done (Ok (Some pk)), st') /\ p_imports pk = Some root.
