(** * Resolvers that are told the same *)
From Coq Require Import String.
From Coq Require Import List NArith Bool.
From Verif Require Import Str Path Json Types Run.

(** The same options and parsers; enforce_extension left open counts as "no".  Nothing is said about the caches and the
    refresh period. *)
Definition same_policy (R R' : resolver) : Prop :=
  let o := rv_opts R in let o' := rv_opts R' in
  o_extensions o = o_extensions o' /\ (o_enforce o = Some true <-> o_enforce o' = Some true) /\ o_alias o = o_alias o' /\
  o_prefer_relative o = o_prefer_relative o' /\ o_symlinks o = o_symlinks o' /\ o_desc o = o_desc o' /\
  o_main_files o = o_main_files o' /\ o_main_fields o = o_main_fields o' /\ o_browser o = o_browser o' /\
  o_conditions o = o_conditions o' /\ o_tsconfig o = o_tsconfig o' /\ rv_json R = rv_json R' /\ rv_jsonc R = rv_jsonc R'.
(** The same call on another resolver. *)
Definition asked (c : call) (R' : resolver) : call :=
  match c with CResolve _ f base req => CResolve R' f base req | CSide _ f p => CSide R' f p end.
