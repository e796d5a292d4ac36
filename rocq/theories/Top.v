(** * The public API: [Resolver::new], [Resolver::default], [resolve], [load_side_effects]. *)
From Coq Require Import String.
From Coq Require Import List Arith NArith Bool.
From Verif Require Import Str Path Json Types Parse Map Prog Desc Resolve.
Import ListNotations.

(** [Resolver::new]  (src/lib.rs:162-185): [enforce_extension] defaults to "some extension is
    empty"; the file cache refreshes after 1000 ms.  [cache] identifies the external cache (or
    a fresh one), [id] the private tables. *)
Definition is_empty_str (s : str) : bool := match s with [] => true | _ => false end.
Definition new_options (o : options) : options := {|
  o_extensions := o_extensions o;
  o_enforce := match o_enforce o with
               | None => Some (existsb is_empty_str (o_extensions o))
               | Some b => Some b
               end;
  o_alias := o_alias o;
  o_prefer_relative := o_prefer_relative o;
  o_symlinks := o_symlinks o;
  o_desc := o_desc o;
  o_main_files := o_main_files o;
  o_main_fields := o_main_fields o;
  o_browser := o_browser o;
  o_conditions := o_conditions o;
  o_tsconfig := o_tsconfig o
|}.
Definition new_resolver (o : options) (cache id : nat) (debug : bool) js jsc : resolver :=
  mkResolver (new_options o) cache id 1000000000%N debug js jsc.

(** [Resolver::default()] (derived, src/lib.rs:73): default options, refresh period 0. *)
Definition default_resolver (cache id : nat) (debug : bool) js jsc : resolver :=
  mkResolver default_options cache id 0%N debug js jsc.

(** [Resolver::resolve]  (src/lib.rs:187-211) *)
Definition resolve (R : resolver) (fuel : nat) (base : path) (req : str) : prog (result rresult) :=
  resolve_with R (load_pkg_file R fuel) fuel base req.

(** [Resolver::load_side_effects]  (src/description.rs:150-162).  The [unwrap] of
    [description_file] cannot fail: the loader returns [None] when it is unset. *)
Definition load_side_effects (R : resolver) (fuel : nat) (p : path)
  : prog (result (option (path * option side_effects))) :=
  try_ (load_pkg_file R fuel p) (fun o =>
    match o with
    | None => Ret (Ok None)
    | Some pk =>
        match o_desc (rv_opts R) with
        | None => Panic (lit "called `Option::unwrap()` on a `None` value")
        | Some name => Ret (Ok (Some (join (p_dir pk) name, p_side pk)))
        end
    end).
