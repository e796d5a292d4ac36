(** * Data types of the crate (src/lib.rs, src/parse.rs, src/kind.rs, src/options.rs,
    src/description.rs, src/map.rs). *)
From Coq Require Import String.
From Coq Require Import List Arith NArith ZArith Bool.
From Verif Require Import Str Path Json.
Import ListNotations.

(** [RResult<T> = Result<T, String>]  (src/lib.rs:82,159) *)
Inductive result (A : Type) := Ok (a : A) | Err (e : str).
Arguments Ok {A} _. Arguments Err {A} _.

(** Outcome of a pure computation that may panic, or whose modelled loop may run out of
    fuel (an explicit error value, excluded by theorems). *)
Inductive pcomp (A : Type) := PRet (a : A) | PPanic (m : str) | PFuel.
Arguments PRet {A} _. Arguments PPanic {A} _. Arguments PFuel {A}.
Definition pbind {A B} (p : pcomp A) (f : A -> pcomp B) : pcomp B :=
  match p with PRet a => f a | PPanic m => PPanic m | PFuel => PFuel end.
Notation "'plet' x := p 'in' q" := (pbind p (fun x => q))
  (at level 200, x pattern, p at level 100, q at level 200, only parsing).

(** [PathKind]  (src/kind.rs:3-10) *)
Inductive kind := Relative | AbsoluteWin | AbsolutePosix | Internal | Normal.
Definition kind_eqb (a b : kind) : bool :=
  match a, b with
  | Relative, Relative | AbsoluteWin, AbsoluteWin | AbsolutePosix, AbsolutePosix
  | Internal, Internal | Normal, Normal => true
  | _, _ => false
  end.

(** [Request]  (src/parse.rs:6-12) *)
Record request := mkReq { r_target : str; r_query : str; r_fragment : str; r_kind : kind }.

(** [ResolveInfo]  (src/lib.rs:84-88) *)
Record info := mkInfo { i_path : path; i_req : request }.

(** [ResolveResult]  (src/lib.rs:123-127) *)
Inductive rresult := RInfo (i : info) | RIgnored.

(** [ResolverStats]  (src/lib.rs:129-134) *)
Inductive stats := Success (r : rresult) | Resolving (i : info) | SError (msg : str) (i : info).

(** [ResolverStats::is_success]  (src/lib.rs:144-146) *)
Definition is_success (s : stats) : bool := match s with Success _ => true | _ => false end.

(** [AliasMap]  (src/options.rs:5-9) *)
Inductive alias_map := ATarget (s : str) | AIgnored.

(** [SideEffects]  (src/description.rs:7-11) *)
Inductive side_effects := SEBool (b : bool) | SEArray (l : list str).

(** [MappingValue], [AvailableMapping], [ConditionalMapping]  (src/map.rs:5-23) *)
Inductive mv :=
| MDirect (s : str)
| MCond (m : list (str * mv))
| MArray (a : list am)
with am :=
| ADirect (s : str)
| ACond (m : list (str * mv)).
Definition cmap := list (str * mv).

(** [PathTreeNode]  (src/map.rs:72-78) *)
Inductive ptn := mkPtn {
  t_children : option (list (str * ptn));
  t_folder : option mv;
  t_wildcards : option (list (str * mv));
  t_files : list (str * mv)
}.
(** [PathTreeNode::default()] *)
Definition ptn_default : ptn := mkPtn None None None [].

(** [PkgFileInfo]  (src/description.rs:13-25).  [p_alias] lists the [HashMap]
    [alias_fields] in its iteration order. *)
Record pkg := mkPkg {
  p_dir : path;
  p_name : option str;
  p_version : option str;
  p_alias : list (str * alias_map);
  p_exports : option ptn;
  p_imports : option ptn;
  p_side : option side_effects;
  p_raw : json
}.

(** [ResolverOptions]  (src/options.rs:11-63); [external_cache] is the cache identifier of
    the resolver, see [resolver] below.  [o_conditions] is a [HashSet], only used through
    [contains]. *)
Record options := mkOpts {
  o_extensions : list str;
  o_enforce : option bool;
  o_alias : list (str * alias_map);
  o_prefer_relative : bool;
  o_symlinks : bool;
  o_desc : option str;
  o_main_files : list str;
  o_main_fields : list str;
  o_browser : bool;
  o_conditions : list str;
  o_tsconfig : option path
}.

(** [ResolverOptions::default()]  (src/options.rs:65-99) *)
Definition default_options : options := {|
  o_extensions := [lit ".js"; lit ".json"; lit ".node"];
  o_enforce := None;
  o_alias := [];
  o_prefer_relative := false;
  o_symlinks := true;
  o_desc := Some (lit "package.json");
  o_main_files := [lit "index"];
  o_main_fields := [lit "main"];
  o_browser := false;
  o_conditions := [lit "node"];
  o_tsconfig := None
|}.

(** Result of [jsonc_parser::parse_to_serde_value]: an error (with its text), nothing, or a
    value. *)
Inductive jsonc_res := JCErr (msg : str) | JCNone | JCVal (j : json).

(** A resolver (src/lib.rs:73-80).  The [Arc<ResolverCache>] is represented by an identifier
    [rv_cache], so that resolvers built with the same [external_cache] share it; the private
    [CacheFile] and [DebugReadMap] by the identifier [rv_id]; [rv_duration] is
    [CacheFile::duration] in nanoseconds; [rv_debug] is [cfg(debug_assertions)].
    [rv_json] and [rv_jsonc] are the external parsers [serde_json::from_str] ([None] = error)
    and [jsonc_parser::parse_to_serde_value], kept arbitrary. *)
Record resolver := mkResolver {
  rv_opts : options;
  rv_cache : nat;
  rv_id : nat;
  rv_duration : N;
  rv_debug : bool;
  rv_json : str -> option json;
  rv_jsonc : str -> jsonc_res
}.

(** [MODULE]  (src/lib.rs:157) *)
Definition MODULE : str := lit "node_modules".
(** [RAISE_RESOLVE_ERROR_TAG], [raise_tag]  (src/utils.rs:5-10) *)
Definition TAG : str := lit "T0".
