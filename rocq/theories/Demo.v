(** * Small concrete worlds for non-vacuity examples and refutation witnesses. *)
From Coq Require Import String.
From Coq Require Import List Arith NArith Bool.
From Verif Require Import Str Path Json Types Parse Map Prog Desc Resolve Top Run Posix.
Import ListNotations.

Definition D (l : list (string * node)) : node := NDir (map (fun kv => (lit (fst kv), snd kv)) l).
(** A file with some content. *)
Definition F : node := NFile [] 1%N.
(** A file whose content is the identifier [id] of a JSON document. *)
Definition PJ (id : string) : node := NFile (lit id) 1%N.
Definition O (l : list (string * json)) : json := JObj (map (fun kv => (lit (fst kv), snd kv)) l).
Definition S_ (s : string) : json := JStr (lit s).
(** The JSON oracle: a table from file contents to values. *)
Definition js_of (t : list (string * json)) : str -> option json :=
  fun s => imap_get (map (fun kv => (lit (fst kv), snd kv)) t) s.
Definition jsc_of (t : list (string * json)) : str -> jsonc_res :=
  fun s => match js_of t s with Some j => JCVal j | None => JCErr (lit "bad") end.
Definition W (root : node) : fsys := posix_fs 60 root [].
Definition st0 : state := empty_state (fun _ => []).
(** [Resolver::new(options)] in a release build. *)
Definition mkR (o : options) (t : list (string * json)) : resolver := new_resolver o 0 0 false (js_of t) (jsc_of t).
Definition dflt : options := default_options.
Definition with_alias (o : options) a := mkOpts (o_extensions o) (o_enforce o) a (o_prefer_relative o) (o_symlinks o)
  (o_desc o) (o_main_files o) (o_main_fields o) (o_browser o) (o_conditions o) (o_tsconfig o).
Definition with_browser (o : options) b := mkOpts (o_extensions o) (o_enforce o) (o_alias o) (o_prefer_relative o) (o_symlinks o)
  (o_desc o) (o_main_files o) (o_main_fields o) b (o_conditions o) (o_tsconfig o).
Definition with_symlinks (o : options) b := mkOpts (o_extensions o) (o_enforce o) (o_alias o) (o_prefer_relative o) b
  (o_desc o) (o_main_files o) (o_main_fields o) (o_browser o) (o_conditions o) (o_tsconfig o).
Definition with_tsconfig (o : options) t := mkOpts (o_extensions o) (o_enforce o) (o_alias o) (o_prefer_relative o) (o_symlinks o)
  (o_desc o) (o_main_files o) (o_main_fields o) (o_browser o) (o_conditions o) t.
Definition with_desc (o : options) d := mkOpts (o_extensions o) (o_enforce o) (o_alias o) (o_prefer_relative o) (o_symlinks o)
  d (o_main_files o) (o_main_fields o) (o_browser o) (o_conditions o) (o_tsconfig o).
Definition with_exts (o : options) e := mkOpts e (o_enforce o) (o_alias o) (o_prefer_relative o) (o_symlinks o)
  (o_desc o) (o_main_files o) (o_main_fields o) (o_browser o) (o_conditions o) (o_tsconfig o).
Definition with_enforce (o : options) e := mkOpts (o_extensions o) e (o_alias o) (o_prefer_relative o) (o_symlinks o)
  (o_desc o) (o_main_files o) (o_main_fields o) (o_browser o) (o_conditions o) (o_tsconfig o).
Definition with_fields (o : options) e := mkOpts (o_extensions o) (o_enforce o) (o_alias o) (o_prefer_relative o) (o_symlinks o)
  (o_desc o) (o_main_files o) e (o_browser o) (o_conditions o) (o_tsconfig o).
Definition with_prefer (o : options) b := mkOpts (o_extensions o) (o_enforce o) (o_alias o) b (o_symlinks o)
  (o_desc o) (o_main_files o) (o_main_fields o) (o_browser o) (o_conditions o) (o_tsconfig o).

Definition res (fs : fsys) (R : resolver) (base req : string) : outcome (result rresult) :=
  out fs st0 (resolve R 40 (lit base) (lit req)).
(** The answer "this path, with this query and fragment". *)
Definition found (p q f : string) : outcome (result rresult) :=
  Done (Ok (RInfo (mkInfo (lit p) (mkReq [] (lit q) (lit f) Relative)))).
Definition failed (s : string) : outcome (result rresult) := Done (Err (lit s)).
