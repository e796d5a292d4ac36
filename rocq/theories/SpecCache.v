(** * Specification for the cache properties: who shares the tables, and what can be compared. *)
From Coq Require Import String.
From Coq Require Import List Arith NArith Bool.
From Verif Require Import Str StrP Path Json Types Parse Map Prog Desc Resolve Run SpecRun SpecLoad.
Import ListNotations.

(** A resolver of a release build, with JSON parser [js], whose description files have the name
    that belongs to its cache (or that uses no description files). *)
Definition client (js : str -> option json) (nm : nat -> str) (R : resolver) : Prop :=
  (o_desc (rv_opts R) = None \/ o_desc (rv_opts R) = Some (nm (rv_cache R))) /\ rv_json R = js /\ rv_debug R = false.
Definition call_resolver (c : call) : resolver :=
  match c with CResolve R _ _ _ => R | CSide R _ _ => R end.

(** Browser key [k] of the package in [d] concerns path [rp]. *)
Definition hits (exts : list str) (d rp : path) (k : str) : Prop :=
  components (join d k) = components rp \/
  exists ext, In ext exts /\ components (join d k) = components (rp ++ ext).
(** At most one key concerns any path, and no value is empty or ".". *)
Definition clear_keys (exts : list str) (d : path) (af : imap alias_map) : Prop :=
  (forall rp k v k' v', In (k, v) af -> In (k', v') af -> hits exts d rp k -> hits exts d rp k' -> k = k') /\
  (forall k t, In (k, ATarget t) af -> ~ (t = [] \/ t = s_dot)).
(** The browser fields are off, or those of all description files are of this kind. *)
Definition browser_clear (fs : fsys) (js : str -> option json) (R : resolver) : Prop :=
  o_browser (rv_opts R) = false \/
  forall name d s j af, o_desc (rv_opts R) = Some name -> f_dir fs d = true ->
    f_read fs (join d name) = Some s -> js s = Some j -> alias_fields_of j = PRet af ->
    clear_keys (o_extensions (rv_opts R)) d af.

(** ** Runs in which every table is always empty *)
Definition fs_ans (fs : fsys) (o : op) : ans o :=
  match o return ans o with
  | OIsFile p => f_file fs p
  | OIsDir p => f_dir fs p
  | OExists p => f_exists fs p
  | ORead p => f_read fs p
  | OMtime p => f_mtime fs p
  | OCanon p => f_canon fs p
  | OPkgGet _ _ => None
  | OExpGet _ _ => None
  | OImpGet _ _ => None
  | OFileGet _ _ => None
  | ODbgHas _ _ => false
  | OOrder => []
  | OPkgDrop _ _ => tt
  | OPkgPut _ _ _ => tt
  | OExpPut _ _ _ => tt
  | OFilePut _ _ _ _ => tt
  | ODbgAdd _ _ => tt
  | ODbgDel _ _ => tt
  end.
Fixpoint ev_fs {A} (fs : fsys) (p : prog A) : outcome A :=
  match p with
  | Ret a => Done a
  | Panic m => Panicked m
  | OutOfFuel => NoFuel
  | Do o k => ev_fs fs (k (fs_ans fs o))
  end.

(** The configuration a resolver without tables reads from [loc], extended ones merged. *)
Definition config_at (fs : fsys) (R : resolver) (loc : path) (c : json) : Prop :=
  exists fuel, ev_fs fs (parse_file_to_value R (fun p => lift (lookup_desc fs (rv_json R) (o_desc (rv_opts R)) p)) fuel loc) = Done (Ok c).
(** Pattern [k] of "paths" concerns the target. *)
Definition applies (k target : str) : Prop := k = target \/ exists m, star_matches k target m.
(** At most one pattern concerns the target, and none cuts a character of it in two. *)
Definition clear_paths (target : str) (m : imap (list str)) : Prop :=
  (forall k v, In (k, v) m -> splits k target) /\
  (forall k v k' v', In (k, v) m -> In (k', v') m -> applies k target -> applies k' target -> k = k').
Definition patterns_clear (fs : fsys) (R : resolver) (target : str) : Prop :=
  forall loc c t m, o_tsconfig (rv_opts R) = Some loc -> config_at fs R loc c ->
    ts_of_json c = PRet t -> ts_paths t = Some m -> clear_paths target m.

(** No exports field has the text of an imports field that could be accepted (the two share a table).  It is
    enough that no exports field consists of keys with "#" only. *)
Definition no_clash (fs : fsys) (js : str -> option json) (nm : nat -> str) : Prop :=
  forall c v v', field_on fs js (nm c) (lit "exports") v -> field_on fs js (nm c) (lit "imports") v' ->
    hash_keys v' -> to_string v <> to_string v'.

(** ** Equal answers *)
(** Texts that are two spellings of one text. *)
Definition same_text (e e' : str) : Prop := exists e0, respelled e0 e /\ respelled e0 e'.
Definition same_result {A} (V : A -> A -> Prop) (r r' : result A) : Prop :=
  match r, r' with Ok a, Ok b => V a b | Err e, Err e' => same_text e e' | _, _ => False end.
(** The same outcome, where both runs come to an end. *)
Definition same_outcome {A} (V : A -> A -> Prop) (o o' : outcome A) : Prop :=
  match o, o' with
  | NoFuel, _ | _, NoFuel => True
  | Done a, Done b => V a b
  | Panicked m, Panicked m' => same_text m m'
  | _, _ => False
  end.
Definition same_side (x y : option (path * option side_effects)) : Prop :=
  match x, y with
  | None, None => True
  | Some (p, s), Some (q, t) => same_path p q /\ s = t
  | _, _ => False
  end.
Definition same_answer (a b : answer) : Prop :=
  match a, b with
  | AResolve r, AResolve r' => same_result eq r r'
  | ASide r, ASide r' => same_result same_side r r'
  | _, _ => False
  end.
(** The same call with another bound on the steps. *)
Definition with_fuel (c : call) (f : nat) : call :=
  match c with CResolve R _ base req => CResolve R f base req | CSide R _ p => CSide R f p end.
(** The call whose answer is compared: order-independent fields. *)
Definition steady (fs : fsys) (js : str -> option json) (c : call) : Prop :=
  match c with
  | CResolve R _ _ req => browser_clear fs js R /\ patterns_clear fs R (r_target (parse req))
  | CSide R _ _ => True
  end.
(** What a thread has come to; [NoFuel] while it is still running. *)
Definition settled {A} (p : prog A) : outcome A :=
  match p with Ret a => Done a | Panic m => Panicked m | _ => NoFuel end.
(** The same call on a resolver with another cache [k] and other private tables [i]. *)
Definition moved_to (R : resolver) (k i : nat) : resolver :=
  mkResolver (rv_opts R) k i (rv_duration R) (rv_debug R) (rv_json R) (rv_jsonc R).
Definition moved (c : call) (k i : nat) : call :=
  match c with CResolve R f base req => CResolve (moved_to R k i) f base req | CSide R f p => CSide (moved_to R k i) f p end.
(** The texts of the files with these names on these disks. *)
Definition written_on (names : str -> Prop) (fss : list fsys) (s : str) : Prop :=
  exists fs d name, In fs fss /\ names name /\ f_read fs (join d name) = Some s.
(** The same for descriptions with the texts [T]. *)
Definition texts_apart (js : str -> option json) (T : str -> Prop) : Prop :=
  forall s s' j j' v v', T s -> T s' -> js s = Some j -> js s' = Some j' ->
    jget j (lit "exports") = Some v -> jget j' (lit "imports") = Some v' -> hash_keys v' -> to_string v <> to_string v'.

(** ** Descriptions that differ in their browser objects only *)
(** The browser field, if any, is not a string, and as an object it has no value [true]. *)
Definition browser_object (j : json) : Prop :=
  forall v, jget j (lit "browser") = Some v -> (forall s, v <> JStr s) /\
    (forall l, v = JObj l -> forall k b, In (k, JBool b) l -> b = false).
Definition same_but_browser (j1 j2 : json) : Prop :=
  browser_object j1 /\ browser_object j2 /\ forall k, k <> lit "browser" -> jget j1 k = jget j2 k.
Definition parsers_but_browser (js1 js2 : str -> option json) : Prop :=
  forall s, match js1 s, js2 s with Some j1, Some j2 => same_but_browser j1 j2 | None, None => True | _, _ => False end.
(** The same resolver with another JSON parser and other tables. *)
Definition with_parser (R : resolver) (js : str -> option json) (k i : nat) : resolver :=
  mkResolver (rv_opts R) k i (rv_duration R) (rv_debug R) js (rv_jsonc R).
(** The same resolver with other condition names and other tables. *)
Definition with_conditions (R : resolver) (l : list str) (k i : nat) : resolver :=
  let o := rv_opts R in
  mkResolver (mkOpts (o_extensions o) (o_enforce o) (o_alias o) (o_prefer_relative o) (o_symlinks o) (o_desc o)
    (o_main_files o) (o_main_fields o) (o_browser o) l (o_tsconfig o)) k i (rv_duration R) (rv_debug R) (rv_json R) (rv_jsonc R).
