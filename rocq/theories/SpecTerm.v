(** * Specification for termination (C16): the steps by which a resolution may start over. *)
From Coq Require Import String.
From Coq Require Import List Arith NArith Bool Permutation.
From Verif Require Import Str Path Json Types Parse Map Prog Desc Resolve Run Exec SpecRun SpecMap SpecLoad SpecCache.
Import ListNotations.

(** Nothing can be repeated for ever, starting at [a]. *)
Definition stops {A} (step : A -> A -> Prop) (a : A) : Prop := Acc (fun y x => step x y) a.

(** The target of a request is replaced and the request starts over: by an alias, or because
    relative paths are preferred. *)
Inductive rewritten (o : options) : str -> str -> Prop :=
| RwAlias : forall from to t, In (from, ATarget to) (o_alias o) -> starts_with t from = true -> starts_with t to = false ->
    rewritten o t (replacen1 t from to)
| RwRelative : forall t, o_prefer_relative o = true -> starts_with t (lit "./") = false -> starts_with t (lit "../") = false ->
    rewritten o t (lit "./" ++ t).

Section Term.
Variable fs : fsys.
Variable R : resolver.
Notation opts := (rv_opts R).
(** [pk] is the description that applies to [p]. *)
Definition described_by (p : path) (pk : pkg) : Prop := lookup_desc fs (rv_json R) (o_desc opts) p = PRet (Ok (Some pk)).

(** An internal request ("#...") of a package is turned into another one by the "imports" field:
    directly, or by way of the "exports" field of another package. *)
Inductive redirected : pkg * str -> pkg * str -> Prop :=
| RdInternal : forall pk t root item l, p_imports pk = Some root ->
    field_process FImports root t (o_conditions opts) = PRet (Ok (item :: l)) -> r_kind (parse item) = Internal ->
    redirected (pk, t) (pk, r_target (parse item))
| RdPackage : forall pk t root item l pk' root' x l' item', p_imports pk = Some root ->
    field_process FImports root t (o_conditions opts) = PRet (Ok (item :: l)) -> r_kind (parse item) = Normal ->
    described_by (get_path (mkInfo (join (p_dir pk) MODULE) (parse item))) pk' -> p_exports pk' = Some root' ->
    field_process FExports root' x (o_conditions opts) = PRet (Ok l') -> In item' l' ->
    redirected (pk, t) (pk', r_target (parse item')).

(** A value of the browser field is a key of it. *)
Definition chained (af : list (str * alias_map)) (s s' : str) : Prop := imap_get af s = Some (ATarget s').

(** The main field [m] of the description in [p], written as a relative path. *)
Definition main_at (p : path) (m : str) : Prop :=
  exists pk fld v, described_by p pk /\ same_path p (p_dir pk) /\ In fld (o_main_fields opts) /\
    opt_str (jget (p_raw pk) fld) = Some v /\ v <> s_dot /\ v <> lit "./" /\
    m = if starts_with v (lit "./") then v else lit "./" ++ v.
(** A value of the browser field of the description in [p]. *)
Definition browser_at (p : path) (c : str) : Prop :=
  o_browser opts = true /\ exists pk k, described_by p pk /\ same_path p (p_dir pk) /\ In (k, ATarget c) (p_alias pk).
(** The directories that may be resolved as the main file of directory [p]: a main field is taken
    relative to [p] or to the directory an earlier main field has led to. *)
Inductive main_dir (p : path) : path -> Prop :=
| MdMain : forall m, main_at p m -> f_dir fs (join p m) = true -> main_dir p (join p m)
| MdDrift : forall d m, main_dir p d -> main_at p m -> f_dir fs (join d m) = true -> main_dir p (join d m)
| MdBrowser : forall m c q, main_at p m -> browser_at p c -> q = (if str_eqb c [] || str_eqb c s_dot then p else join p c) -> f_dir fs q = true ->
    main_dir p q.

(** Conditions under which nothing is repeated for ever. *)
Record no_cycles : Prop := {
  nc_imports : forall p pk t, described_by p pk -> stops redirected (pk, t);
  nc_browser : forall p pk s, o_browser opts = true -> described_by p pk -> stops (chained (p_alias pk)) s;
  nc_main : forall p, stops main_dir p
}.

End Term.

(** ** Answers *)
(** [p] can come to result [a] when its answers are among [ok]. *)
Definition may_give {A} (ok : forall o, ans o -> Prop) (p : prog A) (a : A) : Prop :=
  exists tr, exec p tr (Done a) /\ Forall (fun e : ev => ok (projT1 e) (projT2 e)) tr.
(** An answer of the disk; anything from the tables. *)
Definition disk_answer (fs : fsys) (o : op) : ans o -> Prop :=
  match o return ans o -> Prop with
  | OIsFile p => fun x => x = f_file fs p
  | OIsDir p => fun x => x = f_dir fs p
  | ORead p => fun x => x = f_read fs p
  | _ => fun _ => True
  end.
Section Answers.
Variable fs : fsys.
Variable R : resolver.
Notation opts := (rv_opts R).
(** The same description, up to the spelling of its directory and the order of browser keys. *)
Definition same_desc (pk pk' : pkg) : Prop :=
  same_path (p_dir pk) (p_dir pk') /\ p_name pk = p_name pk' /\ p_version pk = p_version pk' /\ p_exports pk = p_exports pk' /\
  p_imports pk = p_imports pk' /\ p_side pk = p_side pk' /\ p_raw pk = p_raw pk' /\ Permutation (p_alias pk) (p_alias pk').
(** An answer of the disk, or of tables that hold what is on the disk. *)
Definition true_answer (o : op) : ans o -> Prop :=
  match o return ans o -> Prop with
  | OIsFile p => fun x => x = f_file fs p
  | OIsDir p => fun x => x = f_dir fs p
  | OExists p => fun x => x = f_exists fs p
  | ORead p => fun x => x = f_read fs p
  | OMtime p => fun x => x = f_mtime fs p
  | OCanon p => fun x => x = f_canon fs p
  | OPkgGet c p => fun x => c = rv_cache R -> o_desc opts <> None -> f_dir fs p = true ->
      (x = Some None -> lookup_desc fs (rv_json R) (o_desc opts) p = PRet (Ok None)) /\
      forall pk, x = Some (Some pk) -> exists pk', described_by fs R p pk' /\ same_desc pk' pk
  | OExpGet c k => fun x => c = rv_cache R -> forall t v name, x = Some t -> o_desc opts = Some name ->
      field_on fs (rv_json R) name (lit "exports") v -> to_string v = k -> build_exports v = PRet (Ok t)
  | OImpGet _ _ => fun x => x = None
  | _ => fun _ => True
  end.
End Answers.

(** ** tsconfig *)
Section Tsconfig.
Variable fs : fsys.
Variable R : resolver.
Notation opts := (rv_opts R).
(** The tsconfig file [loc] extends what the text [e] names. *)
Definition extends_text (loc : path) (e : str) : Prop :=
  exists s j, f_read fs loc = Some s /\ rv_jsonc R s = JCVal j /\ jget j (lit "extends") = Some (JStr e).
(** The tsconfig file [loc] extends file [loc']: the text may be resolved to it with answers among
    [ok] (whatever tables the resolver uses). *)
Definition extends_by (ok : resolver -> forall o, ans o -> Prop) (loc loc' : path) : Prop :=
  exists e dir k c m n i, extends_text loc e /\ parent loc = Some dir /\ let R' := moved_to R k c in
    may_give (ok R') (resolve_ R' (load_pkg_file R' m) n (mkInfo dir (parse e))) (Success (RInfo i)) /\ loc' = get_path i.
Definition extends_to : path -> path -> Prop := extends_by (true_answer fs).
(** [rank] numbers the tsconfig file [location] and all it extends, directly or not, so that each
    extends one with a smaller number; the texts that name them are not rewritten for ever. *)
Record ranked (ok : resolver -> forall o, ans o -> Prop) (location : path) (rank : path -> option nat) : Prop := {
  rk_spell : forall p q, same_tail p q -> rank p = rank q;
  rk_start : rank location <> None;
  rk_abs : forall p, rank p <> None -> is_abs p = true;
  rk_text : forall p e, rank p <> None -> extends_text p e -> stops (rewritten opts) (r_target (parse e));
  rk_next : forall p q n, rank p = Some n -> extends_by ok p q -> exists m, rank q = Some m /\ m < n
}.
(** The tsconfig, if any, is named by an absolute path and does not extend itself, by whatever way;
    [stops] for the empty target, which its "paths" are resolved with. *)
Definition tsconfig_plain_by (ok : resolver -> forall o, ans o -> Prop) : Prop :=
  forall location, o_tsconfig opts = Some location -> stops (rewritten opts) [] /\ exists rank, ranked ok location rank.
Definition tsconfig_plain : Prop := tsconfig_plain_by (true_answer fs).

(** A condition that can be read off the files: they extend one another by relative paths to
    existing files, and the last one extends nothing. *)
Inductive chain : list path -> Prop :=
| ChLast : forall p, is_abs p = true -> (forall e, ~ extends_text p e) -> chain [p]
| ChNext : forall p e dir l, is_abs p = true -> extends_text p e -> parent p = Some dir ->
    let t := r_target (parse e) in
    starts_with t (lit "./") = true \/ starts_with t (lit "../") = true ->
    (forall from to, In (from, to) (o_alias opts) -> starts_with t from = false) -> o_browser opts = false -> enforce R = false ->
    f_file fs (join dir t) = true -> chain (join dir t :: l) -> chain (p :: join dir t :: l).
End Tsconfig.

(** The conditions for one call. *)
Definition call_plain_by (fs : fsys) (ok : resolver -> forall o, ans o -> Prop) (c : call) : Prop :=
  match c with
  | CResolve R _ base req => is_abs base = true /\ no_cycles fs R /\ stops (rewritten (rv_opts R)) (r_target (parse req)) /\ tsconfig_plain_by fs R ok
  | CSide _ _ p => is_abs p = true
  end.
Definition call_plain (fs : fsys) (c : call) : Prop := call_plain_by fs (true_answer fs) c.
(** The paths a call starts from are absolute. *)
Definition call_absolute (c : call) : Prop :=
  match c with
  | CResolve R _ base _ => is_abs base = true /\ forall loc, o_tsconfig (rv_opts R) = Some loc -> is_abs loc = true
  | CSide _ _ p => is_abs p = true
  end.
(** Both runs come to an end, with the same outcome. *)
Definition same_end {A} (V : A -> A -> Prop) (o o' : outcome A) : Prop :=
  match o, o' with Done a, Done b => V a b | Panicked m, Panicked m' => same_text m m' | _, _ => False end.

(** ** Conditions that can be read off the description files *)
(** [p] or [q] is a beginning of the other. *)
Definition overlap (p q : str) : Prop := starts_with p q = true \/ starts_with q p = true.
(** No alias leads to a target of an alias, and none begins like "./". *)
Definition alias_flat (o : options) : Prop :=
  (forall from to from' to', In (from, ATarget to) (o_alias o) -> In (from', ATarget to') (o_alias o) -> ~ overlap to from') /\
  (o_prefer_relative o = true -> forall from to, In (from, ATarget to) (o_alias o) -> ~ overlap (lit "./") from).
(** [j] is the content of a description file. *)
Definition on_disk (fs : fsys) (R : resolver) (d : path) (j : json) : Prop :=
  exists name s, o_desc (rv_opts R) = Some name /\ f_dir fs d = true /\ f_read fs (join d name) = Some s /\ rv_json R s = Some j.
(** The targets of "imports" are files of the package; no value of the browser field is a key of
    it; a directory that is the main file of a package has no description of its own. *)
Record modest (fs : fsys) (R : resolver) : Prop := {
  md_imports : forall d j v t, on_disk fs R d j -> jget j (lit "imports") = Some v -> json_string t v -> exists r, t = lit "./" ++ r;
  md_browser : forall d j af k t v, o_browser (rv_opts R) = true -> on_disk fs R d j -> alias_fields_of j = PRet af ->
    In (k, ATarget t) af -> ~ In (t, v) af;
  md_main : forall name p q, o_desc (rv_opts R) = Some name -> main_dir fs R p q -> f_read fs (join q name) = None
}.
