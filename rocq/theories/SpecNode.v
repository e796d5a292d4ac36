(** * The reference search (C54): what a resolver answers, from the disk alone.

    No tables, no order of operations, no bounds: relations between the file system, the options
    and an answer, for resolvers whose aliases, prefer_relative, tsconfig and browser rules do not
    concern the request. *)
From Coq Require Import String.
From Coq Require Import List Arith NArith Bool.
From Verif Require Import Str StrP Path Json Types Parse Map Prog Desc Resolve Run SpecRun SpecLoad SpecExports.
Import ListNotations.

(** What the search comes to: a file with the query and fragment to be reported, or a failure. *)
Inductive reply :=
| Found (q : path) (query fragment : str)
| Fail (e : str).

Section Reference.
Variables (fs : fsys) (R : resolver).
Notation opts := (rv_opts R).

(** The description that applies to [p], if there is one; it cannot be used. *)
Definition has_desc (p : path) (opk : option pkg) : Prop := lookup_desc fs (rv_json R) (o_desc opts) p = PRet (Ok opk).
Definition bad_desc (p : path) (e : str) : Prop := lookup_desc fs (rv_json R) (o_desc opts) p = PRet (Err e).

(** ** Files and directories *)
Definition file_at (p q : path) : Prop := first_file fs (file_candidates opts p) q.
Definition no_file_at (p : path) : Prop := no_file fs (file_candidates opts p).
(** What the main fields of a directory name, if it has a description of its own. *)
Inductive mains (dir : path) : list str -> Prop :=
| MnOwn pk ms : has_desc dir (Some pk) -> same_path dir (p_dir pk) -> main_plan (p_raw pk) (o_main_fields opts) ms -> mains dir ms
| MnOther pk : has_desc dir (Some pk) -> ~ same_path dir (p_dir pk) -> mains dir []
| MnNone : has_desc dir None -> mains dir [].
(** There is nothing to be had at [p]. *)
Definition misses (p : path) : Prop := no_file_at p /\ (f_dir fs p = false \/ exists e, bad_desc p e).
(** The file that stands for a directory: that named by the first main field that leads anywhere,
    else the first main file. *)
Inductive main_of : path -> path -> Prop :=
| MoFile dir ms1 m ms2 q : mains dir (ms1 ++ m :: ms2) -> Forall (fun x => misses (join dir x)) ms1 ->
    file_at (join dir m) q -> main_of dir q
| MoDir dir ms1 m ms2 q : mains dir (ms1 ++ m :: ms2) -> Forall (fun x => misses (join dir x)) ms1 ->
    no_file_at (join dir m) -> f_dir fs (join dir m) = true -> main_of (join dir m) q -> main_of dir q
| MoIndex dir ms q : mains dir ms -> Forall (fun x => misses (join dir x)) ms ->
    first_file fs (main_file_paths R dir (o_main_files opts)) q -> main_of dir q.
(** There is none, or a main field leads to a directory without one. *)
Inductive no_main : path -> Prop :=
| NmIndex dir ms : mains dir ms -> Forall (fun x => misses (join dir x)) ms ->
    no_file fs (main_file_paths R dir (o_main_files opts)) -> no_main dir
| NmDir dir ms1 m ms2 : mains dir (ms1 ++ m :: ms2) -> Forall (fun x => misses (join dir x)) ms1 ->
    no_file_at (join dir m) -> f_dir fs (join dir m) = true -> no_main (join dir m) -> no_main dir.
(** A path names a file, or a directory by its main file; there is nothing there; there is a
    directory without main file. *)
Inductive names : path -> path -> Prop :=
| NFile p q : file_at p q -> names p q
| NDir p q : no_file_at p -> f_dir fs p = true -> main_of p q -> names p q.
Definition nothing_at (p : path) : Prop := no_file_at p /\ f_dir fs p = false.
Definition hollow (p : path) : Prop := no_file_at p /\ f_dir fs p = true /\ no_main p.

(** ** Packages *)
(** The package a specifier names: its first segment, two if it is scoped. *)
Definition package_name (t n : str) : Prop :=
  (exists s, bare_parts t n s) \/ (n = t /\ starts_with_char t c_at = true /\ ~ In c_slash t).
(** The name of the description is the beginning of the specifier (C52: not only whole names). *)
Definition own_name (opk : option pkg) (t : str) : Prop := exists pk n, opk = Some pk /\ p_name pk = Some n /\ prefix n t.
(** The description has an exports field, which applies. *)
Definition governed (opk : option pkg) (t : str) (pk : pkg) (tree : ptn) : Prop :=
  opk = Some pk /\ p_exports pk = Some tree /\ (contains (p_dir pk) MODULE = true \/ own_name opk t).
(** Where a selected target lies. *)
Definition lands (pk : pkg) (c : str) (p : path) : Prop :=
  (path_kind (r_kind (parse c)) /\ p = target_file pk c) \/
  (r_kind (parse c) = Normal /\ p = join (p_dir pk) (lit "./" ++ r_target (parse c))).

(** ** One directory of the climb: a verdict for node_modules in [d], or none. *)
Section Level.
Variable r : request.
Notation t := (r_target r).
Notation root d := (join d MODULE).
(** The package is looked into. *)
Definition inside (d : path) (opk : option pkg) : Prop :=
  f_dir fs (root d) = true /\ has_desc (join (root d) t) opk /\
  exists n, package_name t n /\ (f_dir fs (join (root d) n) = true \/ own_name opk t).
(** The subpath handed to the exports field is known. *)
Definition asks (d : path) (pk : pkg) (s : str) : Prop :=
  exists n, bare_parts t n s /\ (s = lit "." -> f_exists fs (join (root d) n) = true \/ p_name pk = Some n).
Definition chooses (tree : ptn) (s : str) (x : result (list str)) : Prop :=
  field_process FExports tree (exports_request s (r_query r) (r_fragment r)) (o_conditions opts) = PRet x.
Inductive level (d : path) : option reply -> Prop :=
(* no node_modules here *)
| LvAbsent : f_dir fs (root d) = false -> level d None
(* the description cannot be used *)
| LvBroken e : f_dir fs (root d) = true -> bad_desc (join (root d) t) e -> level d (Some (Fail e))
(* no such package: a file of this name *)
| LvFile opk n q : f_dir fs (root d) = true -> has_desc (join (root d) t) opk -> package_name t n ->
    f_dir fs (join (root d) n) = false -> ~ own_name opk t -> file_at (join (root d) t) q ->
    level d (Some (Found q (r_query r) (r_fragment r)))
| LvNoFile opk n : f_dir fs (root d) = true -> has_desc (join (root d) t) opk -> package_name t n ->
    f_dir fs (join (root d) n) = false -> ~ own_name opk t -> no_file_at (join (root d) t) -> level d None
(* an exports field decides: an error of the field, nothing usable, the first usable target *)
| LvExpUnknown opk pk tree n : inside d opk -> governed opk t pk tree -> bare_parts t n (lit ".") ->
    f_exists fs (join (root d) n) = false -> p_name pk <> Some n -> level d None
| LvExpErr opk pk tree s e : inside d opk -> governed opk t pk tree -> asks d pk s -> chooses tree s (Err e) -> level d (Some (Fail e))
| LvExpNone opk pk tree s l : inside d opk -> governed opk t pk tree -> asks d pk s -> chooses tree s (Ok l) ->
    Forall (fun c => ~ usable fs pk c) l -> level d (Some (Fail (lit "Package path " ++ t ++ lit " is not exported")))
| LvExpHit opk pk tree s l c p q : inside d opk -> governed opk t pk tree -> asks d pk s -> chooses tree s (Ok l) ->
    first_usable fs pk l c -> lands pk c p -> file_at p q -> level d (Some (Found q (r_query (parse c)) (r_fragment (parse c))))
| LvExpLost opk pk tree s l c p : inside d opk -> governed opk t pk tree -> asks d pk s -> chooses tree s (Ok l) ->
    first_usable fs pk l c -> lands pk c p -> no_file_at p -> level d None
(* no exports field: the path inside node_modules *)
| LvPath opk q : inside d opk -> (forall pk tree, ~ governed opk t pk tree) -> names (join (root d) (lit "./" ++ t)) q ->
    level d (Some (Found q (r_query r) (r_fragment r)))
| LvNothing opk : inside d opk -> (forall pk tree, ~ governed opk t pk tree) -> nothing_at (join (root d) (lit "./" ++ t)) -> level d None.
(** What the search cannot cope with: a package directory without main file, an exports target
    that starts with #. *)
Inductive level_astray (d : path) : Prop :=
| LaHollow opk : inside d opk -> (forall pk tree, ~ governed opk t pk tree) -> hollow (join (root d) (lit "./" ++ t)) -> level_astray d
| LaHash opk pk tree s l c : inside d opk -> governed opk t pk tree -> asks d pk s -> chooses tree s (Ok l) ->
    first_usable fs pk l c -> r_kind (parse c) = Internal -> level_astray d.

(** The climb: the first verdict counts. *)
Inductive climb : list path -> reply -> Prop :=
| CbTop : climb [] (Fail TAG)
| CbHere d l a : level d (Some a) -> climb (d :: l) a
| CbUp d l a : level d None -> climb l a -> climb (d :: l) a.
Inductive climb_astray : list path -> Prop :=
| CaHere d l : level_astray d -> climb_astray (d :: l)
| CaUp d l : level d None -> climb_astray l -> climb_astray (d :: l).
End Level.

(** ** Requests *)
(** The place whose description is consulted first. *)
Definition first_place (base : path) (r : request) : path :=
  match r_kind r with Normal => join (join base MODULE) (r_target r) | _ => get_path (mkInfo base r) end.
Inductive reference (base : path) (r : request) : reply -> Prop :=
| RfBroken e : bad_desc (first_place base r) e -> reference base r (Fail e)
| RfPath opk q : has_desc (first_place base r) opk -> path_kind (r_kind r) -> names (get_path (mkInfo base r)) q ->
    reference base r (Found q (r_query r) (r_fragment r))
| RfNothing opk : has_desc (first_place base r) opk -> path_kind (r_kind r) -> nothing_at (get_path (mkInfo base r)) ->
    reference base r (Fail TAG)
| RfBare opk l a : has_desc (first_place base r) opk -> r_kind r = Normal -> up_chain base l -> climb r l a -> reference base r a.
Inductive astray (base : path) (r : request) : Prop :=
| AsPath opk : has_desc (first_place base r) opk -> path_kind (r_kind r) -> hollow (get_path (mkInfo base r)) -> astray base r
| AsBare opk l : has_desc (first_place base r) opk -> r_kind r = Normal -> up_chain base l -> climb_astray r l -> astray base r.
(** What is returned: symlinks are resolved, or the path is normalised; a search that found
    nothing is reported with the request and the directory. *)
Definition delivered (base : path) (r : request) (a : reply) : result rresult :=
  match a with
  | Found q qu fr =>
      if o_symlinks opts
      then match f_canon fs q with
           | Some p => Ok (RInfo (mkInfo p (mkReq [] qu fr Relative)))
           | None => Err (lit "Path normalized failed")
           end
      else Ok (RInfo (mkInfo (normalize_path_without_link q) (mkReq [] qu fr Relative)))
  | Fail e => Err (if str_eqb e TAG then lit "Resolve '" ++ request_display r ++ lit "' failed in '" ++ base ++ lit "'" else e)
  end.
(** The requests and options the reference speaks about. *)
Definition referred (base : path) (r : request) : Prop :=
  o_browser opts = false /\ no_remap R base (r_target r) /\ (path_kind (r_kind r) \/ r_kind r = Normal /\ forall n, package_name (r_target r) n -> r_target r <> n -> ascii_str n).
End Reference.

(** The same answer, up to the spelling of a path in an error message. *)
Definition agrees (d x : result rresult) : Prop :=
  match d, x with Ok a, Ok b => a = b | Err e, Err e' => respelled e e' | _, _ => False end.
Definition call_referred (c : call) : Prop :=
  match c with CResolve R _ base req => referred R base (parse req) | CSide _ _ _ => False end.
(** The outcome is that of the reference search: an answer is the one it leads to, unless the
    search goes astray; and if it leads to an answer, then this is given (and there is no panic). *)
Definition as_reference (fs : fsys) (c : call) (o : outcome answer) : Prop :=
  match c with
  | CResolve R _ base req =>
      (forall y, o = Done y -> ~ astray fs R base (parse req) ->
         exists a x, reference fs R base (parse req) a /\ y = AResolve x /\ agrees (delivered fs R base (parse req) a) x) /\
      (forall a, reference fs R base (parse req) a ->
         o = NoFuel \/ exists x, o = Done (AResolve x) /\ agrees (delivered fs R base (parse req) a) x)
  | CSide _ _ _ => False
  end.
