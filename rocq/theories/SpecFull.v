(** * The whole reference search (C58): what a resolver answers, from the disk alone

    Relations between the file system, the options and what a request comes to, for all options
    together: aliases, prefer_relative, # requests, the browser field, exports fields, main fields
    and files, tsconfig.  No tables, no programs, no bounds. *)
From Coq Require Import String.
From Coq Require Import List Arith NArith Bool Permutation.
From Verif Require Import Str StrP Path Json Types Parse Map Prog Desc Resolve Run SpecRun SpecLoad SpecExports SpecCache SpecNode SpecWorld.
Import ListNotations.

(** What a request comes to: a file with the query and fragment to be reported, "ignored", a
    failure, a panic. *)
Inductive fate :=
| Finds (q : path) (query fragment : str)
| Skips
| Fails (e : str)
| Crashes.
(** Where a field leads: to a request in a directory, to an error, to "ignored", to a panic. *)
Inductive move :=
| Moves (d : path) (r : request)
| Stops (e : str)
| Drops
| Falls.
(** One relation after another. *)
Inductive after (P : path -> request -> move -> Prop) : move -> move -> Prop :=
| AfMoves d r y : P d r y -> after P (Moves d r) y
| AfStops e : after P (Stops e) (Stops e)
| AfDrops : after P Drops Drops
| AfFalls : after P Falls Falls.
Definition halts (y : move) : Prop := forall d r, y <> Moves d r.
(** The fate of a move that leads nowhere. *)
Inductive halted : move -> fate -> Prop :=
| HtStops e : halted (Stops e) (Fails e)
| HtDrops : halted Drops Skips
| HtFalls : halted Falls Crashes.

(** What a lookup of a description may come to: a description or none, an error, a panic. *)
Inductive reading :=
| Has (opk : option pkg)
| Bad (e : str)
| Fell.

(** The description that applies makes the loader panic (C15 says when). *)
Definition fallen_desc (fs : fsys) (R : resolver) (p : path) : Prop := exists m, lookup_desc fs (rv_json R) (o_desc (rv_opts R)) p = PPanic m.

Section Full.
Variables (w : world) (R : resolver).
Notation opts := (rv_opts R).
(** ** Files *)
Definition file_for (p q : path) : Prop :=
  exists l1 l2, file_candidates opts p = l1 ++ q :: l2 /\ Forall (fun x => w_file w x false) l1 /\ w_file w q true.
Definition no_file_for (p : path) : Prop := Forall (fun x => w_file w x false) (file_candidates opts p).

(** ** The browser field of the description [opk]: the first key that concerns the request, and
    the end of the chain of keys from its value on.  The new target is meant from the directory of
    the description. *)
Inductive swapped (opk : option pkg) (d : path) (r : request) : move -> Prop :=
| SwSilent : browser_silent opts opk (mkInfo d r) -> swapped opk d r (Moves d r)
| SwTo pk l1 k v l2 c : o_browser opts = true -> opk = Some pk -> p_alias pk = l1 ++ (k, v) :: l2 ->
    (forall k' v', In (k', v') l1 -> ~ browser_key opts (p_dir pk) (mkInfo d r) k') -> browser_key opts (p_dir pk) (mkInfo d r) k ->
    chain (imap_get (p_alias pk)) v (ATarget c) -> swapped opk d r (Moves (p_dir pk) (req_with_target r c))
| SwDrop pk l1 k v l2 : o_browser opts = true -> opk = Some pk -> p_alias pk = l1 ++ (k, v) :: l2 ->
    (forall k' v', In (k', v') l1 -> ~ browser_key opts (p_dir pk) (mkInfo d r) k') -> browser_key opts (p_dir pk) (mkInfo d r) k ->
    chain (imap_get (p_alias pk)) v AIgnored -> swapped opk d r Drops.

(** ** The exports field of a package asked for in node_modules of [d] *)
(** The subpath handed to the exports field is known. *)
Definition inquires (r : request) (d : path) (pk : pkg) (s : str) : Prop :=
  exists n, bare_parts (r_target r) n s /\ (s = lit "." -> w_exists w (join (join d MODULE) n) true \/ p_name pk = Some n).
(** A target that may be used: an existing file that the check for escaping targets accepts (what
    this check is worth is C33). *)
Definition fit (pk : pkg) (c : str) : Prop := w_file w (target_file pk c) true /\ check_target (r_target (parse c)) = PRet true.
Definition unfit (pk : pkg) (c : str) : Prop := w_file w (target_file pk c) false \/ check_target (r_target (parse c)) = PRet false.
Definition first_fit (pk : pkg) (l : list str) (c : str) : Prop :=
  exists l1 l2, l = l1 ++ c :: l2 /\ Forall (unfit pk) l1 /\ fit pk c.
Definition unexported (t : str) : str := lit "Package path " ++ t ++ lit " is not exported".
Inductive exported (d : path) (r : request) (opk : option pkg) : move -> Prop :=
| XpFree : (forall pk tree, ~ governed opk (r_target r) pk tree) -> exported d r opk (Moves (join d MODULE) r)
| XpFall pk tree : governed opk (r_target r) pk tree -> starts_with_char (r_target r) c_at = true -> ~ In c_slash (r_target r) ->
    exported d r opk Falls
| XpUnknown pk tree n : governed opk (r_target r) pk tree -> bare_parts (r_target r) n (lit ".") ->
    w_exists w (join (join d MODULE) n) false -> p_name pk <> Some n -> exported d r opk (Stops TAG)
| XpErr pk tree s e : governed opk (r_target r) pk tree -> inquires r d pk s -> chooses R r tree s (Err e) -> exported d r opk (Stops e)
| XpNone pk tree s l : governed opk (r_target r) pk tree -> inquires r d pk s -> chooses R r tree s (Ok l) ->
    Forall (unfit pk) l -> exported d r opk (Stops (unexported (r_target r)))
| XpHit pk tree s l c : governed opk (r_target r) pk tree -> inquires r d pk s -> chooses R r tree s (Ok l) ->
    first_fit pk l c -> exported d r opk (Moves (p_dir pk) (parse c)).

(** ** The imports field of the description [opk] *)
(** A target is taken only if it is a file that does not leave the package. *)
Inductive checked (t : str) (d : path) (r : request) : move -> Prop :=
| CkGood : w_file w (get_path (mkInfo d r)) true -> check_target (r_target r) = PRet true -> checked t d r (Moves d r)
| CkBad : w_file w (get_path (mkInfo d r)) false \/ check_target (r_target r) = PRet false -> checked t d r (Stops (unexported t)).
Definition selects (tree : ptn) (t : str) (x : result (list str)) : Prop :=
  field_process FImports tree t (o_conditions opts) = PRet x.
(** The first target that the imports field of [pk] has for a # request. *)
Definition first_item (pk : pkg) (r : request) (c : str) : Prop :=
  starts_with_char (r_target r) c_hash = true /\
  exists tree l, p_imports pk = Some tree /\ selects tree (r_target r) (Ok (c :: l)).
Definition item_place (pk : pkg) (c : str) : path := get_path (mkInfo (join (p_dir pk) MODULE) (parse c)).
(** What the rest depends on: the description that is in use for a path, and the order in which the
    entries of "paths" are read. *)
Variable desc : path -> reading -> Prop.
Variable order : list (str * list str) -> list (str * list str) -> Prop.
(** Other requests are left alone.  The target is a path, another # request, or a package. *)
Inductive imported : option pkg -> path -> request -> move -> Prop :=
| ImOther opk d r : starts_with_char (r_target r) c_hash = false -> imported opk d r (Moves d r)
| ImNone opk d r : (forall pk tree, opk = Some pk -> p_imports pk <> Some tree) -> imported opk d r (Moves d r)
| ImErr pk tree d r e : starts_with_char (r_target r) c_hash = true -> p_imports pk = Some tree ->
    selects tree (r_target r) (Err e) -> imported (Some pk) d r (Stops e)
| ImEmpty pk tree d r : starts_with_char (r_target r) c_hash = true -> p_imports pk = Some tree ->
    selects tree (r_target r) (Ok []) -> imported (Some pk) d r (Stops (unexported (r_target r)))
| ImPath pk d r c x : first_item pk r c -> path_kind (r_kind (parse c)) ->
    checked (r_target r) (p_dir pk) (parse c) x -> imported (Some pk) d r x
| ImHash pk d r c x : first_item pk r c -> r_kind (parse c) = Internal ->
    imported (Some pk) (p_dir pk) (parse c) x -> imported (Some pk) d r x
(* a package: its description cannot be used *)
| ImBroken pk d r c e : first_item pk r c -> r_kind (parse c) = Normal -> desc (item_place pk c) (Bad e) -> imported (Some pk) d r (Stops e)
| ImFallen pk d r c : first_item pk r c -> r_kind (parse c) = Normal -> desc (item_place pk c) Fell -> imported (Some pk) d r Falls
(* there is no description of its own in node_modules *)
| ImOutside pk d r c pk' : first_item pk r c -> r_kind (parse c) = Normal -> desc (item_place pk c) (Has (Some pk')) ->
    contains (p_dir pk') MODULE = false -> imported (Some pk) d r (Moves (join (p_dir pk) MODULE) (parse c))
(* its exports field decides, then its imports field and its browser field *)
| ImHalt pk d r c opk' x : first_item pk r c -> r_kind (parse c) = Normal -> desc (item_place pk c) (Has opk') ->
    (forall pk', opk' = Some pk' -> contains (p_dir pk') MODULE = true) ->
    exported (p_dir pk) (parse c) opk' x -> halts x -> imported (Some pk) d r x
| ImPackage pk d r c opk' d1 r1 y z x : first_item pk r c -> r_kind (parse c) = Normal -> desc (item_place pk c) (Has opk') ->
    (forall pk', opk' = Some pk' -> contains (p_dir pk') MODULE = true) ->
    exported (p_dir pk) (parse c) opk' (Moves d1 r1) -> imported opk' d1 r1 y -> after (swapped opk') y z ->
    after (checked (r_target r)) z x -> imported (Some pk) d r x.

(** ** Directories *)
(** The main files, in order, from [pos] on; the browser field may move the position. *)
Inductive indexes (opk : option pkg) : path -> request -> list str -> option fate -> Prop :=
| IxNone pos r : indexes opk pos r [] None
| IxDrop pos r f l : swapped opk pos (req_with_target r (lit "./" ++ f)) Drops -> indexes opk pos r (f :: l) (Some Skips)
| IxFile pos r f l d1 r1 q : swapped opk pos (req_with_target r (lit "./" ++ f)) (Moves d1 r1) ->
    file_for (get_path (mkInfo d1 r1)) q -> indexes opk pos r (f :: l) (Some (Finds q (r_query r1) (r_fragment r1)))
| IxMiss pos r f l d1 r1 x : swapped opk pos (req_with_target r (lit "./" ++ f)) (Moves d1 r1) ->
    no_file_for (get_path (mkInfo d1 r1)) -> indexes opk d1 r1 l x -> indexes opk pos r (f :: l) x.
(** There is nothing of use at [p]. *)
Definition lost (p : path) : Prop := no_file_for p /\ (w_dir w p false \/ exists e, desc p (Bad e)).
(** What stands for a directory: that to which the first main field leads that leads anywhere,
    else the first main file; maybe nothing. *)
Inductive stands : request -> path -> option fate -> Prop :=
| StMain r dir pk ms a : desc dir (Has (Some pk)) -> same_path dir (p_dir pk) -> main_plan (p_raw pk) (o_main_fields opts) ms ->
    leads pk dir (req_with_target r []) ms (Some a) -> stands r dir (Some a)
| StOwn r dir pk ms x : desc dir (Has (Some pk)) -> same_path dir (p_dir pk) -> main_plan (p_raw pk) (o_main_fields opts) ms ->
    leads pk dir (req_with_target r []) ms None -> indexes (Some pk) dir (req_with_target r []) (o_main_files opts) x -> stands r dir x
| StOther r dir pk x : desc dir (Has (Some pk)) -> ~ same_path dir (p_dir pk) ->
    indexes (Some pk) dir (req_with_target r []) (o_main_files opts) x -> stands r dir x
| StNone r dir x : desc dir (Has None) -> indexes None dir (req_with_target r []) (o_main_files opts) x -> stands r dir x
(** Main fields, from [pos] on.  One that leads to a directory for which nothing stands moves the
    position there. *)
with leads : pkg -> path -> request -> list str -> option fate -> Prop :=
| LdNone pk pos r : leads pk pos r [] None
| LdDrop pk pos r m ms : swapped (Some pk) pos (req_with_target r m) Drops -> leads pk pos r (m :: ms) (Some Skips)
| LdFile pk pos r m ms d1 r1 q : swapped (Some pk) pos (req_with_target r m) (Moves d1 r1) ->
    file_for (get_path (mkInfo d1 r1)) q -> leads pk pos r (m :: ms) (Some (Finds q (r_query r1) (r_fragment r1)))
| LdFall pk pos r m ms d1 r1 : swapped (Some pk) pos (req_with_target r m) (Moves d1 r1) -> no_file_for (get_path (mkInfo d1 r1)) ->
    w_dir w (get_path (mkInfo d1 r1)) true -> desc (get_path (mkInfo d1 r1)) Fell -> leads pk pos r (m :: ms) (Some Crashes)
| LdMiss pk pos r m ms d1 r1 x : swapped (Some pk) pos (req_with_target r m) (Moves d1 r1) -> lost (get_path (mkInfo d1 r1)) ->
    leads pk d1 r1 ms x -> leads pk pos r (m :: ms) x
| LdDir pk pos r m ms d1 r1 a : swapped (Some pk) pos (req_with_target r m) (Moves d1 r1) -> no_file_for (get_path (mkInfo d1 r1)) ->
    w_dir w (get_path (mkInfo d1 r1)) true -> stands r1 (get_path (mkInfo d1 r1)) (Some a) -> leads pk pos r (m :: ms) (Some a)
| LdDrift pk pos r m ms d1 r1 x : swapped (Some pk) pos (req_with_target r m) (Moves d1 r1) -> no_file_for (get_path (mkInfo d1 r1)) ->
    w_dir w (get_path (mkInfo d1 r1)) true -> stands r1 (get_path (mkInfo d1 r1)) None ->
    leads pk (get_path (mkInfo d1 r1)) (req_with_target r1 []) ms x -> leads pk pos r (m :: ms) x.
(** What is seen at a path: a file or what stands for a directory, a directory for which nothing
    stands, nothing of use. *)
Inductive sight :=
| Sees (a : fate)
| Hollow
| Lacks (e : str).
Inductive place (r : request) (p : path) : sight -> Prop :=
| PlFile q : file_for p q -> place r p (Sees (Finds q (r_query r) (r_fragment r)))
| PlDir a : no_file_for p -> w_dir w p true -> stands r p (Some a) -> place r p (Sees a)
| PlHollow : no_file_for p -> w_dir w p true -> stands r p None -> place r p Hollow
| PlNothing : no_file_for p -> w_dir w p false -> place r p (Lacks TAG)
| PlBroken e : no_file_for p -> w_dir w p true -> desc p (Bad e) -> place r p (Lacks e)
| PlFallen : no_file_for p -> w_dir w p true -> desc p Fell -> place r p (Sees Crashes).

(** ** The climb through node_modules *)
(** The text before the slash that ends the package name, if there is one. *)
Inductive head (t : str) : option str -> Prop :=
| HdWhole : ~ In c_slash t -> head t None
| HdScope a n : t = a ++ c_slash :: n -> starts_with_char a c_at = true -> ~ In c_slash a -> ~ In c_slash n -> head t None
| HdCut n s : t = n ++ c_slash :: s -> starts_with_char t c_at = false -> ~ In c_slash n -> head t (Some n)
| HdScopeCut a n s : t = a ++ c_slash :: n ++ c_slash :: s -> starts_with_char a c_at = true -> ~ In c_slash a -> ~ In c_slash n ->
    head t (Some (a ++ c_slash :: n)).
(** The directory that is looked for: as many bytes of the target as this text has characters;
    [None] if they do not end between two characters. *)
Inductive folder (t : str) : option str -> Prop :=
| FoWhole : head t None -> folder t (Some t)
| FoCut h n : head t (Some h) -> prefix n t -> blen n = length h -> folder t (Some n)
| FoTorn h : head t (Some h) -> (forall n, prefix n t -> blen n <> length h) -> folder t None.
(** What comes of one directory: a decision, or the request to be taken to the next. *)
Inductive verdict :=
| Settles (a : fate)
| Climbs (r : request).
Definition stopped (r : request) (e : str) : verdict := if str_eqb e TAG then Climbs r else Settles (Fails e).
(** The exports field concerns packages only. *)
Inductive passed (opk : option pkg) (d : path) (r : request) : move -> Prop :=
| PsBare y z : r_kind r = Normal -> exported d r opk y -> after (imported opk) y z -> passed opk d r z
| PsOther z : r_kind r <> Normal -> imported opk (join d MODULE) r z -> passed opk d r z.
Definition dotted_request (r : request) : request :=
  match r_kind r with Normal => req_with_target r (lit "./" ++ r_target r) | _ => r end.
(** The package is looked into. *)
Definition enters (d : path) (r : request) (opk : option pkg) : Prop :=
  w_dir w (join d MODULE) true /\ desc (join (join d MODULE) (r_target r)) (Has opk) /\
  exists n, folder (r_target r) (Some n) /\ (w_dir w (join (join d MODULE) n) true \/ own_name opk (r_target r)).
Inductive rung (d : path) (r : request) : verdict -> Prop :=
(* no node_modules here *)
| RgAbsent : w_dir w (join d MODULE) false -> rung d r (Climbs r)
| RgTorn : w_dir w (join d MODULE) true -> folder (r_target r) None -> rung d r (Settles Crashes)
(* the description cannot be used *)
| RgBroken n e : w_dir w (join d MODULE) true -> folder (r_target r) (Some n) ->
    desc (join (join d MODULE) (r_target r)) (Bad e) -> rung d r (Settles (Fails e))
| RgFallen n : w_dir w (join d MODULE) true -> folder (r_target r) (Some n) ->
    desc (join (join d MODULE) (r_target r)) Fell -> rung d r (Settles Crashes)
(* no such package: a file of this name *)
| RgFile opk n q : w_dir w (join d MODULE) true -> desc (join (join d MODULE) (r_target r)) (Has opk) -> folder (r_target r) (Some n) ->
    w_dir w (join (join d MODULE) n) false -> ~ own_name opk (r_target r) -> file_for (get_path (mkInfo (join d MODULE) r)) q ->
    rung d r (Settles (Finds q (r_query r) (r_fragment r)))
| RgNoFile opk n : w_dir w (join d MODULE) true -> desc (join (join d MODULE) (r_target r)) (Has opk) -> folder (r_target r) (Some n) ->
    w_dir w (join (join d MODULE) n) false -> ~ own_name opk (r_target r) -> no_file_for (get_path (mkInfo (join d MODULE) r)) ->
    rung d r (Climbs r)
(* the fields decide *)
| RgStops opk y e : enters d r opk -> passed opk d r y -> after (fun d r => swapped opk d (dotted_request r)) y (Stops e) -> rung d r (stopped r e)
| RgHalts opk y z a : enters d r opk -> passed opk d r y -> after (fun d r => swapped opk d (dotted_request r)) y z ->
    halted z a -> (forall e, z <> Stops e) -> rung d r (Settles a)
(* or lead to a path *)
| RgSees opk y d' r' a : enters d r opk -> passed opk d r y -> after (fun d r => swapped opk d (dotted_request r)) y (Moves d' r') ->
    place r' (get_path (mkInfo d' r')) (Sees a) -> rung d r (Settles a)
| RgLacks opk y d' r' e : enters d r opk -> passed opk d r y -> after (fun d r => swapped opk d (dotted_request r)) y (Moves d' r') ->
    place r' (get_path (mkInfo d' r')) (Lacks e) -> rung d r (stopped r e)
(* a package for which nothing stands: the climb goes on with an empty request *)
| RgHollow opk y d' r' : enters d r opk -> passed opk d r y -> after (fun d r => swapped opk d (dotted_request r)) y (Moves d' r') ->
    place r' (get_path (mkInfo d' r')) Hollow -> rung d r (Climbs (req_with_target r' [])).
Inductive ascent : list path -> request -> fate -> Prop :=
| AsTop r : ascent [] r (Fails TAG)
| AsHere d l r a : rung d r (Settles a) -> ascent (d :: l) r a
| AsUp d l r r' a : rung d r (Climbs r') -> ascent l r' a -> ascent (d :: l) r a.

(** ** The search proper *)
Inductive ends (d : path) (r : request) : fate -> Prop :=
| EnSees a : path_kind (r_kind r) -> place r (get_path (mkInfo d r)) (Sees a) -> ends d r a
| EnLacks e : path_kind (r_kind r) -> place r (get_path (mkInfo d r)) (Lacks e) -> ends d r (Fails e)
(* a directory for which nothing stands: [unreachable!] *)
| EnHollow : path_kind (r_kind r) -> place r (get_path (mkInfo d r)) Hollow -> ends d r Crashes
| EnClimb l a : ~ path_kind (r_kind r) -> up_chain d l -> ascent l r a -> ends d r a.
Inductive sought (base : path) (r : request) : fate -> Prop :=
| SeBroken e : desc (first_place base r) (Bad e) -> sought base r (Fails e)
| SeFallen : desc (first_place base r) Fell -> sought base r Crashes
| SeHalts opk y z a : desc (first_place base r) (Has opk) -> imported opk base r y -> after (swapped opk) y z -> halted z a -> sought base r a
| SeEnds opk y d r' a : desc (first_place base r) (Has opk) -> imported opk base r y -> after (swapped opk) y (Moves d r') ->
    ends d r' a -> sought base r a.

(** ** Aliases and prefer_relative *)
(** The relative spelling of a target, if it is to be tried. *)
Inductive nearby (t : str) : list str -> Prop :=
| NbNo : o_prefer_relative opts = false \/ prefix (lit "./") t \/ prefix (lit "../") t -> nearby t []
| NbYes : o_prefer_relative opts = true -> ~ prefix (lit "./") t -> ~ prefix (lit "../") t -> nearby t [lit "./" ++ t].
(** The targets to be tried before the search proper, in order, and whether an alias to "ignored"
    ends the matter.  Aliases do not concern directories whose name contains node_modules. *)
Inductive trials (base : path) (t : str) : list str -> bool -> Prop :=
| TrIgnored cs : contains base MODULE = false -> alias_plan t (o_alias opts) cs true -> trials base t cs true
| TrAliases cs l : contains base MODULE = false -> alias_plan t (o_alias opts) cs false -> nearby t l -> trials base t (cs ++ l) false
| TrModules l : contains base MODULE = true -> nearby t l -> trials base t l false.
(** A search that found nothing is reported with the request and the directory. *)
Definition reported (base : path) (r : request) (a : fate) : fate :=
  match a with
  | Fails e => Fails (if str_eqb e TAG then lit "Resolve '" ++ request_display r ++ lit "' failed in '" ++ base ++ lit "'" else e)
  | _ => a
  end.
(** The first trial that does not fail counts, else the search proper. *)
Inductive seek : path -> request -> fate -> Prop :=
| SkTrial base r cs b a : trials base (r_target r) cs b -> tried base r cs (Some a) -> seek base r a
| SkIgnored base r cs : trials base (r_target r) cs true -> tried base r cs None -> seek base r Skips
| SkSearch base r cs a : trials base (r_target r) cs false -> tried base r cs None -> sought base r a -> seek base r (reported base r a)
with tried : path -> request -> list str -> option fate -> Prop :=
| TdNone base r : tried base r [] None
| TdHit base r c cs a : seek base (req_with_target r c) a -> (forall e, a <> Fails e) -> tried base r (c :: cs) (Some a)
| TdMiss base r c cs e x : seek base (req_with_target r c) (Fails e) -> tried base r cs x -> tried base r (c :: cs) x.

(** ** tsconfig *)
(** The value of a configuration file, with those it extends merged in (C46 says how); [None] for
    a panic. *)
Inductive config : path -> option (result json) -> Prop :=
| CfUnread loc : w_read w loc None -> config loc (Some (Err (lit "Open " ++ loc ++ lit " failed")))
| CfMalformed loc s e : w_read w loc (Some s) -> rv_jsonc R s = JCErr e ->
    config loc (Some (Err (lit "Parse " ++ loc ++ lit " failed. Error: " ++ e)))
| CfVoid loc s : w_read w loc (Some s) -> rv_jsonc R s = JCNone -> config loc None
| CfAlone loc s j : w_read w loc (Some s) -> rv_jsonc R s = JCVal j -> (forall x, jget j (lit "extends") <> Some (JStr x)) ->
    config loc (Some (Ok j))
| CfRootless loc s j x : w_read w loc (Some s) -> rv_jsonc R s = JCVal j -> jget j (lit "extends") = Some (JStr x) ->
    parent loc = None -> config loc None
| CfExtends loc s j x dir q qu fr b : w_read w loc (Some s) -> rv_jsonc R s = JCVal j -> jget j (lit "extends") = Some (JStr x) ->
    parent loc = Some dir -> seek dir (parse x) (Finds q qu fr) -> config q (Some (Ok b)) -> config loc (Some (Ok (merge j b)))
| CfPassed loc s j x dir q qu fr e : w_read w loc (Some s) -> rv_jsonc R s = JCVal j -> jget j (lit "extends") = Some (JStr x) ->
    parent loc = Some dir -> seek dir (parse x) (Finds q qu fr) -> config q (Some (Err e)) -> config loc (Some (Err e))
| CfBelow loc s j x dir q qu fr : w_read w loc (Some s) -> rv_jsonc R s = JCVal j -> jget j (lit "extends") = Some (JStr x) ->
    parent loc = Some dir -> seek dir (parse x) (Finds q qu fr) -> config q None -> config loc None
| CfSkipped loc s j x dir : w_read w loc (Some s) -> rv_jsonc R s = JCVal j -> jget j (lit "extends") = Some (JStr x) ->
    parent loc = Some dir -> seek dir (parse x) Skips -> config loc (Some (Err (x ++ lit " had been ignored in " ++ loc)))
| CfMissing loc s j x dir e : w_read w loc (Some s) -> rv_jsonc R s = JCVal j -> jget j (lit "extends") = Some (JStr x) ->
    parent loc = Some dir -> seek dir (parse x) (Fails e) -> config loc (Some (Ok j))
| CfCrashes loc s j x dir : w_read w loc (Some s) -> rv_jsonc R s = JCVal j -> jget j (lit "extends") = Some (JStr x) ->
    parent loc = Some dir -> seek dir (parse x) Crashes -> config loc None.
(** Without both baseUrl and paths nothing is mapped. *)
Definition no_mapping (j : json) : Prop :=
  jget j (lit "compilerOptions") = None \/
  exists o, jget j (lit "compilerOptions") = Some o /\
    (jget o (lit "baseUrl") = None \/ jget o (lit "paths") = None) /\
    (jget o (lit "baseUrl") = None \/ exists b, jget o (lit "baseUrl") = Some (JStr b)) /\
    (jget o (lit "paths") = None \/ exists m, jget o (lit "paths") = Some (JObj (map (fun kv : str * list str => (fst kv, JArr (map JStr (snd kv)))) m))).
(** A pattern that is not compared with the target: one of them would be cut inside a character. *)
Definition tears (pat t : str) : Prop :=
  exists a b, pat = a ++ [c_star] ++ b /\ ~ In c_star a /\ blen pat <= blen t /\
    ((forall n, prefix n t -> blen n <> blen a) \/ prefix a t /\ forall n s, t = n ++ s -> blen s <> blen b).
(** The locations for a target, up to such a pattern ([true]). *)
Inductive ts_tries (t : str) : list (str * list path) -> list path -> bool -> Prop :=
| TtNil : ts_tries t [] [] false
| TtSame ps r l l' b : Forall2 (filled []) ps l -> ts_tries t r l' b -> ts_tries t ((t, ps) :: r) (l ++ l') b
| TtStar pat ps r m l l' b : pat <> t -> star_matches pat t m -> Forall2 (filled m) ps l -> ts_tries t r l' b ->
    ts_tries t ((pat, ps) :: r) (l ++ l') b
| TtSkip pat ps r l b : pat <> t -> (forall m, ~ star_matches pat t m) -> ~ tears pat t -> ts_tries t r l b -> ts_tries t ((pat, ps) :: r) l b
| TtTorn pat ps r : pat <> t -> tears pat t -> ts_tries t ((pat, ps) :: r) [] true.
(** The locations the configuration in [loc] has for a target. *)
Inductive mapped (loc : path) (j : json) (t : str) : list path -> bool -> Prop :=
| MpSets dir b m m' locs torn : parent loc = Some dir -> ts_sets j b m -> order m m' ->
    ts_tries t (map (fun kv => (fst kv, map (join (join dir b)) (snd kv))) m') locs torn -> mapped loc j t locs torn
| MpNone dir : parent loc = Some dir -> no_mapping j -> mapped loc j t [] false.
(** The first location that does not fail. *)
Inductive located : list path -> option fate -> Prop :=
| LcNone : located [] None
| LcHit p l a : seek p empty_request a -> (forall e, a <> Fails e) -> located (p :: l) (Some a)
| LcMiss p l e x : seek p empty_request (Fails e) -> located l x -> located (p :: l) x.

(** ** Calls *)
Inductive arrives (base : path) (r : request) : fate -> Prop :=
| CtPlain a : o_tsconfig opts = None -> seek base r a -> arrives base r a
| CtBroken loc e : o_tsconfig opts = Some loc -> config loc (Some (Err e)) -> arrives base r (Fails e)
| CtCrashes loc : o_tsconfig opts = Some loc -> config loc None -> arrives base r Crashes
(* baseUrl or paths is of another form *)
| CtMalformed loc j : o_tsconfig opts = Some loc -> config loc (Some (Ok j)) -> (forall b m, ~ ts_sets j b m) -> ~ no_mapping j ->
    arrives base r Crashes
| CtRootless loc j : o_tsconfig opts = Some loc -> config loc (Some (Ok j)) -> parent loc = None -> arrives base r Crashes
| CtMapped loc j locs torn a : o_tsconfig opts = Some loc -> config loc (Some (Ok j)) -> mapped loc j (r_target r) locs torn ->
    located locs (Some a) -> arrives base r a
| CtTorn loc j locs : o_tsconfig opts = Some loc -> config loc (Some (Ok j)) -> mapped loc j (r_target r) locs true ->
    located locs None -> arrives base r Crashes
| CtRest loc j locs a : o_tsconfig opts = Some loc -> config loc (Some (Ok j)) -> mapped loc j (r_target r) locs false ->
    located locs None -> seek base r a -> arrives base r a.
(** What is returned. *)
Inductive returned : fate -> option (result rresult) -> Prop :=
| RtReal q qu fr p : o_symlinks opts = true -> w_canon w q (Some p) -> returned (Finds q qu fr) (Some (Ok (RInfo (mkInfo p (mkReq [] qu fr Relative)))))
| RtUnreal q qu fr : o_symlinks opts = true -> w_canon w q None -> returned (Finds q qu fr) (Some (Err (lit "Path normalized failed")))
| RtPlain q qu fr : o_symlinks opts = false ->
    returned (Finds q qu fr) (Some (Ok (RInfo (mkInfo (normalize_path_without_link q) (mkReq [] qu fr Relative)))))
| RtSkips : returned Skips (Some (Ok RIgnored))
| RtFails e : returned (Fails e) (Some (Err e))
| RtCrashes : returned Crashes None.
End Full.
(** ** One order of the entries, descriptions as they are on the disk *)
Definition fresh (fs : fsys) (R : resolver) (p : path) (x : reading) : Prop :=
  match x with
  | Has opk => has_desc fs R p opk
  | Bad e => bad_desc fs R p e
  | Fell => fallen_desc fs R p
  end.
Definition comes_to (fs : fsys) (R : resolver) : path -> request -> fate -> Prop := arrives (standing fs) R (fresh fs R) eq.
(** ** Any order of the entries
    A description may have been read under another spelling of its directory, its browser field has
    the order that was drawn when it was read, and "paths" has the order that is drawn in the call. *)
Inductive read_as : option pkg -> option pkg -> Prop :=
| RaNone : read_as None None
| RaSome pk d l : same_path (p_dir pk) d -> Permutation (p_alias pk) l ->
    read_as (Some pk) (Some (mkPkg d (p_name pk) (p_version pk) l (p_exports pk) (p_imports pk) (p_side pk) (p_raw pk))).
Definition some_desc (fs : fsys) (R : resolver) (p : path) (x : reading) : Prop :=
  match x with
  | Has opk => exists opk0, has_desc fs R p opk0 /\ read_as opk0 opk
  | Bad e => bad_desc fs R p e
  | Fell => fallen_desc fs R p
  end.
Definition may_come_to (fs : fsys) (R : resolver) : path -> request -> fate -> Prop := arrives (standing fs) R (some_desc fs R) (@Permutation _).

(** The configuration files, if there are any, have no two entries for one key. *)
Definition values_nodup (R : resolver) : Prop :=
  o_tsconfig (rv_opts R) <> None -> forall s j, rv_jsonc R s = JCVal j -> json_nodup j.
(** The calls that are described: browser fields and "paths" have at most one entry that concerns
    a request (the order of the entries is not determined otherwise, C27), and configuration files
    have no two entries for one key. *)
Definition described (fs : fsys) (c : call) : Prop :=
  match c with
  | CResolve R _ _ req => browser_clear fs (rv_json R) R /\
      values_nodup R /\
      patterns_clear fs R (r_target (parse req))
  | CSide _ _ _ => False
  end.
(** What a fate gives the caller. *)
Definition delivers (fs : fsys) (R : resolver) (a : fate) (o : outcome answer) : Prop :=
  exists y, returned (standing fs) R a y /\
    match y with
    | Some x => exists x', o = Done (AResolve x') /\ agrees x x'
    | None => exists m, o = Panicked m
    end.
(** To the letter. *)
Definition gives (w : world) (R : resolver) (a : fate) (o : outcome answer) : Prop :=
  exists y, returned w R a y /\
    match y with
    | Some x => o = Done (AResolve x)
    | None => exists m, o = Panicked m
    end.
(** The outcome, if the bound on the steps lets there be one, is that of the reference. *)
Definition as_described (fs : fsys) (c : call) (o : outcome answer) : Prop :=
  match c with
  | CResolve R _ base req => o = NoFuel \/ exists a, comes_to fs R base (parse req) a /\ delivers fs R a o
  | CSide _ _ _ => False
  end.
(** What is allowed for a side-effects call. *)
Inductive side_allowed (R : resolver) (desc : path -> reading -> Prop) (p : path) : outcome answer -> Prop :=
| SaBound : side_allowed R desc p NoFuel
| SaNone : desc p (Has None) -> side_allowed R desc p (Done (ASide (Ok None)))
| SaSome pk name : desc p (Has (Some pk)) -> o_desc (rv_opts R) = Some name ->
    side_allowed R desc p (Done (ASide (Ok (Some (join (p_dir pk) name, p_side pk)))))
| SaBroken e : desc p (Bad e) -> side_allowed R desc p (Done (ASide (Err e)))
| SaFallen m : desc p Fell -> side_allowed R desc p (Panicked m).
Definition keyed (c : call) : Prop := match c with CResolve R _ _ _ => values_nodup R | CSide _ _ _ => True end.
(** The outcome is one that the reference allows, with descriptions such as [desc] says. *)
Definition allowed (desc : resolver -> path -> reading -> Prop) (w : world) (c : call) (o : outcome answer) : Prop :=
  match c with
  | CResolve R _ base req => o = NoFuel \/ exists a, arrives w R (desc R) (@Permutation _) base (parse req) a /\ gives w R a o
  | CSide R _ p => side_allowed R (desc R) p o
  end.
Definition as_allowed (fs : fsys) : call -> outcome answer -> Prop := allowed (some_desc fs) (standing fs).
