(** * Specifications for properties about whole resolutions.

    Attempts are functions from the tables to an outcome and the new tables, so that statements
    hold whatever the caches contain. *)
From Coq Require Import String.
From Coq Require Import List Arith NArith Bool.
From Verif Require Import Str Path Json Types Parse Prog Run Exec.
Import ListNotations.

Definition attempt := state -> outcome stats * state.

(** All the attempts fail (return, but not with a success), one after the other. *)
Inductive all_fail : state -> list attempt -> state -> Prop :=
| AFNil : forall st, all_fail st [] st
| AFCons : forall st a l s st1 st2, a st = (Done s, st1) -> is_success s = false ->
    all_fail st1 l st2 -> all_fail st (a :: l) st2.

(** [first_of l d st r st']: the attempts [l] are made in order; the first success is the
    result [r] and nothing more is done; if all fail, the result is that of [d].  A panic or a
    divergence of an attempt that is made is passed on. *)
Inductive first_of : list attempt -> attempt -> state -> outcome stats -> state -> Prop :=
| FOHit : forall l1 a l2 d st st1 s st', all_fail st l1 st1 -> a st1 = (Done s, st') -> is_success s = true ->
    first_of (l1 ++ a :: l2) d st (Done s) st'
| FOMiss : forall l d st st1 r st', all_fail st l st1 -> d st1 = (r, st') -> first_of l d st r st'
| FOPanic : forall l1 a l2 d st st1 m st', all_fail st l1 st1 -> a st1 = (Panicked m, st') ->
    first_of (l1 ++ a :: l2) d st (Panicked m) st'
| FOFuel : forall l1 a l2 d st st1 st', all_fail st l1 st1 -> a st1 = (NoFuel, st') ->
    first_of (l1 ++ a :: l2) d st NoFuel st'.

(** ** tsconfig *)

(** Pattern [A*B] matches [A ++ m ++ B], [m] not empty; the first star is the one that counts. *)
Definition star_matches (pattern search m : str) : Prop :=
  exists a b, pattern = a ++ [c_star] ++ b /\ ~ In c_star a /\ search = a ++ m ++ b /\ m <> [].

(** The pattern cuts no character in two: the bytes of what stands before the star are those of
    whole characters of the text, and, if they agree, so for what stands behind it. *)
Definition splits (pattern search : str) : Prop :=
  forall a b, pattern = a ++ [c_star] ++ b -> ~ In c_star a -> blen pattern <= blen search ->
    (exists x y, search = x ++ y /\ blen x = blen a) /\
    ((exists y, search = a ++ y) -> exists x y, search = x ++ y /\ blen y = blen b).

(** Every star of a location replaced by the matched text. *)
Inductive filled (m : str) : str -> str -> Prop :=
| FilledNil : filled m [] []
| FilledStar : forall p q, filled m p q -> filled m (c_star :: p) (m ++ q)
| FilledChar : forall c p q, c <> c_star -> filled m p q -> filled m (c :: p) (c :: q).

(** The locations to be tried for a request target, given the entries of [paths] (in iteration
    order, locations already joined to baseUrl). *)
Inductive ts_locations (target : str) : list (str * list path) -> list path -> Prop :=
| TLNil : ts_locations target [] []
| TLSame : forall ps r l l', Forall2 (filled []) ps l -> ts_locations target r l' ->
    ts_locations target ((target, ps) :: r) (l ++ l')
| TLStar : forall pat ps r m l l', pat <> target -> star_matches pat target m -> Forall2 (filled m) ps l ->
    ts_locations target r l' -> ts_locations target ((pat, ps) :: r) (l ++ l')
| TLSkip : forall pat ps r l, pat <> target -> (forall m, ~ star_matches pat target m) ->
    ts_locations target r l -> ts_locations target ((pat, ps) :: r) l.

(** The value [v] at key path [ks] of a JSON document. *)
Inductive json_at : json -> list str -> json -> Prop :=
| JAHere : forall j, json_at j [] j
| JAKey : forall l k v ks w, In (k, v) l -> json_at v ks w -> json_at (JObj l) (k :: ks) w.
(** No object has two entries for one key (true of every [serde_json::Map]). *)
Inductive json_nodup : json -> Prop :=
| JDNull : json_nodup JNull
| JDBool : forall b, json_nodup (JBool b)
| JDNum : forall s, json_nodup (JNum s)
| JDStr : forall s, json_nodup (JStr s)
| JDArr : forall l, json_nodup (JArr l)
| JDObj : forall l, NoDup (map fst l) -> Forall (fun kv => json_nodup (snd kv)) l -> json_nodup (JObj l).
Definition is_obj (j : json) : Prop := exists l, j = JObj l.

(** ** From the end of a resolution to the answer of the call

    A success is canonicalised (or normalised textually when symlinks are off); an error is
    returned as it is. *)
Definition final_answer (fs : fsys) (R : resolver) (r : outcome stats) : outcome (result rresult) :=
  match r with
  | Done (Success RIgnored) => Done (Ok RIgnored)
  | Done (Success (RInfo i)) =>
      if o_symlinks (rv_opts R)
      then match f_canon fs (i_path i) with
           | Some q => Done (Ok (RInfo (mkInfo q (i_req i))))
           | None => Done (Err (lit "Path normalized failed"))
           end
      else Done (Ok (RInfo (mkInfo (normalize_path_without_link (i_path i)) (i_req i))))
  | Done (SError e _) => Done (Err e)
  | Done (Resolving _) => Panicked p_unreachable
  | Panicked m => Panicked m
  | NoFuel => NoFuel
  end.

(** A tsconfig document whose compilerOptions has baseUrl [b] and the paths [m]. *)
Definition ts_sets (j : json) (b : str) (m : list (str * list str)) : Prop :=
  exists opts, jget j (lit "compilerOptions") = Some opts /\ jget opts (lit "baseUrl") = Some (JStr b) /\
    jget opts (lit "paths") = Some (JObj (map (fun kv => (fst kv, JArr (map JStr (snd kv)))) m)) /\
    NoDup (map fst m).

(** ** Options changed in one place *)
Definition with_opts (R : resolver) (o : options) : resolver :=
  mkResolver o (rv_cache R) (rv_id R) (rv_duration R) (rv_debug R) (rv_json R) (rv_jsonc R).
(** Without aliases and with prefer_relative off. *)
Definition plain_opts (o : options) : options :=
  mkOpts (o_extensions o) (o_enforce o) [] false (o_symlinks o) (o_desc o) (o_main_files o) (o_main_fields o)
    (o_browser o) (o_conditions o) (o_tsconfig o).
Definition plain (R : resolver) : resolver := with_opts R (plain_opts (rv_opts R)).
Definition no_alias_opts (o : options) : options :=
  mkOpts (o_extensions o) (o_enforce o) [] (o_prefer_relative o) (o_symlinks o) (o_desc o) (o_main_files o) (o_main_fields o)
    (o_browser o) (o_conditions o) (o_tsconfig o).
Definition prefer_off_opts (o : options) : options :=
  mkOpts (o_extensions o) (o_enforce o) (o_alias o) false (o_symlinks o) (o_desc o) (o_main_files o) (o_main_fields o)
    (o_browser o) (o_conditions o) (o_tsconfig o).

(** ** Aliases: which rewritten targets are to be tried for a target, and whether the search
    ends at an [Ignored] entry. *)
Definition prefix (p s : str) : Prop := exists r, s = p ++ r.
Inductive alias_plan (target : str) : list (str * alias_map) -> list str -> bool -> Prop :=
| APNil : alias_plan target [] [] false
| APOther : forall from to l cs b, ~ prefix from target -> alias_plan target l cs b ->
    alias_plan target ((from, to) :: l) cs b
| APIgnored : forall from l, prefix from target -> alias_plan target ((from, AIgnored) :: l) [] true
| APAlready : forall from to l cs b, prefix from target -> prefix to target -> alias_plan target l cs b ->
    alias_plan target ((from, ATarget to) :: l) cs b
| APRewrite : forall from to rest l cs b, target = from ++ rest -> ~ prefix to target -> alias_plan target l cs b ->
    alias_plan target ((from, ATarget to) :: l) ((to ++ rest) :: cs) b.

(** ** Files *)
Definition enforced (o : options) : Prop := o_enforce o = Some true.
(** The paths to be checked for a path, in order. *)
Definition file_candidates (o : options) (p : path) : list path :=
  (match o_enforce o with Some true => [] | _ => [p] end) ++ map (fun ext => p ++ ext) (o_extensions o).
(** The first candidate that is a file. *)
Definition first_file (fs : fsys) (l : list path) (q : path) : Prop :=
  exists l1 l2, l = l1 ++ q :: l2 /\ Forall (fun p => f_file fs p = false) l1 /\ f_file fs q = true.
Definition no_file (fs : fsys) (l : list path) : Prop := Forall (fun p => f_file fs p = false) l.

(** ** Browser field: the end of the chain of keys starting at a value *)
Inductive chain (get : str -> option alias_map) : alias_map -> alias_map -> Prop :=
| ChIgnored : chain get AIgnored AIgnored
| ChEnd : forall s, get s = None -> chain get (ATarget s) (ATarget s)
| ChStep : forall s v e, get s = Some v -> chain get v e -> chain get (ATarget s) e.

(** [k] is a browser key of package directory [dir] that concerns the request [i]: package
    names are compared as text, paths by components, with or without an extension. *)
Definition browser_key (o : options) (dir : path) (i : info) (k : str) : Prop :=
  match r_kind (i_req i) with
  | Normal => k = r_target (i_req i)
  | _ => components (join dir k) = components (get_path i) \/
         exists ext, In ext (o_extensions o) /\ components (join dir k) = components (get_path i ++ ext)
  end.
(** The browser field is off or has nothing to say about the request. *)
Definition browser_silent (o : options) (opk : option pkg) (i : info) : Prop :=
  o_browser o = false \/ forall pk k v, opk = Some pk -> In (k, v) (p_alias pk) -> ~ browser_key o (p_dir pk) i k.

(** ** What [resolve] makes of the end of its search: the internal "nothing found" becomes the
    generic message. *)
Definition settled (i : info) (r : outcome stats) : outcome stats :=
  match r with
  | Done (SError e ei) => Done (SError (if str_eqb e TAG then lit "Resolve '" ++ request_display (i_req i) ++ lit "' failed in '" ++ i_path i ++ lit "'" else e) ei)
  | Done (Resolving _) => Panicked p_unreachable
  | _ => r
  end.

(** ** Main fields: the strings of the configured fields, in order, up to one that is "." or "./";
    each as a relative path. *)
Definition dotted (m : str) : str := if starts_with m (lit "./") then m else lit "./" ++ m.
Inductive main_plan (j : json) : list str -> list str -> Prop :=
| MPNil : main_plan j [] []
| MPSkip : forall f l ms, (forall s, jget j f <> Some (JStr s)) -> main_plan j l ms -> main_plan j (f :: l) ms
| MPStop : forall f l m, jget j f = Some (JStr m) -> m = lit "." \/ m = lit "./" -> main_plan j (f :: l) []
| MPMain : forall f l m ms, jget j f = Some (JStr m) -> m <> lit "." -> m <> lit "./" -> main_plan j l ms ->
    main_plan j (f :: l) (dotted m :: ms).

(** ** node_modules: the directories from a path to the root *)
Inductive up_chain : path -> list path -> Prop :=
| UCRoot : forall p, parent p = None -> up_chain p [p]
| UCStep : forall p q l, parent p = Some q -> up_chain q l -> up_chain p (p :: l).

(** A bare specifier [t] is the package name [n] (two segments when scoped) and the subpath [s]
    inside the package, "." for the package itself. *)
Inductive bare_parts : str -> str -> str -> Prop :=
| BPBare : forall n, ~ In c_slash n -> starts_with_char n c_at = false -> bare_parts n n (lit ".")
| BPSub : forall n s, ~ In c_slash n -> starts_with_char n c_at = false -> bare_parts (n ++ c_slash :: s) n (lit "./" ++ s)
| BPScope : forall a n, ~ In c_slash a -> starts_with_char a c_at = true -> ~ In c_slash n ->
    bare_parts (a ++ c_slash :: n) (a ++ c_slash :: n) (lit ".")
| BPScopeSub : forall a n s, ~ In c_slash a -> starts_with_char a c_at = true -> ~ In c_slash n ->
    bare_parts (a ++ c_slash :: n ++ c_slash :: s) (a ++ c_slash :: n) (lit "./" ++ s).
(** The text handed to the exports field: query and fragment are part of it. *)
Definition exports_request (s q f : str) : str :=
  match q, f with [], [] => s | _, _ => (if str_eqb s (lit ".") then lit "./" else s) ++ q ++ f end.

(** Climbing: [level] answers for one directory (the [info] carries it): a decision (an early
    return [inl], or any [inr] that is not [Resolving]), or [inr (Resolving i1)]: go on with
    [i1] in the next directory. *)
Inductive walk (level : info -> state -> outcome (stats + stats) * state) : list path -> info -> state -> stats -> state -> Prop :=
| WTop : forall i st, walk level [] i st (SError TAG i) st
| WEarly : forall d l i st s st', level (mkInfo d (i_req i)) st = (Done (inl s), st') -> walk level (d :: l) i st s st'
| WDecides : forall d l i st s st', level (mkInfo d (i_req i)) st = (Done (inr s), st') -> (forall i1, s <> Resolving i1) ->
    walk level (d :: l) i st s st'
| WClimbs : forall d l i st i1 st1 s st', level (mkInfo d (i_req i)) st = (Done (inr (Resolving i1)), st1) ->
    walk level l i1 st1 s st' -> walk level (d :: l) i st s st'.

(** Levels that do not decide, one after the other. *)
Inductive all_pass (level : info -> state -> outcome (stats + stats) * state) : list path -> request -> state -> state -> Prop :=
| APsNil : forall r st, all_pass level [] r st st
| APsCons : forall d l r st i1 st1 st2, level (mkInfo d r) st = (Done (inr (Resolving i1)), st1) -> i_req i1 = r ->
    all_pass level l r st1 st2 -> all_pass level (d :: l) r st st2.

(** ** Requests *)
(** The same request (base directory, query, fragment) for another target. *)
Definition retarget (i : info) (t : str) : info := mkInfo (i_path i) (req_with_target (i_req i) t).
(** What prefer_relative asks for. *)
Definition prefer_list (R : resolver) (i : info) : list str :=
  if (o_prefer_relative (rv_opts R) && negb (starts_with (r_target (i_req i)) (lit "../") || starts_with (r_target (i_req i)) (lit "./")))%bool
  then [lit "./" ++ r_target (i_req i)] else [].
(** Paths, as opposed to package names and [#] requests; no alias, prefer_relative or tsconfig
    rule concerns the target. *)
Definition path_kind (k : kind) : Prop := k = Relative \/ k = AbsolutePosix \/ k = AbsoluteWin.
Definition no_remap (R : resolver) (base : path) (t : str) : Prop :=
  (o_alias (rv_opts R) = [] \/ contains base MODULE = true \/ Forall (fun a => ~ prefix (fst a) t) (o_alias (rv_opts R))) /\
  (o_prefer_relative (rv_opts R) = false \/ prefix (lit "./") t \/ prefix (lit "../") t) /\
  o_tsconfig (rv_opts R) = None.

(** ** Single options switched off *)
Definition no_alias (R : resolver) : resolver := with_opts R (no_alias_opts (rv_opts R)).
Definition prefer_off (R : resolver) : resolver := with_opts R (prefer_off_opts (rv_opts R)).
(** No alias concerns the target. *)
Definition alias_none (R : resolver) (base : path) (t : str) : Prop :=
  contains base MODULE = true \/ Forall (fun a => ~ prefix (fst a) t) (o_alias (rv_opts R)).

(** ** Answers *)
(** The success "this path, with the query and fragment of the request". *)
Definition picked (i : info) (q : path) : stats :=
  Success (RInfo (mkInfo q (mkReq [] (r_query (i_req i)) (r_fragment (i_req i)) Relative))).
Definition pick (fs : fsys) (l : list path) : option path := find (f_file fs) l.
(** A directory being entered. *)
Definition dir_info (i : info) : info :=
  mkInfo (get_path i) (mkReq [] (r_query (i_req i)) (r_fragment (i_req i)) Relative).
(** The paths checked for the main files of a directory, in order. *)
Definition main_file_paths (R : resolver) (dir : path) (files : list str) : list path :=
  flat_map (fun f => file_candidates (rv_opts R) (join dir (lit "./" ++ f))) files.
(** The first that is a file, or nothing. *)
Definition main_file_result (R : resolver) (fs : fsys) (i : info) : stats :=
  match pick fs (main_file_paths R (i_path i) (o_main_files (rv_opts R))) with Some q => picked i q | None => Resolving i end.
(** The operation that turns a found path into the answer. *)
Definition final_ops (fs : fsys) (R : resolver) (r : outcome stats) : list ev :=
  match r with
  | Done (Success (RInfo i)) => if o_symlinks (rv_opts R) then [mkev (OCanon (i_path i)) (f_canon fs (i_path i))] else []
  | _ => []
  end.
