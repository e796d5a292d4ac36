(** * tsconfig: pattern matching, extends, order of the attempts (C44-C47). *)
From Coq Require Import String.
From Coq Require Import List Arith NArith Bool.
From Verif Require Import Str StrP Path Json Types Parse Map Prog Desc Resolve Top Run Posix Demo SpecRun TsP WitnessP PropTsP.
Import ListNotations.

(** C44.  For all strings: the pattern matches with text [m] exactly when it is [A*B] and the
    request is [A m B], [m] not empty. *)
Theorem C44_star : forall pattern search m,
  match_star pattern search = PRet (Some m) <-> star_matches pattern search m.
Proof. exact p_C44_star. Qed.
Print Assumptions C44_star.
(** On ASCII strings the function always returns (for others it may panic, see C15, but only
    when there is no match, by the theorem above). *)
Theorem C44_star_ascii_total : forall pattern search, ascii_str pattern -> ascii_str search ->
  (exists m, star_matches pattern search m /\ match_star pattern search = PRet (Some m)) \/
  ((forall m, ~ star_matches pattern search m) /\ match_star pattern search = PRet None).
Proof. exact p_C44_star_ascii_total. Qed.
Print Assumptions C44_star_ascii_total.
(** In general the match ends if and only if the search string splits at the byte lengths of the
    two sides of the star (otherwise: a panic, C15). *)
Theorem C44_star_total : forall pattern search, (exists r, match_star pattern search = PRet r) <-> splits pattern search.
Proof. exact p_C44_star_total. Qed.
Print Assumptions C44_star_total.
Example C44_star_total_ex : (splits (26085 :: lit "/*") (26085 :: lit "/a") /\ match_star (26085 :: lit "/*") (26085 :: lit "/a") = PRet (Some (lit "a")) /\
  ~ splits (lit "a*") [26085] /\ exists m, match_star (lit "a*") [26085] = PPanic m)%N%string.
Proof. exact p_C44_star_total_ex. Qed.
Example C44_ex : (match_star (lit "@lib/*.js") (lit "@lib/a/b.js") = PRet (Some (lit "a/b")) /\
  match_star (lit "@lib/*") (lit "@lib/") = PRet None /\ match_star (lit "lib") (lit "lib") = PRet None)%string.
Proof. exact p_C44_ex. Qed.

(** C45.  With baseUrl [b] and paths [m] in the effective document [j], the locations of the
    matching patterns (in the map's iteration order) are tried in order, the first success is
    the answer, and otherwise the ordinary resolution of the request decides.  The statement
    holds for any contents of the tables [st] and any fuel; [resolve_ R _ fuel (mkInfo p
    empty_request)] is the resolution of location [p], [resolve_ R _ fuel (mkInfo base (parse
    req))] the ordinary resolution. *)
Theorem C45_paths_first : forall fs R fuel base req loc dir b m j st st1 locs r st', rv_debug R = false ->
  o_tsconfig (rv_opts R) = Some loc -> parent loc = Some dir ->
  run fs (parse_file_to_value R (load_pkg_file R fuel) fuel loc) st = (Done (Ok j), st1) -> ts_sets j b m ->
  Forall (fun e => splits (fst e) (r_target (parse req))) m ->
  ts_locations (r_target (parse req))
    (map (fun kv => (fst kv, map (join (join dir b)) (snd kv))) (permute (s_ord st1 0) m)) locs ->
  run fs (resolve R fuel base req) st = (r, st') ->
  exists r0, first_of (map (fun p => run fs (resolve_ R (load_pkg_file R fuel) fuel (mkInfo p empty_request))) locs)
    (run fs (resolve_ R (load_pkg_file R fuel) fuel (mkInfo base (parse req))))
    (snd (step fs st1 OOrder)) r0 st' /\ r = final_answer fs R r0.
Proof. exact p_C45_paths_first. Qed.
Print Assumptions C45_paths_first.
(** The list of locations always exists. *)
Theorem C45_locations_exist : forall t l, Forall (fun e : str * list path => splits (fst e) t) l ->
  exists locs, ts_locations t l locs.
Proof. exact ts_locations_total. Qed.
Print Assumptions C45_locations_exist.
(** Without baseUrl the answer is that of ordinary resolution. *)
Theorem C45_no_base_url : forall fs R fuel base req loc j st st1, rv_debug R = false ->
  o_tsconfig (rv_opts R) = Some loc -> parent loc <> None ->
  run fs (parse_file_to_value R (load_pkg_file R fuel) fuel loc) st = (Done (Ok j), st1) ->
  (forall opts, jget j (lit "compilerOptions") = Some opts -> jget opts (lit "baseUrl") = None /\
     (jget opts (lit "paths") = None \/ exists m, jget opts (lit "paths") = Some (JObj (map (fun kv => (fst kv, JArr (map JStr (snd kv)))) m)) /\ NoDup (map fst m))) ->
  run fs (resolve R fuel base req) st =
  let (r, st') := run fs (resolve_ R (load_pkg_file R fuel) fuel (mkInfo base (parse req))) st1 in (final_answer fs R r, st').
Proof. exact p_C45_no_base_url. Qed.
Print Assumptions C45_no_base_url.
Example C45_ex : (
  ts_sets doc45 (lit ".") [(lit "l*", [lit "./no"; lit "./x"]); (lit "*b", [lit "./y"])] /\
  ts_locations (lit "lib") [(lit "l*", [lit "/r/./no"; lit "/r/./x*"]); (lit "*b", [lit "/r/./y"])] [lit "/r/./no"; lit "/r/./xib"; lit "/r/./y"] /\
  ends_at (res w27 (mkR (with_tsconfig dflt (Some (lit "/r/tsconfig.json"))) [("P", O []); ("T", doc45)]) "/r" "lib") "/r/x.js")%string.
Proof. exact p_C45_ex. Qed.

(** C46.  For documents without repeated keys (all [serde_json] values): a value set in the
    extending document stays (null counts as unset). *)
Theorem C46_extending_wins : forall ks a b v, json_nodup a -> json_nodup b ->
  json_at a ks v -> v <> JNull -> ~ is_obj v -> json_at (merge a b) ks v.
Proof. exact merge_keeps. Qed.
Print Assumptions C46_extending_wins.
(** What it leaves unset is inherited. *)
Theorem C46_inherited : forall ks a b v, json_nodup a -> json_nodup b -> json_at b ks v ->
  (forall w, json_at a ks w -> w = JNull) ->
  (forall ks1 ks2 w, ks = ks1 ++ ks2 -> ks2 <> [] -> json_at a ks1 w -> w = JNull \/ is_obj w) ->
  json_at (merge a b) ks v.
Proof. exact p_C46_inherited. Qed.
Print Assumptions C46_inherited.
(** Nothing else appears. *)
Theorem C46_nothing_invented : forall ks a b v, json_nodup a -> json_nodup b ->
  json_at (merge a b) ks v -> ~ is_obj v -> json_at a ks v \/ json_at b ks v.
Proof. exact merge_only. Qed.
Print Assumptions C46_nothing_invented.
(** Objects are merged key by key: the extending document's keys first, in its order. *)
Theorem C46_key_order : forall la lb, NoDup (map fst lb) -> exists l, merge (JObj la) (JObj lb) = JObj l /\
  map fst l = map fst la ++ filter (fun k => negb (mem k (map fst la))) (map fst lb).
Proof. exact p_C46_key_order. Qed.
Print Assumptions C46_key_order.
(** Following extends: the document is merged with the value of the file that the extends text
    resolves to from the document's directory; a text that does not resolve is skipped. *)
Theorem C46_extends_followed : forall fs R load f loc dir s j e st i st1 base st2,
  f_read fs loc = Some s -> rv_jsonc R s = JCVal j ->
  jget j (lit "extends") = Some (JStr e) -> parent loc = Some dir ->
  run fs (resolve_ R load (S f) (mkInfo dir (parse e))) st = (Done (Success (RInfo i)), st1) ->
  run fs (parse_file_to_value R load f (get_path i)) st1 = (Done (Ok base), st2) ->
  run fs (parse_file_to_value R load (S f) loc) st = (Done (Ok (merge j base)), st2).
Proof. exact parse_extends. Qed.
Print Assumptions C46_extends_followed.
Example C46_ex : (exists st1 st2,
  run w47 (resolve_ R47 (load_pkg_file R47 40) 40 (mkInfo (lit "/r") (parse (lit "./base/tsconfig.json")))) st0 =
    (Done (Success (RInfo (mkInfo (lit "/r/./base/tsconfig.json") (mkReq [] [] [] Relative)))), st1) /\
  run w47 (parse_file_to_value R47 (load_pkg_file R47 40) 40 (lit "/r/tsconfig.json")) st0 =
    (Done (Ok (O [("extends", S_ "./base/tsconfig.json"); ("compilerOptions", O [("baseUrl", S_ "./src"); ("paths", O [("lib/*", JArr [S_ "*"])])])])), st2) /\
  merge (O [("a", S_ "1"); ("o", O [("x", S_ "2"); ("n", JNull)])]) (O [("b", S_ "3"); ("o", O [("x", S_ "9"); ("y", S_ "4"); ("n", S_ "5")])]) =
  O [("a", S_ "1"); ("o", O [("x", S_ "2"); ("n", S_ "5"); ("y", S_ "4")]); ("b", S_ "3")])%string.
Proof. exact p_C46_ex. Qed.

(** C47, the part that holds: in a document that extends nothing, baseUrl is relative to the
    directory of the document. *)
Theorem C47_own_base_partial : forall fs R fuel base req loc dir b m j s st locs r st', rv_debug R = false ->
  o_tsconfig (rv_opts R) = Some loc -> parent loc = Some dir ->
  f_read fs loc = Some s -> rv_jsonc R s = JCVal j -> (forall e, jget j (lit "extends") <> Some (JStr e)) ->
  ts_sets j b m -> Forall (fun e => splits (fst e) (r_target (parse req))) m ->
  ts_locations (r_target (parse req))
    (map (fun kv => (fst kv, map (join (join dir b)) (snd kv))) (permute (s_ord st 0) m)) locs ->
  run fs (resolve R (S fuel) base req) st = (r, st') ->
  exists r0, first_of (map (fun p => run fs (resolve_ R (load_pkg_file R (S fuel)) (S fuel) (mkInfo p empty_request))) locs)
    (run fs (resolve_ R (load_pkg_file R (S fuel)) (S fuel) (mkInfo base (parse req))))
    (snd (step fs st OOrder)) r0 st' /\ r = final_answer fs R r0.
Proof. exact p_C47_own_base_partial. Qed.
Print Assumptions C47_own_base_partial.
