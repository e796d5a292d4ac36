(** * Proofs and examples for PropTs.v *)
From Coq Require Import String.
From Coq Require Import List Arith NArith Bool.
From Verif Require Import Str StrP Path Json Types Parse Map Prog Desc Resolve Top Run Posix Demo SpecRun TsP WitnessP.
Import ListNotations.
Lemma p_C44_star : forall pattern search m,
  match_star pattern search = PRet (Some m) <-> star_matches pattern search m.
Proof. intros. split; [apply match_star_sound|apply match_star_complete]. Qed.
Lemma p_C44_star_total : forall pattern search, (exists r, match_star pattern search = PRet r) <-> splits pattern search.
Proof. intros. split; [intros [r H]; eapply match_star_splits, H|apply match_star_total]. Qed.
Lemma p_C44_star_total_ex : (splits (26085 :: lit "/*") (26085 :: lit "/a") /\ match_star (26085 :: lit "/*") (26085 :: lit "/a") = PRet (Some (lit "a")) /\
  ~ splits (lit "a*") [26085] /\ exists m, match_star (lit "a*") [26085] = PPanic m)%N%string.
Proof.
  assert (E : match_star (26085%N :: lit "/*") (26085%N :: lit "/a") = PRet (Some (lit "a"))) by (vm_compute; reflexivity).
  split; [eapply match_star_splits, E|]. split; [exact E|]. split; [|eexists; vm_compute; reflexivity].
  intros H. destruct (match_star_total _ _ H) as [r Hr]. vm_compute in Hr. discriminate Hr.
Qed.
Lemma p_C44_star_ascii_total : forall pattern search, ascii_str pattern -> ascii_str search ->
  (exists m, star_matches pattern search m /\ match_star pattern search = PRet (Some m)) \/
  ((forall m, ~ star_matches pattern search m) /\ match_star pattern search = PRet None).
Proof.
  intros p s Hp Hs. destruct (match_star_ascii p s Hp Hs) as [[m|] E].
  - left. exists m. split; [apply match_star_sound, E|exact E].
  - right. split; [|exact E]. intros m Hm. rewrite (match_star_complete _ _ _ Hm) in E. discriminate.
Qed.
Lemma p_C44_ex : (match_star (lit "@lib/*.js") (lit "@lib/a/b.js") = PRet (Some (lit "a/b")) /\
  match_star (lit "@lib/*") (lit "@lib/") = PRet None /\ match_star (lit "lib") (lit "lib") = PRet None)%string.
Proof. vm_compute. auto. Qed.
Lemma p_C45_paths_first : forall fs R fuel base req loc dir b m j st st1 locs r st', rv_debug R = false ->
  o_tsconfig (rv_opts R) = Some loc -> parent loc = Some dir ->
  run fs (parse_file_to_value R (load_pkg_file R fuel) fuel loc) st = (Done (Ok j), st1) -> ts_sets j b m ->
  Forall (fun e => splits (fst e) (r_target (parse req))) m ->
  ts_locations (r_target (parse req))
    (map (fun kv => (fst kv, map (join (join dir b)) (snd kv))) (permute (s_ord st1 0) m)) locs ->
  run fs (resolve R fuel base req) st = (r, st') ->
  exists r0, first_of (map (fun p => run fs (resolve_ R (load_pkg_file R fuel) fuel (mkInfo p empty_request))) locs)
    (run fs (resolve_ R (load_pkg_file R fuel) fuel (mkInfo base (parse req))))
    (snd (step fs st1 OOrder)) r0 st' /\ r = final_answer fs R r0.
Proof. intros fs R fuel. exact (ts_first_run fs R (load_pkg_file R fuel) fuel). Qed.
Lemma p_C45_no_base_url : forall fs R fuel base req loc j st st1, rv_debug R = false ->
  o_tsconfig (rv_opts R) = Some loc -> parent loc <> None ->
  run fs (parse_file_to_value R (load_pkg_file R fuel) fuel loc) st = (Done (Ok j), st1) ->
  (forall opts, jget j (lit "compilerOptions") = Some opts -> jget opts (lit "baseUrl") = None /\
     (jget opts (lit "paths") = None \/ exists m, jget opts (lit "paths") = Some (JObj (map (fun kv => (fst kv, JArr (map JStr (snd kv)))) m)) /\ NoDup (map fst m))) ->
  run fs (resolve R fuel base req) st =
  let (r, st') := run fs (resolve_ R (load_pkg_file R fuel) fuel (mkInfo base (parse req))) st1 in (final_answer fs R r, st').
Proof. intros fs R fuel. exact (ts_nobase_run fs R (load_pkg_file R fuel) fuel). Qed.
Definition doc45 : json := (O [("compilerOptions", O [("baseUrl", S_ "."); ("paths", O [("l*", JArr [S_ "./no"; S_ "./x"]); ("*b", JArr [S_ "./y"])])])])%string.
Lemma p_C45_ex : (
  ts_sets doc45 (lit ".") [(lit "l*", [lit "./no"; lit "./x"]); (lit "*b", [lit "./y"])] /\
  ts_locations (lit "lib") [(lit "l*", [lit "/r/./no"; lit "/r/./x*"]); (lit "*b", [lit "/r/./y"])] [lit "/r/./no"; lit "/r/./xib"; lit "/r/./y"] /\
  ends_at (res w27 (mkR (with_tsconfig dflt (Some (lit "/r/tsconfig.json"))) [("P", O []); ("T", doc45)]) "/r" "lib") "/r/x.js")%string.
Proof.
  split; [|split].
  - eexists. split; [reflexivity|]. split; [reflexivity|]. split; [reflexivity|].
    cbn. repeat constructor; cbn; intuition discriminate.
  - apply (TLStar (lit "lib") (lit "l*") _ _ (lit "ib") [lit "/r/./no"; lit "/r/./xib"]); [discriminate| | |].
    + exists (lit "l"), []. repeat split; cbn; intuition discriminate.
    + exact (filled_all (lit "ib") [lit "/r/./no"; lit "/r/./x*"]).
    + apply (TLStar (lit "lib") (lit "*b") _ _ (lit "li") [lit "/r/./y"]); [discriminate| | |constructor].
      * exists [], (lit "b"). repeat split; cbn; intuition discriminate.
      * exact (filled_all (lit "li") [lit "/r/./y"]).
  - conc.
Qed.
Lemma p_C46_inherited : forall ks a b v, json_nodup a -> json_nodup b -> json_at b ks v ->
  (forall w, json_at a ks w -> w = JNull) ->
  (forall ks1 ks2 w, ks = ks1 ++ ks2 -> ks2 <> [] -> json_at a ks1 w -> w = JNull \/ is_obj w) ->
  json_at (merge a b) ks v.
Proof. intros ks a b v Ha Hb H H1 H2. exact (merge_inherits ks a b v Ha Hb H (conj H1 H2)). Qed.
Lemma p_C46_key_order : forall la lb, NoDup (map fst lb) -> exists l, merge (JObj la) (JObj lb) = JObj l /\
  map fst l = map fst la ++ filter (fun k => negb (mem k (map fst la))) (map fst lb).
Proof. intros la lb H. exists (merge_go lb la). split; [apply merge_obj|apply merge_go_keys, H]. Qed.
Lemma p_C46_ex : (exists st1 st2,
  run w47 (resolve_ R47 (load_pkg_file R47 40) 40 (mkInfo (lit "/r") (parse (lit "./base/tsconfig.json")))) st0 =
    (Done (Success (RInfo (mkInfo (lit "/r/./base/tsconfig.json") (mkReq [] [] [] Relative)))), st1) /\
  run w47 (parse_file_to_value R47 (load_pkg_file R47 40) 40 (lit "/r/tsconfig.json")) st0 =
    (Done (Ok (O [("extends", S_ "./base/tsconfig.json"); ("compilerOptions", O [("baseUrl", S_ "./src"); ("paths", O [("lib/*", JArr [S_ "*"])])])])), st2) /\
  merge (O [("a", S_ "1"); ("o", O [("x", S_ "2"); ("n", JNull)])]) (O [("b", S_ "3"); ("o", O [("x", S_ "9"); ("y", S_ "4"); ("n", S_ "5")])]) =
  O [("a", S_ "1"); ("o", O [("x", S_ "2"); ("n", S_ "5"); ("y", S_ "4")]); ("b", S_ "3")])%string.
Proof. do 2 eexists. split; [vm_compute; reflexivity|]. split; vm_compute; reflexivity. Qed.
Lemma p_C47_own_base_partial : forall fs R fuel base req loc dir b m j s st locs r st', rv_debug R = false ->
  o_tsconfig (rv_opts R) = Some loc -> parent loc = Some dir ->
  f_read fs loc = Some s -> rv_jsonc R s = JCVal j -> (forall e, jget j (lit "extends") <> Some (JStr e)) ->
  ts_sets j b m -> Forall (fun e => splits (fst e) (r_target (parse req))) m ->
  ts_locations (r_target (parse req))
    (map (fun kv => (fst kv, map (join (join dir b)) (snd kv))) (permute (s_ord st 0) m)) locs ->
  run fs (resolve R (S fuel) base req) st = (r, st') ->
  exists r0, first_of (map (fun p => run fs (resolve_ R (load_pkg_file R (S fuel)) (S fuel) (mkInfo p empty_request))) locs)
    (run fs (resolve_ R (load_pkg_file R (S fuel)) (S fuel) (mkInfo base (parse req))))
    (snd (step fs st OOrder)) r0 st' /\ r = final_answer fs R r0.
Proof.
  intros fs R fuel base req loc dir b m j s st locs r st' Hd Ht Hp Hr Hj He Hs Hm Hl H.
  exact (p_C45_paths_first fs R (S fuel) base req loc dir b m j st st locs r st' Hd Ht Hp
    (parse_plain fs R _ fuel loc s j st Hr Hj He) Hs Hm Hl H).
Qed.
