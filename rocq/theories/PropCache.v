(** * Properties of description lookup and of the tables (C21, C22, C25, C27, C29, C37-C40, C42, C43).

    [sane_fs] (SpecLoad.v) is what POSIX guarantees about spellings of paths; it holds for every
    directory tree with symbolic links ([posix_sane], PosixP.v).  [client js nm R]: release
    build, parser [js], description files of the name that belongs to R's cache.  [steady]: no
    answer depends on the iteration order of a hash map (browser keys, "paths" patterns).
    [same_outcome same_answer]: where both runs come to an end, the same result; the texts of
    errors may spell a directory differently. *)
From Coq Require Import String.
From Coq Require Import List Arith NArith Bool.
From Verif Require Import Str StrP Path Json Types Parse Map Prog Desc Resolve Top Run Posix Demo WitnessP SpecRun SpecLoad SpecCache SpecChange SpecJson SpecMap PosixP JsonP ColdP HistP PropCacheP.
Import ListNotations.

(** C21, for absolute paths (for relative ones it is false, [C21_nearest_relative_refuted]). *)
Theorem C21_nearest_partial : forall fs R name p f seeds, sane_fs fs -> o_desc (rv_opts R) = Some name -> is_abs p = true ->
  f_dir fs [c_slash] = true -> length (components p) + 2 <= f ->
  (forall d pk, is_nearest fs name p d -> described fs (rv_json R) name d = PRet (Ok pk) ->
     out fs (empty_state seeds) (load_side_effects R f p) = Done (Ok (Some (join d name, p_side pk)))) /\
  (forall d e, is_nearest fs name p d -> described fs (rv_json R) name d = PRet (Err e) ->
     out fs (empty_state seeds) (load_side_effects R f p) = Done (Err e)) /\
  ((forall d, ~ is_nearest fs name p d) -> out fs (empty_state seeds) (load_side_effects R f p) = Done (Ok None)).
Proof. exact C21_p. Qed.
Print Assumptions C21_nearest_partial.
(** The same for the loader all resolutions use. *)
Theorem C21_consulted_partial : forall fs R name p f seeds, sane_fs fs -> o_desc (rv_opts R) = Some name -> is_abs p = true ->
  f_dir fs [c_slash] = true -> length (components p) + 2 <= f ->
  (forall d pk, is_nearest fs name p d -> described fs (rv_json R) name d = PRet (Ok pk) ->
     exists seed, out fs (empty_state seeds) (load_pkg_file R f p) = Done (Ok (Some (reorder seed pk))) /\ p_dir pk = d) /\
  ((forall d, ~ is_nearest fs name p d) -> out fs (empty_state seeds) (load_pkg_file R f p) = Done (Ok None)).
Proof. exact C21_load_p. Qed.
Print Assumptions C21_consulted_partial.
Example C21_ex : (is_nearest wc (lit "package.json") (lit "/r/node_modules/p/no/such") (lit "/r/node_modules/p") /\
  (forall d, ~ is_nearest wc (lit "bower.json") (lit "/r/src") d) /\ sane_fs wc /\
  out wc st0 (load_side_effects Rc_b 8 (lit "/r/node_modules/p/no/such")) =
    Done (Ok (Some (lit "/r/node_modules/p/package.json", Some (SEBool false)))))%string.
Proof. exact (conj wc_nearest (conj wc_none (conj (posix_sane _ _ _) eq_refl))). Qed.
(** The current directory has the file; asked for the relative path "a" the lookup fails. *)
Theorem C21_nearest_relative_refuted : exists fs R, f_file fs (lit "package.json") = true /\ f_dir fs (lit "a") = true /\
  out fs st0 (load_side_effects R 40 (lit "a")) = Done (Err TAG) /\
  out fs st0 (load_side_effects R 40 (lit "/r/a")) = Done (Ok (Some (lit "/r/package.json", None))).
Proof. exact (ex_intro _ w21 (ex_intro _ _ C21_w)). Qed.
Print Assumptions C21_nearest_relative_refuted.

(** C22.  [fields_build]: the other fields of the description are well formed (they are looked at
    first). *)
Theorem C22_side_effects : forall fs R name p f seeds d s t j, sane_fs fs -> o_desc (rv_opts R) = Some name -> is_abs p = true ->
  length (components p) + 2 <= f -> is_nearest fs name p d ->
  f_read fs (join d name) = Some s -> f_mtime fs (join d name) = MTime t -> rv_json R s = Some j -> fields_build j ->
  let answer := out fs (empty_state seeds) (load_side_effects R f p) in
  (jget j (lit "sideEffects") = None -> answer = Done (Ok (Some (join d name, None)))) /\
  (forall b, jget j (lit "sideEffects") = Some (JBool b) -> answer = Done (Ok (Some (join d name, Some (SEBool b))))) /\
  (forall l, jget j (lit "sideEffects") = Some (JArr (map JStr l)) -> answer = Done (Ok (Some (join d name, Some (SEArray l))))) /\
  (forall v, jget j (lit "sideEffects") = Some v -> (forall b, v <> JBool b) -> (forall l, v <> JArr (map JStr l)) ->
     exists e, answer = Done (Err e)).
Proof. exact C22_p. Qed.
Print Assumptions C22_side_effects.
Example C22_ex : (let ask v := out w25 st0 (load_side_effects (mkR dflt [("R", O [("sideEffects", v)])]) 40 (lit "/r/a.js")) in
  ask (JArr [S_ "b.css"; S_ "a.css"; S_ "b.css"]) =
    Done (Ok (Some (lit "/r/package.json", Some (SEArray [lit "b.css"; lit "a.css"; lit "b.css"])))) /\
  ask (JBool true) = Done (Ok (Some (lit "/r/package.json", Some (SEBool true)))) /\
  ask (JArr [S_ "a"; JNull]) = Done (Err (lit "sideEffects in /r/package.json had unexpected value null")))%string.
Proof. repeat split; vm_compute; reflexivity. Qed.

(** C25: [R] without browser_field and the same resolver reading descriptions that differ in their
    browser objects, each after any history.  False without the restriction on [true] values:
    these panic even when browser_field is off. *)
Theorem C25_browser_off_partial : forall fs, sane_fs fs -> forall nm js1 js2 R k i h1 h2 seeds1 seeds2 f1 f2 base req,
  (forall s j, js1 s = Some j -> wf_json j) -> (forall s j, js2 s = Some j -> wf_json j) ->
  no_clash fs js1 nm -> no_clash fs js2 nm ->
  parsers_but_browser js1 js2 -> o_browser (rv_opts R) = false ->
  client js1 nm R -> nm k = nm (rv_cache R) ->
  Forall (fun c => client js1 nm (call_resolver c)) h1 -> Forall (fun c => client js2 nm (call_resolver c)) h2 ->
  patterns_clear fs R (r_target (parse req)) ->
  same_outcome same_answer
    (out fs (snd (run_history fs (empty_state seeds1) (map ECall h1))) (call_prog (CResolve R f1 base req)))
    (out fs (snd (run_history fs (empty_state seeds2) (map ECall h2))) (call_prog (CResolve (with_parser R js2 k i) f2 base req))).
Proof. exact fin_25. Qed.
Print Assumptions C25_browser_off_partial.
Example C25_ex : (parsers_but_browser (js_of Tc) (js_of Tn) /\
  gives (out wc st0 (call_prog (CResolve Ro 40 (lit "/r") (lit "p")))) "/r/node_modules/p/m.js" /\
  gives (out wc st0 (call_prog (CResolve (with_parser Ro (js_of Tn) 3 4) 40 (lit "/r") (lit "p")))) "/r/node_modules/p/m.js" /\
  gives (out wc st0 (call_prog (CResolve Rc_b 40 (lit "/r") (lit "p")))) "/r/node_modules/p/b.js")%string.
Proof. exact (conj but_browser_ex off_ex). Qed.
Theorem C25_browser_true_refuted : exists fs,
  (panics (res fs (mkR dflt [("R", O [("browser", O [("x", JBool true)])])]) "/r" "./a") /\
   ends_at (res fs (mkR dflt [("R", O [])]) "/r" "./a") "/r/a.js" /\ o_browser dflt = false)%string.
Proof. exact (ex_intro _ w25 C25_w). Qed.
Print Assumptions C25_browser_true_refuted.

(** C29 for whole resolutions: only the conditions that are keys of an exports or imports field
    matter, and of them only the membership. *)
Theorem C29_resolution_partial : forall fs, sane_fs fs -> forall nm js R l k i h1 h2 seeds1 seeds2 f1 f2 base req,
  (forall s j, js s = Some j -> wf_json j) -> no_clash fs js nm ->
  (forall name fld v c, o_desc (rv_opts R) = Some name -> fld = lit "exports" \/ fld = lit "imports" ->
     field_on fs js name fld v -> json_key c v -> (In c (o_conditions (rv_opts R)) <-> In c l)) ->
  client js nm R -> nm k = nm (rv_cache R) ->
  Forall (fun c => client js nm (call_resolver c)) h1 -> Forall (fun c => client js nm (call_resolver c)) h2 ->
  steady fs js (CResolve R f1 base req) ->
  same_outcome same_answer
    (out fs (snd (run_history fs (empty_state seeds1) (map ECall h1))) (call_prog (CResolve R f1 base req)))
    (out fs (snd (run_history fs (empty_state seeds2) (map ECall h2))) (call_prog (CResolve (with_conditions R l k i) f2 base req))).
Proof. exact fin_29. Qed.
Print Assumptions C29_resolution_partial.
Example C29_resolution_ex : ((forall name fld v c, o_desc (rv_opts R29) = Some name -> fld = lit "exports" \/ fld = lit "imports" ->
    field_on wc (js_of T29) name fld v -> json_key c v ->
    (In c (o_conditions (rv_opts R29)) <-> In c [lit "zzz"; lit "node"; lit "node"])) /\
  gives (out wc st0 (call_prog (CResolve R29 40 (lit "/r") (lit "p")))) "/r/node_modules/p/m.js" /\
  gives (out wc st0 (call_prog (CResolve (with_conditions R29 [lit "zzz"; lit "node"; lit "node"] 1 1) 40 (lit "/r") (lit "p")))) "/r/node_modules/p/m.js" /\
  gives (out wc st0 (call_prog (CResolve (with_conditions R29 [lit "zzz"] 1 1) 40 (lit "/r") (lit "p")))) "/r/node_modules/p/b.js")%string.
Proof. exact cond_ex. Qed.

(** C37, where it holds: any call after any history of calls (of any resolvers) answers as on
    empty tables.  [no_clash]: no exports field has the text of an imports field; without it the
    statement is false ([C37_transparent_refuted]).  That both runs end: [C37_transparent_ends_partial] (PropTerm.v). *)
Theorem C37_transparent_partial : forall fs, sane_fs fs -> forall js, (forall s j, js s = Some j -> wf_json j) ->
  forall nm, no_clash fs js nm -> forall h seeds seeds' c f,
  Forall (fun c => client js nm (call_resolver c)) h -> client js nm (call_resolver c) -> steady fs js c ->
  same_outcome same_answer (out fs (snd (run_history fs (empty_state seeds) (map ECall h))) (call_prog c))
                           (out fs (empty_state seeds') (call_prog (with_fuel c f))).
Proof. exact fin_37. Qed.
Print Assumptions C37_transparent_partial.
Example C37_ex : ((forall s j, js_of Tc s = Some j -> wf_json j) /\ no_clash wc (js_of Tc) nmc /\
  Forall (fun c => client (js_of Tc) nmc (call_resolver c)) hc /\
  steady wc (js_of Tc) (CResolve Rc_b 40 (lit "/r/") (lit "p"))) /\
  (gives (out wc warm (call_prog (CResolve Rc_ts 40 (lit "/r") (lit "@/y")))) "/r/src/y.js" /\
  gives (out wc warm (call_prog (CResolve Rc_b 40 (lit "/r/") (lit "p")))) "/r/node_modules/p/b.js" /\
  gives (out wc warm (call_prog (CResolve Rc_ts 40 (lit "/r") (lit "p")))) "/r/node_modules/p/m.js" /\
  out wc warm (call_prog (CSide Rc_ts 40 (lit "/r/node_modules/p"))) =
    Done (ASide (Ok (Some (lit "/r/node_modules/p/package.json", Some (SEBool false))))) /\
  s_pkg warm 0 (components (lit "/r/node_modules/p")) <> None /\
  s_exp warm 0 (to_string (O [(".", S_ "./m.js")])) <> None)%string.
Proof.
  exact (conj (conj wc_wf (conj (wc_clash wc) (conj hc_clients (wc_steady_b 40 (lit "/r/") (lit "p"))))) hc_answers).
Qed.

(** C38, where it holds: any interleaving of any number of calls, after any history; every call
    that has come to an end has the answer it has alone on empty tables. *)
Theorem C38_concurrent_partial : forall fs, sane_fs fs -> forall js, (forall s j, js s = Some j -> wf_json j) ->
  forall nm, no_clash fs js nm -> forall l h sched seeds seeds' f,
  Forall (fun c => client js nm (call_resolver c)) h ->
  Forall (fun c => client js nm (call_resolver c) /\ steady fs js c) l ->
  Forall2 (fun c p => same_outcome same_answer (settled p) (out fs (empty_state seeds') (call_prog (with_fuel c f))))
          l (fst (run_sched fs sched (snd (run_history fs (empty_state seeds) (map ECall h))) (map call_prog l))).
Proof. exact fin_38. Qed.
Print Assumptions C38_concurrent_partial.
Example C38_ex : (Forall (fun c => client (js_of Tc) nmc (call_resolver c) /\ steady wc (js_of Tc) c) lc /\
  exists p q, fst (run_sched wc (alternate 80) st0 (map call_prog lc)) = [p; q] /\
  gives (settled p) "/r/src/y.js" /\ gives (settled q) "/r/node_modules/p/b.js")%string.
Proof. exact (conj lc_ok lc_runs). Qed.

(** C39, where it holds (one description file name per cache): the resolver on a cache used by
    others answers as one with the same options on a cache [k] of its own. *)
Theorem C39_shared_partial : forall fs, sane_fs fs -> forall js, (forall s j, js s = Some j -> wf_json j) ->
  forall nm, no_clash fs js nm -> forall h seeds seeds' c k i f,
  Forall (fun c => client js nm (call_resolver c)) h -> client js nm (call_resolver c) -> steady fs js c ->
  nm k = nm (rv_cache (call_resolver c)) ->
  same_outcome same_answer (out fs (snd (run_history fs (empty_state seeds) (map ECall h))) (call_prog c))
                           (out fs (empty_state seeds') (call_prog (with_fuel (moved c k i) f))).
Proof. exact fin_39. Qed.
Print Assumptions C39_shared_partial.
Example C39_ex : (rv_cache Rc_b = rv_cache Rc_ts /\
  gives (out wc warm (call_prog (CResolve Rc_b 40 (lit "/r") (lit "p")))) "/r/node_modules/p/b.js" /\
  gives (out wc st0 (call_prog (moved (CResolve Rc_b 40 (lit "/r") (lit "p")) 7 9))) "/r/node_modules/p/b.js")%string.
Proof. split; [reflexivity|]. split; (eexists; split; [vm_compute; reflexivity|reflexivity]). Qed.

(** C27 for whole resolutions: two resolvers with the same options, any iteration orders. *)
Theorem C27_resolution_partial : forall fs, sane_fs fs -> forall js, (forall s j, js s = Some j -> wf_json j) ->
  forall nm, no_clash fs js nm -> forall seeds seeds' c k i f,
  client js nm (call_resolver c) -> steady fs js c -> nm k = nm (rv_cache (call_resolver c)) ->
  same_outcome same_answer (out fs (empty_state seeds) (call_prog c)) (out fs (empty_state seeds') (call_prog (with_fuel (moved c k i) f))).
Proof.
  exact (fun fs Hfs js Hjs nm Hc seeds seeds' c k i f =>
    fin_39 fs Hfs js Hjs nm Hc [] seeds seeds' c k i f (Forall_nil _)).
Qed.
Print Assumptions C27_resolution_partial.
Example C27_resolution_ex : (steady wc (js_of Tc) (CResolve Rc_b 40 (lit "/r") (lit "p")) /\
  gives (out wc (empty_state (fun _ => [1;0;2])) (call_prog (CResolve Rc_b 40 (lit "/r") (lit "p")))) "/r/node_modules/p/b.js" /\
  gives (out wc (empty_state (fun n => [n;1])) (call_prog (moved (CResolve Rc_b 40 (lit "/r") (lit "p")) 3 5))) "/r/node_modules/p/b.js")%string.
Proof.
  split; [exact (wc_steady_b 40 (lit "/r") (lit "p"))|]. split; (eexists; split; [vm_compute; reflexivity|reflexivity]).
Qed.

(** For this condition it is enough that no exports field consists of keys with "#" only. *)
Theorem C37_clear : forall fs js nm, (forall s j, js s = Some j -> wf_json j) ->
  (forall c v, field_on fs js (nm c) (lit "exports") v -> ~ hash_keys v) -> no_clash fs js nm.
Proof. exact hash_clear. Qed.
Print Assumptions C37_clear.
Example C37_clear_ex : (hash_keys (O [("#a", S_ "./a.js"); ("#b", S_ "./b.js")]) /\ ~ hash_keys (O [(".", S_ "./a.js")]) /\ ~ hash_keys (S_ "./a.js"))%string.
Proof. exact hash_ex. Qed.

(** C40, where no exports field of a description has the text of an imports field that can be
    accepted ([texts_apart], SpecCache.v): whatever happened before (calls, changes of the file
    system), if the directory [p] is recorded and its description either was never read by this
    resolver or was read with modification time [t0] and now has time [t1 >= t0 + period], then the
    lookup gives the content of the file now. *)
Theorem C40_reread_partial : forall js, (forall s j, js s = Some j -> wf_json j) ->
  forall h fs0 seeds R name f p v,
  texts_apart js (written_on (fun n => In (Some n) (map (fun R => o_desc (rv_opts R)) (R :: callers h))) (systems fs0 h)) ->
  Forall (fun R => rv_json R = js) (R :: callers h) ->
  let '(_, fs, st) := run_history fs0 (empty_state seeds) h in
  o_desc (rv_opts R) = Some name ->
  f_dir fs p = true -> s_pkg st (rv_cache R) (components p) = Some v ->
  f_file fs (join p name) = true ->
  (s_file st (rv_id R) (components (join p name)) = None \/
   exists old t0 t1, s_file st (rv_id R) (components (join p name)) = Some (old, t0) /\
     f_mtime fs (join p name) = MTime t1 /\ (t0 + rv_duration R <= t1)%N) ->
  exists seed, out fs st (load_pkg_file R (S f) p) = answer_of seed (described fs js name p).
Proof. exact reread_history. Qed.
Print Assumptions C40_reread_partial.
(** Otherwise the recorded description stays: the file is gone, or the period is not over. *)
Theorem C40_kept : forall fs R name, o_desc (rv_opts R) = Some name -> forall f p st v, f_dir fs p = true ->
  s_pkg st (rv_cache R) (components p) = Some v ->
  (f_file fs (join p name) = false \/ exists old t0 t1, s_file st (rv_id R) (components (join p name)) = Some (old, t0) /\
     f_mtime fs (join p name) = MTime t1 /\ (t0 <= t1 < t0 + rv_duration R)%N) ->
  run fs (load_pkg_file R (S f) p) st = (Done (Ok v), st).
Proof. exact kept. Qed.
Print Assumptions C40_kept.
Example C40_ex : ((exists st, snd (fst (run_history (w40 "A" 1000000000%N) st0 h40)) = w40 "B" 2000000001%N /\
  snd (run_history (w40 "A" 1000000000%N) st0 h40) = st /\
  s_pkg st 0 (components (lit "/r")) <> None /\
  s_file st 0 (components (lit "/r/package.json")) = Some (lit "A", 1000000000%N) /\ rv_duration (mkR dflt T40) = 1000000000%N /\
  gives (out (w40 "B" 2000000001%N) st (call_prog (CResolve (mkR dflt T40) 40 (lit "/") (lit "./r")))) "/r/b.js" /\
  gives (out (w40 "B" 1000000001%N) st (call_prog (CResolve (mkR dflt T40) 40 (lit "/") (lit "./r")))) "/r/a.js" /\
  s_file st 1 (components (lit "/r/package.json")) = None /\
  gives (out (w40 "B" 1000000001%N) st (call_prog (CResolve (new_resolver dflt 0 1 false (js_of T40) (jsc_of [])) 40 (lit "/") (lit "./r")))) "/r/b.js") /\
  texts_apart (js_of T40) (fun _ => True))%string.
Proof. exact h40_ok. Qed.

(** C42, where it holds: on an unchanging file system every lookup that meets a malformed
    description reports its error, whatever calls came before. *)
Theorem C42_every_time_partial : forall fs js nm, sane_fs fs -> (forall s j, js s = Some j -> wf_json j) -> no_clash fs js nm ->
  forall h seeds R name f p d e, Forall (fun c => client js nm (call_resolver c)) h -> client js nm R ->
  o_desc (rv_opts R) = Some name -> is_abs p = true -> is_nearest fs name p d -> described fs js name d = PRet (Err e) ->
  let r := out fs (snd (run_history fs (empty_state seeds) (map ECall h))) (load_side_effects R f p) in
  r = NoFuel \/ r = Done (Err e).
Proof. exact C42_p. Qed.
Print Assumptions C42_every_time_partial.
Example C42_ex : (is_nearest w42 (lit "package.json") (lit "/r/a.js") (lit "/r") /\
  described w42 (js_of Tc) (lit "package.json") (lit "/r") = PRet (Err (lit "Parse /r/package.json failed")) /\
  no_clash w42 (js_of Tc) nmc /\
  out w42 (snd (run_history w42 st0 (map ECall [CResolve Rc_b 40 (lit "/r") (lit "./a"); CSide Rc_b 40 (lit "/r")])))
    (load_side_effects Rc_b 40 (lit "/r/a.js")) = Done (Err (lit "Parse /r/package.json failed")))%string.
Proof. exact w42_ok. Qed.

(** C43, where it holds: the keys tell all JSON values apart, and (no imports field having the
    text of an exports field) a loaded package has the trees of its own fields. *)
Theorem C43_keys_partial : forall j j', wf_json j -> wf_json j' -> to_string j = to_string j' -> j = j'.
Proof. exact to_string_inj. Qed.
Print Assumptions C43_keys_partial.
Theorem C43_own_trees_partial : forall fs, sane_fs fs -> forall js, (forall s j, js s = Some j -> wf_json j) ->
  forall nm, no_clash fs js nm -> forall h seeds R f p pk, Forall (fun c => client js nm (call_resolver c)) h -> client js nm R ->
  out fs (snd (run_history fs (empty_state seeds) (map ECall h))) (load_pkg_file R f p) = Done (Ok (Some pk)) ->
  match jget (p_raw pk) (lit "exports") with
  | None => p_exports pk = None
  | Some v => exists t, build_exports v = PRet (Ok t) /\ p_exports pk = Some t
  end /\
  match jget (p_raw pk) (lit "imports") with
  | None => p_imports pk = None
  | Some v => exists t, build_imports v = PRet (Ok t) /\ p_imports pk = Some t
  end.
Proof. exact fin_43. Qed.
Print Assumptions C43_own_trees_partial.
Example C43_ex : (wf_json (JObj [(lit "a", JArr [JNum (lit "-1.5e3"); JStr (lit "],")])]) /\
  to_string (JArr [JStr (lit "a,b")]) <> to_string (JArr [JStr (lit "a"); JStr (lit "b")]) /\
  exists pk, out wc warm (load_pkg_file Rc_b 40 (lit "/r/node_modules/p")) = Done (Ok (Some pk)) /\ p_exports pk <> None)%string.
Proof.
  split; [cbn; repeat split; try discriminate; repeat constructor|]. split; [vm_compute; discriminate|].
  eexists. split; [vm_compute; reflexivity|]. vm_compute. discriminate.
Qed.
