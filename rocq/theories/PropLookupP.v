(** * Proofs and examples for PropLookup.v *)
From Coq Require Import String.
From Coq Require Import List Arith NArith Bool Lia Permutation.
From Verif Require Import Str StrP Path Json Types Parse Map Prog Desc Resolve Top Run Exec ExecP Posix Demo WitnessP SpecRun TsP LookupP LookupTopP.
Import ListNotations.
Definition w09 : fsys := (W (D [("r", D [("a.json", F); ("a.js", F); ("a", D [("index.js", F)]); ("b", F); ("b.js", F); ("package.json", PJ "P")])]))%string.
Definition R09 : resolver := (mkR (with_exts dflt [lit ".ts"; lit ".js"; lit ".json"]) [("P", O [])])%string.
Lemma p_C09_ex : (
  no_remap R09 (lit "/r") (r_target (parse (lit "./a?q"))) /\ path_kind (r_kind (parse (lit "./a?q"))) /\
  (exists opk st1, run w09 (load_pkg_file R09 40 (get_path (mkInfo (lit "/r") (parse (lit "./a?q"))))) st0 = (Done (Ok opk), st1) /\
     browser_silent (rv_opts R09) opk (mkInfo (lit "/r") (parse (lit "./a?q")))) /\
  file_candidates (rv_opts R09) (get_path (mkInfo (lit "/r") (parse (lit "./a?q")))) =
    ([lit "/r/./a"; lit "/r/./a.ts"] ++ lit "/r/./a.js" :: [lit "/r/./a.json"])%list /\
  no_file w09 [lit "/r/./a"; lit "/r/./a.ts"] /\ f_file w09 (lit "/r/./a.js") = true /\
  res w09 R09 "/r" "./a?q" = found "/r/a.js" "?q" "" /\ res w09 R09 "/r" "./b" = found "/r/b" "" "")%string.
Proof.
  split; [split; [left; reflexivity|split; [left; reflexivity|reflexivity]]|]. split; [left; reflexivity|].
  split; [do 2 eexists; split; [vm_compute; reflexivity|left; reflexivity]|].
  split; [reflexivity|]. split; [repeat constructor|]. repeat split; vm_compute; reflexivity.
Qed.
Lemma p_C11_absent_level : forall fs R load f i st, f_dir fs (join (i_path i) MODULE) = false ->
  run fs (modules_level R load f i) st = (Done (inr (Resolving i)), st) /\
  run_tr fs (modules_level R load f i) st = [mkev (OIsDir (join (i_path i) MODULE)) false].
Proof. intros fs R load f i st. exact (level_absent R load fs f i st). Qed.
Definition w11 : fsys := (W (D [("node_modules", D [("p", D [("index.js", F)])]);
  ("r", D [("node_modules", D [("p", D [("index.js", F)]); ("q", D [("index.js", F)])]); ("a", D [("node_modules", D [("q.js", F)])])])]))%string.
Lemma p_C11_ex : (
  up_chain (lit "/r/a") [lit "/r/a"; lit "/r"; lit "/"] /\
  no_remap Rr (lit "/r/a") (r_target (parse (lit "p"))) /\ r_kind (parse (lit "p")) = Normal /\
  (exists opk st1, run w11 (load_pkg_file Rr 40 (join (join (lit "/r/a") MODULE) (lit "p"))) st0 = (Done (Ok opk), st1) /\
     browser_silent (rv_opts Rr) opk (mkInfo (lit "/r/a") (parse (lit "p")))) /\
  res w11 Rr "/r/a" "p" = found "/r/node_modules/p/index.js" "" "" /\
  res w11 Rr "/r/a" "q" = found "/r/a/node_modules/q.js" "" "" /\
  res w11 Rr "/r/a" "z" = failed "Resolve 'z' failed in '/r/a'" /\
  (exists st2, all_pass (fun i => run w11 (modules_level Rr (load_pkg_file Rr 40) 40 i)) [lit "/r/a"; lit "/r"; lit "/"] (parse (lit "z")) st0 st2))%string.
Proof.
  split; [eapply UCStep; [reflexivity|eapply UCStep; [reflexivity|apply UCRoot; reflexivity]]|].
  split; [split; [left; reflexivity|split; [left; reflexivity|reflexivity]]|]. split; [reflexivity|].
  split; [do 2 eexists; split; [vm_compute; reflexivity|left; reflexivity]|].
  do 3 (split; [vm_compute; reflexivity|]).
  eexists. do 3 (eapply APsCons; [vm_compute; reflexivity|reflexivity|]). apply APsNil.
Qed.
Lemma p_C12_passed_on_partial : forall fs R load f i st i1 st1,
  run fs (modules_level R load f i) st = (Done (inr (Resolving i1)), st1) ->
  i1 = i \/ exists j, f_dir fs (get_path j) = true /\ i1 = dir_info j.
Proof. intros fs R load f i st i1 st1. exact (level_climbs R load fs f i st i1 st1). Qed.
Lemma p_C12_same_specifier_partial : forall fs R load f d r st opk st2 i1 st1,
  r_kind r = Normal -> starts_with_char (r_target r) c_hash = false ->
  run fs (load (join (join d MODULE) (r_target r))) st = (Done (Ok opk), st2) ->
  (forall pk, opk = Some pk -> p_exports pk = None) -> o_browser (rv_opts R) = false ->
  f_dir fs (join (join d MODULE) (lit "./" ++ r_target r)) = false ->
  run fs (modules_level R load (S f) (mkInfo d r)) st = (Done (inr (Resolving i1)), st1) -> i1 = mkInfo d r.
Proof. intros fs R load f d r st opk st2 i1 st1. exact (level_same R load fs f d r st opk st2 i1 st1). Qed.
Lemma p_C12_ex : exists opk st2 st1,
  run w11 (load_pkg_file Rr 40 (join (join (lit "/r/a") MODULE) (lit "p"))) st0 = (Done (Ok opk), st2) /\
  (forall pk, opk = Some pk -> p_exports pk = None) /\ f_dir w11 (join (join (lit "/r/a") MODULE) (lit "./" ++ lit "p")) = false /\
  run w11 (modules_level Rr (load_pkg_file Rr 40) 40 (mkInfo (lit "/r/a") (parse (lit "p")))) st0 =
    (Done (inr (Resolving (mkInfo (lit "/r/a") (parse (lit "p"))))), st1).
Proof.
  do 3 eexists. split; [vm_compute; reflexivity|]. split; [discriminate|]. split; vm_compute; reflexivity.
Qed.
Lemma p_C18_no_alias_under_node_modules : forall fs R fuel base req a b st, rv_debug R = false -> o_tsconfig (rv_opts R) = None ->
  base = a ++ MODULE ++ b ->
  run fs (resolve R fuel base req) st = run fs (resolve (no_alias R) fuel base req) st.
Proof.
  intros fs R fuel base req a b st Hd Ht Hb. assert (Hc : contains base MODULE = true) by (apply contains_spec; exists a, b; exact Hb).
  apply no_alias_top; [exact Hd|exact Ht|left; exact Hc|right; left; exact Hc].
Qed.
Definition w18 : fsys := (W (D [("my_node_modules", D [("x.js", F)]); ("src", D [("x.js", F)])]))%string.
Definition R18 : resolver := (mkR (with_alias dflt [(lit "foo", ATarget (lit "./x"))]) [])%string.
Lemma p_C18_lookalike_directory_refuted : exists fs R, (
  o_alias (rv_opts R) = [(lit "foo", ATarget (lit "./x"))] /\
  res fs R "/src" "foo" = found "/src/x.js" "" "" /\
  f_file fs (lit "/my_node_modules/x.js") = true /\
  res fs R "/my_node_modules" "foo" = failed "Resolve 'foo' failed in '/my_node_modules'")%string.
Proof. exists w18, R18. repeat split; vm_compute; reflexivity. Qed.
Lemma p_C17_rewrite : forall fs R f base req from to rest st r st', rv_debug R = false -> o_tsconfig (rv_opts R) = None ->
  o_alias (rv_opts R) = [(from, ATarget to)] -> o_prefer_relative (rv_opts R) = false -> contains base MODULE = false ->
  r_target (parse req) = from ++ rest -> ~ prefix to (from ++ rest) ->
  run fs (resolve R (S f) base req) st = (r, st') ->
  let i := mkInfo base (parse req) in
  let i' := mkInfo base (mkReq (to ++ rest) (r_query (parse req)) (r_fragment (parse req)) (get_target_kind (to ++ rest))) in
  exists r0, r = final_answer fs R r0 /\
  first_of [run fs (resolve_ R (load_pkg_file R (S f)) f i')] (run fs (resolve_ (plain R) (load_pkg_file R (S f)) (S f) i)) st r0 st'.
Proof.
  intros fs R f base req from to rest st r st' Hd Ht Ha Hp Hc Hr Hn H i i'.
  assert (Hplan : alias_plan (r_target (parse req)) (o_alias (rv_opts R)) [to ++ rest] false).
  { rewrite Ha, Hr. apply APRewrite; [reflexivity|exact Hn|apply APNil]. }
  destruct (attempts_top fs R f base req _ _ st r st' Hd Ht Hc Hplan H) as [r0 [E F0]]. exists r0. split; [exact E|].
  cbn [map app] in F0. unfold prefer_list in F0. rewrite Hp in F0. exact F0.
Qed.
Definition w17 : fsys := (W (D [("r", D [("lib", D [("x.js", F)]); ("y.js", F); ("node_modules", D [("foo", D [("z.js", F)]); ("bar", D [("index.js", F)])])])]))%string.
Definition R17 : resolver := (mkR (with_alias dflt [(lit "foo", ATarget (lit "./none")); (lit "foo", ATarget (lit "./lib")); (lit "bar", AIgnored); (lit "", ATarget (lit "./y"))]) [])%string.
Lemma p_C17_ex : (
  alias_plan (lit "foo/x") (o_alias (rv_opts R17)) [lit "./none/x"; lit "./lib/x"; lit "./yfoo/x"] false /\
  alias_plan (lit "bar") (o_alias (rv_opts R17)) [] true /\
  res w17 R17 "/r" "foo/x?q#f" = found "/r/lib/x.js" "?q" "#f" /\ res w17 R17 "/r" "foo/z" = found "/r/node_modules/foo/z.js" "" "" /\
  res w17 R17 "/r" "bar" = Done (Ok RIgnored) /\
  res w17 (mkR (with_alias dflt [(lit "foo", ATarget (lit "./lib"))]) []) "/r" "foo/x?q" = found "/r/lib/x.js" "?q" "")%string.
Proof.
  assert (Hn : forall p s, starts_with s p = false -> ~ prefix p s).
  { intros p s H Hp. apply prefix_dec in Hp. congruence. }
  split; [|split; [|split; [|split; [|split]]]]; try (vm_compute; reflexivity).
  - apply (APRewrite _ (lit "foo") (lit "./none") (lit "/x")); [reflexivity|apply Hn; reflexivity|].
    apply (APRewrite _ (lit "foo") (lit "./lib") (lit "/x")); [reflexivity|apply Hn; reflexivity|].
    apply APOther; [apply Hn; reflexivity|].
    apply (APRewrite _ [] (lit "./y") (lit "foo/x")); [reflexivity|apply Hn; reflexivity|apply APNil].
  - apply APOther; [apply Hn; reflexivity|]. apply APOther; [apply Hn; reflexivity|]. apply APIgnored. exists []. reflexivity.
Qed.
Lemma p_C19_other_keys_partial : forall fs R fuel base req st, rv_debug R = false -> o_tsconfig (rv_opts R) = None ->
  Forall (fun a => ~ prefix (fst a) (r_target (parse req))) (o_alias (rv_opts R)) ->
  o_prefer_relative (rv_opts R) = false \/ Forall (fun a => ~ prefix (fst a) (lit "./" ++ r_target (parse req))) (o_alias (rv_opts R)) ->
  run fs (resolve R fuel base req) st = run fs (resolve (no_alias R) fuel base req) st.
Proof.
  intros fs R fuel base req st Hd Ht H1 H2. apply no_alias_top; [exact Hd|exact Ht|right; exact H1|].
  destruct H2 as [H2|H2]; [left; exact H2|right; right; exact H2].
Qed.
Lemma p_C19_ex : (Forall (fun a => ~ prefix (fst a) (r_target (parse (lit "goo")))) (o_alias (rv_opts R18)) /\
  res w18 R18 "/src" "./x" = found "/src/x.js" "" "")%string.
Proof.
  split; [|vm_compute; reflexivity]. constructor; [|constructor]. intros [r H]. discriminate.
Qed.
Definition w20 : fsys := (W (D [("r", D [("p.js", F); ("node_modules", D [("p", D [("index.js", F)]); ("q", D [("index.js", F)])])])]))%string.
Lemma p_C20_ex : (let on := mkR (with_prefer dflt true) [] in
  prefer_list on (mkInfo (lit "/r") (parse (lit "p"))) = [lit "./p"] /\ prefer_list Rr (mkInfo (lit "/r") (parse (lit "p"))) = [] /\
  res w20 on "/r" "p" = found "/r/p.js" "" "" /\ res w20 Rr "/r" "p" = found "/r/node_modules/p/index.js" "" "" /\
  res w20 on "/r" "q" = found "/r/node_modules/q/index.js" "" "")%string.
Proof. repeat split; vm_compute; reflexivity. Qed.
Lemma p_C23_main_fields_partial : forall fs R load f i st pk st1 ms r st', f_dir fs (get_path i) = true ->
  run fs (load (get_path i)) st = (Done (Ok (Some pk)), st1) -> components (p_dir pk) = components (get_path i) ->
  main_plan (p_raw pk) (o_main_fields (rv_opts R)) ms ->
  (forall m, In m (ms ++ map (fun x => lit "./" ++ x) (o_main_files (rv_opts R))) ->
     browser_silent (rv_opts R) (Some pk) (with_target (dir_info i) m)) ->
  (forall m, In m ms -> no_file fs (file_candidates (rv_opts R) (join (get_path i) m)) -> f_dir fs (join (get_path i) m) = true ->
     forall st s st', run fs (resolve_as_dir R load f (with_target (dir_info i) m)) st = (Done s, st') -> is_success s = true) ->
  run fs (resolve_as_dir R load (S f) i) st = (r, st') ->
  first_of (map (fun m => run fs (and_then (resolve_as_file R (with_target (dir_info i) m)) (resolve_as_dir R load f))) ms)
    (fun st => (Done (main_file_result R fs (dir_info i)), st)) st1 r st'.
Proof. intros fs R load f i st pk st1 ms r st'. exact (as_dir_attempts R load fs f i st pk st1 ms r st'). Qed.
Definition w23e : fsys := (W (D [("r", D [("d", D [("package.json", PJ "P"); ("b.js", F); ("index.js", F)])])]))%string.
Definition R23e : resolver := (mkR (with_fields dflt [lit "module"; lit "x"; lit "main"; lit "other"]) [("P", O [("module", S_ "./no"); ("x", JNull); ("main", S_ "b"); ("other", S_ ".")])])%string.
Lemma p_C23_ex : exists pk st1, (let i := mkInfo (lit "/r") (parse (lit "./d")) in
  f_dir w23e (get_path i) = true /\ run w23e (load_pkg_file R23e 40 (get_path i)) st0 = (Done (Ok (Some pk)), st1) /\
  components (p_dir pk) = components (get_path i) /\
  main_plan (p_raw pk) (o_main_fields (rv_opts R23e)) [lit "./no"; lit "./b"] /\
  f_dir w23e (join (get_path i) (lit "./no")) = false /\ f_file w23e (lit "/r/./d/./b.js") = true /\
  res w23e R23e "/r" "./d" = found "/r/d/b.js" "" "")%string.
Proof.
  do 2 eexists. cbv zeta. split; [reflexivity|]. split; [vm_compute; reflexivity|]. split; [vm_compute; reflexivity|].
  split; [|repeat split; vm_compute; reflexivity].
  eapply (MPMain _ (lit "module") _ (lit "./no")); [reflexivity|discriminate|discriminate|].
  eapply MPSkip; [intros s; discriminate|]. eapply (MPMain _ (lit "main") _ (lit "b")); [reflexivity|discriminate|discriminate|].
  eapply MPStop; [reflexivity|left; reflexivity].
Qed.
Lemma p_C24_main_files : forall fs R f base req st opk st1 opk2 st2 q, rv_debug R = false ->
  no_remap R base (r_target (parse req)) -> path_kind (r_kind (parse req)) ->
  let i := mkInfo base (parse req) in
  run fs (load_pkg_file R (S f) (get_path i)) st = (Done (Ok opk), st1) -> browser_silent (rv_opts R) opk i ->
  no_file fs (file_candidates (rv_opts R) (get_path i)) -> f_dir fs (get_path i) = true ->
  run fs (load_pkg_file R (S f) (get_path i)) st1 = (Done (Ok opk2), st2) ->
  (forall pk, opk2 = Some pk -> components (p_dir pk) <> components (get_path i) \/ main_plan (p_raw pk) (o_main_fields (rv_opts R)) []) ->
  (forall m, In m (o_main_files (rv_opts R)) -> browser_silent (rv_opts R) opk2 (with_target (dir_info i) (lit "./" ++ m))) ->
  first_file fs (main_file_paths R (get_path i) (o_main_files (rv_opts R))) q ->
  run fs (resolve R (S f) base req) st = (final_answer fs R (Done (picked i q)), st2).
Proof.
  intros fs R f base req st opk st1 opk2 st2 q Hd Hn Hk i Hl Hb Hc Hdir Hl2 Hm Hb2 Hq.
  rewrite (path_dir_top fs R f base req st opk st1 Hd Hn Hk Hl Hb Hc). fold i.
  rewrite (as_dir_no_main R (load_pkg_file R (S f)) fs f i st1 opk2 st2 Hdir Hl2 Hm Hb2).
  unfold main_file_result. change (i_path (dir_info i)) with (get_path i). apply pick_some in Hq. rewrite Hq. reflexivity.
Qed.
Definition w24 : fsys := (W (D [("r", D [("d", D [("index.json", F); ("main.js", F)])])]))%string.
Definition R24 : resolver := (mkR (mkOpts [lit ".js"; lit ".json"] None [] false true (Some (lit "package.json")) [lit "zzz"; lit "index"; lit "main"] [lit "main"] false [] None) [])%string.
Lemma p_C24_ex : (let i := mkInfo (lit "/r") (parse (lit "./d")) in
  no_file w24 (file_candidates (rv_opts R24) (get_path i)) /\ f_dir w24 (get_path i) = true /\
  (exists st1 st2, run w24 (load_pkg_file R24 40 (get_path i)) st0 = (Done (Ok None), st1) /\ run w24 (load_pkg_file R24 40 (get_path i)) st1 = (Done (Ok None), st2)) /\
  first_file w24 (main_file_paths R24 (get_path i) (o_main_files (rv_opts R24))) (lit "/r/./d/./index.json") /\
  res w24 R24 "/r" "./d" = found "/r/d/index.json" "" "")%string.
Proof.
  cbv zeta. split; [apply pick_none; vm_compute; reflexivity|]. split; [vm_compute; reflexivity|].
  split; [do 2 eexists; split; [vm_compute; reflexivity|vm_compute; reflexivity]|]. split; [|vm_compute; reflexivity].
  apply pick_some. vm_compute. reflexivity.
Qed.
Lemma p_C26_browser_chain : forall fs R load i st pk st1 l1 k v l2 e, no_remap R (i_path i) (r_target (i_req i)) ->
  r_kind (i_req i) = get_target_kind (r_target (i_req i)) -> starts_with_char (r_target (i_req i)) c_hash = false ->
  run fs (load (match r_kind (i_req i) with Normal => join (join (i_path i) MODULE) (r_target (i_req i)) | _ => get_path i end)) st = (Done (Ok (Some pk)), st1) ->
  o_browser (rv_opts R) = true ->
  p_alias pk = l1 ++ (k, v) :: l2 -> browser_key (rv_opts R) (p_dir pk) i k ->
  (forall k' v', In (k', v') l1 -> ~ browser_key (rv_opts R) (p_dir pk) i k') ->
  chain (imap_get (p_alias pk)) v e ->
  exists n, forall f, n <= f -> run fs (resolve_ R load (S f) i) st =
    match e with
    | AIgnored => (Done (Success RIgnored), st1)
    | ATarget t => let (r, st') := run fs (final_step R load (S f) (mkInfo (p_dir pk) (req_with_target (i_req i) t))) st1 in (settled i r, st')
    end.
Proof. intros fs R load i st pk st1 l1 k v l2 e. exact (browser_request R load fs i st pk st1 l1 k v l2 e). Qed.
Lemma p_C26_chain_end_unique : forall get v e e', chain get v e -> chain get v e' -> e = e'.
Proof. intros get v e e' H H'. exact (chain_fun get v e H e' H'). Qed.
Definition w26 : fsys := (W (D [("r", D [("package.json", PJ "P"); ("a.js", F); ("b.js", F); ("c.js", F)])]))%string.
Definition R26 : resolver := (mkR (with_browser dflt true) [("P", O [("browser", O [("./a", S_ "./b"); ("./b", S_ "./c.js"); ("./x", S_ "./y"); ("./y", JBool false)])])])%string.
Lemma p_C26_ex : exists pk st1, (let i := mkInfo (lit "/r") (parse (lit "./a?q")) in
  run w26 (load_pkg_file R26 40 (get_path i)) st0 = (Done (Ok (Some pk)), st1) /\
  (exists l2, p_alias pk = ([] ++ (lit "./a", ATarget (lit "./b")) :: l2)%list) /\ browser_key (rv_opts R26) (p_dir pk) i (lit "./a") /\
  (forall k' v', In (k', v') (p_alias pk) -> browser_key (rv_opts R26) (p_dir pk) i k' -> k' = lit "./a" /\ v' = ATarget (lit "./b")) /\
  chain (imap_get (p_alias pk)) (ATarget (lit "./b")) (ATarget (lit "./c.js")) /\
  res w26 R26 "/r" "./a?q" = found "/r/c.js" "?q" "" /\ res w26 R26 "/r" "./x" = Done (Ok RIgnored))%string.
Proof.
  do 2 eexists. cbv zeta. split; [vm_compute; reflexivity|]. split; [eexists; reflexivity|].
  split; [left; vm_compute; reflexivity|]. split; [|split; [|split; vm_compute; reflexivity]].
  - intros k' v' Hin Hk. apply should_deal_spec with (pk := mkPkg (lit "/r") None None [] None None None JNull) in Hk.
    destruct Hin as [H|[H|[H|[H|[]]]]]; inversion H; subst; [split; reflexivity| | |]; vm_compute in Hk; discriminate.
  - eapply ChStep; [vm_compute; reflexivity|]. apply ChEnd. vm_compute. reflexivity.
Qed.
Lemma p_C27_bare_order_partial : forall R f pk i l, r_kind (i_req i) = Normal ->
  Permutation (p_alias pk) l -> NoDup (map fst (p_alias pk)) ->
  alias_field_apply R f (Some (mkPkg (p_dir pk) (p_name pk) (p_version pk) l (p_exports pk) (p_imports pk) (p_side pk) (p_raw pk))) i =
  alias_field_apply R f (Some pk) i.
Proof.
  intros R f pk i l Hk Hp Hn. apply browser_order; [exact Hp|exact Hn|].
  intros k v k' v' _ _. unfold browser_key. rewrite Hk. congruence.
Qed.
Lemma p_C27_ex : (let m := [(lit "./a", ATarget (lit "./b")); (lit "q", AIgnored)] in
  Permutation m (rev m) /\ NoDup (map fst m) /\
  let pk l := mkPkg (lit "/r") None None l None None None JNull in
  let i := mkInfo (lit "/r") (parse (lit "./a")) in
  alias_field_apply R26 5 (Some (pk (rev m))) i = Ret (Resolving (mkInfo (lit "/r") (parse (lit "./b")))))%string.
Proof.
  cbv zeta. split; [apply Permutation_rev|]. split; [repeat constructor; cbn; intuition discriminate|]. vm_compute. reflexivity.
Qed.
Definition w34 : fsys := (W (D [("node_modules", D [("p", D [("x.js", F)])]);
  ("r", D [("node_modules", D [("p", D [("package.json", PJ "P"); ("x.js", F); ("y.js", F)])])])]))%string.
Definition R34 : resolver := (mkR dflt [("P", O [("exports", O [("./y", S_ "./y.js"); ("./z", S_ "./none.js")])])])%string.
Lemma p_C34_ex : (exists opk st1 pk st3 tree,
  run w34 (load_pkg_file R34 40 (join (join (lit "/r/s") MODULE) (lit "p/x"))) st0 = (Done (Ok opk), st1) /\
  browser_silent (rv_opts R34) opk (mkInfo (lit "/r/s") (parse (lit "p/x"))) /\
  up_chain (lit "/r/s") ([lit "/r/s"] ++ lit "/r" :: [lit "/"])%list /\
  all_pass (fun i => run w34 (modules_level R34 (load_pkg_file R34 40) 40 i)) [lit "/r/s"] (parse (lit "p/x")) st1 st1 /\
  bare_parts (r_target (parse (lit "p/x"))) (lit "p") (lit "./x") /\
  run w34 (load_pkg_file R34 40 (join (join (lit "/r") MODULE) (lit "p/x"))) st1 = (Done (Ok (Some pk)), st3) /\
  contains (p_dir pk) MODULE = true /\ p_exports pk = Some tree /\
  field_process FExports tree (lit "./x") (o_conditions (rv_opts R34)) = PRet (Ok []) /\
  res w34 R34 "/r/s" "p/x" = failed "Package path p/x is not exported" /\
  res w34 R34 "/r/s" "p/z" = failed "Package path p/z is not exported" /\
  res w34 R34 "/r/s" "p/y" = found "/r/node_modules/p/y.js" "" "")%string.
Proof.
  do 5 eexists. split; [vm_compute; reflexivity|]. split; [left; reflexivity|].
  split; [eapply UCStep; [reflexivity|eapply UCStep; [reflexivity|apply UCRoot; reflexivity]]|].
  split; [eapply APsCons; [vm_compute; reflexivity|reflexivity|apply APsNil]|].
  split; [apply (BPSub (lit "p") (lit "x")); [cbn; intuition discriminate|reflexivity]|].
  split; [vm_compute; reflexivity|]. repeat split; vm_compute; reflexivity.
Qed.
Lemma p_C50_matched : forall fs R load f i st pk root st1 item rest, no_remap R (i_path i) (r_target (i_req i)) ->
  r_kind (i_req i) = get_target_kind (r_target (i_req i)) -> starts_with_char (r_target (i_req i)) c_hash = true ->
  run fs (load (get_path i)) st = (Done (Ok (Some pk)), st1) -> p_imports pk = Some root ->
  field_process FImports root (r_target (i_req i)) (o_conditions (rv_opts R)) = PRet (Ok (item :: rest)) ->
  path_kind (r_kind (parse item)) -> browser_silent (rv_opts R) (Some pk) (mkInfo (p_dir pk) (parse item)) ->
  let i' := mkInfo (p_dir pk) (parse item) in
  (f_file fs (get_path i') = true -> check_target (r_target (parse item)) = PRet true ->
     run fs (resolve_ R load (S f) i) st =
     let (r, st') := run fs (and_then (resolve_as_file R i') (resolve_as_dir R load (S f))) st1 in (settled i r, st')) /\
  (f_file fs (get_path i') = false \/ check_target (r_target (parse item)) = PRet false ->
     run fs (resolve_ R load (S f) i) st = (settled i (Done (SError (lit "Package path " ++ r_target (i_req i) ++ lit " is not exported") i')), st1)).
Proof.
  intros fs R load f i st pk root st1 item rest Hn Hk Hh Hl Hi Hf Hp Hb.
  exact (proj2 (internal_request R load fs f i st pk root st1 Hn Hk Hh Hl Hi) item rest Hf Hp Hb).
Qed.
Definition w50 : fsys := (W (D [("r", D [("package.json", PJ "P"); ("x.js", F); ("node_modules", D [("#x", D [("index.js", F)])])])]))%string.
Lemma p_C50_answered_elsewhere_refuted : exists fs R p, (
  ends_at (res fs R "/r" "#x") p /\ contains (lit p) (lit "node_modules/#x") = true /\
  forall fuel pk st, run fs (load_pkg_file R fuel (lit "/r/#x")) st0 = (Done (Ok (Some pk)), st) -> p_imports pk = None)%string.
Proof.
  exists w50, (mkR dflt [("P"%string, O [])]), "/r/node_modules/#x/index.js"%string. split; [conc|]. split; [reflexivity|].
  intros fuel pk st H.
  assert (E : exists pk' st', run w50 (load_pkg_file (mkR dflt [("P"%string, O [])]) 5 (lit "/r/#x")) st0 = (Done (Ok (Some pk')), st') /\ p_imports pk' = None).
  { do 2 eexists. split; vm_compute; reflexivity. }
  destruct E as [pk' [st' [E1 E2]]].
  pose proof (RunP.done_from (fun f => load_pkg_file (mkR dflt [("P"%string, O [])]) f (lit "/r/#x")) _ _ 5 _ _ (fun f f' H => FuelP.load_fle _ f f' _ H) E1 ltac:(discriminate) (5 + fuel) ltac:(lia)) as G1.
  pose proof (RunP.done_from (fun f => load_pkg_file (mkR dflt [("P"%string, O [])]) f (lit "/r/#x")) _ _ fuel _ _ (fun f f' H => FuelP.load_fle _ f f' _ H) H ltac:(discriminate) (5 + fuel) ltac:(lia)) as G2.
  congruence.
Qed.
Definition R50 : resolver := (mkR dflt [("P", O [("imports", O [("#y", S_ "./x.js"); ("#z", S_ "../z.js")])])])%string.
Lemma p_C50_ex : (exists pk root st1,
  run w50 (load_pkg_file R50 40 (get_path (mkInfo (lit "/r") (parse (lit "#x"))))) st0 = (Done (Ok (Some pk)), st1) /\
  p_imports pk = Some root /\ field_process FImports root (lit "#x") (o_conditions (rv_opts R50)) = PRet (Ok []) /\
  field_process FImports root (lit "#y") (o_conditions (rv_opts R50)) = PRet (Ok [lit "./x.js"]) /\
  res w50 R50 "/r" "#x" = failed "Package path #x is not exported" /\
  res w50 R50 "/r" "#y" = found "/r/x.js" "" "" /\
  res w50 R50 "/r" "#z" = failed "Package path #z is not exported")%string.
Proof. do 3 eexists. split; [vm_compute; reflexivity|]. repeat split; vm_compute; reflexivity. Qed.
