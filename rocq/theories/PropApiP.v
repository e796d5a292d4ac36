(** * Proofs for [PropApi.v]. *)
From Coq Require Import String.
From Coq Require Import List Arith NArith Bool Lia.
From Verif Require Import Str StrP Path PathP Json Types Parse ParseP Map Prog Desc Resolve Top Run Exec SpecApi SpecError ExecP ApiP ErrorP Posix Demo.
Import ListNotations.

Lemma top_exec : forall R fuel base req tr r, exec (resolve R fuel base req) tr (Done r) ->
  answer_ok R tr r /\ canon_ok R tr r /\
  (forall p x, In (mkev (OCanon p) x) tr -> o_symlinks (rv_opts R) = true).
Proof.
  intros R fuel base req tr r H.
  destruct (sat_exec _ _ _ _ _ H (anyok_all tr) [] _ (sat_resolve_top R fuel base req)) as [H1 H2].
  destruct (H2 r eq_refl) as [H3 H4]. cbn [app] in *. repeat split; auto.
  intros p x Hin. rewrite Forall_forall in H1. exact (H1 _ Hin p eq_refl).
Qed.
Lemma exec_canon_off : forall R fuel base req tr r, exec (resolve R fuel base req) tr r ->
  o_symlinks (rv_opts R) = false -> forall p x, ~ In (mkev (OCanon p) x) tr.
Proof.
  intros R fuel base req tr r H Hs p x Hin.
  destruct (sat_exec _ _ _ _ _ H (anyok_all tr) [] _ (sat_resolve_top R fuel base req)) as [H1 _].
  rewrite Forall_forall in H1. specialize (H1 _ Hin p eq_refl). congruence.
Qed.
Lemma fs_ok_file : forall fs tr p, Forall (okev (fs_ok fs)) tr -> In (mkev (OIsFile p) true) tr -> f_file fs p = true.
Proof. intros fs tr p H Hin. rewrite Forall_forall in H. symmetry. exact (H _ Hin). Qed.
Lemma fs_ok_canon : forall fs tr p x, Forall (okev (fs_ok fs)) tr -> In (mkev (OCanon p) x) tr -> f_canon fs p = x.
Proof. intros fs tr p x H Hin. rewrite Forall_forall in H. symmetry. exact (H _ Hin). Qed.

Lemma C08_success_p : forall R fuel base req tr i,
  exec (resolve R fuel base req) tr (Done (Ok (RInfo i))) ->
  exists p, In (mkev (OIsFile p) true) tr /\ r_target (i_req i) = [] /\
    (o_symlinks (rv_opts R) = true -> In (mkev (OCanon p) (Some (i_path i))) tr) /\
    (o_symlinks (rv_opts R) = false -> i_path i = normalize_path_without_link p).
Proof.
  intros R fuel base req tr i H. apply top_exec in H. destruct H as [[p [H1 [H2 [_ H4]]]] _].
  exists p. repeat split; auto; intros Es; rewrite Es in H4; exact H4.
Qed.
Definition on_disk (fs : fsys) (R : resolver) (i : info) : Prop :=
  exists p, f_file fs p = true /\ r_target (i_req i) = [] /\
    (o_symlinks (rv_opts R) = true -> f_canon fs p = Some (i_path i)) /\
    (o_symlinks (rv_opts R) = false -> i_path i = normalize_path_without_link p).
Lemma exec_on_disk : forall fs R fuel base req tr i,
  exec (resolve R fuel base req) tr (Done (Ok (RInfo i))) -> Forall (okev (fs_ok fs)) tr -> on_disk fs R i.
Proof.
  intros fs R fuel base req tr i H Hok. apply C08_success_p in H.
  destruct H as [p [H1 [H2 [H3 H4]]]]. exists p. repeat split; auto.
  - eapply fs_ok_file; eassumption.
  - intros Es. eapply fs_ok_canon; [exact Hok|]. auto.
Qed.
Lemma C08_run_p : forall fs st R fuel base req i,
  out fs st (resolve R fuel base req) = Done (Ok (RInfo i)) -> on_disk fs R i.
Proof.
  intros fs st R fuel base req i H. destruct (run_exec (resolve R fuel base req) fs st) as [tr [H1 H2]].
  rewrite H in H1. eapply exec_on_disk; eassumption.
Qed.
Lemma Forall2_nth {A B} : forall (P : A -> B -> Prop) l l' n a, Forall2 P l l' -> nth_error l n = Some a ->
  exists b, nth_error l' n = Some b /\ P a b.
Proof.
  intros P l l' n a H. revert n. induction H as [|x y l l' Hx H IH]; intros [|n] Hn; cbn in *; try discriminate.
  - injection Hn as <-. eauto.
  - apply IH, Hn.
Qed.
Lemma C08_sched_p : forall fs sched st l l' st' n R fuel base req i,
  run_sched fs sched st l = (l', st') ->
  nth_error l n = Some (resolve R fuel base req) -> nth_error l' n = Some (Ret (Ok (RInfo i))) ->
  on_disk fs R i.
Proof.
  intros fs sched st l l' st' n R fuel base req i H Hn Hn'. apply run_sched_steps in H.
  destruct (Forall2_nth _ _ _ _ _ H Hn) as [q [Hq [tr [H1 H2]]]]. rewrite Hn' in Hq. injection Hq as <-.
  assert (E : exec (resolve R fuel base req) (tr ++ []) (Done (Ok (RInfo i)))).
  { eapply steps_to_exec; [exact H1|constructor]. }
  rewrite app_nil_r in E. eapply exec_on_disk; eassumption.
Qed.

Lemma C10_enforced_p : forall R fuel base req tr i, o_enforce (rv_opts R) = Some true ->
  exec (resolve R fuel base req) tr (Done (Ok (RInfo i))) ->
  exists q ext, In ext (o_extensions (rv_opts R)) /\ In (mkev (OIsFile (q ++ ext)) true) tr /\
    (o_symlinks (rv_opts R) = true -> In (mkev (OCanon (q ++ ext)) (Some (i_path i))) tr) /\
    (o_symlinks (rv_opts R) = false -> i_path i = normalize_path_without_link (q ++ ext)).
Proof.
  intros R fuel base req tr i He H. apply top_exec in H. destruct H as [[p [H1 [H2 [H3 H4]]]] _].
  destruct H3 as [q [ext [H5 ->]]].
  { unfold enforce. rewrite He. reflexivity. }
  exists q, ext. repeat split; auto; intros Es; rewrite Es in H4; exact H4.
Qed.
Lemma C10_new_p : forall o cache id debug js jsc,
  let o' := rv_opts (new_resolver o cache id debug js jsc) in
  (o_enforce o = None -> (o_enforce o' = Some true <-> In [] (o_extensions o)) /\
                         (o_enforce o' = Some false <-> ~ In [] (o_extensions o))) /\
  (forall b, o_enforce o = Some b -> o' = o).
Proof.
  intros o cache id debug js jsc o'. subst o'. cbn. split.
  - intros ->. assert (H : existsb is_empty_str (o_extensions o) = true <-> In [] (o_extensions o)).
    { rewrite existsb_exists. split.
      - intros [x [Hx Ex]]. destruct x; [exact Hx|discriminate].
      - intros Hx. exists []. auto. }
    destruct (existsb is_empty_str (o_extensions o)); intuition congruence.
  - intros b E. destruct o; cbn in *. subst. reflexivity.
Qed.

Lemma C13_marker_p : forall R fuel base req tr, ~ exec (resolve R fuel base req) tr (Done (Err TAG)).
Proof. intros R fuel base req tr H. apply top_exec in H. destruct H as [H _]. apply H. reflexivity. Qed.
Lemma Forall_impl' {A} : forall (P Q : A -> Prop) l, (forall a, In a l -> P a -> Q a) -> Forall P l -> Forall Q l.
Proof. intros P Q l H. rewrite !Forall_forall. auto. Qed.
Lemma C13_plain_p : forall R fuel base req tr e, o_tsconfig (rv_opts R) = None ->
  (forall s j, rv_json R s = Some j -> jget j (lit "exports") = None /\ jget j (lit "imports") = None) ->
  (forall c p pk, In (mkev (OPkgGet c p) (Some (Some pk))) tr -> p_exports pk = None /\ p_imports pk = None) ->
  exec (resolve R fuel base req) tr (Done (Err e)) ->
  e = generic_failure base req \/ desc_err e \/
  e = norm_failed /\ exists p, In (mkev (OIsFile p) true) tr.
Proof.
  intros R fuel base req tr e Ht Hp Hg H.
  assert (Hok : Forall (okev plain_ok) tr).
  { apply Forall_forall. intros [o x] Hin. unfold okev; cbn. destruct o; try exact I. destruct x as [[pk|]|]; try exact I.
    eapply Hg, Hin. }
  destruct (sat_exec _ _ _ _ _ H Hok [] _ (plain_failure R fuel base req Ht Hp)) as [_ H2].
  exact (H2 _ eq_refl).
Qed.
Lemma C13_nodesc_p : forall R fuel base req tr e, o_tsconfig (rv_opts R) = None -> o_desc (rv_opts R) = None ->
  exec (resolve R fuel base req) tr (Done (Err e)) ->
  e = generic_failure base req \/
  e = norm_failed /\ exists p, In (mkev (OIsFile p) true) tr.
Proof.
  intros R fuel base req tr e Ht Hd H.
  destruct (sat_exec _ _ _ _ _ H (anyok_all tr) [] _ (no_description R fuel base req Ht Hd)) as [_ H2].
  destruct (H2 _ eq_refl) as [H3|[[]|H3]]; auto.
Qed.
Lemma C13_nofile_p : forall R fuel base req tr r, o_tsconfig (rv_opts R) = None ->
  (forall p, ~ In (mkev (OIsFile p) true) tr) ->
  (forall c p pk, ~ In (mkev (OPkgGet c p) (Some (Some pk))) tr) ->
  exec (resolve R fuel base req) tr (Done r) ->
  r = Err (generic_failure base req) \/ r = Ok RIgnored.
Proof.
  intros R fuel base req tr r Ht Hf Hg H.
  assert (Hok : Forall (okev nofile_ok) tr).
  { apply Forall_forall. intros [o x] Hin. unfold okev; cbn. destruct o; try exact I.
    - destruct x; [|reflexivity]. exfalso. eapply Hf, Hin.
    - destruct x as [[pk|]|]; cbn; auto. exfalso. eapply Hg, Hin. }
  destruct (sat_exec _ _ _ _ _ H Hok [] _ (nothing_found R fuel base req Ht)) as [_ H2].
  specialize (H2 r eq_refl). cbn [app] in H2. destruct r as [[i|]|e]; cbn in H2; auto.
  - destruct H2 as [p H2]. exfalso. eapply Hf, H2.
  - destruct H2 as [->|[[]|[_ [p H2]]]]; auto. exfalso. eapply Hf, H2.
Qed.

Lemma C14_partial_p : forall R fuel p tr, is_abs p = true ->
  (forall q, components q = [CRoot] -> ~ In (mkev (OIsDir q) false) tr) ->
  ~ exec (load_side_effects R fuel p) tr (Done (Err TAG)).
Proof.
  intros R fuel p tr Ha Hr H.
  assert (Hok : Forall (okev root_ok) tr).
  { apply Forall_forall. intros [o x] Hin. unfold okev; cbn. destruct o; try exact I.
    intros Hq. destruct x; [reflexivity|]. exfalso. eapply Hr; eassumption. }
  destruct (sat_exec _ _ _ _ _ H Hok [] _ (sat_side_effects R fuel p Ha)) as [_ H2].
  exact (H2 _ eq_refl eq_refl).
Qed.

Lemma C48_path_p : forall R fuel base req tr i,
  o_tsconfig (rv_opts R) = None -> o_alias (rv_opts R) = [] -> o_browser (rv_opts R) = false ->
  (r_kind (parse req) = Relative \/ r_kind (parse req) = AbsolutePosix \/ r_kind (parse req) = AbsoluteWin) ->
  exec (resolve R fuel base req) tr (Done (Ok (RInfo i))) ->
  r_query (i_req i) = r_query (parse req) /\ r_fragment (i_req i) = r_fragment (parse req).
Proof.
  intros R fuel base req tr i Ht Ha Hb Hk H.
  destruct (sat_exec _ _ _ _ _ H (anyok_all tr) [] _ (carry_path R fuel base req Ht Ha Hb Hk)) as [_ H2].
  exact (H2 _ eq_refl).
Qed.
Lemma C48_plain_p : forall R fuel base req tr i, o_tsconfig (rv_opts R) = None ->
  (forall s j, rv_json R s = Some j -> jget j (lit "exports") = None /\ jget j (lit "imports") = None) ->
  (forall c p pk, In (mkev (OPkgGet c p) (Some (Some pk))) tr -> p_exports pk = None /\ p_imports pk = None) ->
  exec (resolve R fuel base req) tr (Done (Ok (RInfo i))) ->
  r_query (i_req i) = r_query (parse req) /\ r_fragment (i_req i) = r_fragment (parse req).
Proof.
  intros R fuel base req tr i Ht Hp Hg H.
  assert (Hok : Forall (okev plain_ok) tr).
  { apply Forall_forall. intros [o x] Hin. unfold okev; cbn. destruct o; try exact I. destruct x as [[pk|]|]; try exact I.
    eapply Hg, Hin. }
  destruct (sat_exec _ _ _ _ _ H Hok [] _ (carry_plain R fuel base req Ht Hp plain_ok (fun c p pk H => H))) as [_ H2].
  exact (H2 _ eq_refl).
Qed.
Lemma C48_join_p : forall i, info_join i = i_path i ++ r_query (i_req i) ++ r_fragment (i_req i).
Proof. intros i. unfold info_join. rewrite ?app_assoc. reflexivity. Qed.

(** ** Worlds used in the examples *)
Definition w1 : fsys := W (D [("r"%string, D [("a.js"%string, F); ("l.js"%string, NLink (lit "d/b.js"));
  ("d"%string, D [("b.js"%string, F)])])]).
Definition R1 : resolver := mkR dflt [].
Definition R1off : resolver := mkR (with_symlinks dflt false) [].
Lemma C08_ex_p :
  res w1 R1 "/r" "./l?q" = found "/r/d/b.js" "?q" "" /\ res w1 R1off "/r/d" "./../l.js" = found "/r/l.js" "" "".
Proof. vm_compute. auto. Qed.
Definition two : list (prog (result rresult)) :=
  [resolve R1 40 (lit "/r") (lit "./a"); resolve R1 40 (lit "/r") (lit "./l")].
Fixpoint alternate (n : nat) : list nat := match n with 0 => [] | S n => 0 :: 1 :: alternate n end.
Lemma C08_ex_sched_p :
  fst (run_sched w1 (alternate 30) st0 two) =
  [Ret (Ok (RInfo (mkInfo (lit "/r/a.js") (mkReq [] [] [] Relative))));
   Ret (Ok (RInfo (mkInfo (lit "/r/d/b.js") (mkReq [] [] [] Relative))))].
Proof. vm_compute. reflexivity. Qed.
Definition Renf : resolver := mkR (with_exts dflt [lit ".js"; []]) [].
Definition Rnoenf : resolver := mkR (with_enforce (with_exts dflt [lit ".js"; []]) (Some false)) [].
Lemma C10_ex_p : o_enforce (rv_opts Renf) = Some true /\ o_enforce (rv_opts R1) = Some false /\
  res w1 Renf "/r" "./a.js" = found "/r/a.js" "" "" /\ o_enforce (rv_opts Rnoenf) = Some false.
Proof. vm_compute. auto. Qed.
Definition Rstrict : resolver := mkR (with_enforce dflt (Some true)) [].
Lemma C10_ex2_p : res w1 Rstrict "/r" "./a" = found "/r/a.js" "" "" /\
  res w1 Rstrict "/r" "./a.js" = failed "Resolve './a.js' failed in '/r'" /\
  res w1 R1 "/r" "./a.js" = found "/r/a.js" "" "".
Proof. vm_compute. auto. Qed.

(** Boolean form of the hypotheses of [C13_nofile_p], to check them on a trace. *)
Definition ev_quiet (e : ev) : bool :=
  match e with existT _ o x =>
    match o return ans o -> bool with
    | OIsFile _ => fun x => negb x
    | OPkgGet _ _ => fun x => match x with Some (Some _) => false | _ => true end
    | _ => fun _ => true
    end x end.
Lemma quiet_ok : forall tr, forallb ev_quiet tr = true ->
  (forall p, ~ In (mkev (OIsFile p) true) tr) /\ (forall c p pk, ~ In (mkev (OPkgGet c p) (Some (Some pk))) tr).
Proof.
  intros tr H. rewrite forallb_forall in H. split.
  - intros p Hin. apply H in Hin. cbn in Hin. discriminate Hin.
  - intros c p pk Hin. apply H in Hin. cbn in Hin. discriminate Hin.
Qed.
Lemma C13_ex_p : exists tr,
  (forall p, ~ In (mkev (OIsFile p) true) tr) /\
  (forall c p pk, ~ In (mkev (OPkgGet c p) (Some (Some pk))) tr) /\
  exec (resolve R1 40 (lit "/r") (lit "m/x?q#f")) tr (Done (Err (lit "Resolve 'm/x?q#f' failed in '/r'"))).
Proof.
  exists (run_tr w1 (resolve R1 40 (lit "/r") (lit "m/x?q#f")) st0).
  assert (E : out w1 st0 (resolve R1 40 (lit "/r") (lit "m/x?q#f")) = Done (Err (lit "Resolve 'm/x?q#f' failed in '/r'")))
    by (vm_compute; reflexivity).
  rewrite <- E. pose proof (quiet_ok (run_tr w1 (resolve R1 40 (lit "/r") (lit "m/x?q#f")) st0)) as H.
  destruct H as [H1 H2]; [vm_compute; reflexivity|]. split; [exact H1|]. split; [exact H2|]. apply run_tr_exec.
Qed.
(** A package without exports and one whose description is malformed. *)
Definition w2 : fsys := W (D [("r"%string, D [("node_modules"%string, D [
   ("good"%string, D [("package.json"%string, PJ "good"); ("index.js"%string, F)]);
   ("bad"%string, D [("package.json"%string, PJ "bad"); ("index.js"%string, F)])])])]).
Definition R2 : resolver := mkR dflt [("good"%string, O [("name"%string, S_ "good")])].
Lemma R2_plain : forall s j, rv_json R2 s = Some j -> jget j (lit "exports") = None /\ jget j (lit "imports") = None.
Proof.
  intros s j H. change (rv_json R2 s) with (js_of [("good"%string, O [("name"%string, S_ "good")])] s) in H.
  unfold js_of in H. cbn [map fst snd imap_get] in H.
  destruct (str_eqb _ _); [|discriminate H]. injection H as <-. vm_compute. auto.
Qed.
Lemma C13_ex2_p :
  res w2 R2 "/r" "good" = found "/r/node_modules/good/index.js" "" "" /\
  res w2 R2 "/r" "good/x" = failed "Resolve 'good/x' failed in '/r'" /\
  res w2 R2 "/r" "bad" = failed "Parse /r/node_modules/bad/package.json failed".
Proof. vm_compute. auto. Qed.

Lemma C14_refuted_w : out w1 st0 (load_side_effects R1 40 (lit "missing")) = Done (Err TAG).
Proof. vm_compute. reflexivity. Qed.
Lemma C14_refuted_p : exists fs st R fuel p, out fs st (load_side_effects R fuel p) = Done (Err (lit "T0")).
Proof. exists w1, st0, R1, 40, (lit "missing"). exact C14_refuted_w. Qed.
Lemma C14_ex_p : out w2 st0 (load_side_effects R2 40 (lit "/r/node_modules/bad")) =
  Done (Err (lit "Parse /r/node_modules/bad/package.json failed")) /\
  out w2 st0 (load_side_effects R2 40 (lit "/nowhere/at/all")) = Done (Ok None).
Proof. vm_compute. auto. Qed.

(** A path request aliased to a package request whose exports swallow the query. *)
Definition w3 : fsys := W (D [("r"%string, D [("node_modules"%string, D [
   ("p"%string, D [("package.json"%string, PJ "p"); ("lib.js"%string, F)])])])]).
Definition R3 : resolver := mkR (with_alias dflt [(lit "./x", ATarget (lit "p/a"))])
  [("p"%string, O [("exports"%string, O [("./*"%string, S_ "./lib.js")])])].
Lemma C48_refuted_w : r_kind (parse (lit "./x?q")) = Relative /\ r_query (parse (lit "./x?q")) = lit "?q" /\
  res w3 R3 "/r" "./x?q" = found "/r/node_modules/p/lib.js" "" "".
Proof. vm_compute. auto. Qed.
Lemma C48_refuted_p : exists fs st R fuel base req i,
  r_kind (parse req) = Relative /\ out fs st (resolve R fuel base req) = Done (Ok (RInfo i)) /\
  r_query (i_req i) <> r_query (parse req).
Proof.
  exists w3, st0, R3, 40, (lit "/r"), (lit "./x?q"), (mkInfo (lit "/r/node_modules/p/lib.js") (mkReq [] [] [] Relative)).
  destruct C48_refuted_w as [H1 [H2 H3]]. split; [exact H1|]. split; [exact H3|]. rewrite H2. discriminate.
Qed.
(** The query may be that of an exports target, or none, through a tsconfig. *)
Definition R3t : resolver := mkR (with_tsconfig dflt (Some (lit "/r/tsconfig.json")))
  [("p"%string, O [("exports"%string, O [("./*"%string, S_ "./lib.js?t#u")])]);
   ("ts"%string, O [("compilerOptions"%string, O [("baseUrl"%string, S_ "."); ("paths"%string, O [("m"%string, JArr [S_ "./node_modules/p/lib"])])])])].
Definition w3t : fsys := W (D [("r"%string, D [("tsconfig.json"%string, PJ "ts"); ("node_modules"%string, D [
   ("p"%string, D [("package.json"%string, PJ "p"); ("lib.js"%string, F)])])])]).
Lemma C48_sources_ex_p : res w3t R3t "/r" "p/a?q" = found "/r/node_modules/p/lib.js" "?t" "#u" /\
  res w3t R3t "/r" "m?q" = found "/r/node_modules/p/lib.js" "" "" /\
  res w3t R3t "/r" "./node_modules/p/lib?q" = found "/r/node_modules/p/lib.js" "?q" "".
Proof. vm_compute. auto. Qed.
Lemma C48_ex_p : r_kind (parse (lit "./a?b#c")) = Relative /\
  res w1 R1 "/r" "./a?b#c" = found "/r/a.js" "?b" "#c" /\
  res w2 R2 "/r" "good?b" = found "/r/node_modules/good/index.js" "?b" "" /\
  info_join (mkInfo (lit "/r/a.js") (mkReq [] (lit "?b") (lit "#c") Relative)) = lit "/r/a.js?b#c".
Proof. vm_compute. auto. Qed.

(** ** C49 *)
Lemma C49_on_p : forall R fuel base req tr, o_symlinks (rv_opts R) = true ->
  (forall i, exec (resolve R fuel base req) tr (Done (Ok (RInfo i))) ->
     exists p, In (mkev (OIsFile p) true) tr /\ In (mkev (OCanon p) (Some (i_path i))) tr) /\
  (forall p r, In (mkev (OCanon p) None) tr -> exec (resolve R fuel base req) tr (Done r) ->
     r = Err (lit "Path normalized failed")).
Proof.
  intros R fuel base req tr Hs. split.
  - intros i H. apply C08_success_p in H. destruct H as [p [H1 [_ [H3 _]]]]. exists p. auto.
  - intros p r Hin H. apply top_exec in H. destruct H as [_ [H _]]. apply (H p Hin).
Qed.
Definition canon_none (fs : fsys) : fsys :=
  mkFs (f_file fs) (f_dir fs) (f_exists fs) (f_read fs) (f_mtime fs) (fun _ => None).
Lemma C49_ex_p : res (canon_none w1) R1 "/r" "./a" = failed "Path normalized failed" /\
  res (canon_none w1) R1off "/r" "./a" = found "/r/a.js" "" "" /\
  res w1 R1 "/r" "./l" = found "/r/d/b.js" "" "" /\ res w1 R1off "/r" "./l" = found "/r/l.js" "" "".
Proof. vm_compute. auto. Qed.

Lemma C13_every_p : forall R fuel base req tr e, exec (resolve R fuel base req) tr (Done (Err e)) ->
  e = generic_failure base req \/ blame R tr e.
Proof. intros R. exact (every_error R). Qed.
(** Errors of several kinds: a denied subpath, a request the field refuses, a broken tsconfig. *)
Definition w13 : fsys := W (D [("r", D [("ts.json", PJ "bad"); ("node_modules", D [
   ("e", D [("package.json", PJ "E"); ("index.js", F)])])])])%string.
Definition R13 (ts : option path) : resolver := mkR (with_tsconfig dflt ts) [("E", O [("exports", O [("./gone", S_ "./gone.js")])])]%string.
Lemma C13_every_ex_p : res w13 (R13 None) "/r" "e/gone" = failed "Package path e/gone is not exported" /\
  res w13 (R13 None) "/r" "e/x/" = failed "Only requesting file allowed" /\
  res w13 (R13 (Some (lit "/r/ts.json"))) "/r" "e/gone" = failed "Parse /r/ts.json failed. Error: bad" /\
  res w13 (R13 None) "/r" "f" = failed "Resolve 'f' failed in '/r'".
Proof. vm_compute. repeat split. Qed.
