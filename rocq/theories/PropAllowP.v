(** * Lemmas and the example worlds behind PropAllow.v *)
From Coq Require Import String.
From Coq Require Import List Arith NArith Bool Lia Permutation.
From Verif Require Import Str StrP Path PathP Json Types Parse ParseP Map Prog Desc Resolve Top Run RunP Exec Posix Demo WitnessP FuelP SpecRun SpecLoad SpecExports SpecCache SpecJson SpecNode SpecWorld SpecFull SpecTerm PosixP SpellP SimP LoadP GuarP TsP LookupP CacheP SpecChange ChangeP SpecDebug DebugP PropDebugP PropCacheP PropChangeP PropTermP ReachP PropReachP NodeP FullP SoundP AllowP PropNodeP PropFullP.
Import ListNotations.

Section Final.
Variable fs : fsys.
Hypothesis Hfs : sane_fs fs.
Variable js : str -> option json.
Hypothesis Hjs : forall s j, js s = Some j -> wf_json j.
Variable nm : nat -> str.
Hypothesis Hclash : no_clash fs js nm.
Notation Clients h := (Forall (fun c => client js nm (call_resolver c)) h).
Notation after h seeds := (snd (run_history fs (empty_state seeds) (map ECall h))).
Lemma allowed_wg : forall c, client js nm (call_resolver c) -> keyed c -> wg fs js nm (as_allowed fs c) (call_prog c).
Proof.
  intros c Hc Hk. apply wg_and; [|apply (client_call fs Hfs js nm (fin_inj fs js Hjs nm) Hclash), Hc].
  apply (allowed_go fs (wxm (okc fs js nm) false) (okc_plain fs js nm false) c Hk).
  pose proof Hc as (_ & Hj & _). rewrite Hj. apply (okc_load fs Hfs js nm (fin_inj fs js Hjs nm) Hclash), Hc.
Qed.
Lemma fin_60 : forall h seeds c, Clients h -> client js nm (call_resolver c) -> keyed c -> as_allowed fs c (out fs (after h seeds) (call_prog c)).
Proof.
  intros h seeds c Hh Hc Hk. apply (run_inv fs js nm); [apply allowed_wg; assumption|apply fin_history; assumption].
Qed.
Lemma fin_60_sched : forall l h sched seeds, Clients h -> Forall (fun c => client js nm (call_resolver c) /\ keyed c) l ->
  Forall2 (fun c p => as_allowed fs c (settled p)) l (fst (run_sched fs sched (after h seeds) (map call_prog l))).
Proof.
  intros l h sched seeds Hh Hl.
  destruct (sched_inv fs js nm sched (map call_prog l) (map (as_allowed fs) l) (after h seeds)) as [H _].
  - clear sched. induction Hl as [|c l [H1 H2] Hl IH]; cbn [map]; constructor; [|exact IH]. apply allowed_wg; assumption.
  - apply fin_history; assumption.
  - revert H. generalize (fst (run_sched fs sched (after h seeds) (map call_prog l))). clear Hh.
    induction Hl as [|c l [H1 H2] Hl IH]; intros ps H; inversion H as [|? p ? ps' Hp Hps]; subst; constructor; [|apply IH, Hps].
    destruct p as [a|m| |o k]; cbn [settled]; cbn [wg] in Hp; try exact Hp. destruct c; [left; reflexivity|apply SaBound].
Qed.
Lemma fin_60_ends : forall R base req, client js nm R -> values_nodup R -> call_plain fs (CResolve R 0 base req) ->
  exists N, forall f h seeds, N <= f -> Clients h ->
    exists a, may_come_to fs R base (parse req) a /\ SpecFull.gives (standing fs) R a (out fs (after h seeds) (call_prog (CResolve R f base req))).
Proof.
  intros R base req Hc Hv Hp. destruct (fin_16 fs Hfs js Hjs nm Hclash (CResolve R 0 base req) Hc Hp) as [N HN]. exists N. intros f h seeds Hf Hh.
  destruct (fin_60 h seeds (CResolve R f base req) Hh Hc Hv) as [E|E]; [destruct (HN f h seeds Hf Hh E)|exact E].
Qed.
End Final.

(** ** After changes on disk *)
Section Changing.
Variable js : str -> option json.
Hypothesis Hwf : forall s j, js s = Some j -> wf_json j.
Variable nm : nat -> str.
Hypothesis Hrel : forall c, is_abs (nm c) = false.
Variable own : nat -> nat.
Variable dur : N.
Notation member := (SpecChange.member js nm own dur).
Lemma fin_60_changes : forall fs0 h seeds c, texts_apart js (written_on (fun n => exists k, n = nm k) (systems fs0 h)) ->
  Forall (fun fs => sane_fs fs /\ forall k, all_readable js (nm k) fs) (systems fs0 h) ->
  ForallOrdPairs (fun fs fs' => forall k, noticeable (nm k) dur fs fs') (systems fs0 h) ->
  Forall member (callers h) -> member (call_resolver c) -> keyed c ->
  let '(_, fs, st) := run_history fs0 (empty_state seeds) h in as_allowed fs c (out fs st (call_prog c)).
Proof.
  intros fs0 h seeds c Hap Hall Hord Hm Hc Hk. destruct (changes_jinv js Hwf nm Hrel own dur fs0 h seeds Hap Hall Hord Hm) as (F & m & HT & HF & Hg & Hn & E & Hi).
  destruct (run_history fs0 (empty_state seeds) h) as [[os fs] st]. cbn [fst snd] in E, Hi. subst fs.
  apply (allowed_go (F m) (trim js (written_on (fun n => exists k, n = nm k) (systems fs0 h)) nm own F m)); [apply trim_plain|exact Hk| |exact Hi].
  pose proof Hc as ((_ & Hj & _) & _). rewrite Hj. apply (tri_right js Hwf _ Hap nm Hrel own dur F HT HF Hg Hn m), Hc.
Qed.
Lemma fin_58_changes : forall fs0 h seeds c, texts_apart js (written_on (fun n => exists k, n = nm k) (systems fs0 h)) ->
  Forall (fun fs => sane_fs fs /\ forall k, all_readable js (nm k) fs) (systems fs0 h) ->
  ForallOrdPairs (fun fs fs' => forall k, noticeable (nm k) dur fs fs') (systems fs0 h) ->
  Forall member (callers h) -> member (call_resolver c) ->
  let '(_, fs, st) := run_history fs0 (empty_state seeds) h in described fs c -> as_described fs c (out fs st (call_prog c)).
Proof.
  intros fs0 h seeds c Hap Hall Hord Hm Hc. destruct (changes_jinv js Hwf nm Hrel own dur fs0 h seeds Hap Hall Hord Hm) as (F & m & HT & HF & Hg & Hn & E & Hi).
  destruct (run_history fs0 (empty_state seeds) h) as [[os fs] st]. cbn [fst snd] in E, Hi. subst fs. intros Hd.
  apply (full_outcome (F m) js nm c _ (proj1 Hc) Hd).
  apply (tri_call js Hwf _ Hap nm Hrel own dur F HT HF Hg Hn m c Hc (described_steady (F m) js nm c (proj1 Hc) Hd) st Hi).
Qed.
Lemma fin_60_debug : forall fs0 h seeds c, texts_apart js (written_on (fun n => exists k, n = nm k) (systems fs0 h)) ->
  Forall (fun fs => sane_fs fs /\ forall k, all_readable js (nm k) fs) (systems fs0 h) ->
  ForallOrdPairs (fun fs fs' => forall k, noticeable (nm k) dur fs fs') (systems fs0 h) ->
  Forall (fun R => member (released R)) (call_resolver c :: callers h) -> keyed c ->
  let '(_, fs, st) := run_history fs0 (empty_state seeds) h in as_allowed fs (released_call c) (out fs st (call_prog c)).
Proof.
  intros fs0 h seeds c Hap Hf Hp Hm Hk.
  pose proof (member_orderly js nm own dur _ _ Hrel Hf Hm) as Ho. pose proof (next_same h c fs0 seeds Ho) as Hn. inversion Hm as [|? ? Hc Hh]; subst.
  pose proof (fin_60_changes fs0 (map released_event h) seeds (released_call c)) as H.
  rewrite released_systems, released_callers, released_resolver in H.
  specialize (H Hap Hf Hp (proj2 (Forall_map _ _ _) Hh) Hc). assert (Hk' : keyed (released_call c)) by (destruct c; exact Hk). specialize (H Hk').
  destruct (run_history fs0 (empty_state seeds) h) as [[os f1] st], (run_history fs0 (empty_state seeds) (map released_event h)) as [[os' f2] st'].
  destruct Hn as [<- ->]. exact H.
Qed.
End Changing.

(** ** Two orders, two answers (the worlds of C27) *)
Definition T27 : list (string * json) := ([("P", O [("browser", O [("./a", S_ "./x"); ("./a.js", S_ "./y")])])])%string.
Definition T27t : list (string * json) := ([("P", O []); ("T", O [("compilerOptions", O [("baseUrl", S_ ".");
     ("paths", O [("l*", JArr [S_ "./x"]); ("*b", JArr [S_ "./y"])])])])])%string.
Definition j27 : json := (O [("compilerOptions", O [("baseUrl", S_ "."); ("paths", O [("l*", JArr [S_ "./x"]); ("*b", JArr [S_ "./y"])])])])%string.
Lemma wf27 : (forall s j, js_of T27 s = Some j -> wf_json j) /\ forall s j, js_of T27t s = Some j -> wf_json j.
Proof.
  split; intros s j H; apply js_of_in in H; [destruct H as [<-|[]]|destruct H as [<-|[<-|[]]]]; cbn; repeat split; auto;
    repeat (constructor; [cbn; intuition discriminate|]); constructor.
Qed.
Lemma clash27 : no_clash w27 (js_of T27) nmc /\ no_clash w27 (js_of T27t) nmc.
Proof.
  split; intros c v v' (d & s & j & _ & _ & Hj & Hv) _; apply js_of_in in Hj; [destruct Hj as [<-|[]]|destruct Hj as [<-|[<-|[]]]]; discriminate Hv.
Qed.
Lemma keyed27 : forall f base req, keyed (CResolve R27 f base req) /\ keyed (CResolve R27t f base req).
Proof.
  intros f base req. split; [intros H; destruct (H eq_refl)|]. intros _ s j Hj. change (rv_jsonc R27t) with (jsc_of T27t) in Hj.
  unfold jsc_of in Hj. destruct (js_of T27t s) as [j'|] eqn:E; [|discriminate]. injection Hj as <-. apply js_of_in in E.
  destruct E as [<-|[<-|[]]]; cbn;
    repeat (apply JDStr || apply JDArr || (apply JDObj; [apply nodup_dec_ok; reflexivity|]) || apply Forall_cons || apply Forall_nil).
Qed.

Definition spot (x : string) : path := join (join (lit "/r") (lit ".")) (lit x).
Lemma at27 : forall p q, (exists opk, some_desc w27 R27t p (Has opk)) -> contains p MODULE = false -> file_at w27 R27t p q -> p = get_path (mkInfo p empty_request) ->
  seek (standing w27) R27t (some_desc w27 R27t) p empty_request (Finds q [] []).
Proof.
  intros p q [opk Ho] Hm Hq E. change (Finds q [] []) with (reported p empty_request (Finds q (r_query empty_request) (r_fragment empty_request))).
  eapply (SkSearch _ _ _ _ _ []); [eapply (TrAliases _ _ _ [] []); [exact Hm|apply APNil|apply NbNo; left; reflexivity]|apply TdNone|].
  eapply SeEnds; [unfold first_place; exact Ho|apply ImOther; reflexivity|apply AfMoves, SwSilent; left; reflexivity|].
  apply EnSees; [left; reflexivity|]. apply PlFile. rewrite <- E. exact Hq.
Qed.
Lemma config27 : config (standing w27) R27t (some_desc w27 R27t) (lit "/r/tsconfig.json") (Some (Ok j27)).
Proof. eapply CfAlone; [calc|calc|]. intros x. vm_compute. discriminate. Qed.
Lemma sets27 : ts_sets j27 (lit ".") [(lit "l*", [lit "./x"]); (lit "*b", [lit "./y"])].
Proof. eexists. split; [calc|]. split; [calc|]. split; [calc|]. repeat (constructor; [cbn; intuition discriminate|]). constructor. Qed.
Lemma tries27 : ts_tries (lit "lib") [(lit "l*", [spot "./x"]); (lit "*b", [spot "./y"])] [spot "./x"; spot "./y"] false /\
  ts_tries (lit "lib") [(lit "*b", [spot "./y"]); (lit "l*", [spot "./x"])] [spot "./y"; spot "./x"] false.
Proof.
  assert (H1 : star_matches (lit "l*") (lit "lib") (lit "ib")).
  { exists (lit "l"), []. split; [calc|]. split; [intros [H|[]]; discriminate H|]. split; [calc|discriminate]. }
  assert (H2 : star_matches (lit "*b") (lit "lib") (lit "li")).
  { exists [], (lit "b"). split; [calc|]. split; [intros []|]. split; [calc|discriminate]. }
  assert (F1 : Forall2 (filled (lit "ib")) [spot "./x"] [spot "./x"]) by (constructor; [apply (filled_replace (lit "ib") (spot "./x"))|constructor]).
  assert (F2 : Forall2 (filled (lit "li")) [spot "./y"] [spot "./y"]) by (constructor; [apply (filled_replace (lit "li") (spot "./y"))|constructor]).
  split.
  - apply (TtStar _ _ _ _ (lit "ib") [spot "./x"] [spot "./y"]); [discriminate|exact H1|exact F1|].
    apply (TtStar _ _ _ _ (lit "li") [spot "./y"] []); [discriminate|exact H2|exact F2|apply TtNil].
  - apply (TtStar _ _ _ _ (lit "li") [spot "./y"] [spot "./x"]); [discriminate|exact H2|exact F2|].
    apply (TtStar _ _ _ _ (lit "ib") [spot "./x"] []); [discriminate|exact H1|exact F1|apply TtNil].
Qed.
Lemma may27_paths : may_come_to w27 R27t (lit "/r") (parse (lit "lib")) (Finds (spot "./x.js") [] []) /\
  may_come_to w27 R27t (lit "/r") (parse (lit "lib")) (Finds (spot "./y.js") [] []).
Proof.
  split.
  - eapply CtMapped; [reflexivity|exact config27|eapply MpSets; [calc|exact sets27|apply Permutation_refl|exact (proj1 tries27)]|].
    apply LcHit; [|discriminate]. apply at27; [|calc|isfile [spot "./x"]|calc]. eexists. eexists. split; [unfold has_desc; calc|apply read_refl].
  - eapply CtMapped; [reflexivity|exact config27|eapply MpSets; [calc|exact sets27|apply perm_swap|exact (proj2 tries27)]|].
    apply LcHit; [|discriminate]. apply at27; [|calc|isfile [spot "./y"]|calc]. eexists. eexists. split; [unfold has_desc; calc|apply read_refl].
Qed.
Definition pk27 (l : list (str * alias_map)) : pkg := mkPkg (lit "/r") None None l None None None (O [("browser", O [("./a", S_ "./x"); ("./a.js", S_ "./y")])]%string).
Lemma desc27 : forall l, Permutation [(lit "./a", ATarget (lit "./x")); (lit "./a.js", ATarget (lit "./y"))] l -> some_desc w27 R27 (first_place (lit "/r") (parse (lit "./a"))) (Has (Some (pk27 l))).
Proof.
  intros l Hl. exists (Some (pk27 [(lit "./a", ATarget (lit "./x")); (lit "./a.js", ATarget (lit "./y"))])). split; [unfold has_desc; calc|].
  apply (RaSome (pk27 [(lit "./a", ATarget (lit "./x")); (lit "./a.js", ATarget (lit "./y"))])); [reflexivity|exact Hl].
Qed.
Lemma may27_browser : may_come_to w27 R27 (lit "/r") (parse (lit "./a")) (Finds (lit "/r/./x.js") [] []) /\
  may_come_to w27 R27 (lit "/r") (parse (lit "./a")) (Finds (lit "/r/./y.js") [] []).
Proof.
  assert (Hd : forall l q k to, Permutation [(lit "./a", ATarget (lit "./x")); (lit "./a.js", ATarget (lit "./y"))] ((k, ATarget to) :: l) ->
    browser_key (rv_opts R27) (lit "/r") (mkInfo (lit "/r") (parse (lit "./a"))) k -> imap_get ((k, ATarget to) :: l) to = None ->
    file_at w27 R27 (get_path (mkInfo (lit "/r") (req_with_target (parse (lit "./a")) to))) q ->
    path_kind (r_kind (req_with_target (parse (lit "./a")) to)) ->
    may_come_to w27 R27 (lit "/r") (parse (lit "./a")) (Finds q [] [])).
  { intros l q k to Hl Hk Hc Hq Hr. apply CtPlain; [reflexivity|].
    change (Finds q [] []) with (reported (lit "/r") (parse (lit "./a")) (Finds q [] [])).
    eapply (SkSearch _ _ _ _ _ []); [eapply (TrAliases _ _ _ [] []); [calc|apply APNil|apply NbNo; left; reflexivity]|apply TdNone|].
    eapply SeEnds; [apply (desc27 _ Hl)|apply ImOther; reflexivity| |].
    - apply AfMoves. eapply (SwTo _ _ _ _ _ [] k (ATarget to) l to); [reflexivity|reflexivity|reflexivity|intros k' v' []|exact Hk|apply SpecRun.ChEnd; exact Hc].
    - apply EnSees; [exact Hr|]. apply (PlFile _ _ _ (req_with_target (parse (lit "./a")) to)). exact Hq. }
  split.
  - apply (Hd [(lit "./a.js", ATarget (lit "./y"))] _ (lit "./a") (lit "./x")); [apply Permutation_refl|left; calc|calc|isfile [lit "/r/./x"]|left; reflexivity].
  - apply (Hd [(lit "./a", ATarget (lit "./x"))] _ (lit "./a.js") (lit "./y")); [apply perm_swap|right; exists (lit ".js"); split; [left; reflexivity|calc]|calc|isfile [lit "/r/./y"]|left; reflexivity].
Qed.

(** ** A pattern and a target that cannot be cut at the same place *)
Definition T15t : list (string * json) := ([("P", O [("compilerOptions", O [("baseUrl", S_ "."); ("paths", O [("a*", JArr [])])])])])%string.
Definition R15t : resolver := mkR (with_tsconfig dflt (Some (lit "/r/tsconfig.json"))) T15t.
Lemma torn15 : comes_to w15 R15t (lit "/r") (parse (e_acute ++ lit "x")) Crashes.
Proof.
  eapply (CtTorn _ _ _ _ _ _ (lit "/r/tsconfig.json") (O [("compilerOptions", O [("baseUrl", S_ "."); ("paths", O [("a*", JArr [])])])]%string) []); [reflexivity| | |apply LcNone].
  - eapply CfAlone; [calc|calc|]. intros x. vm_compute. discriminate.
  - eapply (MpSets _ _ _ _ (lit "/r") (lit ".") [(lit "a*", [])]); [calc| |reflexivity|].
    + eexists. split; [calc|]. split; [calc|]. split; [calc|]. constructor; [intros []|constructor].
    + apply TtTorn; [discriminate|]. exists (lit "a"), []. split; [calc|]. split; [intros [H|[]]; discriminate H|]. split; [vm_compute; lia|]. left.
      intros [|c n] [s E]; [discriminate|]. vm_compute in E. injection E as <- E. cbn [blen]. vm_compute. lia.
Qed.

(** ** A side-effects call: the description found has the spelling of whoever asked first *)
Definition w60 : fsys := W (D [("r", D [("package.json", PJ "P"); ("a.js", F)])])%string.
Definition T60 : list (string * json) := ([("P", O [("sideEffects", JBool false)])])%string.
Definition R60 : resolver := mkR dflt T60.
Lemma client60 : client (js_of T60) nmc R60.
Proof. split; [right; reflexivity|split; reflexivity]. Qed.
Lemma wf60 : forall s j, js_of T60 s = Some j -> wf_json j.
Proof. intros s j H. apply js_of_in in H. destruct H as [<-|[]]; cbn; repeat split; auto. Qed.
Lemma clash60 : no_clash w60 (js_of T60) nmc.
Proof. intros c v v' (d & s & j & _ & _ & Hj & Hv) _. apply js_of_in in Hj. destruct Hj as [<-|[]]; discriminate Hv. Qed.
Definition side60 (h : list call) : outcome answer := out w60 (snd (run_history w60 st0 (map ECall h))) (call_prog (CSide R60 40 (lit "/r"))).
Lemma sides60 : side60 [] = Done (ASide (Ok (Some (lit "/r/package.json", Some (SEBool false))))) /\
  side60 [CSide R60 40 (lit "/r/.")] = Done (ASide (Ok (Some (lit "/r/./package.json", Some (SEBool false))))).
Proof. vm_compute. split; reflexivity. Qed.

(** ** After an edit and an addition (the world of C41) *)
Definition o41 : nat -> nat := fun _ => 0.
Lemma systems41 : Forall (fun fs => sane_fs fs /\ forall k : nat, all_readable (js_of T41) (lit "package.json") fs) (systems (W t41a) h41) /\
  ForallOrdPairs (fun fs fs' => forall k : nat, noticeable (lit "package.json") 1000000000%N fs fs') (systems (W t41a) h41).
Proof. exact (disk_systems (js_of T41) (lit "package.json") 1000000000%N t41_name 60 [] t41a [t41b] (systems (W t41a) h41) (ex_intro _ _ eq_refl) eq_refl t41_grown t41_good). Qed.
Lemma members41 : forall base req, Forall (SpecChange.member (js_of T41) nmc o41 1000000000%N) (call_resolver (ask base req) :: callers h41).
Proof.
  intros base req. constructor; [|apply (t41_members o41 eq_refl)]. split; [split; [right; reflexivity|split; reflexivity]|split; [reflexivity|vm_compute; discriminate]].
Qed.
Lemma members57 : forall base req, Forall (fun R => SpecChange.member (js_of T41) nmc o41 1000000000%N (released R)) (call_resolver (askd base req) :: callers h57).
Proof. intros base req. repeat (constructor; [split; [split; [right; reflexivity|split; reflexivity]|split; [reflexivity|vm_compute; discriminate]]|]). constructor. Qed.
Lemma described41 : forall fs base req, described fs (ask base req).
Proof. intros fs base req. split; [left; reflexivity|]. split; [intros H; destruct (H eq_refl)|]. intros loc c t m H. discriminate H. Qed.
Lemma ex60_changes : exists st, snd (run_history (W t41a) st0 h41) = st /\ snd (fst (run_history (W t41a) st0 h41)) = W t41b /\
  out (W t41b) st (call_prog (ask "/r" "q")) = Done (AResolve (Ok (RInfo (mkInfo (lit "/r/node_modules/q/q.js") (mkReq [] [] [] Relative))))).
Proof. eexists. split; [reflexivity|]. vm_compute. split; reflexivity. Qed.
Lemma ex60_debug : exists st, snd (run_history (W t41a) st0 h57) = st /\ snd (fst (run_history (W t41a) st0 h57)) = W t41b /\
  out (W t41b) st (call_prog (askd "/r" "q")) = Done (AResolve (Ok (RInfo (mkInfo (lit "/r/node_modules/q/q.js") (mkReq [] [] [] Relative))))).
Proof. eexists. split; [reflexivity|]. vm_compute. split; reflexivity. Qed.
Lemma client27 : client (js_of T27) nmc R27.
Proof. split; [right; reflexivity|split; reflexivity]. Qed.
Lemma client27t : client (js_of T27t) nmc R27t.
Proof. split; [right; reflexivity|split; reflexivity]. Qed.
Lemma torn15_run : panics (out w15 st0 (resolve R15t 40 (lit "/r") (e_acute ++ lit "x"))).
Proof. eexists. vm_compute. reflexivity. Qed.
