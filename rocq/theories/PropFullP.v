(** * Lemmas and the example world behind PropFull.v *)
From Coq Require Import String.
From Coq Require Import List Arith NArith Bool Lia.
From Verif Require Import Str StrP Path PathP Json Types Parse ParseP Map Prog Desc Resolve Top Run RunP Exec Posix Demo WitnessP FuelP SpecRun SpecLoad SpecExports SpecCache SpecJson SpecNode SpecWorld SpecFull SpecTerm PosixP SpellP SimP LoadP GuarP TsP LookupP CacheP PropCacheP PropTermP ReachP PropReachP NodeP FullP SoundP PropNodeP.
Import ListNotations.

Lemma described_steady : forall fs js nm c, client js nm (call_resolver c) -> described fs c -> steady fs js c.
Proof. intros fs js nm [R f base req|R f p] (_ & <- & _) H; [|destruct H]. destruct H as (Hb & _ & Hp). split; [exact Hb|exact Hp]. Qed.
Lemma full_outcome : forall fs js nm c o, client js nm (call_resolver c) -> described fs c -> orel ansrel (ev_fs fs (call_fresh fs js c)) o -> as_described fs c o.
Proof.
  intros fs js nm [R f base req|R f p] o (_ & Hj & Hd) Hr H; [|destruct Hr]. cbn [call_resolver described as_described call_fresh] in *. subst js.
  change (fresh_load fs (rv_json R) R) with (L fs R) in H. rewrite ev_bind in H. destruct Hr as (_ & Hv & Hp).
  destruct (full_sound fs R Hv f base req) as [E|(a & Ha & Hx)].
  - rewrite E in H. destruct o as [y|m|]; [destruct H as (z & Ez & _); discriminate|destruct H as (z & Ez & _); discriminate|left; reflexivity].
  - destruct o as [y|m|]; [right; exists a; split; [exact Ha|apply final_delivers]..|left; reflexivity]; unfold final in Hx; cbn [orel] in H; destruct H as (z & Ez & Hz).
    + destruct (given fs R a) as [x|]; [|destruct Hx as [m Hm]; rewrite Hm in Ez; discriminate]. rewrite Hx in Ez. cbn in Ez. injection Ez as <-.
      destruct y as [x'|x']; cbn [ansrel] in Hz; [|contradiction]. exists x'. split; [reflexivity|apply arel_agrees, Hz].
    + destruct (given fs R a) as [x|]; [rewrite Hx in Ez; discriminate|]. exists m. reflexivity.
Qed.
Section Final.
Variable fs : fsys.
Hypothesis Hfs : sane_fs fs.
Variable js : str -> option json.
Hypothesis Hjs : forall s j, js s = Some j -> wf_json j.
Variable nm : nat -> str.
Hypothesis Hclash : no_clash fs js nm.
Notation Clients h := (Forall (fun c => client js nm (call_resolver c)) h).
Notation after h seeds := (snd (run_history fs (empty_state seeds) (map ECall h))).

Lemma fin_58 : forall h seeds c, Clients h -> client js nm (call_resolver c) -> described fs c ->
  as_described fs c (out fs (after h seeds) (call_prog c)).
Proof.
  intros h seeds c Hh Hc Hr. apply (full_outcome fs js nm); [exact Hc|exact Hr|].
  apply (run_inv fs js nm); [apply (call_wg fs Hfs js nm (fin_inj fs js Hjs nm) Hclash); [exact Hc|apply (described_steady fs js nm); assumption]|apply fin_history; assumption].
Qed.
Lemma fin_58_sched : forall l h sched seeds, Clients h -> Forall (fun c => client js nm (call_resolver c) /\ described fs c) l ->
  Forall2 (fun c p => as_described fs c (settled p)) l (fst (run_sched fs sched (after h seeds) (map call_prog l))).
Proof.
  intros l h sched seeds Hh Hl.
  destruct (sched_inv fs js nm sched (map call_prog l) (map (fun c => orel ansrel (ev_fs fs (call_fresh fs js c))) l) (after h seeds)) as [H _].
  - clear sched. induction Hl as [|c l [H1 H2] Hl IH]; cbn [map]; constructor; [|exact IH].
    apply (call_wg fs Hfs js nm (fin_inj fs js Hjs nm) Hclash); [exact H1|apply (described_steady fs js nm); assumption].
  - apply fin_history; assumption.
  - revert H. generalize (fst (run_sched fs sched (after h seeds) (map call_prog l))). induction Hl as [|c l [H1 H2] Hl IH]; intros ps H; inversion H as [|? p ? ps' Hp Hps]; subst; constructor; [|apply IH, Hps].
    destruct p as [a|m| |o k]; cbn [settled]; try (destruct c; [left; reflexivity|destruct H2]); cbn [wg] in Hp; (apply (full_outcome fs js nm); [exact H1|exact H2|exact Hp]).
Qed.
Lemma fin_58_reach : forall R base req a, client js nm R -> described fs (CResolve R 0 base req) -> call_absolute (CResolve R 0 base req) ->
  comes_to fs R base (parse req) a ->
  exists N, forall f h seeds, N <= f -> Clients h -> delivers fs R a (out fs (after h seeds) (call_prog (CResolve R f base req))).
Proof.
  intros R base req a Hc Hr Hb Ha. pose proof Hc as (_ & Hj & _). pose proof Hr as (_ & Hv & Hp).
  assert (H : exists f, ev_fs fs (call_fresh fs js (CResolve R f base req)) <> NoFuel).
  { destruct (full_complete fs R Hv base req a Ha) as [N HN]. exists N. cbn [call_fresh]. rewrite ev_bind, <- Hj.
    change (fresh_load fs (rv_json R) R) with (L fs R). specialize (HN N (le_n N)). unfold final in HN.
    destruct (given fs R a) as [x|]; [rewrite HN; discriminate|destruct HN as [m ->]; discriminate]. }
  destruct H as [f0 He].
  destruct (fresh_ends fs Hfs js Hjs nm Hclash (CResolve R f0 base req) Hc (described_steady fs js nm (CResolve R f0 base req) Hc Hr) Hb He) as [N HN].
  exists N. intros f h seeds Hf Hh. destruct (fin_58 h seeds (CResolve R f base req) Hh Hc Hr) as [E|(a' & Ha' & Hd)]; [destruct (HN f h seeds Hf Hh E)|].
  rewrite (full_unique fs R Hv base req a a' Ha Ha'). exact Hd.
Qed.
Lemma fin_58_iff : forall R base req, client js nm R -> described fs (CResolve R 0 base req) -> call_absolute (CResolve R 0 base req) ->
  (exists a, comes_to fs R base (parse req) a) <->
  (exists f h seeds, Clients h /\ out fs (after h seeds) (call_prog (CResolve R f base req)) <> NoFuel).
Proof.
  intros R base req Hc Hr Hb. split.
  - intros [a Ha]. destruct (fin_58_reach R base req a Hc Hr Hb Ha) as [N HN]. exists N, [], (fun _ => []). split; [constructor|].
    specialize (HN N [] (fun _ => []) (le_n N) (Forall_nil _)). apply final_delivers in HN.
    destruct (given fs R a) as [x|]; [destruct HN as (x' & -> & _)|destruct HN as (m & ->)]; discriminate.
  - intros (f & h & seeds & Hh & He). destruct (fin_58 h seeds (CResolve R f base req) Hh Hc Hr) as [E|(a & Ha & _)]; [contradiction|eauto].
Qed.
Lemma fin_58_ends : forall R base req, client js nm R -> described fs (CResolve R 0 base req) -> call_plain fs (CResolve R 0 base req) ->
  exists a N, comes_to fs R base (parse req) a /\
    forall f h seeds, N <= f -> Clients h -> delivers fs R a (out fs (after h seeds) (call_prog (CResolve R f base req))).
Proof.
  intros R base req Hc Hr Hp. destruct (fin_16 fs Hfs js Hjs nm Hclash (CResolve R 0 base req) Hc Hp) as [N HN].
  assert (H : forall f h seeds, N <= f -> Clients h -> exists a, comes_to fs R base (parse req) a /\ delivers fs R a (out fs (after h seeds) (call_prog (CResolve R f base req)))).
  { intros f h seeds Hf Hh. destruct (fin_58 h seeds (CResolve R f base req) Hh Hc Hr) as [E|E]; [destruct (HN f h seeds Hf Hh E)|exact E]. }
  destruct (H N [] (fun _ => []) (le_n N) (Forall_nil _)) as (a & Ha & _). exists a, N. split; [exact Ha|]. intros f h seeds Hf Hh. destruct (H f h seeds Hf Hh) as (a' & Ha' & Hd).
  destruct Hr as (_ & Hv & Hpc). rewrite (full_unique fs R Hv base req a a' Ha Ha'). exact Hd.
Qed.
End Final.
(** ** An alias, "ignored", prefer_relative, an imports field, a tsconfig that extends another. *)
Definition tree58 : node := (D [("r", D [("package.json", PJ "R"); ("tsconfig.json", PJ "T"); ("base.json", PJ "B");
  ("src", D [("x.js", F); ("d.js", F)]); ("lib", D [("u.js", F)])])])%string.
Definition w58 : fsys := W tree58.
Definition T58 : list (string * json) :=
  ([("R", O [("imports", O [("#d", S_ "./src/d.js")])]);
    ("T", O [("extends", S_ "./base.json"); ("compilerOptions", O [("paths", O [("~/*", JArr [S_ "lib/*"])])])]);
    ("B", O [("compilerOptions", O [("baseUrl", S_ ".")])])])%string.
Definition o58 : options := with_tsconfig (with_prefer (with_alias dflt [(lit "@", ATarget (lit "./../lib")); (lit "fs", AIgnored)]) true) (Some (lit "/r/tsconfig.json")).
Definition R58 : resolver := mkR o58 T58.
Lemma wf58 : forall s j, js_of T58 s = Some j -> wf_json j.
Proof. intros s j H. apply js_of_in in H. destruct H as [<-|[<-|[<-|[]]]]; cbn; repeat split; auto. Qed.
Lemma clash58 : no_clash w58 (js_of T58) nmc.
Proof. intros c v v' (d & s & j & _ & _ & Hj & Hv) _. apply js_of_in in Hj. destruct Hj as [<-|[<-|[<-|[]]]]; discriminate Hv. Qed.
Lemma client58 : client (js_of T58) nmc R58.
Proof. split; [right; reflexivity|split; reflexivity]. Qed.
Definition j58 : json := (O [("extends", S_ "./base.json"); ("compilerOptions", O [("paths", O [("~/*", JArr [S_ "lib/*"])]); ("baseUrl", S_ ".")])])%string.
Lemma config58_at : forall c, config_at w58 R58 (lit "/r/tsconfig.json") c -> c = j58.
Proof.
  intros c [f H].
  assert (E : ev_fs w58 (parse_file_to_value R58 (L w58 R58) 20 (lit "/r/tsconfig.json")) = Done (Ok j58)) by (vm_compute; reflexivity).
  assert (E1 : ev_fs w58 (parse_file_to_value R58 (L w58 R58) (Nat.max f 20) (lit "/r/tsconfig.json")) = Done (Ok c)).
  { rewrite <- H. apply fle_ev; [apply parse_file_fle; [intros; apply fle_refl|apply Nat.le_max_l]|]. unfold L in *. rewrite H. discriminate. }
  assert (E2 : ev_fs w58 (parse_file_to_value R58 (L w58 R58) (Nat.max f 20) (lit "/r/tsconfig.json")) = Done (Ok j58)).
  { rewrite <- E. apply fle_ev; [apply parse_file_fle; [intros; apply fle_refl|apply Nat.le_max_r]|]. rewrite E. discriminate. }
  congruence.
Qed.
Lemma nodup_dec_ok : forall l : list str, (fix go l := match l with [] => true | x :: r => negb (existsb (str_eqb x) r) && go r end) l = true -> NoDup l.
Proof.
  induction l as [|x l IH]; intros H; [constructor|]. apply andb_true_iff in H. destruct H as [H1 H2]. constructor; [|apply IH, H2].
  intros Hin. apply negb_true_iff in H1. assert (existsb (str_eqb x) l = true) as E by (apply existsb_exists; exists x; split; [exact Hin|apply str_eqb_refl]). congruence.
Qed.
Lemma described58 : forall f base req, ascii_str (r_target (parse req)) -> described w58 (CResolve R58 f base req).
Proof.
  intros f base req Ha. split; [left; reflexivity|]. split.
  - intros _ s j H. change (rv_jsonc R58 s) with (jsc_of T58 s) in H. unfold jsc_of in H. destruct (js_of T58 s) as [j'|] eqn:E; [|discriminate]. injection H as ->.
    apply js_of_in in E. destruct E as [<-|[<-|[<-|[]]]]; cbn;
      repeat (apply JDStr || apply JDArr || (apply JDObj; [apply nodup_dec_ok; reflexivity|]) || apply Forall_cons || apply Forall_nil).
  - intros loc c t m Hl Hc Ht Hm. injection Hl as <-. apply config58_at in Hc. subst c. vm_compute in Ht. injection Ht as <-. injection Hm as <-.
    split; [intros k v [E|[]]; injection E as <- _; apply TsP.ascii_splits; [repeat constructor|exact Ha]|].
    intros k v k' v' [E|[]] [E'|[]] _ _. injection E as <- _. injection E' as <- _. reflexivity.
Qed.
Ltac notpre := intros [? Hpre]; vm_compute in Hpre; discriminate Hpre.
Ltac ispre := eexists; vm_compute; reflexivity.
Ltac calc := vm_compute; reflexivity.
(** No alias, and the relative spelling is (not) tried. *)
Ltac plan58 := repeat (apply APOther; [notpre|]); apply APNil.
Ltac trials_rel := (eapply (TrAliases _ _ _ [] []); [calc|plan58|apply NbNo; right; first [left; ispre|right; ispre]]).
Ltac trials_near := (eapply (TrAliases _ _ _ [] [_]); [calc|plan58|apply NbYes; [reflexivity|notpre|notpre]]).
Ltac isfile a := exists a; eexists; split; [calc|]; split; [misses54|calc].
(** A path request for a file, and one for nothing. *)
Lemma named58 : forall base r cs q, trials R58 base (r_target r) cs false -> tried (standing w58) R58 (fresh w58 R58) base r cs None ->
  (exists opk, has_desc w58 R58 (first_place base r) opk) -> path_kind (r_kind r) -> starts_with_char (r_target r) c_hash = false ->
  file_at w58 R58 (get_path (mkInfo base r)) q -> seek (standing w58) R58 (fresh w58 R58) base r (Finds q (r_query r) (r_fragment r)).
Proof.
  intros base r cs q Ht Hd [opk Ho] Hk Hh Hq. change (Finds q (r_query r) (r_fragment r)) with (reported base r (Finds q (r_query r) (r_fragment r))).
  eapply SkSearch; [exact Ht|exact Hd|]. eapply SeEnds; [exact Ho|apply ImOther, Hh|apply AfMoves, SwSilent; left; reflexivity|]. apply EnSees; [exact Hk|]. apply PlFile, Hq.
Qed.
Lemma nothing58 : forall base r cs, trials R58 base (r_target r) cs false -> tried (standing w58) R58 (fresh w58 R58) base r cs None ->
  (exists opk, has_desc w58 R58 (first_place base r) opk) -> path_kind (r_kind r) -> starts_with_char (r_target r) c_hash = false ->
  nothing_at w58 R58 (get_path (mkInfo base r)) -> exists e, seek (standing w58) R58 (fresh w58 R58) base r (Fails e).
Proof.
  intros base r cs Ht Hd [opk Ho] Hk Hh Hq. eexists. change (Fails ?e) with (Fails e). eapply (SkSearch _ _ _ base r cs (Fails TAG)); [exact Ht|exact Hd|].
  eapply SeEnds; [exact Ho|apply ImOther, Hh|apply AfMoves, SwSilent; left; reflexivity|]. apply EnLacks; [exact Hk|]. apply PlNothing; apply Hq.
Qed.
Ltac desc58 := eexists; unfold fresh, has_desc; vm_compute; reflexivity.
Lemma config58 : config (standing w58) R58 (fresh w58 R58) (lit "/r/tsconfig.json") (Some (Ok j58)).
Proof.
  change j58 with (merge (O [("extends", S_ "./base.json"); ("compilerOptions", O [("paths", O [("~/*", JArr [S_ "lib/*"])])])]) (O [("compilerOptions", O [("baseUrl", S_ ".")])]))%string.
  eapply CfExtends with (s := lit "T") (x := lit "./base.json") (dir := lit "/r") (q := lit "/r/./base.json"); [calc|calc|calc|calc| |].
  - eapply (named58 (lit "/r") (parse (lit "./base.json")) []); [trials_rel|apply TdNone|desc58|left; reflexivity|reflexivity|]. isfile (@nil path).
  - eapply CfAlone; [calc|calc|]. intros x. vm_compute. discriminate.
Qed.
Lemma sets58 : ts_sets j58 (lit ".") [(lit "~/*", [lit "lib/*"])].
Proof. eexists. split; [calc|]. split; [calc|]. split; [calc|]. repeat constructor. intros []. Qed.
Lemma utf8_ascii : forall c, (c < 128)%N -> utf8_len c = 1.
Proof. intros c Hc. unfold utf8_len. apply N.ltb_lt in Hc. rewrite Hc. reflexivity. Qed.
(** Requests that the tsconfig does not concern. *)
Lemma rest58 : forall base r a, r_target r <> lit "~/*" -> ~ prefix (lit "~/") (r_target r) -> ascii_str (r_target r) -> seek (standing w58) R58 (fresh w58 R58) base r a -> comes_to w58 R58 base r a.
Proof.
  intros base r a Hne Hp Has Ha. eapply CtRest; [reflexivity|exact config58| |apply LcNone|exact Ha].
  assert (Hs : forall x y, lit "~/*" = x ++ [c_star] ++ y -> ~ In c_star x -> x = lit "~/" /\ y = []).
  { intros x y E Hx. destruct x as [|x1 [|x2 [|x3 x]]]; vm_compute in E; try discriminate E.
    - injection E as <- <- <-. split; reflexivity.
    - exfalso. injection E as <- <- <- _. apply Hx. right. right. left. reflexivity. }
  eapply MpSets; [calc|exact sets58|reflexivity|]. apply TtSkip; [intros E; apply Hne; symmetry; exact E| | |apply TtNil].
  - intros m (x & y & E & Hx & Et & _). apply Hp. destruct (Hs x y E Hx) as [-> ->]. rewrite Et. exists (m ++ []). reflexivity.
  - intros (x & y & E & Hx & Hl & [Ht|[Ht _]]); destruct (Hs x y E Hx) as [-> ->]; [|exact (Hp Ht)].
    destruct (r_target r) as [|c1 [|c2 t]]; [cbn in Hl; lia| |].
    + inversion Has as [|? ? H1 _]; subst. apply utf8_ascii in H1. cbn [blen] in Hl. rewrite H1 in Hl. cbn in Hl. lia.
    + inversion Has as [|? ? H1 H']; subst. inversion H' as [|? ? H2 _]; subst. apply utf8_ascii in H1, H2.
      apply (Ht [c1; c2]); [exists t; reflexivity|]. cbn [blen]. rewrite H1, H2. reflexivity.
Qed.
Lemma miss58 : forall base r t, (exists e, seek (standing w58) R58 (fresh w58 R58) base (req_with_target r (lit "./" ++ t)) (Fails e)) -> tried (standing w58) R58 (fresh w58 R58) base r [lit "./" ++ t] None.
Proof. intros base r t [e He]. eapply TdMiss; [exact He|apply TdNone]. Qed.
Ltac near_miss := apply miss58; eapply (nothing58 _ _ []); [trials_rel|apply TdNone|desc58|left; reflexivity|reflexivity|split; [misses54|calc]].
Lemma full58_alias : comes_to w58 R58 (lit "/r/src") (parse (lit "@/u?q")) (Finds (lit "/r/src/./../lib/u.js") (lit "?q") []).
Proof.
  apply rest58; [discriminate|notpre|repeat constructor|]. eapply (SkTrial _ _ _ _ _ ([lit "./../lib/u"] ++ [lit "./@/u"])).
  - eapply TrAliases; [calc| |apply NbYes; [reflexivity|notpre|notpre]]. eapply (APRewrite _ (lit "@") (lit "./../lib") (lit "/u")); [calc|notpre|plan58].
  - apply TdHit; [|discriminate].
    eapply (named58 _ (req_with_target (parse (lit "@/u?q")) (lit "./../lib/u")) []); [trials_rel|apply TdNone|desc58|left; reflexivity|reflexivity|]. isfile [lit "/r/src/./../lib/u"].
Qed.
Lemma full58_near : comes_to w58 R58 (lit "/r/src") (parse (lit "x")) (Finds (lit "/r/src/./x.js") [] []).
Proof.
  apply rest58; [discriminate|notpre|repeat constructor|]. eapply SkTrial; [trials_near|]. apply TdHit; [|discriminate].
  eapply (named58 _ (req_with_target (parse (lit "x")) (lit "./x")) []); [trials_rel|apply TdNone|desc58|left; reflexivity|reflexivity|]. isfile [lit "/r/src/./x"].
Qed.
Lemma full58_imports : comes_to w58 R58 (lit "/r/src") (parse (lit "#d")) (Finds (lit "/r/./src/d.js") [] []).
Proof.
  apply rest58; [discriminate|notpre|repeat constructor|].
  change (Finds (lit "/r/./src/d.js") [] []) with (reported (lit "/r/src") (parse (lit "#d")) (Finds (lit "/r/./src/d.js") (r_query (parse (lit "./src/d.js"))) (r_fragment (parse (lit "./src/d.js"))))).
  eapply SkSearch; [trials_near|near_miss|]. eapply SeEnds; [unfold fresh, has_desc; vm_compute; reflexivity| |apply AfMoves, SwSilent; left; reflexivity|].
  - eapply ImPath with (c := lit "./src/d.js"); [split; [reflexivity|]; do 2 eexists; split; [reflexivity|calc]|left; reflexivity|]. apply CkGood; calc.
  - apply EnSees; [left; reflexivity|]. apply PlFile. isfile (@nil path).
Qed.
Lemma full58_paths : comes_to w58 R58 (lit "/r/src") (parse (lit "~/u")) (Finds (lit "/r/./lib/u.js") [] []).
Proof.
  eapply (CtMapped _ _ _ _ _ _ (lit "/r/tsconfig.json") j58 [lit "/r/./lib/u"] false); [reflexivity|exact config58| |].
  - eapply MpSets; [calc|exact sets58|reflexivity|]. eapply (TtStar _ _ _ _ (lit "u") [lit "/r/./lib/u"] []).
    + discriminate.
    + exists (lit "~/"), []. split; [calc|]. split; [intros [H|[H|[]]]; discriminate H|]. split; [calc|discriminate].
    + constructor; [|constructor]. apply (filled_replace (lit "u") (lit "/r/./lib/*")).
    + apply TtNil.
  - apply LcHit; [|discriminate]. eapply (named58 _ empty_request [lit "./"]); [trials_near| |desc58|left; reflexivity|reflexivity|].
    + apply (miss58 _ _ []). eapply (nothing58 _ _ []); [trials_rel|apply TdNone|desc58|left; reflexivity|reflexivity|split; [misses54|calc]].
    + isfile [lit "/r/./lib/u"].
Qed.
Lemma full58_ignored : comes_to w58 R58 (lit "/r/src") (parse (lit "fs")) Skips.
Proof.
  apply rest58; [discriminate|notpre|repeat constructor|]. eapply (SkIgnored _ _ _ _ _ []); [|apply TdNone]. apply TrIgnored; [calc|].
  apply APOther; [notpre|]. apply APIgnored. ispre.
Qed.
Lemma full58_error : comes_to w58 R58 (lit "/r/src") (parse (lit "nope")) (Fails (lit "Resolve 'nope' failed in '/r/src'")).
Proof.
  apply rest58; [discriminate|notpre|repeat constructor|].
  change (Fails (lit "Resolve 'nope' failed in '/r/src'")) with (reported (lit "/r/src") (parse (lit "nope")) (Fails TAG)).
  eapply SkSearch; [trials_near|near_miss|]. eapply SeEnds; [unfold fresh, has_desc; vm_compute; reflexivity|apply ImOther; reflexivity|apply AfMoves, SwSilent; left; reflexivity|].
  eapply EnClimb; [intros [H|[H|H]]; discriminate H|up54|]. repeat (eapply AsUp; [apply RgAbsent; vm_compute; reflexivity|]). apply AsTop.
Qed.
Lemma modest58 : modest w58 R58.
Proof.
  apply modest_off; [reflexivity|]. intros s j Hj. apply js_of_in in Hj. cbn [T58 map snd] in Hj.
  destruct Hj as [<-|[<-|[<-|[]]]]; (split; [intros fld [<-|[]]; reflexivity|]); intros v t Hv Ht; vm_compute in Hv; try discriminate Hv.
  injection Hv as <-. inversion Ht as [|?|? k x Hin Hx]; subst. destruct Hin as [E|[]]. injection E as <- <-. inversion Hx; subst. exists (lit "src/d.js"). reflexivity.
Qed.
Lemma plain58 : forall f base req, is_abs base = true -> call_plain w58 (CResolve R58 f base req).
Proof.
  intros f base req Ha. apply modest_plain; [apply posix_sane|exact Ha|exact modest58| |].
  - split.
    + intros from to from' to' [E|[E|[]]] [E'|[E'|[]]]; try discriminate. injection E as <- <-. injection E' as <- <-. intros [H|H]; discriminate.
    + intros _ from to [E|[E|[]]]; try discriminate. injection E as <- <-. intros [H|H]; discriminate.
  - intros loc E. injection E as <-. exists [join (lit "/r") (r_target (parse (lit "./base.json")))].
    apply ChNext with (e := lit "./base.json").
    + calc.
    + exists (lit "T"). eexists. split; [calc|]. split; [calc|calc].
    + calc.
    + left. calc.
    + intros from to [E|[E|[]]]; injection E as <- <-; reflexivity.
    + reflexivity.
    + reflexivity.
    + calc.
    + apply ChLast; [calc|]. intros e (s & j & Hs & Hj & He). vm_compute in Hs. injection Hs as <-. vm_compute in Hj. injection Hj as <-. discriminate He.
Qed.
(** A browser field, a directory without main file (the resolver panics, C15), another one that
    the main field leads to. *)
Definition tree58b : node := (D [("r", D [("package.json", PJ "R"); ("src", D [("x.js", F); ("y.js", F); ("h", D [])]);
  ("node_modules", D [("m", D [("package.json", PJ "M"); ("a", D []); ("index.js", F)])])])])%string.
Definition w58b : fsys := W tree58b.
Definition T58b : list (string * json) :=
  ([("R", O [("browser", O [("./src/x.js", S_ "./src/y.js")])]);
    ("M", O [("main", S_ "./a")])])%string.
Definition R58b : resolver := mkR (with_browser dflt true) T58b.
Lemma wf58b : forall s j, js_of T58b s = Some j -> wf_json j.
Proof. intros s j H. apply js_of_in in H. destruct H as [<-|[<-|[]]]; cbn; repeat split; auto. Qed.
Lemma clash58b : no_clash w58b (js_of T58b) nmc.
Proof. intros c v v' (d & s & j & _ & _ & Hj & Hv) _. apply js_of_in in Hj. destruct Hj as [<-|[<-|[]]]; discriminate Hv. Qed.
Lemma client58b : client (js_of T58b) nmc R58b.
Proof. split; [right; reflexivity|split; reflexivity]. Qed.
Lemma described58b : forall f base req, described w58b (CResolve R58b f base req).
Proof.
  intros f base req. split; [|split].
  - right. intros name d s j af _ _ _ Hj Ha. apply js_of_in in Hj. cbn [T58b map snd] in Hj.
    destruct Hj as [<-|[<-|[]]]; vm_compute in Ha; injection Ha as <-; split.
    + intros rp k v k' v' [H|[]] [H'|[]] _ _. congruence.
    + intros k t [H|[]]. injection H as _ <-. intros [E|E]; discriminate E.
    + intros rp k v k' v' [].
    + intros k t [].
  - intros H. destruct (H eq_refl).
  - intros loc c t m H. discriminate H.
Qed.
(** By running it (FullP.v). *)
Lemma by_run : forall fs R f base req, described fs (CResolve R f base req) ->
  match ev_fs fs (resolve_with R (L fs R) f base req) with
  | Panicked _ => comes_to fs R base (parse req) Crashes
  | Done x => exists a, comes_to fs R base (parse req) a /\ given fs R a = Some x
  | NoFuel => True
  end.
Proof.
  intros fs R f base req (_ & Hv & Hp). destruct (full_sound fs R Hv f base req) as [->|(a & Ha & Hf)]; [exact I|].
  unfold final in Hf. destruct (given fs R a) as [x|] eqn:Ex; [rewrite Hf; eauto|]. destruct Hf as [m ->]. destruct a; try discriminate. exact Ha.
Qed.
Lemma full58_browser : comes_to w58b R58b (lit "/r/src") (parse (lit "./x")) (Finds (lit "/r/./src/y.js") [] []).
Proof.
  apply CtPlain; [reflexivity|].
  change (Finds (lit "/r/./src/y.js") [] []) with (reported (lit "/r/src") (parse (lit "./x")) (Finds (lit "/r/./src/y.js") [] [])).
  eapply (SkSearch _ _ _ _ _ []); [eapply (TrAliases _ _ _ [] []); [calc|apply APNil|apply NbNo; left; reflexivity]|apply TdNone|].
  eapply SeEnds; [unfold fresh, has_desc; vm_compute; reflexivity|apply ImOther; reflexivity| |].
  - apply AfMoves. eapply (SwTo _ _ _ _ _ [] (lit "./src/x.js") (ATarget (lit "./src/y.js")) [] (lit "./src/y.js")); [reflexivity|reflexivity|reflexivity|intros k' v' []| |].
    + right. exists (lit ".js"). split; [left; reflexivity|calc].
    + apply SpecRun.ChEnd. calc.
  - apply EnSees; [left; reflexivity|]. apply (PlFile _ _ _ (req_with_target (parse (lit "./x")) (lit "./src/y.js"))). isfile (@nil path).
Qed.
Lemma full58_crash : comes_to w58b R58b (lit "/r/src") (parse (lit "./h")) Crashes.
Proof. pose proof (by_run w58b R58b 20 (lit "/r/src") (lit "./h") (described58b _ _ _)) as H. vm_compute in H. exact H. Qed.
Lemma C58_ex_p : (sane_fs w58 /\ (forall s j, js_of T58 s = Some j -> wf_json j) /\ no_clash w58 (js_of T58) nmc /\ client (js_of T58) nmc R58 /\
   forall req, call_plain w58 (CResolve R58 0 (lit "/r/src") req)) /\
  (Forall (fun q => described w58 (CResolve R58 0 (lit "/r/src") (lit q))) ["@/u?q"; "x"; "#d"; "~/u"; "fs"; "nope"]%string) /\
  (comes_to w58 R58 (lit "/r/src") (parse (lit "@/u?q")) (Finds (lit "/r/src/./../lib/u.js") (lit "?q") []) /\
   comes_to w58 R58 (lit "/r/src") (parse (lit "x")) (Finds (lit "/r/src/./x.js") [] []) /\
   comes_to w58 R58 (lit "/r/src") (parse (lit "#d")) (Finds (lit "/r/./src/d.js") [] []) /\
   comes_to w58 R58 (lit "/r/src") (parse (lit "~/u")) (Finds (lit "/r/./lib/u.js") [] []) /\
   comes_to w58 R58 (lit "/r/src") (parse (lit "fs")) Skips /\
   comes_to w58 R58 (lit "/r/src") (parse (lit "nope")) (Fails (lit "Resolve 'nope' failed in '/r/src'"))) /\
  (res w58 R58 "/r/src" "@/u?q" = Demo.found "/r/lib/u.js" "?q" "" /\ res w58 R58 "/r/src" "x" = Demo.found "/r/src/x.js" "" "" /\
   res w58 R58 "/r/src" "#d" = Demo.found "/r/src/d.js" "" "" /\ res w58 R58 "/r/src" "~/u" = Demo.found "/r/lib/u.js" "" "" /\
   res w58 R58 "/r/src" "fs" = Done (Ok RIgnored) /\ res w58 R58 "/r/src" "nope" = Demo.failed "Resolve 'nope' failed in '/r/src'")%string.
Proof.
  split; [|split; [|split]].
  - split; [apply posix_sane|]. split; [exact wf58|]. split; [exact clash58|]. split; [exact client58|]. intros req. apply plain58. reflexivity.
  - repeat apply Forall_cons; try apply Forall_nil; apply described58; repeat constructor.
  - split; [exact full58_alias|]. split; [exact full58_near|]. split; [exact full58_imports|]. split; [exact full58_paths|]. split; [exact full58_ignored|exact full58_error].
  - vm_compute. repeat split.
Qed.
Lemma C58_ex_browser_p : (sane_fs w58b /\ (forall s j, js_of T58b s = Some j -> wf_json j) /\ no_clash w58b (js_of T58b) nmc /\ client (js_of T58b) nmc R58b) /\
  (forall f base req, described w58b (CResolve R58b f base req)) /\
  (comes_to w58b R58b (lit "/r/src") (parse (lit "./x")) (Finds (lit "/r/./src/y.js") [] []) /\
   comes_to w58b R58b (lit "/r/src") (parse (lit "./h")) Crashes /\
   exists a, comes_to w58b R58b (lit "/r/src") (parse (lit "m")) a /\ a <> Crashes) /\
  (res w58b R58b "/r/src" "./x" = Demo.found "/r/src/y.js" "" "" /\ res w58b R58b "/r/src" "./h" = Panicked p_unreachable /\
   res w58b R58b "/r/src" "m" = Demo.found "/r/node_modules/m/index.js" "" "")%string.
Proof.
  split; [|split; [|split]].
  - split; [apply posix_sane|]. split; [exact wf58b|]. split; [exact clash58b|exact client58b].
  - exact described58b.
  - split; [exact full58_browser|]. split; [exact full58_crash|].
    pose proof (by_run w58b R58b 20 (lit "/r/src") (lit "m") (described58b _ _ _)) as H.
    assert (E : exists x, ev_fs w58b (resolve_with R58b (L w58b R58b) 20 (lit "/r/src") (lit "m")) = Done x) by (eexists; vm_compute; reflexivity).
    destruct E as [x E]. rewrite E in H. destruct H as (a & Ha & Hx). exists a. split; [exact Ha|]. intros ->. discriminate Hx.
  - vm_compute. repeat split.
Qed.
