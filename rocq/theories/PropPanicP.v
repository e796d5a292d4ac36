(** * Absence of panics for calls, histories and schedules: proofs for PropPanic.v *)
From Coq Require Import String.
From Coq Require Import List Arith NArith Bool Lia.
From Verif Require Import Str StrP Path Json Types Parse Map Prog Desc Resolve Top Run Posix PosixP Demo SpellP SpecRun SpecMap SpecLoad SpecCache SpecTerm SpecPanic ParseP GuarP SimP PanicP CacheP SpecJson PropCacheP PropTermP.
Import ListNotations.

(** ** Tables with tidy content *)
Section Ascii.
Variable ascii : bool.
Notation tree_tidy := (tree_tidy ascii).
Notation pkg_tidy := (pkg_tidy ascii).
Notation okp := (okp ascii).
Notation putp := (putp ascii).
Notation disk_tidy := (disk_tidy ascii).
Notation call_tidy := (call_tidy ascii).
Notation history_tidy := (history_tidy ascii).
Notation served_tidy := (served_tidy ascii).
Notation only_main_missing := (only_main_missing ascii).
Notation answered := (answered ascii).
Notation ts_files := (ts_files ascii).
Notation ts_file_tidy := (ts_file_tidy ascii).
Notation tsconfig_tidy := (tsconfig_tidy ascii).
Notation blame_ts := (blame_ts ascii).
Record tables_tidy (st : state) : Prop := {
  tt_pkg : forall c k pk, s_pkg st c k = Some (Some pk) -> pkg_tidy pk;
  tt_exp : forall c k t, s_exp st c k = Some t -> tree_tidy t;
  tt_imp : forall c k t, s_imp st c k = Some t -> tree_tidy t
}.
Lemma empty_tidy : forall seeds, tables_tidy (empty_state seeds).
Proof. intros seeds. constructor; intros; discriminate. Qed.

Section Tables.
Variable fs : fsys.
Notation wg := (wgo (okp fs) putp).
Lemma tstep : forall st o, tables_tidy st -> putp o -> okp fs o (fst (step fs st o)) /\ tables_tidy (snd (step fs st o)).
Proof.
  intros st o [Hp He Hi] Hput. destruct o; cbn [step fst snd okp putp] in *; (split; [auto|]);
    try (constructor; assumption); try (intros; eauto; fail).
  - constructor; cbn; auto. intros c0 k pk. unfold upd_path. destruct (_ && _); [|apply Hp]. intros E. injection E as ->. exact Hput.
  - constructor; cbn; auto. intros c0 k0 t0. unfold upd_str. destruct (_ && _); [|apply He]. intros E. injection E as <-. exact Hput.
Qed.
Lemma trun {A} : forall (p : prog A) Q st, wg Q p -> tables_tidy st -> Q (out fs st p) /\ tables_tidy (snd (run fs p st)).
Proof.
  unfold out. induction p as [a|m| |o k IH]; intros Q st Hw Hi; cbn [run wgo fst snd] in *; auto.
  destruct Hw as [Hput Hk]. destruct (tstep st o Hi Hput) as [Hx Hi']. destruct (step fs st o) as [x st']. cbn [fst snd] in *. apply IH; auto.
Qed.
Lemma tthread {A} : forall (p : prog A) Q st, wg Q p -> tables_tidy st -> wg Q (fst (thread_step fs st p)) /\ tables_tidy (snd (thread_step fs st p)).
Proof.
  intros [a|m| |o k] Q st Hw Hi; cbn [thread_step fst snd]; auto. cbn [wgo] in Hw. destruct Hw as [Hput Hk]. destruct (tstep st o Hi Hput) as [Hx Hi'].
  destruct (step fs st o) as [x st']. cbn [fst snd] in *. auto.
Qed.
Lemma tnth {A} : forall (l : list (prog A)) Qs i st, Forall2 (fun Q p => wg Q p) Qs l -> tables_tidy st ->
  Forall2 (fun Q p => wg Q p) Qs (fst (step_nth fs st i l)) /\ tables_tidy (snd (step_nth fs st i l)).
Proof.
  induction l as [|p l IH]; intros Qs i st Hl Hi; cbn [step_nth]; [destruct i; auto|]. inversion Hl as [|Q ? Qs' ? Hp Hl']; subst. destruct i as [|i]; cbn [step_nth].
  - destruct (tthread p Q st Hp Hi) as [H1 H2]. destruct (thread_step fs st p). cbn [fst snd] in *. split; [constructor|]; assumption.
  - destruct (IH Qs' i st Hl' Hi) as [H1 H2]. destruct (step_nth fs st i l). cbn [fst snd] in *. split; [constructor|]; assumption.
Qed.
Lemma tsched {A} : forall sched (l : list (prog A)) Qs st, Forall2 (fun Q p => wg Q p) Qs l -> tables_tidy st ->
  Forall2 (fun Q p => wg Q p) Qs (fst (run_sched fs sched st l)) /\ tables_tidy (snd (run_sched fs sched st l)).
Proof.
  induction sched as [|i sched IH]; intros l Qs st Hl Hi; cbn [run_sched]; [auto|]. destruct (tnth l Qs i st Hl Hi) as [H1 H2]. destruct (step_nth fs st i l). cbn [fst snd] in *. apply IH; auto.
Qed.

(** ** Calls *)
Lemma side_np : forall R f p, rv_debug R = false -> disk_tidy fs R -> wg (np (fun _ => False) (fun _ => True)) (load_side_effects R f p).
Proof.
  intros R f p Hd Ht. unfold load_side_effects. destruct (o_desc (rv_opts R)) as [name|] eqn:En.
  - apply (g_try _ _ _ (fun _ => True)); [|auto|intros [pk|] _; exact I]. eapply wgo_mono; [|apply load_np; [exact Hd|exact Ht]]. intros r. apply np_mono; auto.
  - destruct f as [|f]; cbn [load_pkg_file]; [exact I|]. rewrite En. exact I.
Qed.
Lemma call_np : forall c, call_tidy fs c -> wg (only_main_missing fs c) (call_prog c).
Proof.
  intros [R f base req|R f p] H; cbn [call_tidy call_prog] in *.
  - destruct H as (Hd & Ht & Hk & Ha & Hl & Hal & Hts). apply wgo_bind. unfold resolve.
    assert (G : wg (np (blame_ts fs R base (r_target (parse req))) (fun _ => True)) (resolve_with R (load_pkg_file R f) f base req)).
    { apply wx_wgo.
      - apply (with_np ascii _ _ (load_pkg_file R f)) with (fl := f); try assumption; [|reflexivity|apply parse_good; assumption]. intros p. apply W_V_load. apply (wgo_wx _ putp). apply load_np; assumption.
      - apply GG_resolve_with; [exact (reads_putp ascii)|]. intros p. eapply wgo_GG. apply load_np; assumption. }
    eapply wgo_mono; [|exact G]. intros [a|m|] Hr; cbn [np wgo] in *; intros m' E; try discriminate. injection E as <-.
    exists R, f, base, req. split; [reflexivity|]. destruct Hr as [[Hm Hb]|Hr]; [left; split; assumption|right; exact Hr].
  - destruct H as [Hd Ht]. apply wgo_bind. eapply wgo_mono; [|apply side_np; assumption]. intros [a|m|] Hr; cbn [np wgo] in *; intros m' E; try discriminate. contradiction.
Qed.
End Tables.

Lemma history_np : forall h fs st, history_tidy fs h -> tables_tidy st ->
  served_tidy fs h (fst (fst (run_history fs st h))) /\ tables_tidy (snd (run_history fs st h)).
Proof.
  induction h as [|[c|fs'] h IH]; intros fs st Hh Ht; cbn [run_history].
  - split; [constructor|exact Ht].
  - inversion Hh as [| |? ? ? Hc Hr]; subst. pose proof (trun fs _ _ st (call_np fs c Hc) Ht) as [Ho Ht']. unfold out in Ho.
    destruct (run fs (call_prog c) st) as [o st']. cbn [fst snd] in *. destruct (IH fs st' Hr Ht') as [H1 H2]. destruct (run_history fs st' h) as [[os fs''] st'']. cbn [fst snd] in *.
    split; [constructor; assumption|exact H2].
  - inversion Hh as [|? ? ? Hr|]; subst. destruct (IH fs' st Hr Ht) as [H1 H2]. split; [constructor; exact H1|exact H2].
Qed.
(** C15 for histories. *)
Lemma fin_15 : forall h fs seeds, history_tidy fs h -> served_tidy fs h (fst (fst (run_history fs (empty_state seeds) h))).
Proof. intros h fs seeds H. apply history_np; [exact H|apply empty_tidy]. Qed.
(** C15 for schedules. *)
Lemma fin_15_sched : forall h fs fs' seeds l sched, history_tidy fs h -> Forall (call_tidy fs') l ->
  Forall2 (fun c p => only_main_missing fs' c (settled p)) l
    (fst (run_sched fs' sched (snd (run_history fs (empty_state seeds) h)) (map call_prog l))).
Proof.
  intros h fs fs' seeds l sched Hh Hl.
  assert (Ht : tables_tidy (snd (run_history fs (empty_state seeds) h))) by (apply history_np; [exact Hh|apply empty_tidy]).
  assert (H : Forall2 (fun Q p => wgo (okp fs') putp Q p) (map (only_main_missing fs') l) (map call_prog l)).
  { induction Hl as [|c l Hc Hl IH]; constructor; [apply call_np, Hc|exact IH]. }
  destruct (tsched fs' sched _ _ _ H Ht) as [G _]. revert G. generalize (fst (run_sched fs' sched (snd (run_history fs (empty_state seeds) h)) (map call_prog l))).
  clear. induction l as [|c l IH]; intros ps G; inversion G as [|? p ? ps' Hp Hr]; subst; constructor; [|apply IH, Hr].
  destruct p as [a|m| |o k]; [exact Hp|exact Hp|exact Hp|]. intros m E. discriminate.
Qed.

(** ** Chains of tsconfig files *)
Lemma chain_files : forall fs R loc l, sane_fs fs -> chain fs R (loc :: l) -> Forall (ts_file_tidy fs R) (loc :: l) ->
  ts_files fs R loc (fun q => Exists (fun p => same_tail p q) (loc :: l)).
Proof.
  intros fs R loc l Hfs Hch Hall.
  assert (Hat : forall q, Exists (fun p => same_tail p q) (loc :: l) -> exists p, In p (loc :: l) /\ same_tail p q /\ ts_file_tidy fs R p).
  { intros q Hq. apply Exists_exists in Hq. destruct Hq as (p & Hin & Hs). exists p. rewrite Forall_forall in Hall. auto. }
  assert (Hrel : forall p e, In p (loc :: l) -> extends_text fs R p e ->
     (starts_with (r_target (parse e)) (lit "./") = true \/ starts_with (r_target (parse e)) (lit "../") = true) /\
     forall q q', same_tail p q -> extends_by fs R (fun _ => disk_answer fs) q q' -> Exists (fun p => same_tail p q') (loc :: l)).
  { clear Hat Hall. remember (loc :: l) as pl eqn:E. clear loc l E.
    induction Hch as [p0 Ha Hno|p0 e0 dir l0 Ha He Hd t Ht Hal Hb Hen Hf Hch IH]; intros p e Hin Hx.
    - destruct Hin as [<-|[]]. contradiction (Hno e).
    - destruct Hin as [<-|Hin].
      + rewrite (text_fun fs R _ _ _ Hx He). split; [exact Ht|]. intros q q' Hs Hq. right. left. eapply (only_next fs Hfs R (fun _ => disk_answer fs)); try eassumption. auto.
      + destruct (IH p e Hin Hx) as [H1 H2]. split; [exact H1|]. intros q q' Hs Hq. right. eapply H2; eassumption. }
  split.
  - left. left. reflexivity.
  - intros q Hq Hr. destruct (Hat q Hq) as (p & _ & Hs & Ht). rewrite <- (sf_read _ Hfs _ _ Hs) in Hr. destruct (f_read fs p) as [s|] eqn:Er; [|congruence].
    destruct (Ht s Er) as [Hp _]. pose proof (parent_same _ _ (same_tail_path _ _ Hs)) as H. destruct (parent p); [|congruence]. destruct (parent q); [discriminate|contradiction].
  - intros q s Hq Er. destruct (Hat q Hq) as (p & _ & Hs & Ht). rewrite <- (sf_read _ Hfs _ _ Hs) in Er. apply (Ht s Er).
  - intros q s j Hq Er. destruct (Hat q Hq) as (p & _ & Hs & Ht). rewrite <- (sf_read _ Hfs _ _ Hs) in Er. apply (Ht s Er).
  - intros q e Hq He. destruct (Hat q Hq) as (p & Hin & Hs & Ht). pose proof (text_same fs Hfs R _ _ _ (same_tail_sym _ _ Hs) He) as He'.
    destruct (Hrel p e Hin He') as [Hd _]. destruct He' as (s & j & Er & Hj). split; [apply (Ht s Er); exists s, j; auto|].
    intros (r & E & _). rewrite E in Hd. destruct Hd; discriminate.
  - intros q q' Hq Hx. destruct (Hat q Hq) as (p & Hin & Hs & Ht). pose proof Hx as (e & _ & _ & _ & _ & _ & _ & He & _).
    destruct (Hrel p e Hin (text_same fs Hfs R _ _ _ (same_tail_sym _ _ Hs) He)) as [_ H]. eapply H; eassumption.
Qed.
Lemma chain_tidy : forall fs R, sane_fs fs ->
  (forall loc, o_tsconfig (rv_opts R) = Some loc -> exists l, chain fs R (loc :: l) /\ Forall (ts_file_tidy fs R) (loc :: l)) -> tsconfig_tidy fs R.
Proof. intros fs R Hfs H loc E. destruct (H loc E) as (l & H1 & H2). eexists. apply chain_files; eassumption. Qed.

(** ** An answer *)
Lemma tidy_fuel : forall fs c f, call_tidy fs c -> call_tidy fs (with_fuel c f).
Proof. intros fs [R f0 base req|R f0 p] f H; exact H. Qed.
Lemma calls_tidy : forall fs h, Forall (call_tidy fs) h -> history_tidy fs (map ECall h).
Proof. intros fs h H. induction H as [|c h Hc Hh IH]; constructor; assumption. Qed.
Lemma fin_15_answer : forall fs, sane_fs fs -> forall js, (forall s j, js s = Some j -> wf_json j) -> forall nm, no_clash fs js nm ->
  forall c, client js nm (call_resolver c) -> call_plain fs c -> call_tidy fs c ->
  exists N, forall f h seeds, N <= f -> Forall (fun c => client js nm (call_resolver c) /\ call_tidy fs c) h ->
  answered fs c (out fs (snd (run_history fs (empty_state seeds) (map ECall h))) (call_prog (with_fuel c f))).
Proof.
  intros fs Hfs js Hjs nm Hnm c HR Hp Ht. destruct (fin_16 fs Hfs js Hjs nm Hnm c HR Hp) as [N HN]. exists N. intros f h seeds Hf Hh.
  assert (H1 : Forall (fun c => client js nm (call_resolver c)) h) by (eapply Forall_impl; [|exact Hh]; intros c' H; apply H).
  assert (H2 : Forall (call_tidy fs) h) by (eapply Forall_impl; [|exact Hh]; intros c' H; apply H).
  specialize (HN f h seeds Hf H1).
  destruct (trun fs _ _ _ (call_np fs _ (tidy_fuel fs c f Ht)) (proj2 (history_np _ fs _ (calls_tidy fs h H2) (empty_tidy seeds)))) as [G _].
  destruct (out fs _ (call_prog (with_fuel c f))) as [a|m|]; [left; eauto| |congruence]. right. exists m. split; [reflexivity|]. destruct (G m eq_refl) as (R & f' & base & req & E & H).
  destruct c as [R0 f0 base0 req0|R0 f0 p0]; [|discriminate]. injection E as <- _ <- <-. exists R0, f0, base0, req0. split; [reflexivity|exact H].
Qed.

(** ** No panic at all *)
Section Direct.
Variables (fs0 fs : fsys) (h : list event) (seeds : nat -> list nat) (R : resolver) (f : nat) (base : path) (req : str).
Hypothesis Hh : history_tidy fs0 h.
Hypothesis Hc : call_tidy fs (CResolve R f base req).
Hypothesis Hd : direct (rv_opts R).
Notation o := (out fs (snd (run_history fs0 (empty_state seeds) h)) (call_prog (CResolve R f base req))).
Lemma direct_asked : forall t d, asked (rv_opts R) base t d -> get_target_kind t <> Normal /\ get_target_kind t <> Internal /\
  d = (if str_eqb t [] || str_eqb t s_dot then base else join base t).
Proof.
  destruct Hd as (Ha & Hp & _). intros t d H. destruct H as [t H1 H2|t t' d Hr _]; [auto|]. exfalso. destruct Hr as [from to t Hin _ _|t H _ _]; [rewrite Ha in Hin; contradiction|congruence].
Qed.
Lemma direct_panic : forall m, o = Panicked m -> m = p_boundary /\ ascii = false \/ exists d, asked (rv_opts R) base (r_target (parse req)) d /\ f_dir fs d = true /\
  no_file fs (main_file_paths R d (o_main_files (rv_opts R))).
Proof.
  intros m E. destruct (trun fs _ _ _ (call_np fs _ Hc) (proj2 (history_np h fs0 _ Hh (empty_tidy seeds)))) as [G _].
  destruct (G m E) as (R' & f' & base' & req' & E' & [[_ (d & Hdir & Hm)]|Hm]); [|left; exact Hm]. right. injection E' as <- <- <- <-. destruct Hd as (_ & _ & Hb & Ht).
  destruct Hm as [Hm|[Hn [Ha|[Ha _]]]]; [congruence| |congruence]. exists d. auto.
Qed.
Lemma fin_15_package : get_target_kind (r_target (parse req)) = Normal \/ get_target_kind (r_target (parse req)) = Internal -> forall m, o = Panicked m -> m = p_boundary /\ ascii = false.
Proof. intros Hk m E. destruct (direct_panic m E) as [H|(d & Ha & _)]; [exact H|]. destruct (direct_asked _ _ Ha) as (H1 & H2 & _). tauto. Qed.
Lemma fin_15_path : forall d, d = (if str_eqb (r_target (parse req)) [] || str_eqb (r_target (parse req)) s_dot then base else join base (r_target (parse req))) ->
  f_dir fs d = false \/ Exists (fun p => f_file fs p = true) (main_file_paths R d (o_main_files (rv_opts R))) -> forall m, o = Panicked m -> m = p_boundary /\ ascii = false.
Proof.
  intros d Ed Hm m E. destruct (direct_panic m E) as [H|(d' & Ha & Hdir & Hn)]; [exact H|]. destruct (direct_asked _ _ Ha) as (_ & _ & ->). rewrite <- Ed in *.
  destruct Hm as [Hm|Hm]; [congruence|]. apply Exists_exists in Hm. destruct Hm as (p & Hin & Hp). unfold no_file in Hn. rewrite Forall_forall in Hn. rewrite (Hn p Hin) in Hp. discriminate.
Qed.
End Direct.

End Ascii.

(** ** A world *)
Definition tree15 : node := (D [("r", D [("package.json", PJ "R"); ("tsconfig.json", PJ "T"); ("x.js", F); ("src", D [("y.js", F)]); ("d", D []);
  ("node_modules", D [("p", D [("package.json", PJ "P"); ("index.js", F); ("b.js", F); ("lib", D [("a.js", F)])])])])])%string.
Definition w15t : fsys := W tree15.
Definition T15 : list (string * json) :=
  ([("P", O [("exports", O [(".", O [("import", S_ "./index.js"); ("default", S_ "./b.js")]); ("./a/*", JArr [S_ "./none/*.js"; S_ "./lib/*.js"])]);
             ("browser", O [("./b.js", S_ "./index.js"); ("./lib/a.js", JBool false)])]);
   ("R", O [("imports", O [("#a", S_ "./x.js"); ("#b", S_ "p/a/a")])]);
   ("T", O [("compilerOptions", O [("baseUrl", S_ "."); ("paths", O [("~/*", JArr [S_ "src/*"])])])])])%string.
Definition o15 : options := with_tsconfig dflt (Some (lit "/r/tsconfig.json")).
Definition R15 : resolver := new_resolver o15 0 0 false (js_of T15) (jsc_of T15).
Fixpoint jstrings (j : json) : list str :=
  match j with
  | JStr s => [s]
  | JArr l => flat_map jstrings l
  | JObj l => flat_map (fun kv => jstrings (snd kv)) l
  | _ => []
  end.
Lemma jstrings_all : forall s j, json_string s j -> In s (jstrings j).
Proof.
  intros s j H. induction H as [|l x Hin _ IH|l k x Hin _ IH]; cbn [jstrings]; [left; reflexivity| |].
  - apply in_flat_map. exists x. auto.
  - apply in_flat_map. exists (k, x). auto.
Qed.
Definition plainb (s : str) : bool := forallb (fun c => N.ltb c 128) s && negb (starts_with_char s c_at) && negb (starts_with_char s c_star).
Lemma plainb_ok : forall s, plainb s = true -> plain_string true s /\ plain_target true s.
Proof.
  intros s H. unfold plainb in H. apply andb_prop in H. destruct H as [H H2]. apply andb_prop in H. destruct H as [H0 H1]. apply negb_true_iff in H1, H2.
  assert (Ha : text true s) by (apply Forall_forall; intros c Hc _; rewrite forallb_forall in H0; specialize (H0 c Hc); apply N.ltb_lt in H0; exact H0).
  split; split; [exact Ha| |exact Ha|].
  - split; [intros r ->; discriminate|intros r ->; discriminate].
  - intros (r & -> & _). discriminate.
Qed.
Lemma strings_ok : forall j s, forallb plainb (jstrings j) = true -> json_string s j -> plain_string true s.
Proof. intros j s H Hs. rewrite forallb_forall in H. apply plainb_ok, H, jstrings_all, Hs. Qed.
Ltac fv := repeat first [apply FvStr|apply FvObj; intros ? ? Hin; cbn [In] in Hin; repeat destruct Hin as [Hin|Hin]; try contradiction; injection Hin as <- <-
  |apply FvArr; intros ? Hin; cbn [In] in Hin; repeat destruct Hin as [Hin|Hin]; try contradiction; subst; (split; [|intros ? ?; discriminate])].
Lemma tidy15 : forall s j, js_of T15 s = Some j -> tidy true j.
Proof.
  intros s j H. apply js_of_in in H. destruct H as [<-|[<-|[<-|[]]]]; (constructor; [constructor| | |]); intros *;
    match goal with |- jget ?a ?b = Some _ -> _ => let v := eval vm_compute in (jget a b) in change (jget a b) with v end; intros E; try discriminate E; injection E as <-.
  all: try (intros H; eapply strings_ok; [|exact H]; vm_compute; reflexivity).
  - cbn [In]. intros [E|[E|[]]]; discriminate E.
  - cbn [snd]. fv.
  - cbn [In]. intros [E|[E|[]]]; [|discriminate E]. injection E as _ <-. apply (plainb_ok (lit "./index.js") eq_refl).
  - cbn [snd]. split; [fv|eexists; reflexivity].
Qed.
Lemma ts15 : tsconfig_tidy true w15t R15.
Proof.
  intros location E. injection E as <-. exists (eq (lit "/r/tsconfig.json")). split.
  - reflexivity.
  - intros p <- _. vm_compute. discriminate.
  - intros p s <- E. change (f_read w15t (lit "/r/tsconfig.json")) with (Some (lit "T")) in E. injection E as <-. vm_compute. discriminate.
  - intros p s j <- E. change (f_read w15t (lit "/r/tsconfig.json")) with (Some (lit "T")) in E. injection E as <-. intros E. vm_compute in E. injection E as <-.
    intros op (l & E & Hin). injection E as <-. destruct Hin as [E|[]]. injection E as <-. split.
    + intros v (l & E & Hin). injection E as <-. destruct Hin as [E|[E|[]]]; [|discriminate]. injection E as <-. eexists. reflexivity.
    + intros v (l & E & Hin). injection E as <-. destruct Hin as [E|[E|[]]]; [discriminate|]. injection E as <-. eexists. split; [reflexivity|]. intros k w [E|[]]. injection E as <- <-.
      split; [repeat constructor|]. eexists. split; [reflexivity|]. intros x [<-|[]]. eexists. reflexivity.
  - intros p e <- (s & j & E & Ej & He). change (f_read w15t (lit "/r/tsconfig.json")) with (Some (lit "T")) in E. injection E as <-. vm_compute in Ej. injection Ej as <-. discriminate He.
  - intros p q <- (e & _ & _ & _ & _ & _ & _ & (s & j & E & Ej & He) & _). change (f_read w15t (lit "/r/tsconfig.json")) with (Some (lit "T")) in E. injection E as <-.
    vm_compute in Ej. injection Ej as <-. discriminate He.
Qed.
Lemma call15 : forall f base req, forallb (fun c => N.ltb c 128) (lit req) = true -> negb (starts_with_char (r_target (parse (lit req))) c_at) = true ->
  call_tidy true w15t (CResolve R15 f base (lit req)).
Proof.
  intros f base req Ha Hs. split; [reflexivity|]. split; [intros d j (n & s & _ & _ & _ & Hj); exact (tidy15 s j Hj)|].
  split; [exact (sf_kind _ (posix_sane _ _ _))|]. split; [apply Forall_forall; intros c Hc _; rewrite forallb_forall in Ha; apply N.ltb_lt, Ha, Hc|].
  split; [intros (r & E & _); rewrite E in Hs; discriminate|]. split; [intros from to []|exact ts15].
Qed.
Definition c15 (req : string) : call := CResolve R15 40 (lit "/r") (lit req).
Definition h15 : list event := map (fun r => ECall (c15 r)) ["p"; "p/a/a"; "p/none"; "#a"; "#b"; "~/y"; "./x"; "./d"; "./src"; "~/z"]%string.
Lemma h15_tidy : history_tidy true w15t h15.
Proof. unfold h15. cbn [map]. repeat (apply HtCall; [apply call15; reflexivity|]). apply HtNil. Qed.
Definition fails (o : outcome answer) : Prop := exists e, o = Done (AResolve (Err e)).
Lemma h15_runs : (exists o1 o2 o3 o4 o5 o6 o7 o8 o9 o10, fst (fst (run_history w15t st0 h15)) = [o1; o2; o3; o4; o5; o6; o7; o8; o9; o10] /\
  gives o1 "/r/node_modules/p/b.js" /\ gives o2 "/r/node_modules/p/lib/a.js" /\ fails o3 /\ gives o4 "/r/x.js" /\ gives o5 "/r/node_modules/p/lib/a.js" /\
  gives o6 "/r/src/y.js" /\ gives o7 "/r/x.js" /\ o8 = Panicked p_unreachable /\ o9 = Panicked p_unreachable /\ fails o10)%string.
Proof.
  do 10 eexists. split; [vm_compute; reflexivity|]. repeat split; try (eexists; split; reflexivity); try (eexists; reflexivity).
Qed.
Definition R15d : resolver := new_resolver dflt 0 0 false (js_of T15) (jsc_of T15).
Lemma call15d : forall f base req, forallb (fun c => N.ltb c 128) (lit req) = true -> negb (starts_with_char (r_target (parse (lit req))) c_at) = true ->
  call_tidy true w15t (CResolve R15d f base (lit req)).
Proof.
  intros f base req Ha Hs. split; [reflexivity|]. split; [intros d j (n & s & _ & _ & _ & Hj); exact (tidy15 s j Hj)|].
  split; [exact (sf_kind _ (posix_sane _ _ _))|]. split; [apply Forall_forall; intros c Hc _; rewrite forallb_forall in Ha; apply N.ltb_lt, Ha, Hc|].
  split; [intros (r & E & _); rewrite E in Hs; discriminate|]. split; [intros from to []|intros l E; discriminate E].
Qed.
Lemma direct15 : history_tidy true w15t h15 /\ direct (rv_opts R15d) /\
  (call_tidy true w15t (CResolve R15d 40 (lit "/r") (lit "p/a/a")) /\ get_target_kind (r_target (parse (lit "p/a/a"))) = Normal /\
   gives (out w15t (snd (run_history w15t st0 h15)) (call_prog (CResolve R15d 40 (lit "/r") (lit "p/a/a")))) "/r/node_modules/p/lib/a.js") /\
  (call_tidy true w15t (CResolve R15d 40 (lit "/r") (lit "./node_modules/p")) /\
   Exists (fun p => f_file w15t p = true) (main_file_paths R15d (lit "/r/./node_modules/p") (o_main_files (rv_opts R15d))) /\
   gives (out w15t (snd (run_history w15t st0 h15)) (call_prog (CResolve R15d 40 (lit "/r") (lit "./node_modules/p")))) "/r/node_modules/p/index.js").
Proof.
  split; [exact h15_tidy|]. split; [repeat split|]. split.
  - split; [apply call15d; reflexivity|]. split; [reflexivity|]. eexists. split; [vm_compute; reflexivity|reflexivity].
  - split; [apply call15d; reflexivity|]. split.
    + apply Exists_exists. exists (lit "/r/./node_modules/p/./index.js"). split; [|vm_compute; reflexivity]. vm_compute. auto 20.
    + eexists. split; [vm_compute; reflexivity|reflexivity].
Qed.
(** Two calls at the same time, one of them for a directory without main file. *)
Lemma sched15 : Forall (call_tidy true w15t) [c15 "p/a/a"; c15 "./d"] /\
  exists p, fst (run_sched w15t (alternate 80) st0 (map call_prog [c15 "p/a/a"; c15 "./d"])) = [p; Panic p_unreachable] /\
  gives (settled p) "/r/node_modules/p/lib/a.js".
Proof.
  split; [constructor; [apply call15; reflexivity|constructor; [apply call15; reflexivity|constructor]]|]. eexists. split; [vm_compute; reflexivity|]. eexists. split; reflexivity.
Qed.
Lemma tidy16 : forall s j, js_of T16 s = Some j -> tidy true j.
Proof.
  intros s j H. apply js_of_in in H. destruct H as [<-|[<-|[]]]; (constructor; [constructor| | |]); intros *;
    match goal with |- jget ?a ?b = Some _ -> _ => let v := eval vm_compute in (jget a b) in change (jget a b) with v end; intros E; try discriminate E; injection E as <-.
  all: try (intros H; eapply strings_ok; [|exact H]; vm_compute; reflexivity).
  - cbn [In]. intros [E|[]]; discriminate E.
  - cbn [In]. intros [E|[]]. injection E as _ <-. apply (plainb_ok (lit "./b.js") eq_refl).
  - split; [fv|eexists; reflexivity].
Qed.
Lemma call16 : forall f base req, forallb (fun c => N.ltb c 128) (lit req) = true -> (exists r, r_target (parse (lit req)) = lit "@/" ++ r) \/ starts_with_char (r_target (parse (lit req))) c_at = false ->
  call_tidy true w16 (CResolve R16 f base (lit req)).
Proof.
  intros f base req Ha Hs. split; [reflexivity|]. split; [intros d j (n & s & _ & _ & _ & Hj); exact (tidy16 s j Hj)|].
  split; [exact (sf_kind _ (posix_sane _ _ _))|]. split; [apply Forall_forall; intros c Hc _; rewrite forallb_forall in Ha; apply N.ltb_lt, Ha, Hc|].
  split; [|split; [intros from to [E|[]]; injection E as _ <-; split; [repeat constructor|split; [discriminate|intros (r & E & _); discriminate]]|intros l E; discriminate E]].
  intros (r & E & Hn). destruct Hs as [[r' Hs]|Hs]; rewrite E in Hs; [injection Hs as ->; apply Hn; left; reflexivity|discriminate].
Qed.
Lemma answer15 : let c := CResolve R16 40 (lit "/r") (lit "@/y") in (sane_fs w16 /\ (forall s j, js_of T16 s = Some j -> wf_json j) /\ no_clash w16 (js_of T16) nmc /\
  client (js_of T16) nmc (call_resolver c) /\ call_plain w16 c /\ call_tidy true w16 c) /\ gives (out w16 st0 (call_prog c)) "/r/src/y.js".
Proof.
  split; [|apply answers16]. split; [apply posix_sane|]. split; [exact wf16|]. split; [exact clash16|]. split; [exact client16|]. split; [apply plain16; reflexivity|].
  apply call16; [reflexivity|]. left. eexists. vm_compute. reflexivity.
Qed.

(** ** A chain of tsconfig files *)
Lemma files16t : Forall (ts_file_tidy true w16t R16t) l16t.
Proof.
  unfold l16t.
  assert (G : forall p s0 j0, f_read w16t p = Some s0 -> jsc_of T16t s0 = JCVal j0 -> parent p <> None -> ts_shaped true j0 ->
    (forall e, jget j0 (lit "extends") = Some (JStr e) -> text true e) -> ts_file_tidy true w16t R16t p).
  { intros p s0 j0 Hs Hj Hp Hsh He s E. assert (s = s0) by congruence. subst s0. split; [exact Hp|]. change (rv_jsonc R16t) with (jsc_of T16t). rewrite Hj. split; [discriminate|].
    split; [intros j E'; injection E' as <-; exact Hsh|]. intros e (s' & j' & E1 & E2 & E3). apply He. change (rv_jsonc R16t) with (jsc_of T16t) in E2. congruence. }
  constructor; [|constructor; [|constructor; [|constructor]]].
  - eapply G; [vm_compute; reflexivity|vm_compute; reflexivity|vm_compute; discriminate| |].
    + intros op (l & E & Hin). injection E as <-. destruct Hin as [E|[]]. discriminate E.
    + intros e E. vm_compute in E. injection E as <-. repeat constructor.
  - eapply G; [vm_compute; reflexivity|vm_compute; reflexivity|vm_compute; discriminate| |].
    + intros op (l & E & Hin). injection E as <-. destruct Hin as [E|[E|[]]]; [discriminate E|]. injection E as <-. split.
      * intros v (l & E & Hin). injection E as <-. destruct Hin as [E|[]]. injection E as <-. eexists. reflexivity.
      * intros v (l & E & Hin). injection E as <-. destruct Hin as [E|[]]. discriminate E.
    + intros e E. vm_compute in E. injection E as <-. repeat constructor.
  - eapply G; [vm_compute; reflexivity|vm_compute; reflexivity|vm_compute; discriminate| |].
    + intros op (l & E & Hin). injection E as <-. destruct Hin as [E|[]]. injection E as <-. split.
      * intros v (l & E & Hin). injection E as <-. destruct Hin as [E|[E|[]]]; [|discriminate]. injection E as <-. eexists. reflexivity.
      * intros v (l & E & Hin). injection E as <-. destruct Hin as [E|[E|[]]]; [discriminate|]. injection E as <-. eexists. split; [reflexivity|]. intros k w [E|[]]. injection E as <- <-.
        split; [repeat constructor|]. eexists. split; [reflexivity|]. intros x [<-|[]]. eexists. reflexivity.
    + intros e E. discriminate E.
Qed.
Lemma tidy16t : call_tidy true w16t (CResolve R16t 40 (lit "/r") (lit "@/y")).
Proof.
  split; [reflexivity|]. split; [intros d j (n & s & _ & _ & _ & Hj); discriminate Hj|]. split; [exact (sf_kind _ (posix_sane _ _ _))|].
  split; [repeat constructor|]. split; [intros (r & E & Hn); vm_compute in E; injection E as <-; apply Hn; left; reflexivity|]. split; [intros from to []|].
  apply chain_tidy; [apply posix_sane|]. intros loc E. injection E as <-. exists (tl l16t). split; [exact chain16t|exact files16t].
Qed.

(** ** Texts that are not ASCII *)
Definition e15 : str := [233%N].
Definition w15u : fsys := W (NDir [(lit "r", NDir [(lit "node_modules", NDir [(lit "p", NDir [(lit "package.json", PJ "P"); (lit "lib", NDir [(e15 ++ lit ".js", F)])])])])]).
Definition c15u (req : str) : call := CResolve R15d 40 (lit "/r") req.
Lemma text_any : forall s, text false s.
Proof. intros s. apply Forall_forall. intros c _ E. discriminate. Qed.
Lemma tidy_any : forall j, tidy true j -> tidy false j.
Proof.
  assert (P : forall t, plain_target true t -> plain_target false t) by (intros t [_ H]; split; [apply text_any|exact H]).
  assert (S : forall t, plain_string true t -> plain_string false t) by (intros t [_ H]; split; [apply text_any|exact H]).
  intros j [H1 H2 H3 H4]. constructor; [exact H1| | |]; intros.
  - apply P. eapply H2; eassumption.
  - apply S. eapply H3; eassumption.
  - apply S. eapply H4; eassumption.
Qed.
Lemma call15u : forall req, negb (starts_with_char (r_target (parse req)) c_at) = true -> call_tidy false w15u (c15u req).
Proof.
  intros req Hs. split; [reflexivity|]. split; [intros d j (n & s & _ & _ & _ & Hj); apply tidy_any; exact (tidy15 s j Hj)|].
  split; [exact (sf_kind _ (posix_sane _ _ _))|]. split; [apply text_any|].
  split; [intros (r & E & _); rewrite E in Hs; discriminate|]. split; [intros from to []|intros l E; discriminate E].
Qed.
Lemma unicode15 : history_tidy false w15u (map ECall [c15u (lit "p/a/" ++ e15); c15u (e15 ++ lit "/x")]) /\
  exists i, fst (fst (run_history w15u st0 (map ECall [c15u (lit "p/a/" ++ e15); c15u (e15 ++ lit "/x")]))) = [Done (AResolve (Ok (RInfo i))); Panicked p_boundary] /\
  i_path i = lit "/r/node_modules/p/lib/" ++ e15 ++ lit ".js".
Proof.
  split; [cbn [map]; repeat (apply HtCall; [apply call15u; reflexivity|]); apply HtNil|]. eexists. split; [vm_compute; reflexivity|reflexivity].
Qed.
