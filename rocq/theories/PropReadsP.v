(** * A description file is read once: proofs for PropReads.v *)
From Coq Require Import String.
From Coq Require Import List Arith NArith Bool Lia.
From Verif Require Import Str StrP Path PathP Json Types Parse Map Prog Desc Resolve Top Run RunP Posix PosixP Demo SpecRun SpecLoad SpellP SpecCache SpecChange GuarP LoadP LookupP DebugP PropChangeP SpecReads.
Import ListNotations.

Lemma reads_bind {A B} : forall fs fp (p : prog A) (f : A -> prog B) st,
  reads_in fs fp (bind p f) st = reads_in fs fp p st + match run fs p st with (Done a, st') => reads_in fs fp (f a) st' | _ => 0 end.
Proof.
  intros fs fp p f. induction p as [a|m| |o k IH]; intros st; cbn [bind reads_in run]; try reflexivity.
  rewrite IH. destruct (step fs st o) as [x st']. cbn [fst snd]. lia.
Qed.

Section Disk.
Variable fs : fsys.
Hypothesis Hfs : sane_fs fs.
Variable R : resolver.
Variable name : str.
Hypothesis Hname : o_desc (rv_opts R) = Some name.
Hypothesis Hrel : is_abs name = false.
Hypothesis Hdur : (0 < rv_duration R)%N.
Variable d : path.
Notation fp := (join d name).
Hypothesis Hd : d <> [].
Variable pk0 : pkg.
Hypothesis Hgood : described fs (rv_json R) name d = PRet (Ok pk0).

(** The resolver has noted the time of the file, and the table has an entry for its directory. *)
Definition spent (st : state) : nat :=
  match s_file st (rv_id R) (components fp), f_mtime fs fp, s_pkg st (rv_cache R) (components d) with
  | Some (_, t), MTime t', Some _ => if N.eqb t t' then 1 else 0
  | _, _, _ => 0
  end.
Lemma spent_le : forall st, spent st <= 1.
Proof using Type. clear Hdur. intros st. unfold spent. destruct (s_file st (rv_id R) (components fp)) as [[s t]|], (f_mtime fs fp), (s_pkg st (rv_cache R) (components d)); try lia. destruct (N.eqb _ _); lia. Qed.
Definition okat {A} (me : bool) (p : prog A) (st : state) : Prop :=
  (if me then reads_in fs fp p st else 0) + spent st <= spent (snd (run fs p st)).
Definition okp (me : bool) (A : Type) (p : prog A) : Prop := forall st, okat me p st.
Lemma okat_bind {A B} : forall me (p : prog A) (f : A -> prog B) st, okat me p st ->
  (forall a, fst (run fs p st) = Done a -> okat me (f a) (snd (run fs p st))) -> okat me (bind p f) st.
Proof.
  intros me p f st Hp Hf. unfold okat in *. rewrite reads_bind, run_bind. destruct (run fs p st) as [[a|m|] st']; cbn [fst snd] in *.
  - specialize (Hf a eq_refl). destruct me; lia.
  - destruct me; lia.
  - destruct me; lia.
Qed.
Lemma okp_bind : forall me A B (p : prog A) (f : A -> prog B), okp me A p -> (forall a, okp me B (f a)) -> okp me B (bind p f).
Proof. intros me A B p f Hp Hf st. apply okat_bind; [apply Hp|]. intros a _. apply Hf. Qed.
Lemma okp_pure : forall me A (p : prog A), match p with Do _ _ => False | _ => True end -> okp me A p.
Proof. intros me A [a|m| |o k] H st; try contradiction; unfold okat; cbn [reads_in run snd]; destruct me; lia. Qed.
(** Operations that neither read nor note a time of the file for the resolver. *)
Definition harmless (me : bool) (o : op) : Prop :=
  match o with
  | ORead q => me = false \/ components q <> components fp
  | OFilePut r q _ _ => r <> rv_id R \/ components q <> components fp
  | _ => True
  end.
Lemma okp_act : forall me o, harmless me o -> okp me _ (act o).
Proof.
  intros me o H st. unfold okat. cbn [act reads_in run].
  assert (Hr : (if me then (match o with ORead q => if path_eqb q fp then 1 else 0 | _ => 0 end) + 0 else 0) = 0).
  { destruct me; [|reflexivity]. destruct o; try reflexivity. destruct H as [H|H]; [discriminate|].
    destruct (path_eqb p fp) eqn:E; [|reflexivity]. apply path_eqb_eq in E. contradiction. }
  rewrite Hr. destruct (step fs st o) as [x st'] eqn:E. cbn [run snd].
  destruct o; cbn [step] in E; injection E as _ <-; try lia; unfold spent; cbn [set_pkg set_exp set_file set_dbg set_ord s_file s_pkg s_exp s_imp s_dbg s_ord]; try lia.
  - unfold upd_path. destruct (s_file st (rv_id R) (components fp)) as [[s t]|]; [|lia]. destruct (f_mtime fs fp); try lia.
    destruct (_ && _); [|lia]. destruct (s_pkg st _ _); [lia|destruct (N.eqb _ _); lia].
  - unfold upd_path. destruct (Nat.eqb (rv_id R) r && comps_eqb (components fp) (components p)) eqn:Eq; [|lia].
    exfalso. apply andb_true_iff in Eq. destruct Eq as [E1 E2]. apply Nat.eqb_eq in E1. apply comps_eqb_eq in E2. cbn [harmless] in H. destruct H; congruence.
Qed.
Lemma okp_try {A B} : forall me (p : prog (result A)) (f : A -> prog (result B)), okp me _ p -> (forall a, okp me _ (f a)) -> okp me _ (try_ p f).
Proof. intros me p f Hp Hf. apply okp_bind; [exact Hp|]. intros [a|e]; [apply Hf|apply okp_pure; exact I]. Qed.
Ltac go1 := lazymatch goal with
  | |- okp _ _ (Ret _) => apply okp_pure; exact I
  | |- okp _ _ (Panic _) => apply okp_pure; exact I
  | |- okp _ _ OutOfFuel => apply okp_pure; exact I
  | |- okp _ _ (lift ?c) => destruct c; apply okp_pure; exact I
  | |- okp _ _ (act _) => apply okp_act
  | |- okp _ _ (try_ _ _) => apply okp_try; [|intros ?]
  | |- okp _ _ (bind _ _) => apply okp_bind; [|intros ?]
  | |- okp _ _ (let _ := _ in _) => cbv zeta
  | |- okp _ _ (match ?x with _ => _ end) => destruct x
  end.
Ltac go := repeat go1; try exact I; auto.

(** ** Loads *)
Section Load.
Variable R' : resolver.
Variable me : bool.
Lemma ok_modified : forall p, okp me _ (get_last_modified p).
Proof. intros p. unfold get_last_modified. go. Qed.
Lemma ok_update : forall p, okp me _ (need_update R' p).
Proof. intros p. unfold need_update. go; try apply ok_modified. Qed.
Lemma ok_check : forall p q, okp me _ (check_entry R' p q).
Proof. intros p q. unfold check_entry. go; try apply ok_update. Qed.
Lemma ok_exports : forall j, okp me _ (load_exports R' j).
Proof. intros j. unfold load_exports. go. Qed.
Lemma ok_imports : forall j, okp me _ (load_imports R' j).
Proof. intros j. unfold load_imports. go. Qed.
Lemma ok_store : forall p q, (me = false \/ components q <> components fp) -> (rv_id R' <> rv_id R \/ components q <> components fp) -> okp me _ (parse_and_store R' p q).
Proof.
  intros p q H1 H2. unfold parse_and_store, parse_description_file, dbg_check, read_to_string.
  go; try apply ok_modified; try apply ok_exports; try apply ok_imports; try exact H1; try exact H2.
Qed.
Lemma ok_up : forall f p n, okp me _ (find_up f p n).
Proof. induction f as [|f IH]; intros p n; cbn [find_up]; go. Qed.
Lemma ok_none : forall f p, okp me _ (none_loop R' f p).
Proof. induction f as [|f IH]; intros p; cbn [none_loop]; go. Qed.
End Load.
(** Loads of other resolvers. *)
Lemma ok_others : forall R' f p, rv_id R' <> rv_id R -> okp false _ (load_pkg_file R' f p).
Proof.
  intros R' f p Hid. revert p. induction f as [|f IH]; intros p; cbn [load_pkg_file]; go; try apply ok_check; try apply ok_up; try apply ok_none; try (apply ok_store; auto).
Qed.

Lemma fresh_time : exists s t, f_read fs fp = Some s /\ f_mtime fs fp = MTime t.
Proof.
  unfold described in Hgood. destruct (f_read fs fp) as [s|]; [|discriminate]. destruct (f_mtime fs fp) as [| |t]; try discriminate. eauto.
Qed.
(** Reading the file, with the time not noted before. *)
Lemma exports_run : forall j st t, exp_part j = PRet (Ok t) -> exists t' st', run fs (load_exports R j) st = (Done (Ok t'), st') /\
  s_pkg st' = s_pkg st /\ s_file st' = s_file st /\ reads_in fs fp (load_exports R j) st = 0.
Proof.
  intros j st t E. unfold load_exports, exp_part in *. destruct (jget j (lit "exports")) as [v|]; [|exists None, st; repeat split].
  cbv zeta. cbn [act bind run reads_in step fst snd]. destruct (s_exp st (rv_cache R) (to_string v)) as [t0|]; [exists (Some t0), st; repeat split|].
  destruct (build_exports v) as [[t1|e]|m|]; try discriminate. cbn [lift try_ act bind run reads_in step fst snd].
  eexists. eexists. repeat split.
Qed.
Lemma imports_run : forall j st t, imp_part j = PRet (Ok t) -> exists t' st', run fs (load_imports R j) st = (Done (Ok t'), st') /\
  s_pkg st' = s_pkg st /\ s_file st' = s_file st /\ reads_in fs fp (load_imports R j) st = 0.
Proof.
  intros j st t E. unfold load_imports, imp_part in *. destruct (jget j (lit "imports")) as [v|]; [|exists None, st; repeat split].
  cbv zeta. cbn [act bind run reads_in step fst snd]. destruct (s_imp st (rv_cache R) (to_string v)) as [t0|]; [exists (Some t0), st; repeat split|].
  destruct (build_imports v) as [[t1|e]|m|]; try discriminate. cbn [lift try_ act bind run reads_in step fst snd].
  eexists. eexists. repeat split.
Qed.
Lemma ok_read : forall p st, same_path p d -> spent st = 0 -> okat true (parse_and_store R p (join p name)) st.
Proof.
  intros p st Hp Hs. unfold parse_and_store.
  pose proof (same_tail_join _ _ name Hp) as Ht. pose proof (same_tail_path _ _ Ht) as Hpath.
  assert (Hg : exists pk, described fs (rv_json R) name p = PRet (Ok pk)).
  { pose proof (described_same fs Hfs (rv_json R) name p d Hp) as H. rewrite Hgood in H.
    destruct (described fs (rv_json R) name p) as [[pk|e]|m|]; cbn in H; try contradiction. eauto. }
  destruct Hg as [pk Hg]. unfold okat, try_. rewrite reads_bind, run_bind. rewrite Hs.
  unfold parse_description_file.
  assert (Hdbg : (exists m, run fs (dbg_check R (join p name)) st = (Panicked m, st)) \/
    exists st1, run fs (dbg_check R (join p name)) st = (Done tt, st1) /\ s_pkg st1 = s_pkg st /\ s_file st1 = s_file st).
  { unfold dbg_check. destruct (rv_debug R); [|right; exists st; repeat split]. cbn [act bind run step].
    destruct (s_dbg st (rv_id R) (components (join p name))); cbn [run]; [left; eexists; reflexivity|right; eexists; repeat split]. }
  assert (Hd0 : reads_in fs fp (dbg_check R (join p name)) st = 0).
  { unfold dbg_check. destruct (rv_debug R); [|reflexivity]. cbn [act bind reads_in step fst snd]. destruct (s_dbg st _ _); reflexivity. }
  rewrite reads_bind, run_bind, Hd0. destruct Hdbg as [[m E]|(st1 & E & E1 & E2)]; rewrite E; [cbn [snd]; lia|].
  rewrite reads_bind, run_bind. unfold read_to_string, try_, get_last_modified. cbn [act bind run reads_in step fst snd].
  unfold described in Hg. destruct (f_read fs (join p name)) as [s|] eqn:Er; [|discriminate].
  destruct (f_mtime fs (join p name)) as [| |t] eqn:Et; try discriminate.
  cbn [act bind run reads_in step fst snd]. rewrite Et. cbn [act bind run reads_in step fst snd].
  replace (path_eqb (join p name) fp) with true by (symmetry; apply path_eqb_eq; exact Hpath).
  destruct (rv_json R s) as [j|] eqn:Ej; [|discriminate]. rewrite reads_bind, run_bind.
  destruct (alias_fields_of j) as [af|m|]; try discriminate. cbn [lift pbind act bind run reads_in step fst snd] in *. rewrite reads_bind, run_bind.
  fold (exp_part j) in Hg. destruct (exp_part j) as [[ex|e]|m|] eqn:Ex; try discriminate. cbn [pbind] in Hg.
  match goal with |- context [run fs (load_exports R j) ?S] => destruct (exports_run j S ex Ex) as (t3 & st3 & E3 & Hp3 & Hf3 & Hr3) end.
  rewrite E3, Hr3. rewrite reads_bind, run_bind. fold (imp_part j) in Hg. destruct (imp_part j) as [[im|e]|m|] eqn:Im; try discriminate. cbn [pbind] in Hg.
  destruct (imports_run j st3 im Im) as (t4 & st4 & E4 & Hp4 & Hf4 & Hr4). rewrite E4, Hr4.
  destruct (side_effects_of (join p name) j) as [se|e]; [|discriminate]. cbn [act bind run reads_in step fst snd].
  unfold spent. cbn [set_pkg s_file s_pkg]. rewrite Hf4, Hf3. cbn [set_ord set_file s_file].
  unfold upd_path at 1. rewrite Nat.eqb_refl, Hpath, (proj2 (comps_eqb_eq _ _) eq_refl). cbn [andb].
  rewrite <- (sf_mtime _ Hfs _ _ Ht), Et, N.eqb_refl.
  unfold upd_path. rewrite Nat.eqb_refl, Hp, (proj2 (comps_eqb_eq _ _) eq_refl). cbn [andb]. lia.
Qed.
Lemma okat_cont {A} : forall me o (k : ans o -> prog A) st, harmless me o -> okat me (k (fst (step fs st o))) (snd (step fs st o)) -> okat me (bind (act o) k) st.
Proof.
  intros me o k st H Hk. apply okat_bind; [apply okp_act, H|]. intros a Ha. cbn [act run] in *. destruct (step fs st o) as [x st']. cbn [run fst snd] in *.
  injection Ha as <-. exact Hk.
Qed.
(** Loads of the resolver. *)
Lemma ok_mine : forall f p, okp true _ (load_pkg_file R f p).
Proof.
  induction f as [|f IH]; intros p; cbn [load_pkg_file]; [go|]. rewrite Hname. intros st. apply okat_cont; [exact I|]. cbn [step fst snd].
  destruct (f_dir fs p) eqn:Ed; cbn [negb]; [|destruct (parent p); [apply IH|apply okp_pure; exact I]].
  assert (Hne : p <> []) by (intros ->; rewrite (sf_empty _ Hfs) in Ed; discriminate).
  cbv zeta. apply okat_cont; [exact I|]. cbn [step fst snd].
  destruct (comps_eqb (components p) (components d)) eqn:Eq.
  - apply comps_eqb_eq in Eq. pose proof (same_tail_join _ _ name (Eq : same_path p d)) as Ht. pose proof (same_tail_path _ _ Ht) as Hpath.
    destruct fresh_time as (s0 & t0 & _ & Ht0). rewrite <- (sf_mtime _ Hfs _ _ Ht) in Ht0.
    destruct (s_pkg st (rv_cache R) (components p)) as [v|] eqn:Ep.
    + unfold try_, check_entry, need_update. apply okat_bind.
      * apply (ok_check R true p (join p name)).
      * intros u Hu. change (run fs _ st) with (run fs (check_entry R p (join p name)) st) in *.
        assert (Hst : s_file (snd (run fs (check_entry R p (join p name)) st)) = s_file st /\
          (u = Ok true -> spent st = 0) /\ spent (snd (run fs (check_entry R p (join p name)) st)) = spent st).
        { unfold check_entry, need_update, try_, get_last_modified in *. cbn [act bind run step fst snd] in *.
          destruct (f_file fs (join p name)); cbn [negb act bind run step fst snd] in *; [|injection Hu as <-; repeat split; discriminate].
          destruct (s_file st (rv_id R) (components (join p name))) as [[s t]|] eqn:Ef; cbn [act bind run step fst snd] in *.
          - rewrite Ht0 in *. cbn [act bind run step fst snd] in *. destruct (N.ltb t0 t) eqn:El; cbn [act bind run step fst snd] in *; [injection Hu as <-; repeat split; discriminate|].
            destruct (N.leb (rv_duration R) (t0 - t)) eqn:Eu; cbn [act bind run step fst snd] in *.
            + assert (E0 : spent st = 0).
              { unfold spent. unfold same_path in Hpath. rewrite <- Hpath, Ef, <- (sf_mtime _ Hfs _ _ Ht), Ht0. rewrite <- Eq, Ep. apply N.leb_le in Eu. destruct (N.eqb t t0) eqn:E; [|reflexivity]. apply N.eqb_eq in E. lia. }
              destruct (rv_debug R); cbn [act bind run step fst snd] in *; repeat split; auto.
            + injection Hu as <-. repeat split; discriminate.
          - assert (E0 : spent st = 0). { unfold spent. unfold same_path in Hpath. rewrite <- Hpath, Ef. reflexivity. }
            destruct (rv_debug R); cbn [act bind run step fst snd] in *; repeat split; auto. }
        destruct u as [[|]|e]; cbn [negb]; try (apply okp_pure; exact I). apply ok_read; [exact Eq|]. destruct Hst as (_ & H1 & H2). rewrite H2. apply H1. reflexivity.
    + assert (E0 : spent st = 0). { unfold spent. rewrite <- Eq, Ep. destruct (s_file st (rv_id R) (components fp)) as [[? ?]|], (f_mtime fs fp); reflexivity. }
      apply okat_cont; [exact I|]. cbn [step fst snd]. destruct (f_file fs (join p name)); [apply ok_read; [exact Eq|exact E0]|].
      apply (okp_bind true _ _ (find_up f p name)); [apply ok_up|]. intros [q|]; [apply IH|apply ok_none].
  - assert (Hq : components (join p name) <> components fp).
    { rewrite !components_join by assumption. intros E. apply app_inv_tail in E. rewrite E in Eq. rewrite (proj2 (comps_eqb_eq _ _) eq_refl) in Eq. discriminate. }
    destruct (s_pkg st (rv_cache R) (components p)) as [v|].
    + apply okp_try; [apply ok_check|]. intros [|]; cbn [negb]; [|go]. apply ok_store; auto.
    + apply okat_cont; [exact I|]. cbn [step fst snd]. destruct (f_file fs (join p name)); [apply ok_store; auto|].
      apply (okp_bind true _ _ (find_up f p name)); [apply ok_up|]. intros [q|]; [apply IH|apply ok_none].
Qed.
Hypothesis Hts : o_tsconfig (rv_opts R) = None.
Lemma asks_harmless : forall me o, GuarP.asks o -> harmless me o.
Proof. intros me [] H; try exact I; contradiction. Qed.
Lemma ok_call : forall c, (rv_id (call_resolver c) = rv_id R -> call_resolver c = R) ->
  okp (Nat.eqb (rv_id (call_resolver c)) (rv_id R)) _ (call_prog c).
Proof.
  intros c Hc. destruct (Nat.eqb (rv_id (call_resolver c)) (rv_id R)) eqn:E.
  - apply Nat.eqb_eq in E. specialize (Hc E). destruct c as [R' f base req|R' f p]; cbn [call_resolver call_prog] in *; subst R'.
    + apply okp_bind; [|intros; go]. unfold resolve, resolve_with, normalize_result, normalize_path. rewrite Hts.
      apply okp_bind.
      * apply closed_resolve_; try (intros; apply okp_pure; exact I); [apply okp_bind| |intros; apply ok_mine].
        intros o Ho. apply okp_act, asks_harmless, Ho.
      * intros s. go.
    + apply okp_bind; [|intros; go]. unfold load_side_effects. apply okp_try; [apply ok_mine|]. intros; go.
  - apply Nat.eqb_neq in E. destruct c as [R' f base req|R' f p]; cbn [call_resolver call_prog] in *.
    + apply okp_bind; [|intros; go]. apply (closed_resolve_with (okp false)); try (intros; apply okp_pure; exact I); [apply okp_bind| |intros; apply ok_others, E].
      intros o Ho. apply okp_act. destruct o; try contradiction; try exact I. left. reflexivity.
    + apply okp_bind; [|intros; go]. unfold load_side_effects. apply okp_try; [apply ok_others, E|]. intros; go.
Qed.
End Disk.

Lemma fin_68 : forall R name d, o_desc (rv_opts R) = Some name -> is_abs name = false -> (0 < rv_duration R)%N -> o_tsconfig (rv_opts R) = None -> d <> [] ->
  forall h fs st, Forall (fun fs' => sane_fs fs' /\ exists pk, described fs' (rv_json R) name d = PRet (Ok pk)) (systems fs h) ->
  Forall (fun R' => rv_id R' = rv_id R -> R' = R) (callers h) ->
  reads_by (rv_id R) (join d name) fs st h <= S (edits (join d name) fs h).
Proof.
  intros R name d Hn Hr Hdur Hts Hd.
  assert (H : forall h fs st, Forall (fun fs' => sane_fs fs' /\ exists pk, described fs' (rv_json R) name d = PRet (Ok pk)) (systems fs h) ->
    Forall (fun R' => rv_id R' = rv_id R -> R' = R) (callers h) ->
    reads_by (rv_id R) (join d name) fs st h + spent fs R name d st <= S (edits (join d name) fs h)).
  2:{ intros h fs st H1 H2. specialize (H h fs st H1 H2). lia. }
  induction h as [|[c|fs'] h IH]; intros fs st Hs Hc; cbn [reads_by edits].
  - pose proof (spent_le fs R name d st). lia.
  - assert (Hc1 : rv_id (call_resolver c) = rv_id R -> call_resolver c = R) by (destruct c; inversion Hc; assumption).
    assert (Hc2 : Forall (fun R' => rv_id R' = rv_id R -> R' = R) (callers h)) by (destruct c; inversion Hc; assumption).
    inversion Hs as [|x l [Hsane [pk Hpk]] Hl]; subst.
    pose proof (ok_call fs Hsane R name Hn Hr Hdur d Hd pk Hpk Hts c Hc1 st) as Ho. unfold okat in Ho.
    specialize (IH fs (snd (run fs (call_prog c) st)) Hs Hc2). lia.
  - inversion Hs as [|x l [Hsane [pk Hpk]] Hl]; subst. specialize (IH fs' st Hl Hc).
    pose proof (spent_le fs R name d st). destruct (same_time (f_mtime fs (join d name)) (f_mtime fs' (join d name))) eqn:E; [|lia].
    assert (Es : spent fs R name d st = spent fs' R name d st); [|lia].
    unfold spent. destruct (f_mtime fs (join d name)) as [| |t], (f_mtime fs' (join d name)) as [| |t']; cbn [same_time] in E; try discriminate; try reflexivity.
    apply N.eqb_eq in E. subst. reflexivity.
Qed.

(** ** Cases *)
Definition R68 : resolver := mkR dflt T41.
Definition Q68 : resolver := new_resolver dflt 0 1 false (js_of T41) (jsc_of T41).
Definition Z68 : resolver := default_resolver 0 0 false (js_of T41) (jsc_of T41).
Definition h68 : list event :=
  [ECall (CResolve R68 40 (lit "/") (lit "./r")); ECall (CResolve Q68 40 (lit "/") (lit "./r")); ECall (CResolve R68 40 (lit "/r") (lit "./b.js"));
   EFs (W t41b); ECall (CResolve R68 40 (lit "/") (lit "./r")); ECall (CSide R68 40 (lit "/r/b.js"))].
Lemma ex68 : reads_by 0 (lit "/r/package.json") (W t41a) st0 h68 = 2 /\ edits (lit "/r/package.json") (W t41a) h68 = 1 /\
  reads_by 0 (lit "/r/package.json") (W t41a) st0 (firstn 3 h68) = 1 /\ reads_by 1 (lit "/r/package.json") (W t41a) st0 h68 = 1 /\
  Forall (fun fs' => sane_fs fs' /\ exists pk, described fs' (rv_json R68) (lit "package.json") (lit "/r") = PRet (Ok pk)) (systems (W t41a) h68).
Proof.
  split; [vm_compute; reflexivity|]. split; [vm_compute; reflexivity|]. split; [vm_compute; reflexivity|]. split; [vm_compute; reflexivity|].
  constructor; [split; [apply posix_sane|]|constructor; [split; [apply posix_sane|]|constructor]]; eexists; vm_compute; reflexivity.
Qed.
Definition z68 : list event := [ECall (CResolve Z68 40 (lit "/") (lit "./r")); ECall (CResolve Z68 40 (lit "/") (lit "./r"))].
Lemma default68 : rv_duration Z68 = 0%N /\ Forall (eq Z68) (callers z68) /\ 1 < reads_by 0 (lit "/r/package.json") (W t41a) st0 z68.
Proof. split; [reflexivity|]. split; [repeat constructor|]. vm_compute. lia. Qed.
Definition m68 : node := D [("r", D [("package.json", PJ "X"); ("a.js", F)])]%string.
Definition hm68 : list event := [ECall (CResolve R68 40 (lit "/r") (lit "./a.js")); ECall (CResolve R68 40 (lit "/r") (lit "./a.js"))].
Lemma malformed68 : rv_duration R68 = 1000000000%N /\ Forall (eq R68) (callers hm68) /\ reads_by 0 (lit "/r/package.json") (W m68) st0 hm68 = 2.
Proof. split; [reflexivity|]. split; [repeat constructor|]. vm_compute. reflexivity. Qed.
Lemma default68_any : exists R fs h st, R = default_resolver 0 0 false (js_of T41) (jsc_of T41) /\ Forall (eq R) (callers h) /\
  edits (lit "/r/package.json") fs h = 0 /\ (exists pk, described fs (rv_json R) (lit "package.json") (lit "/r") = PRet (Ok pk)) /\
  1 < reads_by (rv_id R) (lit "/r/package.json") fs st h.
Proof.
  exists Z68, (W t41a), z68, st0. split; [reflexivity|]. split; [apply default68|]. split; [reflexivity|]. split; [eexists; vm_compute; reflexivity|apply default68].
Qed.
Lemma malformed68_any : exists R fs h st e, rv_duration R = 1000000000%N /\ Forall (eq R) (callers h) /\
  edits (lit "/r/package.json") fs h = 0 /\ described fs (rv_json R) (lit "package.json") (lit "/r") = PRet (Err e) /\
  1 < reads_by (rv_id R) (lit "/r/package.json") fs st h.
Proof.
  exists R68, (W m68), hm68, st0, (lit "Parse /r/package.json failed"). destruct malformed68 as (H1 & H2 & H3).
  split; [exact H1|]. split; [exact H2|]. split; [reflexivity|]. split; [vm_compute; reflexivity|]. change (rv_id R68) with 0. rewrite H3. constructor.
Qed.
