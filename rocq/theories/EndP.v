(** * Proofs for C63 *)
From Coq Require Import String.
From Coq Require Import List Arith NArith Bool Lia.
From Verif Require Import Str StrP Path PathP Json Types Parse Map Prog Desc Resolve Top Run Exec FuelP SpecMap SpecLoad PosixP SpellP SimP LoadP GuarP SpecCache SpecDesc CacheP ColdP NoFuelP TotalP SpecTerm TermP SpecJson JsonP PropCacheP SpecEnd.
Import ListNotations.

(** ** Schedules *)
Lemma run_moving_app {A} : forall l l' st (ps : list (prog A)),
  run_moving (l ++ l') st ps = let (ps', st') := run_moving l st ps in run_moving l' st' ps'.
Proof.
  induction l as [|[fs i] l IH]; intros l' st ps; [reflexivity|]. cbn [app run_moving]. destruct (step_nth fs st i ps) as [ps1 st1]. apply IH.
Qed.
Lemma first_cons : forall sched n, first sched (S n) = sched 0 :: first (fun k => sched (S k)) n.
Proof. intros. unfold first. cbn [seq map]. f_equal. rewrite <- seq_shift, map_map. reflexivity. Qed.
Lemma nth_step {A} : forall fs i (l : list (prog A)) st j,
  nth_error (fst (step_nth fs st i l)) j = if Nat.eqb i j then option_map (fun p => fst (thread_step fs st p)) (nth_error l j) else nth_error l j.
Proof.
  intros fs i l. revert i. induction l as [|p l IH]; intros [|i] st [|j]; cbn [step_nth nth_error]; try reflexivity; try (cbn; destruct (Nat.eqb _ _); reflexivity).
  - cbn [Nat.eqb option_map]. destruct (thread_step fs st p). reflexivity.
  - cbn [Nat.eqb]. destruct (thread_step fs st p). reflexivity.
  - destruct (step_nth fs st i l). reflexivity.
  - cbn [Nat.eqb]. rewrite <- IH. destruct (step_nth fs st i l). reflexivity.
Qed.
Lemma fair_shift : forall sched i, fair sched i -> fair (fun k => sched (S k)) i.
Proof. intros sched i H n. destruct (H (S n)) as (m & Hm & E). exists (pred m). split; [lia|]. replace (S (pred m)) with m by lia. exact E. Qed.

(** A thread that cannot run out of steps comes to an end. *)
Lemma comes_to_end {A} : forall (ok : forall o, ans o -> Prop) (p : prog A), wx ok ended p -> forall i sched st ps,
  (forall n fs, sched n = (fs, i) -> forall st o, ok o (fst (step fs st o))) -> fair sched i -> nth_error ps i = Some p ->
  exists n p', nth_error (fst (run_moving (first sched n) st ps)) i = Some p' /\ SpecCache.settled p' <> NoFuel.
Proof.
  intros ok p. induction p as [a|m| |o k IH]; intros Hp i sched st ps Hok Hf Hn.
  - exists 0, (Ret a). split; [exact Hn|discriminate].
  - exists 0, (Panic m). split; [exact Hn|discriminate].
  - contradiction Hp. reflexivity.
  - destruct (Hf 0) as (m & _ & Hm). revert sched st ps Hok Hf Hn Hm. induction m as [|m IHm]; intros sched st ps Hok Hf Hn Hm.
    + destruct (sched 0) as [fs j] eqn:E0. cbn [snd] in Hm. subst j. destruct (step fs st o) as [x st'] eqn:Es.
      destruct (IH x) with (i := i) (sched := fun k => sched (S k)) (st := snd (step_nth fs st i ps)) (ps := fst (step_nth fs st i ps)) as (n & p' & H1 & H2).
      * apply Hp. specialize (Hok 0 fs E0 st o). rewrite Es in Hok. exact Hok.
      * intros n fs' E. exact (Hok (S n) fs' E).
      * apply fair_shift, Hf.
      * rewrite nth_step, Nat.eqb_refl, Hn. cbn [option_map thread_step]. rewrite Es. reflexivity.
      * exists (S n), p'. split; [|exact H2]. rewrite first_cons, E0. cbn [run_moving]. destruct (step_nth fs st i ps). exact H1.
    + destruct (sched 0) as [fs j] eqn:E0. destruct (Nat.eq_dec j i) as [->|Hne].
      * destruct (step fs st o) as [x st'] eqn:Es.
        destruct (IH x) with (i := i) (sched := fun k => sched (S k)) (st := snd (step_nth fs st i ps)) (ps := fst (step_nth fs st i ps)) as (n & p' & H1 & H2).
        -- apply Hp. specialize (Hok 0 fs E0 st o). rewrite Es in Hok. exact Hok.
        -- intros n fs' E. exact (Hok (S n) fs' E).
        -- apply fair_shift, Hf.
        -- rewrite nth_step, Nat.eqb_refl, Hn. cbn [option_map thread_step]. rewrite Es. reflexivity.
        -- exists (S n), p'. split; [|exact H2]. rewrite first_cons, E0. cbn [run_moving]. destruct (step_nth fs st i ps). exact H1.
      * destruct (IHm (fun k => sched (S k)) (snd (step_nth fs st j ps)) (fst (step_nth fs st j ps))) as (n & p' & H1 & H2).
        -- intros n fs' E. exact (Hok (S n) fs' E).
        -- apply fair_shift, Hf.
        -- rewrite nth_step. destruct (Nat.eqb_spec j i); [contradiction|exact Hn].
        -- exact Hm.
        -- exists (S n), p'. split; [|exact H2]. rewrite first_cons, E0. cbn [run_moving]. destruct (step_nth fs st j ps). exact H1.
Qed.
Lemma call_finishes : forall (ok : forall o, ans o -> Prop) c, wx ok ended (call_prog c) -> forall i sched st l,
  (forall n fs, sched n = (fs, i) -> forall st o, ok o (fst (step fs st o))) -> fair sched i -> nth_error l i = Some c -> finishes sched st l i.
Proof.
  intros ok c Hc i sched st l Hok Hf Hn. destruct (comes_to_end ok (call_prog c) Hc i sched st (map call_prog l) Hok Hf) as (n & p & H1 & H2).
  { rewrite nth_error_map, Hn. reflexivity. }
  exists n, (SpecCache.settled p). split; [|exact H2]. unfold state_at. rewrite H1. reflexivity.
Qed.

(** ** Side-effects queries *)
Definition okp (fs : fsys) (name : str) : forall o, ans o -> Prop := fun o =>
  match o return ans o -> Prop with
  | OIsDir p => fun x => x = f_dir fs p
  | OIsFile p => fun x => forall q, p = join q name -> x = f_file fs p
  | _ => fun _ => True
  end.
Section Side.
Variable fs : fsys.
Hypothesis Hfs : sane_fs fs.
Variable name : str.
Notation ok := (okp fs name).
Lemma find_up_end' : forall f q, length (components q) < f -> wx ok (fun r => r = Done (search fs name q)) (find_up f q name).
Proof.
  induction f as [|f IH]; intros q Hf; [lia|]. cbn [find_up]. intros x Hx. cbn [okp] in Hx. specialize (Hx q eq_refl). subst x.
  destruct (f_file fs (join q name)) eqn:E.
  - unfold search, lineage. cbn [find bind wx]. rewrite E. reflexivity.
  - destruct (parent q) as [r|] eqn:Ep.
    + eapply wx_mono; [|apply IH; pose proof (parent_shorter _ _ Ep); lia]. intros x ->. unfold search. rewrite (lineage_some _ _ Ep).
      cbn [find]. rewrite E. reflexivity.
    + unfold search. rewrite (lineage_none _ Ep). cbn [find bind wx]. rewrite E. reflexivity.
Qed.
Lemma none_loop_end' : forall R f q, length (components q) < f -> Forall (fun d => f_dir fs d = true) (lineage q) ->
  wx ok ended (none_loop R f q).
Proof.
  induction f as [|f IH]; intros q Hf Hd; [lia|]. cbn [none_loop]. intros x Hx. cbn [okp] in Hx. subst x.
  destruct (parent q) as [r|] eqn:Ep.
  - rewrite (lineage_some _ _ Ep) in Hd. inversion Hd as [|? ? H1 H2]; subst. rewrite H1. intros u _. cbn [bind].
    apply IH; [pose proof (parent_shorter _ _ Ep); lia|exact H2].
  - rewrite (lineage_none _ Ep) in Hd. inversion Hd as [|? ? H1 H2]; subst. rewrite H1. intros u _. cbn [bind]. discriminate.
Qed.
Lemma load_end' : forall R, o_desc (rv_opts R) = Some name -> forall f q, is_abs q = true -> length (components q) + 2 <= f ->
  wx ok ended (load_pkg_file R f q).
Proof.
  intros R En. induction f as [|f IH]; intros q Ha Hf; [lia|]. cbn [load_pkg_file]. rewrite En.
  intros x Hx. cbn [okp] in Hx. subst x. destruct (f_dir fs q) eqn:Ed; cbn [negb].
  2:{ destruct (parent q) as [r|] eqn:Ep; [|discriminate]. apply IH; [eapply parent_abs; eassumption|]. pose proof (parent_shorter _ _ Ep). lia. }
  intros [v|] _.
  - apply wx_any. apply wx_ended_try; [apply check_end|]. intros [|]; cbn [negb]; [|discriminate]. apply store_end.
  - intros x Hx. cbn [okp] in Hx. specialize (Hx q eq_refl). subst x. destruct (f_file fs (join q name)) eqn:Ef; [apply wx_any, store_end|].
    cbn [bind]. apply wx_bind. eapply wx_mono; [|apply find_up_end'; lia]. intros r ->.
    destruct (search fs name q) as [d|] eqn:Es.
    + unfold search in Es. destruct (parent q) as [r|] eqn:Ep.
      * rewrite (lineage_some _ _ Ep) in Es. cbn [find] in Es. rewrite Ef in Es. apply find_some in Es. destruct Es as [Hin _].
        destruct (lineage_shorter _ _ Hin) as [H1 H2]. pose proof (parent_shorter _ _ Ep). apply IH; [apply H2; eapply parent_abs; eassumption|lia].
      * rewrite (lineage_none _ Ep) in Es. cbn [find] in Es. rewrite Ef in Es. discriminate.
    + apply none_loop_end'; [lia|]. apply dirs_up; assumption.
Qed.
End Side.
Lemma fin_63_side : forall fs, sane_fs fs -> forall R name p, o_desc (rv_opts R) = Some name -> is_abs p = true ->
  forall f sched st l i, length (components p) + 2 <= f -> nth_error l i = Some (CSide R f p) -> fair sched i -> in_place fs name sched i ->
  finishes sched st l i.
Proof.
  intros fs Hfs R name p En Ha f sched st l i Hf Hn Hfair Hin. eapply call_finishes with (ok := okp fs name); [|  |exact Hfair|exact Hn].
  - cbn [call_prog]. apply wx_ended_bind; [|discriminate]. unfold load_side_effects.
    apply wx_ended_try; [apply load_end'; assumption|]. intros [pk|]; [|discriminate]. destruct (o_desc _); discriminate.
  - intros n fs' E st' o. specialize (Hin n fs' E). destruct o; cbn [okp step fst]; auto.
    + intros q ->. apply Hin.
    + apply Hin.
Qed.

(** ** No description files *)
Section NoDesc.
Variable R : resolver.
Notation opts := (rv_opts R).
Hypothesis Hd : o_desc opts = None.
Notation Any := (wx any ended).
Lemma load_none : forall f p, 0 < f -> load_pkg_file R f p = Ret (Ok None).
Proof. intros [|f] p H; [lia|]. cbn [load_pkg_file]. rewrite Hd. reflexivity. Qed.
Lemma extensions_any : forall p i l, Any (extensions_loop p i l).
Proof. intros p i. induction l as [|e l IH]; cbn [extensions_loop]; [discriminate|]. intros [|] _; cbn [bind]; [discriminate|exact IH]. Qed.
Lemma as_file_any : forall i, Any (resolve_as_file R i).
Proof. intros i. unfold resolve_as_file, extensions_apply. destruct (negb _); [|apply extensions_any]. intros [|] _; cbn [bind]; [discriminate|apply extensions_any]. Qed.
Lemma and_then_any : forall p f, Any p -> (forall i, Any (f i)) -> Any (and_then p f).
Proof. intros p f Hp Hf. unfold and_then. apply wx_ended_bind; [exact Hp|]. intros [r|i|e i]; [discriminate|apply Hf|discriminate]. Qed.
Section Fuel.
Variables m n : nat.
Hypothesis Hm : 0 < m.
Hypothesis Hn : 0 < n.
Notation load := (load_pkg_file R m).
Lemma imports_any : forall i, Any (imports_apply R load n None i).
Proof. intros i. destruct n; [lia|]. discriminate. Qed.
Lemma alias_field_any : forall i, Any (alias_field_apply R n None i).
Proof. intros i. unfold alias_field_apply. destruct (negb _); discriminate. Qed.
Lemma main_file_any : forall i l mi, Any (main_file_loop R load n None i l mi).
Proof.
  intros i. induction l as [|x l IH]; intros mi; cbn [main_file_loop]; [discriminate|]. apply wx_ended_bind.
  - apply and_then_any; [|apply as_file_any]. apply and_then_any; [|apply alias_field_any]. apply and_then_any; [discriminate|apply imports_any].
  - intros s. destruct (is_success s); [discriminate|]. apply wx_ended_bind; [destruct s; discriminate|]. intros mi''. apply IH.
Qed.
Lemma as_dir_any : forall i, Any (resolve_as_dir R load n i).
Proof.
  intros i. pose proof main_file_any as HF. destruct n as [|n']; [lia|]. cbn [resolve_as_dir]. intros [|] _; cbn [bind negb]; [|discriminate].
  rewrite load_none by exact Hm. cbn [bind]. apply and_then_any; [discriminate|]. intros i'. apply HF.
Qed.
Lemma level_any : forall i, Any (modules_level R load n i).
Proof.
  intros i. unfold modules_level. intros [|] _; cbn [bind negb]; [|discriminate]. destruct (module_name _) as [mn|]; [|discriminate].
  rewrite load_none by exact Hm. cbn [bind]. intros [|] _; cbn [bind negb andb].
  - apply wx_ended_bind.
    + apply and_then_any; [|apply as_dir_any]. apply and_then_any; [|apply as_file_any]. apply and_then_any; [|intros; apply alias_field_any].
      apply and_then_any; [discriminate|apply imports_any].
    + intros [r|i'|e i']; try discriminate. destruct (str_eqb e TAG); discriminate.
  - apply wx_ended_bind; [apply as_file_any|]. intros s. destruct (is_success s); discriminate.
Qed.
End Fuel.
Lemma modules_any : forall m n i, 0 < m -> length (components (i_path i)) < n -> Any (resolve_as_modules R (load_pkg_file R m) n i).
Proof.
  intros m n. induction n as [|n IH]; intros i Hm Hn; [lia|]. cbn [resolve_as_modules]. apply wx_ended_bind; [apply level_any; lia|].
  intros [s|s]; [discriminate|]. apply wx_ended_bind; [|intros [r|i'|e i']; discriminate]. apply and_then_any; [discriminate|].
  intros i1. destruct (parent (i_path i)) as [q|] eqn:Ep; [|discriminate]. apply IH; [exact Hm|]. pose proof (parent_shorter _ _ Ep). destruct i1. cbn in *. lia.
Qed.
Lemma final_any : forall m n i, 0 < m -> length (components (i_path i)) < n -> Any (final_step R (load_pkg_file R m) n i).
Proof.
  intros m n i Hm Hn. unfold final_step.
  destruct (r_kind (i_req i)); try (apply modules_any; assumption); (apply and_then_any; [apply as_file_any|intros; apply as_dir_any; lia]).
Qed.

(** The steps before the last hand on the request as it is. *)
Definition same (i : info) (r : outcome stats) : Prop := ended r /\ forall i', r = Done (Resolving i') -> i' = i.
Lemma same_then : forall i p f, wx any (same i) p -> wx any (same i) (f i) -> wx any (same i) (and_then p f).
Proof.
  intros i p f Hp Hf. unfold and_then. apply wx_bind. eapply wx_mono; [|exact Hp].
  intros [[r|i'|e i']|e|] [H1 H2]; try (split; [discriminate|intros ? [=]]); [rewrite (H2 i' eq_refl); exact Hf|contradiction H1; reflexivity].
Qed.
(** The alias entries that apply lead to requests with a bound. *)
Definition bounded (k : nat) (t : str) (N : nat) : Prop :=
  forall m n i, N <= m -> N <= n -> r_target (i_req i) = t -> length (components (i_path i)) <= k -> Any (resolve_ R (load_pkg_file R m) n i).
Lemma bounded_mono : forall k t N N', N <= N' -> bounded k t N -> bounded k t N'.
Proof. intros k t N N' HN H m n i Hm Hn. apply H; lia. Qed.
Lemma alias_any : forall k t, (forall t', rewritten opts t t' -> exists N, bounded k t' N) -> forall l, incl l (o_alias opts) ->
  exists N, forall m n i, N <= m -> N <= n -> r_target (i_req i) = t -> length (components (i_path i)) <= k ->
  wx any (same i) (alias_loop (resolve_ R (load_pkg_file R m) n) i l).
Proof.
  intros k t HB. induction l as [|[from to] l IH]; intros Hl; [exists 0; intros; split; [discriminate|intros i' [=]; auto]|].
  destruct IH as [N1 H1]; [eapply incl_cons_inv; exact Hl|]. destruct to as [to|].
  2:{ exists N1. intros m n i Hm Hn Ht Hk. cbn [alias_loop]. destruct (starts_with _ from); [|apply H1; assumption]. split; [discriminate|intros i' [=]]. }
  destruct (starts_with t from) eqn:Ef.
  2:{ exists N1. intros m n i Hm Hn Ht Hk. cbn [alias_loop]. rewrite Ht, Ef. apply H1; assumption. }
  destruct (starts_with t to) eqn:Et.
  { exists N1. intros m n i Hm Hn Ht Hk. cbn [alias_loop]. rewrite Ht, Ef, Et, orb_true_r. apply H1; assumption. }
  destruct (HB (replacen1 t from to)) as [N2 H2]; [eapply RwAlias; [apply Hl; left; reflexivity|exact Ef|exact Et]|].
  exists (Nat.max N1 N2). intros m n i Hm Hn Ht Hk. cbn [alias_loop]. rewrite Ht, Ef, Et.
  assert (Es : str_eqb t to = false).
  { destruct (str_eqb t to) eqn:Es; [|reflexivity]. apply str_eqb_eq in Es. subst to. pose proof (starts_with_app t []) as Ha. rewrite app_nil_r in Ha. congruence. }
  rewrite Es. cbn [orb]. apply wx_bind. eapply wx_mono; [|apply H2; [lia|lia|destruct i as [p []]; reflexivity|exact Hk]].
  intros [s|e|] Hs; [|split; [discriminate|intros i' [=]]|contradiction Hs; reflexivity].
  destruct (is_success s) eqn:Ess; [split; [discriminate|intros i' [=]; subst; discriminate]|]. apply H1; (lia || assumption).
Qed.
Lemma resolve_any : forall k t, stops (rewritten opts) t -> exists N, bounded k t N.
Proof.
  intros k t H. induction H as [t _ IH]. destruct (alias_any k t IH (o_alias opts) (incl_refl _)) as [N1 H1].
  assert (H2 : exists N2, forall m n i, N2 <= m -> N2 <= n -> r_target (i_req i) = t -> length (components (i_path i)) <= k ->
    wx any (same i) (prefer_relative_apply R (resolve_ R (load_pkg_file R m) n) i)).
  { destruct (starts_with t (lit "../") || starts_with t (lit "./")) eqn:Er.
    { exists 0. intros m n i _ _ Ht _. unfold prefer_relative_apply. rewrite Ht, Er. split; [discriminate|intros i' [=]; auto]. }
    destruct (o_prefer_relative opts) eqn:Ep.
    2:{ exists 0. intros m n i _ _ Ht _. unfold prefer_relative_apply. rewrite Ht, Er, Ep. split; [discriminate|intros i' [=]; auto]. }
    apply orb_false_elim in Er. destruct Er as [Er1 Er2]. destruct (IH (lit "./" ++ t)) as [N2 H2]; [apply RwRelative; assumption|].
    exists N2. intros m n i Hm Hn Ht Hk. unfold prefer_relative_apply. rewrite Ht, Er1, Er2, Ep. cbn [orb].
    apply wx_bind. eapply wx_mono; [|apply H2; [lia|lia|destruct i as [p []]; reflexivity|exact Hk]].
    intros [s|e|] Hs; [|split; [discriminate|intros i' [=]]|contradiction Hs; reflexivity].
    destruct (is_success s) eqn:Ess; split; try discriminate; intros i' [=]; subst; [discriminate|auto]. }
  destruct H2 as [N2 H2]. exists (S (Nat.max (Nat.max N1 N2) (S k))). intros m [|n] i Hm Hn Ht Hk; [lia|]. cbn [resolve_].
  apply wx_ended_bind; [|intros [r|i'|e i']; discriminate].
  assert (HA : wx any (same i) (alias_apply R (resolve_ R (load_pkg_file R m) n) i)).
  { unfold alias_apply. destruct (contains _ _); [split; [discriminate|intros i' [=]; auto]|]. apply H1; (lia || assumption). }
  match goal with |- wx _ _ (and_then ?p ?f) => assert (HP : wx any (same i) p) end.
  { apply same_then; [apply same_then; [exact HA|apply H2; (lia || assumption)]|]. unfold pkg_step. rewrite load_none by lia. cbn [bind].
    apply same_then; [split; [discriminate|intros i' [=]; auto]|]. unfold alias_field_apply. destruct (negb _); split; try discriminate; intros i' [=]; auto. }
  unfold and_then at 1. apply wx_bind. eapply wx_mono; [|exact HP].
  intros [[r|i'|e i']|e|] [G1 G2]; try discriminate; [|contradiction G1; reflexivity]. rewrite (G2 i' eq_refl). apply final_any; lia.
Qed.
End NoDesc.
Lemma fin_63_nodesc : forall R base req, o_desc (rv_opts R) = None -> o_tsconfig (rv_opts R) = None -> stops (rewritten (rv_opts R)) (r_target (parse req)) ->
  exists N, forall f sched st l i, N <= f -> nth_error l i = Some (CResolve R f base req) -> fair sched i -> finishes sched st l i.
Proof.
  intros R base req Hd Ht Hs. destruct (resolve_any R Hd (length (components base)) _ Hs) as [N HN]. exists N. intros f sched st l i Hf Hn Hfair.
  eapply call_finishes with (ok := any); [|auto|exact Hfair|exact Hn]. cbn [call_prog]. apply wx_ended_bind; [|discriminate].
  unfold resolve, resolve_with. rewrite Ht. apply wx_ended_bind; [apply HN; (lia || reflexivity)|]. intros [r|i'|e i']; try discriminate.
  unfold normalize_result. destruct r as [x|]; [|discriminate]. destruct (_ && _); [discriminate|]. apply wx_ended_try; [|discriminate].
  unfold normalize_path. destruct (o_symlinks _); [|discriminate]. intros [q|] _; discriminate.
Qed.

(** ** Only other files change *)
Section Calm.
Variable fs : fsys.
Hypothesis Hfs : sane_fs fs.
Variable js : str -> option json.
Variable nm : nat -> str.
Hypothesis Hinj : forall c v v', field_on fs js (nm c) (lit "exports") v -> field_on fs js (nm c) (lit "exports") v' -> to_string v = to_string v' -> v = v'.
Hypothesis Hclash : forall c v v', field_on fs js (nm c) (lit "exports") v -> field_on fs js (nm c) (lit "imports") v' -> hash_keys v' -> to_string v <> to_string v'.
Notation Inv := (Inv fs js nm).
Notation GC := (Gx fs js nm False).
Lemma calm_step : forall fs' st o, calm nm fs fs' -> Inv st -> put_ok fs js nm o -> okx fs js nm False o (fst (step fs' st o)) /\ Inv (snd (step fs' st o)).
Proof.
  intros fs' st o Hc Hi Hput. destruct (step_inv fs js nm st o Hi Hput) as [H1 H2].
  destruct o; cbn [step fst snd okx] in *; (split; [|assumption]); try exact H1.
  - intros [[]|(c & d & ->)]. apply (Hc d).
  - apply (Hc p).
  - intros [].
  - intros [[]|(c & d & ->)]. apply (Hc d).
  - intros [[]|(c & d & ->)]. apply (Hc d).
  - intros [].
Qed.
Lemma calm_run {A} : forall (p : prog A) Q fs' st, calm nm fs fs' -> wgx fs js nm False Q p -> Inv st -> Q (out fs' st p) /\ Inv (snd (run fs' p st)).
Proof.
  unfold out. induction p as [a|m| |o k IH]; intros Q fs' st Hc Hw Hi; cbn [run wgx fst snd] in *; auto.
  destruct Hw as [Hput Hk]. destruct (calm_step fs' st o Hc Hi Hput) as [Hx Hi']. destruct (step fs' st o) as [x st'].
  cbn [fst snd] in *. apply IH; auto.
Qed.
Lemma calm_hist : forall h fs' st, calm nm fs fs' -> calm_history nm fs h js -> Inv st -> Inv (snd (run_history fs' st h)).
Proof.
  induction h as [|[c|fs''] h IH]; intros fs' st Hc Hh Hi; [exact Hi| |]; inversion Hh as [|? ? H1 H2]; subst; cbn [run_history].
  - pose proof (calm_run _ _ fs' st Hc (client_call fs Hfs js nm Hinj Hclash c H1) Hi) as [_ Hi'].
    destruct (run fs' (call_prog c) st) as [o st']. specialize (IH fs' st' Hc H2 Hi').
    destruct (run_history fs' st' h) as [[os x] st'']. exact IH.
  - apply IH; assumption.
Qed.
Lemma calm_thread {A} : forall (p : prog A) Q fs' st, calm nm fs fs' -> wgx fs js nm False Q p -> Inv st ->
  wgx fs js nm False Q (fst (thread_step fs' st p)) /\ Inv (snd (thread_step fs' st p)).
Proof.
  intros [a|m| |o k] Q fs' st Hc Hw Hi; cbn [thread_step fst snd]; auto.
  cbn [wgx] in Hw. destruct Hw as [Hput Hk]. destruct (calm_step fs' st o Hc Hi Hput) as [Hx Hi'].
  destruct (step fs' st o) as [x st']. cbn [fst snd] in *. auto.
Qed.
Lemma calm_nth {A} : forall (l : list (prog A)) i fs' st, calm nm fs fs' -> Forall GC l -> Inv st ->
  Forall GC (fst (step_nth fs' st i l)) /\ Inv (snd (step_nth fs' st i l)).
Proof.
  induction l as [|p l IH]; intros i fs' st Hc Hl Hi; cbn [step_nth]; [destruct i; auto|].
  inversion Hl as [|? ? Hp Hl']; subst. destruct i as [|i]; cbn [step_nth].
  - destruct (calm_thread p _ fs' st Hc Hp Hi) as [H1 H2]. destruct (thread_step fs' st p). cbn [fst snd] in *. split; [constructor|]; assumption.
  - destruct (IH i fs' st Hc Hl' Hi) as [H1 H2]. destruct (step_nth fs' st i l). cbn [fst snd] in *. split; [constructor|]; assumption.
Qed.
Lemma calm_end {A} : forall (p : prog A), wgx fs js nm False ended p -> forall i sched st ps,
  (forall n, calm nm fs (fst (sched n))) -> Forall GC ps -> Inv st -> fair sched i -> nth_error ps i = Some p ->
  exists n p', nth_error (fst (run_moving (first sched n) st ps)) i = Some p' /\ SpecCache.settled p' <> NoFuel.
Proof.
  intros p. induction p as [a|m| |o k IH]; intros Hp i sched st ps Hc HG Hi Hf Hn.
  - exists 0, (Ret a). split; [exact Hn|discriminate].
  - exists 0, (Panic m). split; [exact Hn|discriminate].
  - contradiction Hp. reflexivity.
  - destruct (Hf 0) as (m & _ & Hm). revert sched st ps Hc HG Hi Hf Hn Hm.
    assert (HS : forall sched st ps fs', (forall n, calm nm fs (fst (sched n))) -> Forall GC ps -> Inv st -> fair sched i -> nth_error ps i = Some (Do o k) -> sched 0 = (fs', i) ->
      exists n p', nth_error (fst (run_moving (first sched n) st ps)) i = Some p' /\ SpecCache.settled p' <> NoFuel).
    { intros sched st ps fs' Hc HG Hi Hf Hn E0. pose proof (Hc 0) as Hc0. rewrite E0 in Hc0. destruct (calm_nth ps i fs' st Hc0 HG Hi) as [HG' Hi'].
      destruct Hp as [Hput Hk]. destruct (calm_step fs' st o Hc0 Hi Hput) as [Hx _].
      destruct (step fs' st o) as [x st'] eqn:Es. cbn [fst] in Hx.
      destruct (IH x (Hk x Hx)) with (i := i) (sched := fun k => sched (S k)) (st := snd (step_nth fs' st i ps)) (ps := fst (step_nth fs' st i ps)) as (n & p' & H1 & H2).
      - intros n. apply (Hc (S n)).
      - exact HG'.
      - exact Hi'.
      - apply fair_shift, Hf.
      - rewrite nth_step, Nat.eqb_refl, Hn. cbn [option_map thread_step]. rewrite Es. reflexivity.
      - exists (S n), p'. split; [|exact H2]. rewrite first_cons, E0. cbn [run_moving]. destruct (step_nth fs' st i ps). exact H1. }
    induction m as [|m IHm]; intros sched st ps Hc HG Hi Hf Hn Hm.
    + destruct (sched 0) as [fs' j] eqn:E0. cbn [snd] in Hm. subst j. eapply HS; eassumption.
    + destruct (sched 0) as [fs' j] eqn:E0. destruct (Nat.eq_dec j i) as [->|Hne]; [eapply HS; eassumption|].
      pose proof (Hc 0) as Hc0. rewrite E0 in Hc0. destruct (calm_nth ps j fs' st Hc0 HG Hi) as [HG' Hi'].
      destruct (IHm (fun k => sched (S k)) (snd (step_nth fs' st j ps)) (fst (step_nth fs' st j ps))) as (n & p' & H1 & H2).
      * intros n. apply (Hc (S n)).
      * exact HG'.
      * exact Hi'.
      * apply fair_shift, Hf.
      * rewrite nth_step. destruct (Nat.eqb_spec j i); [contradiction|exact Hn].
      * exact Hm.
      * exists (S n), p'. split; [|exact H2]. rewrite first_cons, E0. cbn [run_moving]. destruct (step_nth fs' st j ps). exact H1.
Qed.
End Calm.
Lemma fin_63_calm : forall fs, sane_fs fs -> forall js, (forall s j, js s = Some j -> wf_json j) -> forall nm, no_clash fs js nm ->
  forall c, client js nm (call_resolver c) -> call_plain fs c -> o_tsconfig (rv_opts (call_resolver c)) = None ->
  exists N, forall f h seeds sched l i, N <= f -> calm_history nm fs h js -> Forall (fun c => client js nm (call_resolver c)) l ->
  nth_error l i = Some (with_fuel c f) -> fair sched i -> (forall n, calm nm fs (fst (sched n))) ->
  finishes sched (snd (run_history fs (empty_state seeds) h)) l i.
Proof.
  intros fs Hfs js Hjs nm Hclash c HR Hp Hts.
  assert (HN : exists N, forall f, N <= f -> wx (okx fs js nm False) ended (call_prog (with_fuel c f))).
  { destruct c as [R f0 base req|R f0 p]; cbn [call_resolver] in HR, Hts.
    - destruct Hp as (Ha & Hnc & Hst & Hp).
      destruct (top_end fs Hfs js nm (fin_inj fs js Hjs nm) Hclash R HR False Hnc base req (fun H => False_ind _ (H Hts)) Ha Hst Hp) as [N HN].
      exists N. intros f Hf. cbn [with_fuel call_prog]. apply wx_ended_bind; [apply HN; exact Hf|discriminate].
    - exists (length (components p) + 2). intros f Hf. cbn [with_fuel call_prog]. apply wx_ended_bind; [|discriminate].
      unfold load_side_effects. apply wx_ended_try; [apply load_end; [exact Hfs|exact HR|exact Hp|exact Hf]|]. intros [pk|]; [|discriminate]. destruct (o_desc _); discriminate. }
  destruct HN as [N HN]. exists N. intros f h seeds sched l i Hf Hh Hl Hn Hfair Hc.
  assert (HG : forall c, client js nm (call_resolver c) -> Gx fs js nm False (call_prog c)).
  { intros c' Hc'. apply client_call; try assumption. exact (fin_inj fs js Hjs nm). }
  destruct (calm_end fs js nm (call_prog (with_fuel c f))) with (i := i) (sched := sched) (st := snd (run_history fs (empty_state seeds) h)) (ps := map call_prog l) as (n & p & H1 & H2).
  - apply wg_and; [apply HN, Hf|]. apply HG. rewrite resolver_fuel. exact HR.
  - exact Hc.
  - apply Forall_map. eapply Forall_impl; [|exact Hl]. intros c'. apply HG.
  - apply calm_hist; try assumption; [exact (fin_inj fs js Hjs nm)|intros q; repeat split|apply inv_empty].
  - exact Hfair.
  - rewrite nth_error_map, Hn. reflexivity.
  - exists n, (SpecCache.settled p). split; [|exact H2]. unfold state_at. rewrite H1. reflexivity.
Qed.
