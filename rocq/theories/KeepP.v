(** * Calls that read a tsconfig while other files change (C63, C55) *)
From Coq Require Import String.
From Coq Require Import List Arith NArith Bool Lia.
From Verif Require Import Str Path PathP Json Types Parse Map Prog Desc Resolve Top Run SpecRun SpecLoad SpecCache SpecJson SpecNode SpecTerm SpecDesc SpecWorld SpecStale SimP LoadP GuarP CacheP JsonP PropCacheP AnswerP TotalP TermP PropTermP EndP SpecEnd CalmP.
Import ListNotations.

Section Keep.
Variable fs : fsys.
Hypothesis Hfs : sane_fs fs.
Variable js : str -> option json.
Variable nm : nat -> str.
Hypothesis Hinj : forall c v v', field_on fs js (nm c) (lit "exports") v -> field_on fs js (nm c) (lit "exports") v' -> to_string v = to_string v' -> v = v'.
Hypothesis Hclash : forall c v v', field_on fs js (nm c) (lit "exports") v -> field_on fs js (nm c) (lit "imports") v' -> hash_keys v' -> to_string v <> to_string v'.
Variable keep : path -> Prop.
Definition kept_world : world :=
  mkWorld (fun p x => keep p -> x = f_file fs p) (fun _ _ => True) (fun _ _ => True) (fun p x => keep p -> x = f_read fs p) (fun _ _ => True) (fun _ _ => True).
Notation kw := kept_world.
Notation ok := (okw fs js nm kw).
Lemma kept_within : forall fs', kept keep fs fs' -> SpecWorld.within (standing fs') kw.
Proof. intros fs' H. unfold SpecWorld.within, kw, standing. cbn. repeat split; auto; intros p x <- Hp; apply (H p Hp). Qed.
Lemma ok_calm : forall R, client js nm R -> forall o x, ok o x -> calm_answer nm keep fs R o x.
Proof.
  intros R HR [] x [Hx Ht]; cbn in *; auto.
  - intros [H|H]; [exact (Ht H)|]. apply Hx. right. exact H.
  - intros [H|H]; [exact (Ht H)|]. apply Hx. right. exact H.
  - intros H. apply Hx. right. exact H.
  - intros -> Hd Hf. destruct HR as [[E|E] [Ej _]]; [contradiction (Hd E)|]. rewrite E, Ej.
    split.
    + intros ->. destruct (Hx None eq_refl p eq_refl Hf) as ([o|] & Ho & Heq); [contradiction|exact Ho].
    + intros pk ->. destruct (Hx (Some pk) eq_refl p eq_refl Hf) as ([o|] & Ho & Heq); [|contradiction]. exists o. split; [|exact Heq].
      unfold described_by. rewrite E, Ej. exact Ho.
  - intros -> t v name -> Ed. destruct HR as [[E|E] [Ej _]]; [congruence|]. rewrite E in Ed. injection Ed as <-. rewrite Ej. apply (Hx t eq_refl).
Qed.
Lemma kept_fuel : forall c, client js nm (call_resolver c) -> call_kept nm keep fs c ->
  exists N, forall f, N <= f -> task fs js nm (kw, ended) (call_prog (with_fuel c f)).
Proof.
  intros c HR Hp.
  assert (HN : exists N, forall f, N <= f -> wx ok ended (call_prog (with_fuel c f))).
  { destruct c as [R f0 base req|R f0 p]; cbn [call_resolver] in HR.
    - destruct Hp as (Ha & Hnc & Hst & Hts).
      assert (HE : exists N, forall m n, N <= m -> N <= n -> wx ok ended (resolve_with R (load_pkg_file R m) n base req)).
      { apply (top_end_by fs Hfs R (wxm ok false)) with (okr := calm_answer nm keep fs); auto.
        - intros A p Q Q'. apply wx_and.
        - intros p x [Hx _]. exact Hx.
        - intros f p Hp Hf. pose proof HR as (Hname & Hj & Hd). rewrite Hj. apply wx_and; (eapply wx_ok; [intros o x [Hx _]; exact Hx|]).
          + apply load_leq; assumption.
          + apply load_end; assumption.
        - intros _ m n i. apply wx_may_give, ok_calm, HR.
        - intros loc Hl. destruct (Hts loc Hl) as (H1 & rank & Hrk & Hk). split; [exact H1|]. exists rank. split; [exact Hrk|].
          intros p x Hp [_ Ht]. exact (Ht (Hk p Hp)). }
      destruct HE as [N HE]. exists N. intros f Hf. cbn [with_fuel call_prog]. apply wx_ended_bind; [apply HE; exact Hf|discriminate].
    - exists (length (components p) + 2). intros f Hf. cbn [with_fuel call_prog]. eapply wx_ok; [intros o x [Hx _]; exact Hx|].
      apply wx_ended_bind; [|discriminate]. unfold load_side_effects. apply wx_ended_try; [apply load_end with (nm := nm) (js := js); [exact Hfs|exact HR|exact Hp|exact Hf]|].
      intros [pk|]; [|discriminate]. destruct (o_desc _); discriminate. }
  destruct HN as [N HN]. exists N. intros f Hf. split; [apply HN, Hf|]. apply client_call; try assumption. rewrite resolver_fuel. exact HR.
Qed.
Notation GC := (Gx fs js nm False).
Notation Inv := (CacheP.Inv fs js nm).
Lemma kept_end {A} : forall (p : prog A), task fs js nm (kw, ended) p -> forall i sched st ps,
  (forall n, calm nm fs (fst (sched n))) -> (forall n, snd (sched n) = i -> kept keep fs (fst (sched n))) -> Forall GC ps -> Inv st -> fair sched i -> nth_error ps i = Some p ->
  exists n p', nth_error (fst (run_moving (first sched n) st ps)) i = Some p' /\ SpecCache.settled p' <> NoFuel.
Proof.
  intros p. induction p as [a|m| |o k IH]; intros Hp i sched st ps Hc Hk HG Hi Hf Hn.
  - exists 0, (Ret a). split; [exact Hn|discriminate].
  - exists 0, (Panic m). split; [exact Hn|discriminate].
  - destruct Hp as [Hp _]. contradiction Hp. reflexivity.
  - destruct (Hf 0) as (m & _ & Hm). revert sched st ps Hc Hk HG Hi Hf Hn Hm.
    assert (HS : forall sched st ps fs', (forall n, calm nm fs (fst (sched n))) -> (forall n, snd (sched n) = i -> kept keep fs (fst (sched n))) -> Forall GC ps -> Inv st -> fair sched i ->
      nth_error ps i = Some (Do o k) -> sched 0 = (fs', i) ->
      exists n p', nth_error (fst (run_moving (first sched n) st ps)) i = Some p' /\ SpecCache.settled p' <> NoFuel).
    { intros sched st ps fs' Hc Hk HG Hi Hf Hn E0. pose proof (Hc 0) as Hc0. pose proof (Hk 0) as Hk0. rewrite E0 in Hc0, Hk0. specialize (Hk0 eq_refl). cbn [fst] in Hc0, Hk0.
      destruct (calm_nth fs js nm ps i fs' st Hc0 HG Hi) as [HG' Hi'].
      destruct (task_step fs js nm (kw, ended) fs' st (Do o k) Hc0 (kept_within fs' Hk0) Hp Hi) as [Ht _]. cbn [thread_step] in Ht.
      destruct (step fs' st o) as [x st'] eqn:Es. cbn [fst] in Ht.
      destruct (IH x Ht) with (i := i) (sched := fun k => sched (S k)) (st := snd (step_nth fs' st i ps)) (ps := fst (step_nth fs' st i ps)) as (n & p' & H1 & H2).
      - intros n. apply (Hc (S n)).
      - intros n. apply (Hk (S n)).
      - exact HG'.
      - exact Hi'.
      - apply fair_shift, Hf.
      - rewrite nth_step, Nat.eqb_refl, Hn. cbn [option_map thread_step]. rewrite Es. reflexivity.
      - exists (S n), p'. split; [|exact H2]. rewrite first_cons, E0. cbn [run_moving]. destruct (step_nth fs' st i ps). exact H1. }
    induction m as [|m IHm]; intros sched st ps Hc Hk HG Hi Hf Hn Hm.
    + destruct (sched 0) as [fs' j] eqn:E0. cbn [snd] in Hm. subst j. eapply HS; eassumption.
    + destruct (sched 0) as [fs' j] eqn:E0. destruct (Nat.eq_dec j i) as [->|Hne]; [eapply HS; eassumption|].
      pose proof (Hc 0) as Hc0. rewrite E0 in Hc0. destruct (calm_nth fs js nm ps j fs' st Hc0 HG Hi) as [HG' Hi'].
      destruct (IHm (fun k => sched (S k)) (snd (step_nth fs' st j ps)) (fst (step_nth fs' st j ps))) as (n & p' & H1 & H2).
      * intros n. apply (Hc (S n)).
      * intros n. apply (Hk (S n)).
      * exact HG'.
      * exact Hi'.
      * apply fair_shift, Hf.
      * rewrite nth_step. destruct (Nat.eqb_spec j i); [contradiction|exact Hn].
      * exact Hm.
      * exists (S n), p'. split; [|exact H2]. rewrite first_cons, E0. cbn [run_moving]. destruct (step_nth fs' st j ps). exact H1.
Qed.
End Keep.
Lemma fin_63_kept : forall fs, sane_fs fs -> forall js, (forall s j, js s = Some j -> wf_json j) -> forall nm, no_clash fs js nm ->
  forall keep c, client js nm (call_resolver c) -> call_kept nm keep fs c ->
  exists N, forall f h seeds sched l i, N <= f -> calm_history nm fs h js -> Forall (fun c => client js nm (call_resolver c)) l ->
  nth_error l i = Some (with_fuel c f) -> fair sched i -> (forall n, calm nm fs (fst (sched n))) -> (forall n, snd (sched n) = i -> kept keep fs (fst (sched n))) ->
  finishes sched (snd (run_history fs (empty_state seeds) h)) l i.
Proof.
  intros fs Hfs js Hjs nm Hclash keep c HR Hp. pose proof (fin_inj fs js Hjs nm) as Hinj.
  destruct (kept_fuel fs Hfs js nm Hinj Hclash keep c HR Hp) as [N HN]. exists N. intros f h seeds sched l i Hf Hh Hl Hn Hfair Hc Hk.
  assert (HG : forall c, client js nm (call_resolver c) -> Gx fs js nm False (call_prog c)) by (intros c' Hc'; apply client_call; assumption).
  destruct (kept_end fs js nm keep (call_prog (with_fuel c f)) (HN f Hf)) with (i := i) (sched := sched) (st := snd (run_history fs (empty_state seeds) h)) (ps := map call_prog l) as (n & p & H1 & H2).
  - exact Hc.
  - exact Hk.
  - apply Forall_map. eapply Forall_impl; [|exact Hl]. intros c'. apply HG.
  - apply calm_hist; try assumption; [intros q; repeat split|apply inv_empty].
  - exact Hfair.
  - rewrite nth_error_map, Hn. reflexivity.
  - exists n, (SpecCache.settled p). split; [|exact H2]. unfold state_at. rewrite H1. reflexivity.
Qed.
(** Conditions that can be read off the files. *)
Lemma fin_63_chain : forall fs nm (keep : path -> Prop) R f base req, sane_fs fs -> is_abs base = true -> modest fs R -> alias_flat (rv_opts R) ->
  (forall loc, o_tsconfig (rv_opts R) = Some loc -> exists l, chain fs R (loc :: l) /\ forall p q, In p (loc :: l) -> same_tail p q -> keep q) ->
  call_kept nm keep fs (CResolve R f base req).
Proof.
  intros fs nm keep R f base req Hfs Ha Hm Hf Ht. split; [exact Ha|]. split; [apply modest_no_cycles; assumption|]. split; [apply alias_flat_stops, Hf|].
  intros loc H. split; [apply alias_flat_stops, Hf|]. destruct (Ht loc H) as (l & Hl & Hk).
  destruct (chain_ranked_by fs Hfs R (calm_answer nm keep fs) loc l Hl) as (rank & Hrk & Hd).
  - intros R0 q q' x Hq Hs Hx. apply Hx. left. eapply Hk; eassumption.
  - exists rank. split; [exact Hrk|]. intros p Hp. destruct (Hd p Hp) as (q & Hq & Hs). eapply Hk; eassumption.
Qed.
