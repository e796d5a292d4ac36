(** * Fair schedules and locks: proofs for PropLock.v *)
From Coq Require Import String.
From Coq Require Import List Arith NArith Bool Lia.
From Verif Require Import Str StrP Path Json Types Parse Map Prog Desc Resolve Top Run SpecLoad SpecCache SpecJson SpecTerm SpecDesc SpecEnd SimP LoadP GuarP CacheP NoFuelP TotalP TermP JsonP PropCacheP PropTermP Lock SpecLock LockP EndP CalmP KeepP.
Import ListNotations.

Section Live.
Variable H : hashing.
Context {A : Type}.
(** A step either leads to a smaller configuration or changes nothing; it does the former if the thread can go on. *)
Lemma locked_cases : forall fs i (ts : list (thread A)) st,
  (children (fst (locked_step H fs i ts st)) ts) \/
  (locked_step H fs i ts st = (ts, st) /\ forall t, nth_error ts i = Some t -> ~ can_go H ts t).
Proof.
  intros fs i ts st. unfold locked_step. destruct (nth_error ts i) as [t|] eqn:Hi; [|right; split; [reflexivity|discriminate]].
  assert (Hno : (forall o k, t_prog t <> Do o k) -> forall u, Some t = Some u -> ~ can_go H ts u).
  { intros Hd u [= <-] (o & k & E & _). exact (Hd o k E). }
  destruct (t_prog t) as [a|m| |o k] eqn:Ep; try (right; split; [reflexivity|apply Hno; discriminate]). clear Hno.
  destruct (granted _ _ o) eqn:Eg.
  - destruct (step fs st o) as [x st']. left. cbn [fst]. exists i. eexists. exists t. split; [exact Hi|]. split; [|reflexivity].
    unfold child. rewrite Ep. exists x. reflexivity.
  - right. split; [reflexivity|]. intros u [= <-] (o' & k' & E & Hg). rewrite Ep in E. assert (Eo : o = o') by congruence. subst o'.
    rewrite (go_granted H ts o Hg) in Eg. discriminate.
Qed.
Lemma set_nth_length {B} : forall i (x : B) l, length (set_nth i x l) = length l.
Proof. intros i x l. revert i. induction l as [|y l IH]; intros [|i]; cbn [set_nth length]; auto. Qed.
Lemma children_length : forall ts ts' : list (thread A), children ts ts' -> length ts = length ts'.
Proof. intros ts ts' (i & t & t' & _ & _ & ->). apply set_nth_length. Qed.
Lemma fair_ends : forall (ts : list (thread A)), Forall (good H) ts -> forall sched st, (forall i, i < length ts -> fair sched i) ->
  exists n, Forall finished (fst (locked_run H (first sched n) ts st)).
Proof.
  intros ts. induction (children_acc ts) as [ts _ IH]. intros Hg sched st Hf.
  destruct (someone_goes H ts Hg) as [Hd|(t & Hin & Hgo)]; [exists 0; exact Hd|].
  apply In_nth_error in Hin. destruct Hin as [i Hi]. assert (Hlt : i < length ts) by (apply nth_error_Some; congruence).
  destruct (Hf i Hlt 0) as (m & _ & Hm). revert sched st Hf Hm. induction m as [|m IHm]; intros sched st Hf Hm.
  all: destruct (sched 0) as [fs j] eqn:E0; destruct (locked_cases fs j ts st) as [Hc|[Hc Hno]].
  1,3: pose proof (locked_good H fs j ts st Hg) as Hg'; destruct (IH _ Hc Hg' (fun k => sched (S k)) (snd (locked_step H fs j ts st))) as [n Hn];
    [intros j' Hj'; apply fair_shift, Hf; rewrite <- (children_length _ _ Hc); exact Hj'
    |exists (S n); rewrite first_cons, E0; cbn [locked_run]; destruct (locked_step H fs j ts st); exact Hn].
  - cbn [snd] in Hm. subst j. contradiction (Hno t Hi Hgo).
  - destruct (IHm (fun k => sched (S k)) st) as [n Hn]; [intros j' Hj'; apply fair_shift, Hf, Hj'|exact Hm|].
    exists (S n). rewrite first_cons, E0. cbn [locked_run]. rewrite Hc. exact Hn.
Qed.
Lemma refines_moving : forall sched (ts : list (thread A)) st, exists sched', incl sched' sched /\
  run_moving sched' st (map t_prog ts) = (map t_prog (fst (locked_run H sched ts st)), snd (locked_run H sched ts st)).
Proof.
  induction sched as [|[fs i] r IH]; intros ts st; [exists []; split; [apply incl_refl|reflexivity]|]. cbn [locked_run].
  assert (Hsame : exists sched', incl sched' ((fs, i) :: r) /\ run_moving sched' st (map t_prog ts) = (map t_prog (fst (locked_run H r ts st)), snd (locked_run H r ts st))).
  { destruct (IH ts st) as (s & H1 & H2). exists s. split; [apply incl_tl, H1|exact H2]. }
  unfold locked_step. destruct (nth_error ts i) as [t|] eqn:Hn; [|exact Hsame]. destruct (t_prog t) as [a|m| |o k] eqn:Ep; try exact Hsame.
  destruct (granted H _ o); [|exact Hsame]. pose proof (step_nth_set H fs i ts t o k st Hn Ep) as E. destruct (step fs st o) as [x st']. cbn [fst snd] in E.
  destruct (IH (set_nth i (mkThread (held_after H o x (t_held t)) (k x)) ts) st') as (s & H1 & H2). exists ((fs, i) :: s).
  split; [apply incl_cons; [left; reflexivity|apply incl_tl, H1]|]. cbn [run_moving]. rewrite E. exact H2.
Qed.
End Live.
Lemma started : forall l, map t_prog (map (fun c => start (call_prog c)) l) = map call_prog l.
Proof. intros l. rewrite map_map. reflexivity. Qed.
Lemma fin_55_fair : forall H l sched st, (forall i, i < length l -> fair sched i) ->
  exists n, Forall finished (fst (locked_run H (first sched n) (map (fun c => start (call_prog c)) l) st)).
Proof. intros H l sched st Hf. apply fair_ends; [apply start_good|]. rewrite map_length. exact Hf. Qed.
Lemma fin_55_moving : forall H l sched st, exists sched', incl sched' sched /\ run_moving sched' st (map call_prog l) =
  (map t_prog (fst (locked_run H sched (map (fun c => start (call_prog c)) l) st)),
   snd (locked_run H sched (map (fun c => start (call_prog c)) l) st)).
Proof. intros H l sched st. rewrite <- started. apply refines_moving. Qed.

(** No thread runs out of fuel if none may, whatever is answered. *)
Section Fuelled.
Variable may : fsys -> Prop.
Variable Inv : state -> Prop.
Variable fuelled : prog answer -> Prop.
Hypothesis Hstep : forall fs' st p, may fs' -> Inv st -> fuelled p -> fuelled (fst (thread_step fs' st p)) /\ Inv (snd (thread_step fs' st p)).
Hypothesis Hfuel : ~ fuelled OutOfFuel.
Lemma fuelled_nth : forall (l : list (prog answer)) i fs' st, may fs' -> Forall fuelled l -> Inv st ->
  Forall fuelled (fst (step_nth fs' st i l)) /\ Inv (snd (step_nth fs' st i l)).
Proof.
  induction l as [|p l IH]; intros i fs' st Hm Hl Hi; cbn [step_nth]; [destruct i; auto|].
  inversion Hl as [|? ? Hp Hl']; subst. destruct i as [|i]; cbn [step_nth].
  - destruct (Hstep fs' st p Hm Hi Hp) as [H1 H2]. destruct (thread_step fs' st p). split; [constructor|]; assumption.
  - destruct (IH i fs' st Hm Hl' Hi) as [H1 H2]. destruct (step_nth fs' st i l). split; [constructor|]; assumption.
Qed.
Lemma fuelled_run : forall sched st (l : list (prog answer)), Forall (fun e => may (fst e)) sched -> Forall fuelled l -> Inv st -> Forall fuelled (fst (run_moving sched st l)).
Proof.
  induction sched as [|[fs' i] r IH]; intros st l Hs Hl Hi; [exact Hl|]. inversion Hs as [|? ? H1 H2]; subst. cbn [run_moving fst] in *.
  destruct (fuelled_nth l i fs' st H1 Hl Hi) as [H3 H4]. destruct (step_nth fs' st i l). apply IH; assumption.
Qed.
Lemma fuelled_all : forall H l sched st, (forall n, may (fst (sched n))) -> Inv st -> Forall (fun c => fuelled (call_prog c)) l -> (forall i, i < length l -> fair sched i) ->
  exists n, Forall (fun t => SpecCache.settled (t_prog t) <> NoFuel) (fst (locked_run H (first sched n) (map (fun c => start (call_prog c)) l) st)).
Proof.
  intros H l sched st Hm Hi Hl Hf. destruct (fin_55_fair H l sched st Hf) as [n Hn]. exists n.
  destruct (fin_55_moving H l (first sched n) st) as (s & Hs & E).
  assert (Hw : Forall fuelled (fst (run_moving s st (map call_prog l)))).
  { apply fuelled_run; [|apply Forall_map; exact Hl|exact Hi]. apply Forall_forall. intros e He. apply Hs in He. apply in_map_iff in He. destruct He as (k & <- & _). apply Hm. }
  rewrite E in Hw. cbn [fst] in Hw. rewrite Forall_map in Hw. rewrite Forall_forall in *. intros t Ht. specialize (Hn t Ht). specialize (Hw t Ht). cbn beta in Hw.
  destruct (t_prog t) as [a|m| |o k] eqn:Ep; try discriminate; [contradiction|contradiction (Hn o k Ep)].
Qed.
End Fuelled.

Section Plain.
Variable fs : fsys.
Hypothesis Hfs : sane_fs fs.
Variable js : str -> option json.
Hypothesis Hjs : forall s j, js s = Some j -> wf_json j.
Variable nm : nat -> str.
Hypothesis Hclash : no_clash fs js nm.
Lemma plain_fuel : forall (exa : Prop) c, client js nm (call_resolver c) -> call_plain fs c -> (o_tsconfig (rv_opts (call_resolver c)) <> None -> exa) ->
  exists N, forall f, N <= f -> wgx fs js nm exa ended (call_prog (with_fuel c f)).
Proof.
  intros exa c HR Hp Hts.
  assert (HN : exists N, forall f, N <= f -> wx (okx fs js nm exa) ended (call_prog (with_fuel c f))).
  { destruct c as [R f0 base req|R f0 p]; cbn [call_resolver] in HR, Hts.
    - destruct Hp as (Ha & Hnc & Hst & Hp).
      destruct (top_end fs Hfs js nm (fin_inj fs js Hjs nm) Hclash R HR exa Hnc base req Hts Ha Hst Hp) as [N HN].
      exists N. intros f Hf. cbn [with_fuel call_prog]. apply wx_ended_bind; [apply HN; exact Hf|discriminate].
    - exists (length (components p) + 2). intros f Hf. cbn [with_fuel call_prog]. apply wx_ended_bind; [|discriminate].
      unfold load_side_effects. apply wx_ended_try; [apply load_end; [exact Hfs|exact HR|exact Hp|exact Hf]|]. intros [pk|]; [|discriminate]. destruct (o_desc _); discriminate. }
  destruct HN as [N HN]. exists N. intros f Hf. apply wg_and; [apply HN, Hf|]. apply client_call; try assumption; [exact (fin_inj fs js Hjs nm)|].
  rewrite resolver_fuel. exact HR.
Qed.
Lemma plain_all : forall (exa : Prop) l, Forall (fun c => client js nm (call_resolver c) /\ call_plain fs c /\ (o_tsconfig (rv_opts (call_resolver c)) <> None -> exa)) l ->
  exists N, forall f, N <= f -> Forall (fun c => wgx fs js nm exa ended (call_prog c)) (map (fun c => with_fuel c f) l).
Proof.
  intros exa l Hl. induction Hl as [|c l (H1 & H2 & H3) _ [N IH]]; [exists 0; constructor|].
  destruct (plain_fuel exa c H1 H2 H3) as [N' HN']. exists (max N N'). intros f Hf. cbn [map]. constructor; [apply HN'; lia|apply IH; lia].
Qed.
End Plain.
Lemma fin_55_kept : forall fs, sane_fs fs -> forall js, (forall s j, js s = Some j -> wf_json j) -> forall nm, no_clash fs js nm ->
  forall keep l, Forall (fun c => client js nm (call_resolver c) /\ call_kept nm keep fs c) l ->
  exists N, forall f H h seeds sched, N <= f -> calm_history nm fs h js ->
  (forall i, i < length l -> fair sched i) -> (forall n, SpecEnd.calm nm fs (fst (sched n)) /\ kept keep fs (fst (sched n))) ->
  exists n, Forall (fun t => SpecCache.settled (t_prog t) <> NoFuel)
    (fst (locked_run H (first sched n) (map (fun c => start (call_prog (with_fuel c f))) l) (snd (run_history fs (empty_state seeds) h)))).
Proof.
  intros fs Hfs js Hjs nm Hclash keep l Hl. pose proof (fin_inj fs js Hjs nm) as Hinj.
  set (good := fun p : prog answer => task fs js nm (kept_world fs keep, ended) p).
  assert (HN : exists N, forall f, N <= f -> Forall (fun c => good (call_prog c)) (map (fun c => with_fuel c f) l)).
  { induction Hl as [|c l [H1 H2] _ [N IH]]; [exists 0; constructor|].
    destruct (kept_fuel fs Hfs js nm Hinj Hclash keep c H1 H2) as [N' HN']. exists (max N N'). intros f Hf. cbn [map]. constructor; [apply HN'; lia|apply IH; lia]. }
  destruct HN as [N HN]. exists N. intros f H h seeds sched Hf Hh Hfair Hc.
  destruct (fuelled_all (fun fs' => SpecEnd.calm nm fs fs' /\ kept keep fs fs') (CacheP.Inv fs js nm) good) with (H := H) (l := map (fun c => with_fuel c f) l) (sched := sched)
    (st := snd (run_history fs (empty_state seeds) h)) as [n Hn].
  - intros fs' st p [H1 H2] Hi Hp. apply task_step; [exact H1|exact (kept_within fs keep fs' H2)|exact Hp|exact Hi].
  - intros [Hp _]. contradiction Hp. reflexivity.
  - exact Hc.
  - apply calm_hist; try assumption; [intros q; repeat split|apply inv_empty].
  - apply HN, Hf.
  - rewrite map_length. exact Hfair.
  - exists n. rewrite map_map in Hn. exact Hn.
Qed.
Lemma fin_55_plain : forall fs, sane_fs fs -> forall js, (forall s j, js s = Some j -> wf_json j) -> forall nm, no_clash fs js nm ->
  forall l, Forall (fun c => client js nm (call_resolver c) /\ call_plain fs c) l ->
  exists N, forall f H h seeds sched, N <= f -> Forall (fun c => client js nm (call_resolver c)) h ->
  (forall i, i < length l -> fair sched i) -> (forall n, fst (sched n) = fs) ->
  exists n, Forall (fun t => SpecCache.settled (t_prog t) <> NoFuel)
    (fst (locked_run H (first sched n) (map (fun c => start (call_prog (with_fuel c f))) l) (snd (run_history fs (empty_state seeds) (map ECall h))))).
Proof.
  intros fs Hfs js Hjs nm Hclash l Hl. pose proof (fin_inj fs js Hjs nm) as Hinj.
  destruct (plain_all fs Hfs js Hjs nm Hclash True l) as [N HN].
  { eapply Forall_impl; [|exact Hl]. intros c (H1 & H2). split; [exact H1|]. split; [exact H2|]. intros _. exact I. }
  exists N. intros f H h seeds sched Hf Hh Hfair Hc.
  destruct (fuelled_all (fun fs' => fs' = fs) (CacheP.Inv fs js nm) (fun p => wgx fs js nm True ended p)) with (H := H) (l := map (fun c => with_fuel c f) l) (sched := sched)
    (st := snd (run_history fs (empty_state seeds) (map ECall h))) as [n Hn].
  - intros fs' st p -> Hi Hp. destruct p as [a|m| |o k]; cbn [thread_step]; try (split; assumption). destruct Hp as [Hput Hk].
    destruct (step_inv fs js nm st o Hi Hput) as [H1 H2]. destruct (step fs st o) as [x st']. split; [apply Hk, H1|exact H2].
  - intros Hp. contradiction Hp. reflexivity.
  - exact Hc.
  - apply fin_history; assumption.
  - apply HN, Hf.
  - rewrite map_length. exact Hfair.
  - exists n. rewrite map_map in Hn. exact Hn.
Qed.
