(** * Calls come to an end after noticeable changes of the file system. *)
From Coq Require Import String.
From Coq Require Import List Arith NArith Bool Lia.
From Verif Require Import Str StrP Path PathP Json Types Parse Map Prog Desc Resolve Top Run Exec FuelP RunP SpecJson JsonP SpecLoad SpecCache SpecMap SpellP SimP LoadP GuarP ColdP CacheP HistP SpecChange ChangeP NoFuelP TotalP SpecTerm AnswerP TermP PropCacheP PropTermP SpecEnd EndP.
Import ListNotations.

Lemma wx_out {A} : forall (ok : forall o, ans o -> Prop) fs, (forall st o, ok o (fst (step fs st o))) ->
  forall (p : prog A) (Q : outcome A -> Prop) st, wx ok Q p -> Q (out fs st p).
Proof.
  intros ok fs Hok p. induction p as [a|m| |o k IH]; intros Q st H; try exact H. unfold out. cbn [run].
  pose proof (Hok st o) as Hx. destruct (step fs st o) as [x st']. exact (IH x Q st' (H x Hx)).
Qed.
Lemma step_disk : forall fs st o, disk_answer fs o (fst (step fs st o)).
Proof. intros fs st []; cbn; auto. Qed.
Lemma step_okp : forall fs name st o, okp fs name o (fst (step fs st o)).
Proof. intros fs name st []; cbn; auto. Qed.

Section Ends.
Variable js : str -> option json.
Hypothesis Hwf : forall s j, js s = Some j -> wf_json j.
Variable nm : nat -> str.
Hypothesis Hrel : forall c, is_abs (nm c) = false.
Variable own : nat -> nat.
Variable dur : N.
Variable fs : fsys.
Hypothesis Hfs : sane_fs fs.
(** The sequences of disks that come to [fs]. *)
Record past := mkPast {
  w_T : str -> Prop; w_F : nat -> fsys; w_n : nat;
  w_now : w_F w_n = fs;
  w_apart : texts_apart js w_T;
  w_ours : forall i c, ours w_T (eq (nm c)) (w_F i);
  w_sane : forall i, sane_fs (w_F i);
  w_good : forall i c, all_readable js (nm c) (w_F i);
  w_note : forall i j c, i <= j -> noticeable (nm c) dur (w_F i) (w_F j)
}.
Notation trw w := (tri js (w_T w) nm own (w_F w) (w_n w)).
Definition everp {A} (Q : outcome A -> Prop) (p : prog A) : Prop := forall w : past, trw w Q p.
Notation tokf := (tok (fun _ => fs) 0).
Lemma tok_now : forall (w : past) o x, tok (w_F w) (w_n w) o x -> tokf o x.
Proof. intros w [] x H; cbn in *; try (rewrite <- (w_now w)); exact H. Qed.
Definition ever : modality.
Proof.
  refine (mkModality tokf (fun A => @everp A) false _ _ _ _ _ _ _).
  - intros A Q a H w. apply tri_ret, H.
  - intros A Q m H w. apply tri_panic, H.
  - intros A Q H w. apply tri_fuel, H.
  - intros A p Q Q' HQ H w. eapply tri_mono; [exact HQ|apply H].
  - intros A B p f Q H w. apply tri_bind. eapply tri_mono; [|apply (H w)]. intros [a|m|]; auto.
  - intros A Q o k Hr H w. apply tri_do; [exact Hr|]. intros x Hx. apply H. eapply tok_now. exact Hx.
  - discriminate.
Defined.
Lemma ever_with {A} : forall (Q : outcome A -> Prop) p, everp (fun _ => True) p -> (forall st, Q (out fs st p)) -> everp Q p.
Proof.
  intros Q p H HQ w st Hi. split; [|apply (H w st Hi)]. rewrite (w_now w). apply HQ.
Qed.
Variable R : resolver.
Hypothesis HR : member js nm own dur R.
Lemma ever_load : forall f p, everp (orel (leq eq) (oc (lookup_desc fs (rv_json R) (o_desc (rv_opts R)) p))) (load_pkg_file R f p).
Proof.
  intros f p w. pose proof HR as ((_ & Hj & _) & _). rewrite Hj, <- (w_now w).
  exact (tri_right js Hwf (w_T w) (w_apart w) nm Hrel own dur (w_F w) (w_ours w) (w_sane w) (w_good w) (w_note w) (w_n w) R f HR p).
Qed.
Lemma load_ended : forall st f p, is_abs p = true -> length (components p) + 2 <= f -> ended (out fs st (load_pkg_file R f p)).
Proof.
  intros st f p Ha Hf. destruct (o_desc (rv_opts R)) as [name|] eqn:En.
  - apply (wx_out (okp fs name) fs (step_okp fs name)). apply load_end'; assumption.
  - destruct f as [|f]; [lia|]. cbn [load_pkg_file]. rewrite En. discriminate.
Qed.
Lemma ever_loads : forall f p, is_abs p = true -> length (components p) + 2 <= f ->
  everp (fun r => orel (leq eq) (oc (lookup_desc fs (rv_json R) (o_desc (rv_opts R)) p)) r /\ ended r) (load_pkg_file R f p).
Proof.
  intros f p Ha Hf w st Hi. destruct (ever_load f p w st Hi) as [H1 H2]. split; [|exact H2]. split; [exact H1|].
  rewrite (w_now w). apply load_ended; assumption.
Qed.
Lemma ever_keeps : forall m n i, everp (fun _ => True) (resolve_ R (load_pkg_file R m) n i).
Proof.
  intros m n i.
  assert (Hb : forall A B (p : prog A) (f : A -> prog B), everp (fun _ => True) p -> (forall a, everp (fun _ => True) (f a)) -> everp (fun _ => True) (bind p f)).
  { intros A B p f Hp Hf. apply (md_bind ever). eapply (md_mono ever); [|exact Hp]. intros [a|x|] _; [apply Hf|exact I..]. }
  apply (closed_resolve_ (fun A => @everp A (fun _ => True))).
  - intros A a. apply (md_done ever). exact I.
  - intros A x. apply (md_panicked ever). exact I.
  - intros A. apply (md_nofuel ever). exact I.
  - exact Hb.
  - intros o Ho. unfold act. apply (md_act ever); [exact (queries_reads _ (asks_queries _ Ho))|]. intros x _. apply (md_done ever). exact I.
  - intros p. eapply (md_mono ever); [|apply ever_load]. auto.
Qed.
Lemma ever_top : forall base req, is_abs base = true -> no_cycles fs R -> stops (rewritten (rv_opts R)) (r_target (parse req)) -> tsconfig_plain_by fs R (fun _ => disk_answer fs) ->
  exists N, forall m n, N <= m -> N <= n -> everp ended (resolve_with R (load_pkg_file R m) n base req).
Proof.
  intros base req Ha Hnc Hst Hts. apply (top_end_by fs Hfs R ever) with (okr := fun _ => disk_answer fs); auto.
  - intros A p Q Q' H1 H2 w st Hi. destruct (H1 w st Hi), (H2 w st Hi). auto.
  - apply ever_loads.
  - intros _ m n i. apply ever_with; [apply ever_keeps|]. intros st.
    apply (wx_out (disk_answer fs) fs (step_disk fs) (resolve_ R (load_pkg_file R m) n i)). apply wx_may_give. auto.
  - intros loc Ht. destruct (Hts loc Ht) as (H1 & rank & Hrk). split; [exact H1|]. exists rank. split; [exact Hrk|auto].
Qed.
End Ends.
Lemma ever_call : forall js, (forall s j, js s = Some j -> wf_json j) -> forall nm, (forall c, is_abs (nm c) = false) -> forall own dur fs, sane_fs fs ->
  forall c, member js nm own dur (call_resolver c) -> call_plain_by fs (fun _ => disk_answer fs) c ->
  exists N, forall f, N <= f -> everp js nm own dur fs ended (call_prog (with_fuel c f)).
Proof.
  intros js Hwf nm Hrel own dur fs Hfs [R f0 base req|R f0 p] HR Hp; cbn [call_resolver] in HR.
  - destruct Hp as (Ha & Hnc & Hst & Hts). destruct (ever_top js Hwf nm Hrel own dur fs Hfs R HR base req Ha Hnc Hst Hts) as [N HN].
    exists N. intros f Hf. cbn [with_fuel call_prog]. apply (go_ended_bind (ever js nm own dur fs)); [apply HN; exact Hf|]. intros a. apply (md_done (ever js nm own dur fs)). discriminate.
  - exists (length (components p) + 2). intros f Hf. cbn [with_fuel call_prog].
    apply (go_ended_bind (ever js nm own dur fs)); [|intros a; apply (md_done (ever js nm own dur fs)); discriminate].
    unfold load_side_effects. apply (go_ended_try (ever js nm own dur fs)).
    + eapply (md_mono (ever js nm own dur fs)); [|apply (ever_loads js Hwf nm Hrel own dur fs Hfs R HR f p Hp Hf)]. intros r [_ H]. exact H.
    + intros [pk|]; [|apply (md_done (ever js nm own dur fs)); discriminate]. destruct (o_desc _); [apply (md_done (ever js nm own dur fs))|apply (md_panicked (ever js nm own dur fs))]; discriminate.
Qed.
(** ** Histories *)
Lemma changes_end : forall js, (forall s j, js s = Some j -> wf_json j) -> forall nm, (forall c, is_abs (nm c) = false) -> forall own dur fs, sane_fs fs ->
  forall c, member js nm own dur (call_resolver c) -> steady fs js c -> call_plain_by fs (fun _ => disk_answer fs) c ->
  exists N, forall fs0 h seeds seeds' f f', N <= f -> N <= f' ->
  texts_apart js (written_on (fun n => exists k, n = nm k) (systems fs0 h)) ->
  Forall (fun fs => sane_fs fs /\ forall k, all_readable js (nm k) fs) (systems fs0 h) ->
  ForallOrdPairs (fun fs fs' => forall k, noticeable (nm k) dur fs fs') (systems fs0 h) ->
  Forall (member js nm own dur) (callers h) -> snd (fst (run_history fs0 (empty_state seeds) h)) = fs ->
  same_end same_answer (out fs (snd (run_history fs0 (empty_state seeds) h)) (call_prog (with_fuel c f))) (out fs (empty_state seeds') (call_prog (with_fuel c f'))).
Proof.
  intros js Hwf nm Hrel own dur fs Hfs c HR Hs Hp. destruct (ever_call js Hwf nm Hrel own dur fs Hfs c HR Hp) as [N HN]. exists N.
  intros fs0 h seeds seeds' f f' Hf Hf' Hap Hall Hord Hm Hl.
  destruct (changes_jinv js Hwf nm Hrel own dur fs0 h seeds Hap Hall Hord Hm) as (F & m & HT & HF & Hg & Hn & E & Hi).
  rewrite Hl in E. symmetry in E.
  pose (w := mkPast js nm dur fs _ F m E Hap HT HF Hg Hn).
  assert (Hi0 : JInv js (w_T js nm dur fs w) nm own F m (empty_state seeds')) by (eapply ji_later; [|apply ji_empty]; lia).
  apply outcome_end.
  - rewrite <- (with_fuel_twice c f f'). rewrite <- E at 1 2.
    apply (members_agree js Hwf _ Hap nm Hrel own dur F HT HF Hg Hn m); [rewrite resolver_fuel; exact HR|rewrite E; apply steady_fuel, Hs|exact Hi|exact Hi0].
  - destruct (HN f Hf w _ Hi) as [H _]. cbn [w w_F w_n] in H. rewrite E in H. exact H.
  - destruct (HN f' Hf' w _ Hi0) as [H _]. cbn [w w_F w_n] in H. rewrite E in H. exact H.
Qed.
