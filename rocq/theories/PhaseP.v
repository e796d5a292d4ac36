(** * Phases of concurrent calls: between the two entries of a description a thread owes the
    second one; when all threads have ended nothing is owed. *)
From Coq Require Import String.
From Coq Require Import List Arith NArith Bool Lia Permutation.
From Verif Require Import Str StrP Path PathP Json Types Parse Map Prog Desc Resolve Top Run FuelP RunP SpecJson JsonP SpecLoad SpecCache SpecTerm SpellP SimP LoadP GuarP ColdP CacheP HistP SpecChange ChangeP SpecPhase TermP PropTermP ChangeEndP.
Import ListNotations.

Section Phase.
Variable js : str -> option json.
Hypothesis Hwf : forall s j, js s = Some j -> wf_json j.
Variable T : str -> Prop.
Hypothesis Hapart : texts_apart js T.
Variable nm : nat -> str.
Hypothesis Hrel : forall c, is_abs (nm c) = false.
Variable own : nat -> nat.
Variable dur : N.
Variable F : nat -> fsys.
Hypothesis Hours : forall i c, ours T (eq (nm c)) (F i).
Hypothesis HF : forall i, sane_fs (F i).
Hypothesis Hgood : forall i c, all_readable js (nm c) (F i).
Variable n : nat.
Notation fs := (F n).
Notation member := (member js nm own dur).

(** What a thread owes: the entry for the description file with this key, in this cache. *)
Definition debt := option (nat * list comp).
Definition dok (o : op) : ans o -> Prop :=
  match o return ans o -> Prop with
  | OExpGet _ k => fun x => forall t, x = Some t -> right_tree js T k t
  | OImpGet _ _ => fun x => x = None
  | o => tok F n o
  end.
Definition dpre (d : debt) (o : op) : Prop :=
  match o with
  | OExpPut _ k t => right_tree js T k t
  | OPkgPut c p v => f_dir fs p = true /\ was_right js fs (nm c) (components p) v /\ (d = None \/ d = Some (c, components (join p (nm c))))
  | OFilePut r p _ t => d = None /\ exists q, p = join q (nm (own r)) /\ f_dir fs q = true /\ f_file fs p = true /\ f_mtime fs p = MTime t
  | _ => True
  end.
Definition dpost (d : debt) (o : op) : debt :=
  match o with
  | OPkgPut _ _ _ => None
  | OFilePut r p _ _ => Some (own r, components p)
  | _ => d
  end.
Fixpoint dw {A} (Q : debt -> outcome A -> Prop) (d : debt) (p : prog A) : Prop :=
  match p with
  | Ret a => Q d (Done a)
  | Panic m => Q d (Panicked m)
  | OutOfFuel => Q d NoFuel
  | Do o k => dpre d o /\ forall x, dok o x -> dw Q (dpost d o) (k x)
  end.
(** Nothing is owed in the end. *)
Definition paid {A} (d : debt) (_ : outcome A) : Prop := d = None.
Notation dg p := (dw paid None p).
Lemma dw_bind {A B} : forall (p : prog A) (f : A -> prog B) Q d,
  dw (fun d r => match r with Done a => dw Q d (f a) | Panicked m => Q d (Panicked m) | NoFuel => Q d NoFuel end) d p -> dw Q d (bind p f).
Proof. intros p f Q. induction p as [a|m| |o k IH]; intros d H; cbn [bind dw] in *; auto. destruct H as [H1 H2]. split; [exact H1|]. intros x Hx. apply IH, H2, Hx. Qed.
Lemma dw_mono {A} : forall (p : prog A) (Q Q' : debt -> outcome A -> Prop) d, (forall d r, Q d r -> Q' d r) -> dw Q d p -> dw Q' d p.
Proof. intros p Q Q'. induction p as [a|m| |o k IH]; intros d H Hp; cbn [dw] in *; auto. destruct Hp as [H1 H2]. split; [exact H1|]. intros x Hx. apply IH; [exact H|]. apply H2, Hx. Qed.
Lemma dg_bind {A B} : forall (p : prog A) (f : A -> prog B), dg p -> (forall a, dg (f a)) -> dg (bind p f).
Proof. intros p f Hp Hf. apply dw_bind. eapply dw_mono; [|exact Hp]. intros d [a|m|] Hd; red in Hd; subst d; [apply Hf|reflexivity..]. Qed.
Lemma dg_try {A B} : forall (p : prog (result A)) (f : A -> prog (result B)), dg p -> (forall a, dg (f a)) -> dg (try_ p f).
Proof. intros p f Hp Hf. unfold try_. apply dg_bind; [exact Hp|]. intros [a|e]; [apply Hf|reflexivity]. Qed.
Lemma dg_act {B} : forall o (f : ans o -> prog B), dpre None o -> dpost None o = None -> (forall x, dok o x -> dg (f x)) -> dg (bind (act o) f).
Proof. intros o f Ho Hp Hf. cbn [act bind dw]. split; [exact Ho|]. rewrite Hp. exact Hf. Qed.
Lemma dg_query : forall o, queries o -> dg (act o).
Proof. intros o Ho. cbn [act dw]. destruct o; cbn in Ho; try contradiction; (split; [exact I|intros; reflexivity]). Qed.

(** ** The loader *)
Section Loader.
Variable R : resolver.
Hypothesis HR : member R.
Notation name := (nm (rv_cache R)).
Notation has d := (f_file fs (join d name)).
Lemma d_exports : forall (Q : debt -> outcome (result (option ptn)) -> Prop) d s j ex, T s -> js s = Some j -> exp_part j = PRet (Ok ex) -> Q d (Done (Ok ex)) -> dw Q d (load_exports R j).
Proof.
  intros Q d s j ex HT Hj He HQ. unfold load_exports, exp_part in *. destruct (jget j (lit "exports")) as [v|] eqn:Ev; [|injection He as <-; exact HQ].
  pose proof (h_exports js Hwf T (eq name) R s j HT Hj) as Hh. unfold load_exports in Hh. rewrite Ev in Hh. unfold GG in Hh. cbn [act bind wgo] in Hh. destruct Hh as [_ Hh].
  cbn [act bind dw dpre dpost]. split; [exact I|]. intros x Hx. cbn [dok] in Hx. specialize (Hh x I). destruct x as [t|].
  - rewrite (Hx t eq_refl s j v HT Hj Ev eq_refl) in He. injection He as <-. exact HQ.
  - destruct (build_exports v) as [[t|e]|m|]; try discriminate. injection He as <-. cbn [lift try_ bind act dw wgo dpre dpost] in *. destruct Hh as [Hh _]. split; [exact Hh|]. intros x _. exact HQ.
Qed.
Lemma d_imports : forall (Q : debt -> outcome (result (option ptn)) -> Prop) d s j im, T s -> js s = Some j -> imp_part j = PRet (Ok im) -> Q d (Done (Ok im)) -> dw Q d (load_imports R j).
Proof.
  intros Q d s j im HT Hj He HQ. unfold load_imports, imp_part in *. destruct (jget j (lit "imports")) as [v|] eqn:Ev; [|injection He as <-; exact HQ].
  pose proof (h_imports js T (eq name) Hapart R s j HT Hj) as Hh. unfold load_imports in Hh. rewrite Ev in Hh. unfold GG in Hh. cbn [act bind wgo] in Hh. destruct Hh as [_ Hh].
  cbn [act bind dw dpre dpost]. split; [exact I|]. intros x Hx. cbn [dok] in Hx. specialize (Hh x I). subst x.
  destruct (build_imports v) as [[t|e]|m|]; try discriminate. injection He as <-. cbn [lift try_ bind act dw wgo dpre dpost] in *. destruct Hh as [Hh _]. split; [exact Hh|]. intros x _. exact HQ.
Qed.
Lemma d_store : forall q, f_dir fs q = true -> has q = true -> dg (parse_and_store R q (join q name)).
Proof.
  intros q Hd Hf. destruct HR as ((_ & Hj & Hdb) & Hown & _). destruct (Hgood n (rv_cache R) q Hd Hf) as [pk0 E0]. pose proof E0 as E1.
  unfold parse_and_store, parse_description_file, dbg_check, try_. rewrite Hdb. cbn [bind]. apply dw_bind.
  unfold described in E1. destruct (f_read fs (join q name)) as [s|] eqn:Es; [|discriminate]. pose proof (Hours n (rv_cache R) q name s eq_refl Es) as HT.
  destruct (f_mtime fs (join q name)) as [| |t] eqn:Et; try discriminate.
  apply dw_bind. unfold read_to_string, get_last_modified, try_. cbn [act bind dw dpre dpost]. split; [exact I|]. intros x Hx. cbn [dok tok] in Hx. rewrite Es in Hx. subst x.
  cbn [act bind dw dpre dpost]. split; [exact I|]. intros x Hx. cbn [dok tok] in Hx. rewrite Et in Hx. subst x.
  cbn [act bind dw dpre dpost]. split. { split; [reflexivity|]. exists q. rewrite Hown. auto. }
  intros x _. cbn [dw]. rewrite Hj. destruct (js s) as [j|] eqn:Ej; [|discriminate].
  destruct (alias_fields_of j) as [af|m|]; try discriminate. cbn [lift pbind bind act dw dpre dpost] in *. split; [exact I|]. intros seed _.
  fold (exp_part j) in E1. destruct (exp_part j) as [[ex|e]|m|] eqn:Ee; try discriminate. cbn [pbind] in E1. apply dw_bind. eapply d_exports; [exact HT|exact Ej|exact Ee|].
  fold (imp_part j) in E1. destruct (imp_part j) as [[im|e]|m|] eqn:Ei; try discriminate. cbn [pbind] in E1. apply dw_bind. eapply d_imports; [exact HT|exact Ej|exact Ei|].
  destruct (side_effects_of (join q name) j) as [se|e]; [|discriminate]. injection E1 as <-. cbn [dw act bind dpre dpost].
  split; [|intros x0 _; reflexivity]. split; [exact Hd|]. split.
  - exists q. split; [reflexivity|]. split; [exact Hd|]. split; [exact Hf|]. eexists. split; [exact E0|]. unfold pkgeq. cbn. repeat split; auto. apply Permutation_sym, permute_perm.
  - right. rewrite Hown. reflexivity.
Qed.
Lemma d_find : forall f q, dw (fun d r => d = None /\ match r with Done x => x = search fs name q | _ => True end) None (find_up f q name).
Proof.
  induction f as [|f IH]; intros q; cbn [find_up]; [cbn [dw]; auto|].
  cbn [act bind dw dpre dpost]. split; [exact I|]. intros x Hx. cbn [dok tok] in Hx. subst x. destruct (has q) eqn:Ef.
  - cbn [dw]. split; [reflexivity|]. unfold search, lineage. cbn [find]. rewrite Ef. reflexivity.
  - destruct (parent q) as [q'|] eqn:Ep.
    + eapply dw_mono; [|apply IH]. intros d r [Hd Hr]. split; [exact Hd|]. destruct r as [x|m|]; auto. subst x. unfold search. rewrite (lineage_some _ _ Ep). cbn [find]. rewrite Ef. reflexivity.
    + cbn [dw]. split; [reflexivity|]. unfold search. rewrite (lineage_none _ Ep). cbn [find]. rewrite Ef. reflexivity.
Qed.
Lemma d_none : forall f q, search fs name q = None -> dg (none_loop R f q).
Proof.
  induction f as [|f IH]; intros q Hs; cbn [none_loop]; [reflexivity|]. apply dg_act; [exact I|reflexivity|]. intros x Hx. cbn [dok tok] in Hx. subst x.
  destruct (f_dir fs q) eqn:Ed; [|apply IH, Hs]. apply dg_act; [|reflexivity|].
  - split; [exact Ed|]. split; [|left; reflexivity]. exists q. split; [reflexivity|]. split; [exact Ed|]. unfold nearest. rewrite (from_dir_dir _ _ Ed). exact Hs.
  - intros x _. destruct (parent q) as [q'|] eqn:Ep; [|reflexivity]. apply IH. unfold search in *. rewrite (lineage_some _ _ Ep) in Hs. cbn [find] in Hs. destruct (has q); [discriminate|exact Hs].
Qed.
Lemma d_check : forall q dfp, dg (check_entry R q dfp).
Proof.
  intros q dfp. destruct HR as ((_ & _ & Hdb) & _). unfold check_entry. rewrite Hdb. apply dg_bind.
  - unfold need_update, get_last_modified. apply dg_act; [exact I|reflexivity|]. intros [] _; cbn [negb]; [|reflexivity].
    apply dg_act; [exact I|reflexivity|]. intros [[s t]|] _; [|reflexivity]. apply dg_try; [apply dg_act; [exact I|reflexivity|]; intros [] _; reflexivity|].
    intros now. destruct (N.ltb now t); reflexivity.
  - intros u. apply dg_bind; [destruct u as [[|]|]; reflexivity|]. intros _. apply dg_act; [exact I|reflexivity|]. intros x _. reflexivity.
Qed.
Hypothesis Hname : o_desc (rv_opts R) = Some name.
Lemma d_load_named : forall f q, dg (load_pkg_file R f q).
Proof.
  induction f as [|f IH]; intros q; cbn [load_pkg_file]; [reflexivity|]. rewrite Hname. apply dg_act; [exact I|reflexivity|]. intros x Hx. cbn [dok tok] in Hx. subst x.
  destruct (f_dir fs q) eqn:Ed; cbn [negb]; [|destruct (parent q); [apply IH|reflexivity]].
  cbv zeta. apply dg_act; [exact I|reflexivity|]. intros [v|] _.
  - unfold try_ at 1. apply dw_bind. unfold check_entry, need_update. rewrite (proj2 (proj2 (proj1 HR))). apply dw_bind.
    cbn [act bind dw dpre dpost]. split; [exact I|]. intros x Hx. cbn [dok tok] in Hx. subst x. destruct (has q) eqn:Ef; cbn [negb].
    2:{ cbn [act bind dw dpre dpost]. split; [exact I|]. intros; reflexivity. }
    pose proof (d_store q Ed Ef) as Hs. cbn [act bind dw dpre dpost]. split; [exact I|]. intros [[s t]|] _.
    2:{ cbn [act bind dw dpre dpost]. split; [exact I|]. intros. exact Hs. }
    unfold get_last_modified, try_. cbn [act bind dw dpre dpost]. split; [exact I|]. intros [| |t1] _; cbn [act bind dw dpre dpost]; try (split; [exact I|]; intros; reflexivity).
    destruct (N.ltb t1 t); [|destruct (N.leb (rv_duration R) (t1 - t))]; cbn [act bind dw dpre dpost negb]; (split; [exact I|]); intros x _; [reflexivity|exact Hs|reflexivity].
  - apply dg_act; [exact I|reflexivity|]. intros x Hx. cbn [dok tok] in Hx. subst x. destruct (has q) eqn:Ef; [apply d_store; assumption|].
    apply dw_bind. eapply dw_mono; [|apply d_find]. intros d r [-> Hr]. destruct r as [x|m|]; [|reflexivity..]. subst x.
    destruct (search fs name q) as [d|] eqn:Es; [apply IH|apply d_none, Es].
Qed.
End Loader.
Lemma d_load : forall R f q, member R -> dg (load_pkg_file R f q).
Proof.
  intros R f q HR. pose proof HR as (([Hn|Hn] & _) & _); [|apply d_load_named; assumption].
  destruct f; [reflexivity|]. cbn [load_pkg_file]. rewrite Hn. reflexivity.
Qed.
Lemma d_call : forall c, member (call_resolver c) -> dg (call_prog c).
Proof.
  intros [R f base req|R f p] HR; cbn [call_resolver call_prog] in *; (apply dg_bind; [|intros; reflexivity]).
  - apply (closed_resolve_with (fun A => @dw A paid None)).
    + reflexivity.
    + reflexivity.
    + reflexivity.
    + intros A B. apply dg_bind.
    + exact dg_query.
    + intros. apply d_load, HR.
  - unfold load_side_effects. apply dg_try; [apply d_load, HR|]. intros [pk|]; [|reflexivity]. destruct (o_desc _); reflexivity.
Qed.

(** ** The tables while threads owe something *)
Record DInv (O : nat -> list comp -> Prop) (st : state) : Prop := {
  di_h : HInv js T st;
  di_file : forall r k s t, s_file st r k = Some (s, t) -> exists i, i <= n /\ was_seen (F i) (nm (own r)) k t;
  di_pkg : forall c k v, s_pkg st c k = Some v -> exists j, j <= n /\ was_right js (F j) (nm c) k v /\
     forall r s t d, own r = c -> components d = k -> s_file st r (components (join d (nm c))) = Some (s, t) ->
       (exists i, i <= j /\ was_seen (F i) (nm c) (components (join d (nm c))) t) \/ O c (components (join d (nm c)))
}.
Lemma di_mono : forall (O O' : nat -> list comp -> Prop) st, (forall c k, O c k -> O' c k) -> DInv O st -> DInv O' st.
Proof.
  intros O O' st H [Hh Hf Hp]. constructor; [exact Hh|exact Hf|]. intros c k v E. destruct (Hp c k v E) as (j & Hj & Hr & Hold). exists j. split; [exact Hj|]. split; [exact Hr|].
  intros r s t d E1 E2 E3. destruct (Hold r s t d E1 E2 E3) as [H1|H1]; [left; exact H1|right; apply H, H1].
Qed.
Lemma di_of : forall st, JInv js T nm own F n st -> DInv (fun _ _ => False) st.
Proof. intros st [Hh Hf Hp]. constructor; [exact Hh|exact Hf|]. intros c k v E. destruct (Hp c k v E) as (j & Hj & Hr & Hold). exists j. split; [exact Hj|]. split; [exact Hr|]. intros. left. eauto. Qed.
Lemma di_to : forall st, DInv (fun _ _ => False) st -> JInv js T nm own F n st.
Proof.
  intros st [Hh Hf Hp]. constructor; [exact Hh|exact Hf|]. intros c k v E. destruct (Hp c k v E) as (j & Hj & Hr & Hold). exists j. split; [exact Hj|]. split; [exact Hr|].
  intros r s t d E1 E2 E3. destruct (Hold r s t d E1 E2 E3) as [H1|[]]. exact H1.
Qed.
Lemma d_ok : forall O st o, DInv O st -> dok o (fst (step fs st o)).
Proof.
  intros O st o [[He Hi] _ _]. destruct o; cbn [step fst dok tok]; auto.
  intros t E. eapply He, E.
Qed.
Lemma d_step : forall (O : nat -> list comp -> Prop) d st o, DInv (fun c k => d = Some (c, k) \/ O c k) st -> dpre d o ->
  DInv (fun c k => dpost d o = Some (c, k) \/ O c k) (snd (step fs st o)).
Proof.
  intros O d st o Hi Hp. pose proof (h_step js T fs st o (di_h _ _ Hi)) as Hh.
  destruct o; cbn [step snd dpost hput] in *; try (destruct Hi as [_ Hf Hpk]; constructor; [apply Hh; exact I|exact Hf|exact Hpk]).
  - (* OPkgPut *)
    destruct Hp as (Hd & Hr & Hdebt). destruct Hi as [_ Hf Hpk]. constructor; [apply Hh; exact I|exact Hf|].
    cbn [s_pkg s_file set_pkg]. intros c0 k v0. unfold upd_path. intros E.
    assert (Hc : (c0 = c /\ k = components p /\ v0 = v) \/ (s_pkg st c0 k = Some v0 /\ ~ (c0 = c /\ k = components p))).
    { destruct (Nat.eqb_spec c0 c) as [->|Hn]; cbn [andb] in E; [|right; tauto].
      destruct (comps_eqb_spec k (components p)) as [->|Hn]; [injection E as <-; left; auto|right; tauto]. }
    clear E. destruct Hc as [(-> & -> & ->)|[E Hn]].
    + exists n. split; [lia|]. split; [exact Hr|]. intros r s t d' Er Ed E. left. destruct (Hf _ _ _ _ E) as (i & Hi & H). exists i. rewrite Er in H. auto.
    + destruct (Hpk c0 k v0 E) as (j & Hj & Hr0 & Hold). exists j. split; [exact Hj|]. split; [exact Hr0|]. intros r s t d' Er Ed E'.
      destruct (Hold r s t d' Er Ed E') as [H|[H|H]]; [left; exact H| |right; right; exact H]. exfalso. apply Hn.
      destruct Hdebt as [->|Hdebt]; [discriminate|]. rewrite Hdebt in H. injection H as Hc Hk. split; [symmetry; exact Hc|].
      destruct Hr0 as (d0 & Ed0 & Hd0 & _). rewrite <- Ed0. eapply (key_inj nm Hrel F HF c j n); [exact Hd0|exact Hd|]. rewrite Hk, Hc. apply join_congr. congruence.
  - (* OExpPut *)
    destruct Hi as [_ Hf Hpk]. constructor; [apply Hh; exact Hp|exact Hf|exact Hpk].
  - (* OFilePut *)
    destruct Hp as (-> & q & -> & Hq & Hfq & Hm). destruct Hi as [_ Hf Hpk]. constructor; [apply Hh; exact I| |].
    + cbn [s_file set_file]. intros r0 k s0 t0. unfold upd_path. destruct (Nat.eqb_spec r0 r) as [->|]; cbn [andb]; [|apply Hf].
      destruct (comps_eqb_spec k (components (join q (nm (own r))))) as [->|]; [|apply Hf]. injection 1 as <- <-. exists n. split; [lia|]. exists q. auto.
    + cbn [s_pkg s_file set_file]. intros c k v E. destruct (Hpk c k v E) as (j & Hj & Hr0 & Hold). exists j. split; [exact Hj|]. split; [exact Hr0|].
      intros r0 s0 t0 d' Er Ed E'. unfold upd_path in E'. destruct (Nat.eqb_spec r0 r) as [->|]; cbn [andb] in E'.
      * destruct (comps_eqb_spec (components (join d' (nm c))) (components (join q (nm (own r))))) as [Ek|].
        -- right. left. rewrite Ek, Er. reflexivity.
        -- destruct (Hold _ _ _ d' Er Ed E') as [H|[H|H]]; [left; exact H|discriminate|right; right; exact H].
      * destruct (Hold _ _ _ d' Er Ed E') as [H|[H|H]]; [left; exact H|discriminate|right; right; exact H].
Qed.
Definition owed (ds : list debt) (O : nat -> list comp -> Prop) : nat -> list comp -> Prop := fun c k => In (Some (c, k)) ds \/ O c k.
Lemma d_step_nth {A} : forall (l : list (prog A)) ds O i st, Forall2 (fun d p => dw paid d p) ds l -> DInv (owed ds O) st ->
  exists ds', Forall2 (fun d p => dw paid d p) ds' (fst (step_nth fs st i l)) /\ DInv (owed ds' O) (snd (step_nth fs st i l)).
Proof.
  induction l as [|p l IH]; intros ds O i st Hl Hi; [exists ds; destruct i; cbn; auto|].
  inversion Hl as [|d ? ds0 ? Hp Hl0]; subst. destruct i as [|i]; cbn [step_nth].
  - destruct p as [a|m| |o k]; cbn [thread_step fst snd]; try (exists (d :: ds0); split; assumption).
    destruct Hp as [Hpre Hk]. pose proof (d_ok _ st o Hi) as Hx.
    assert (Hi' : DInv (fun c k => dpost d o = Some (c, k) \/ owed ds0 O c k) (snd (step fs st o))).
    { apply d_step; [|exact Hpre]. eapply di_mono; [|exact Hi]. intros c k0 [[H|H]|H]; [left; exact H|right; left; exact H|right; right; exact H]. }
    destruct (step fs st o) as [x st']. cbn [fst snd] in *. exists (dpost d o :: ds0). split; [constructor; [apply Hk, Hx|exact Hl0]|].
    eapply di_mono; [|exact Hi']. intros c k0 [H|[H|H]]; [left; left; exact H|left; right; exact H|right; exact H].
  - destruct (IH ds0 (fun c k => d = Some (c, k) \/ O c k) i st Hl0) as (ds' & H1 & H2).
    { eapply di_mono; [|exact Hi]. intros c k [[H|H]|H]; [right; left; exact H|left; exact H|right; right; exact H]. }
    destruct (step_nth fs st i l) as [l' st']. cbn [fst snd] in *. exists (d :: ds'). split; [constructor; assumption|].
    eapply di_mono; [|exact H2]. intros c k [H|[H|H]]; [left; right; exact H|left; left; exact H|right; exact H].
Qed.
Lemma d_sched {A} : forall sched (l : list (prog A)) ds O st, Forall2 (fun d p => dw paid d p) ds l -> DInv (owed ds O) st ->
  exists ds', Forall2 (fun d p => dw paid d p) ds' (fst (run_sched fs sched st l)) /\ DInv (owed ds' O) (snd (run_sched fs sched st l)).
Proof.
  induction sched as [|i sched IH]; intros l ds O st Hl Hi; cbn [run_sched]; [exists ds; auto|].
  destruct (d_step_nth l ds O i st Hl Hi) as (ds' & H1 & H2). destruct (step_nth fs st i l) as [l' st']. apply (IH l' ds'); assumption.
Qed.
(** Calls at once that have all ended leave the tables in order. *)
Lemma calls_keep : forall cs sched st ps st', Forall member (map call_resolver cs) -> JInv js T nm own F n st ->
  run_sched fs sched st (map call_prog cs) = (ps, st') -> Forall over ps -> JInv js T nm own F n st'.
Proof.
  intros cs sched st ps st' Hm Hi E Ho.
  destruct (d_sched sched (map call_prog cs) (map (fun _ => None) cs) (fun _ _ => False) st) as (ds & H1 & H2).
  - clear -Hm Hwf Hapart Hours HF Hgood. induction cs as [|c cs IH]; [constructor|]. inversion Hm; subst. cbn [map]. constructor; [apply d_call; assumption|apply IH; assumption].
  - eapply di_mono; [|apply di_of, Hi]. intros c k [].
  - rewrite E in H1, H2. cbn [fst snd] in *. apply di_to. eapply di_mono; [|exact H2]. intros c k [H|[]].
    clear -H1 Ho H. induction H1 as [|d p ds ps Hp Hl IH]; [exact H|]. inversion Ho as [|? ? Hop Hos]; subst. destruct H as [H|H]; [|apply IH; assumption].
    destruct p; cbn [over dw] in *; try contradiction; red in Hp; congruence.
Qed.
End Phase.

(** ** Phases *)
Section Phases.
Variable js : str -> option json.
Hypothesis Hwf : forall s j, js s = Some j -> wf_json j.
Variable nm : nat -> str.
Hypothesis Hrel : forall c, is_abs (nm c) = false.
Variable own : nat -> nat.
Variable dur : N.
Notation T0 l := (written_on (fun n => exists k, n = nm k) l).
Lemma phases_jinv : forall T F, texts_apart js T -> (forall i c, ours T (eq (nm c)) (F i)) -> (forall i, sane_fs (F i)) -> (forall i c, all_readable js (nm c) (F i)) ->
  forall fs st h fs' st', phases fs st h fs' st' -> forall n, fs = F n -> (forall k f, nth_error (phase_systems fs h) k = Some f -> f = F (n + k)) ->
  Forall (member js nm own dur) (phase_callers h) -> JInv js T nm own F n st ->
  exists m, fs' = F m /\ JInv js T nm own F m st'.
Proof.
  intros T F Hap HT HF Hg fs st h fs' st' H. induction H as [fs st|fs st cs sched ps st1 h fs' st' Hr Ho Hp IH|fs st fs1 h fs' st' Hp IH]; intros n En Hk Hm Hi.
  - exists n. auto.
  - cbn [phase_callers flat_map] in Hm. apply Forall_app in Hm. destruct Hm as [Hm1 Hm2]. apply (IH n En Hk Hm2). subst fs.
    exact (calls_keep js Hwf T Hap nm Hrel own dur F HT HF Hg n cs sched st ps st1 Hm1 Hi Hr Ho).
  - assert (E1 : fs1 = F (S n)) by (rewrite <- Nat.add_1_r; apply Hk; reflexivity).
    apply (IH (S n) E1); [|exact Hm|eapply ji_later; [|exact Hi]; lia]. intros k f E. replace (S n + k) with (n + S k) by lia. apply Hk. exact E.
Qed.
Lemma phases_seq : forall fs0 seeds h fs st, phases fs0 (empty_state seeds) h fs st -> texts_apart js (T0 (phase_systems fs0 h)) ->
  Forall (fun fs => sane_fs fs /\ forall k, all_readable js (nm k) fs) (phase_systems fs0 h) ->
  ForallOrdPairs (fun fs fs' => forall k, noticeable (nm k) dur fs fs') (phase_systems fs0 h) ->
  Forall (member js nm own dur) (phase_callers h) ->
  exists F m, (forall i c, ours (T0 (phase_systems fs0 h)) (eq (nm c)) (F i)) /\ (forall i, sane_fs (F i)) /\ (forall i c, all_readable js (nm c) (F i)) /\
    (forall i j c, i <= j -> noticeable (nm c) dur (F i) (F j)) /\ fs = F m /\ JInv js (T0 (phase_systems fs0 h)) nm own F m st.
Proof.
  intros fs0 seeds h fs st H Hap Hall Hord Hm. destruct (seq_of js nm dur _ _ Hall Hord) as (F & HIn & HF & Hg & Hnote & Hk).
  assert (HT : forall i c, ours (T0 (phase_systems fs0 h)) (eq (nm c)) (F i)). { intros i c d n s <- E. exists (F i), d, (nm c). split; [apply HIn|]. eauto. }
  destruct (phases_jinv _ F Hap HT HF Hg _ _ _ _ _ H 0) as (m & E & Hi); [apply Hk; reflexivity|exact Hk|exact Hm|apply ji_empty|].
  exists F, m. repeat (split; [assumption|]). exact Hi.
Qed.
Lemma phases_agree : forall fs0 h fs st seeds seeds' c f, phases fs0 (empty_state seeds) h fs st -> texts_apart js (T0 (phase_systems fs0 h)) ->
  Forall (fun fs => sane_fs fs /\ forall k, all_readable js (nm k) fs) (phase_systems fs0 h) ->
  ForallOrdPairs (fun fs fs' => forall k, noticeable (nm k) dur fs fs') (phase_systems fs0 h) ->
  Forall (member js nm own dur) (phase_callers h) -> member js nm own dur (call_resolver c) -> steady fs js c ->
  same_outcome same_answer (out fs st (call_prog c)) (out fs (empty_state seeds') (call_prog (with_fuel c f))).
Proof.
  intros fs0 h fs st seeds seeds' c f H Hap Hall Hord Hm Hc Hs. destruct (phases_seq fs0 seeds h fs st H Hap Hall Hord Hm) as (F & m & HT & HF & Hg & Hn & -> & Hi).
  apply (members_agree js Hwf _ Hap nm Hrel own dur F HT HF Hg Hn m); auto. eapply ji_later; [|apply ji_empty]. lia.
Qed.
Lemma phases_end : forall fs, sane_fs fs -> forall c, member js nm own dur (call_resolver c) -> steady fs js c -> call_plain_by fs (fun _ => disk_answer fs) c ->
  exists N, forall fs0 h st seeds seeds' f f', N <= f -> N <= f' -> phases fs0 (empty_state seeds) h fs st -> texts_apart js (T0 (phase_systems fs0 h)) ->
  Forall (fun fs => sane_fs fs /\ forall k, all_readable js (nm k) fs) (phase_systems fs0 h) ->
  ForallOrdPairs (fun fs fs' => forall k, noticeable (nm k) dur fs fs') (phase_systems fs0 h) ->
  Forall (member js nm own dur) (phase_callers h) ->
  same_end same_answer (out fs st (call_prog (with_fuel c f))) (out fs (empty_state seeds') (call_prog (with_fuel c f'))).
Proof.
  intros fs Hfs c HR Hs Hp. destruct (ever_call js Hwf nm Hrel own dur fs Hfs c HR Hp) as [N HN]. exists N.
  intros fs0 h st seeds seeds' f f' Hf Hf' H Hap Hall Hord Hm.
  destruct (phases_seq fs0 seeds h fs st H Hap Hall Hord Hm) as (F & m & HT & HF & Hg & Hn & E & Hi). symmetry in E.
  pose (w := mkPast js nm dur fs _ F m E Hap HT HF Hg Hn).
  assert (Hi0 : JInv js (w_T js nm dur fs w) nm own F m (empty_state seeds')) by (eapply ji_later; [|apply ji_empty]; lia).
  apply outcome_end.
  - rewrite <- (with_fuel_twice c f f'). rewrite <- E at 1 2.
    apply (members_agree js Hwf _ Hap nm Hrel own dur F HT HF Hg Hn m); [rewrite resolver_fuel; exact HR|rewrite E; apply steady_fuel, Hs|exact Hi|exact Hi0].
  - destruct (HN f Hf w _ Hi) as [H1 _]. cbn [w w_F w_n] in H1. rewrite E in H1. exact H1.
  - destruct (HN f' Hf' w _ Hi0) as [H1 _]. cbn [w w_F w_n] in H1. rewrite E in H1. exact H1.
Qed.
End Phases.
