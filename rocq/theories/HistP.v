(** * Histories with arbitrary changes of the file system: the exports table stays right. *)
From Coq Require Import String.
From Coq Require Import List Arith NArith Bool Lia.
From Verif Require Import Str StrP Path PathP Json Types Parse Map Prog Desc Resolve Top Run FuelP RunP SpecJson JsonP SpecLoad SpecCache SpellP SimP LoadP GuarP ColdP CacheP SpecChange.
Import ListNotations.

Section Hist.
Variable js : str -> option json.
Hypothesis Hwf : forall s j, js s = Some j -> wf_json j.
(** The texts and the names of descriptions. *)
Variable T : str -> Prop.
Variable names : str -> Prop.
Hypothesis Hapart : texts_apart js T.
Definition right_tree (k : str) (t : ptn) : Prop :=
  forall s j v, T s -> js s = Some j -> jget j (lit "exports") = Some v -> to_string v = k -> build_exports v = PRet (Ok t).
Definition hput (o : op) : Prop := match o with OExpPut _ k t => right_tree k t | _ => True end.
Definition hok (o : op) : ans o -> Prop :=
  match o return ans o -> Prop with ORead p => fun x => forall d name s, names name -> p = join d name -> x = Some s -> T s | _ => fun _ => True end.
Notation H p := (GG hok hput p).
Lemma hreads : forall o, reads o -> hput o.
Proof. intros [] Hr; try exact I. contradiction. Qed.
Lemma hact : forall {B} o (f : ans o -> prog B), hput o -> (forall x, hok o x -> H (f x)) -> H (bind (act o) f).
Proof. intros B o f Ho Hf. unfold GG. cbn [act bind wgo]. split; [exact Ho|]. intros x Hx. apply Hf, Hx. Qed.
Lemma hdo : forall {B} o (k : ans o -> prog B), hput o -> (forall x, hok o x -> H (k x)) -> H (Do o k).
Proof. intros B o k Ho Hk. unfold GG. cbn [wgo]. split; [exact Ho|]. intros x Hx. apply Hk, Hx. Qed.
Lemma h_exports : forall R s j, T s -> js s = Some j -> H (load_exports R j).
Proof.
  intros R s j HT Hj. unfold load_exports. destruct (jget j (lit "exports")) as [v|] eqn:Ev; [|exact I].
  apply hact; [exact I|]. intros [t|] _; [exact I|]. destruct (build_exports v) as [[t|e]|m|] eqn:Eb; try exact I.
  cbn [lift try_ bind]. apply hact; [|intros; exact I]. intros s' j' v' HT' Hj' Hv' E.
  assert (v' = v) as ->; [|exact Eb].
  apply to_string_inj; [eapply wf_get; [eapply Hwf; exact Hj'|exact Hv']|eapply wf_get; [eapply Hwf; exact Hj|exact Ev]|exact E].
Qed.
Lemma h_imports : forall R s j, T s -> js s = Some j -> H (load_imports R j).
Proof.
  intros R s j HT Hj. unfold load_imports. destruct (jget j (lit "imports")) as [v|] eqn:Ev; [|exact I].
  apply hact; [exact I|]. intros [t|] _; [exact I|]. destruct (build_imports v) as [[t|e]|m|] eqn:Eb; try exact I.
  cbn [lift try_ bind]. apply hact; [|intros; exact I]. intros s' j' v' HT' Hj' Hv' E.
  exfalso. exact (Hapart _ _ _ _ _ _ HT' HT Hj' Hj Hv' Ev (build_imports_hash _ _ Eb) E).
Qed.
Lemma h_store : forall R p name, rv_json R = js -> names name -> H (parse_and_store R p (join p name)).
Proof.
  intros R p name Hj Hname. unfold parse_and_store, parse_description_file. apply GG_try.
  2:{ intros pk. apply hact; [exact I|]. intros; exact I. }
  apply GG_bind.
  { unfold dbg_check. destruct (rv_debug R); [|exact I]. apply hact; [exact I|]. intros [] _; [exact I|]. unfold GG. cbn. auto. }
  intros _. unfold read_to_string, get_last_modified, try_. refine (hdo (ORead _) _ I _). intros [s|] HT; [|exact I]. specialize (HT p name s Hname eq_refl eq_refl).
  refine (hdo (OMtime _) _ I _). intros [| |t] _; try exact I. refine (hdo (OFilePut _ _ _ _) _ I _). intros x _. cbn [bind]. rewrite Hj. destruct (js s) as [j|] eqn:Ej; [|exact I].
  apply GG_bind; [apply GG_lift|]. intros af. apply hact; [exact I|]. intros seed _.
  apply GG_try; [eapply h_exports; [exact HT|exact Ej]|]. intros ex. apply GG_try; [eapply h_imports; [exact HT|exact Ej]|]. intros im.
  cbv zeta. destruct (side_effects_of (join p name) j); exact I.
Qed.
Lemma h_find : forall f p n, H (find_up f p n).
Proof.
  induction f as [|f IH]; intros p n; cbn [find_up]; [exact I|]. apply hact; [exact I|]. intros [] _; [exact I|].
  destruct (parent p); [apply IH|exact I].
Qed.
Lemma h_none : forall R f p, H (none_loop R f p).
Proof.
  intros R. induction f as [|f IH]; intros p; cbn [none_loop]; [exact I|]. apply hact; [exact I|]. intros [] _; [|apply IH].
  apply hact; [exact I|]. intros _ _. destruct (parent p); [apply IH|exact I].
Qed.
Lemma h_load : forall R f p, rv_json R = js -> (forall name, o_desc (rv_opts R) = Some name -> names name) -> H (load_pkg_file R f p).
Proof.
  intros R f p Hj Hnames. revert p. induction f as [|f IH]; intros p; cbn [load_pkg_file]; [exact I|].
  destruct (o_desc (rv_opts R)) as [name|]; [|exact I]. specialize (Hnames name eq_refl). apply hact; [exact I|]. intros [|] _; cbn [negb].
  2:{ destruct (parent p); [apply IH|exact I]. }
  cbv zeta. apply hact; [exact I|]. intros [v|] _.
  - apply GG_try.
    + unfold check_entry. apply GG_bind.
      * unfold need_update, get_last_modified. apply hact; [exact I|]. intros [] _; cbn [negb]; [|exact I].
        apply hact; [exact I|]. intros [[s t]|] _; [|exact I]. apply GG_try; [apply hact; [exact I|]; intros [] _; exact I|].
        intros now. destruct (N.ltb now t); exact I.
      * intros u. apply GG_bind; [destruct u as [[|]|]; try exact I; destruct (rv_debug R); [unfold GG; cbn; auto|exact I]|].
        intros _. apply hact; [exact I|]. intros x _. exact I.
    + intros []; cbn [negb]; [|exact I]. apply h_store; assumption.
  - apply hact; [exact I|]. intros [] _; [apply h_store; assumption|]. apply GG_bind; [apply h_find|]. intros [d|]; [apply IH|apply h_none].
Qed.
Definition caller (R : resolver) : Prop := rv_json R = js /\ forall name, o_desc (rv_opts R) = Some name -> names name.
Lemma h_call : forall c, caller (call_resolver c) -> H (call_prog c).
Proof.
  intros [R f base req|R f p] [Hj Hn]; cbn [call_resolver call_prog] in *.
  - apply GG_bind; [|intros; exact I]. apply GG_resolve_with; [exact hreads|]. intros. apply h_load; assumption.
  - apply GG_bind; [|intros; exact I]. unfold load_side_effects. apply GG_try; [apply h_load; assumption|].
    intros [pk|]; [|exact I]. destruct (o_desc _); exact I.
Qed.

Record HInv (st : state) : Prop := {
  hi_exp : forall c k t, s_exp st c k = Some t -> right_tree k t;
  hi_imp : forall c k, s_imp st c k = None
}.
Lemma h_step : forall fs st o, HInv st -> hput o -> HInv (snd (step fs st o)).
Proof.
  intros fs st o [He Hi] Hp. destruct o; cbn [step snd hput] in *; try (constructor; assumption).
  constructor; cbn; auto. intros c0 k0 v0. unfold upd_str. destruct (Nat.eqb_spec c0 c) as [->|]; cbn [andb]; [|apply He].
  destruct (str_eqb_spec k0 k) as [->|]; [|apply He]. injection 1 as <-. exact Hp.
Qed.
(** A disk with such texts. *)
Definition ours (fs : fsys) : Prop := forall d name s, names name -> f_read fs (join d name) = Some s -> T s.
Lemma ours_ok : forall fs st o, ours fs -> hok o (fst (step fs st o)).
Proof. intros fs st [] H; try exact I. cbn [step fst hok]. intros d name s Hn -> E. exact (H d name s Hn E). Qed.
Lemma h_run {A} : forall fs (p : prog A) st, ours fs -> H p -> HInv st -> HInv (snd (run fs p st)).
Proof.
  intros fs p st Hf. revert st. unfold GG. induction p as [a|m| |o k IH]; intros st Hw Hi; cbn [run wgo snd] in *; auto.
  destruct Hw as [Hput Hk]. pose proof (h_step fs st o Hi Hput) as Hi'. pose proof (ours_ok fs st o Hf) as Hx. destruct (step fs st o) as [x st'].
  cbn [fst snd] in *. apply IH; [apply Hk, Hx|exact Hi'].
Qed.
Lemma h_history : forall h fs st, Forall caller (callers h) -> Forall ours (systems fs h) ->
  HInv st -> HInv (snd (run_history fs st h)).
Proof.
  induction h as [|[c|fs'] h IH]; intros fs st Hh Hf Hi; cbn [run_history]; [exact Hi| |].
  - inversion Hf as [|? ? Hf1 _]; subst. assert (Hc : caller (call_resolver c) /\ Forall caller (callers h)) by (destruct c; inversion Hh; subst; split; assumption).
    destruct Hc as [Hc Hh']. pose proof (h_run fs _ st Hf1 (h_call c Hc) Hi) as Hi'.
    destruct (run fs (call_prog c) st) as [o st']. specialize (IH fs st' Hh' Hf Hi').
    destruct (run_history fs st' h) as [[os fs''] st'']. exact IH.
  - inversion Hf as [|? ? _ Hf']; subst. apply IH; assumption.
Qed.
Lemma h_empty : forall seeds, HInv (empty_state seeds).
Proof. intros. constructor; cbn; [discriminate|reflexivity]. Qed.

End Hist.

Lemma last_in_systems : forall h fs0 st, In (snd (fst (run_history fs0 st h))) (systems fs0 h).
Proof.
  induction h as [|[c|f] h IH]; intros fs0 st; cbn [run_history]; [left; reflexivity| |right; apply IH].
  destruct (run fs0 (call_prog c) st) as [o s]. specialize (IH fs0 s). destruct (run_history fs0 s h) as [[? ?] ?]. exact IH.
Qed.
Lemma reread_history : forall js, (forall s j, js s = Some j -> wf_json j) -> forall h fs0 seeds R name f p v,
  texts_apart js (written_on (fun n => In (Some n) (map (fun R => o_desc (rv_opts R)) (R :: callers h))) (systems fs0 h)) ->
  Forall (fun R => rv_json R = js) (R :: callers h) ->
  let '(_, fs, st) := run_history fs0 (empty_state seeds) h in
  o_desc (rv_opts R) = Some name ->
  f_dir fs p = true -> s_pkg st (rv_cache R) (components p) = Some v ->
  f_file fs (join p name) = true ->
  (s_file st (rv_id R) (components (join p name)) = None \/
   exists old t0 t1, s_file st (rv_id R) (components (join p name)) = Some (old, t0) /\
     f_mtime fs (join p name) = MTime t1 /\ (t0 + rv_duration R <= t1)%N) ->
  exists seed, out fs st (load_pkg_file R (S f) p) = answer_of seed (described fs js name p).
Proof.
  intros js Hwf h fs0 seeds R name f p v Ha Hh. inversion Hh as [|? ? Hj Hh']; subst. set (names := fun n => In (Some n) (map (fun R => o_desc (rv_opts R)) (R :: callers h))) in *.
  set (T := written_on names (systems fs0 h)) in *.
  assert (Hours : Forall (ours T names) (systems fs0 h)). { apply Forall_forall. intros fs Hfs d n s Hn E. exists fs, d, n. auto. }
  pose proof (h_history (rv_json R) Hwf T names Ha h fs0 (empty_state seeds)) as Hi. pose proof (last_in_systems h fs0 (empty_state seeds)) as Hl.
  assert (Hc : Forall (caller (rv_json R) names) (callers h)).
  { rewrite Forall_forall in *. intros R' HR'. split; [apply Hh', HR'|]. intros n En. unfold names. rewrite <- En. right. apply (in_map (fun R => o_desc (rv_opts R))), HR'. }
  specialize (Hi Hc Hours (h_empty _ T seeds)). destruct (run_history fs0 (empty_state seeds) h) as [[os fs] st]. cbn [fst snd] in Hi, Hl. intros Hn Hd Hp Hf Ht.
  rewrite Forall_forall in Hours. assert (Hname : names name) by (unfold names; rewrite <- Hn; left; reflexivity).
  eapply reread; eauto. intros s j Hs Ej. destruct Hi as [He Him]. split.
  - intros w t Hw E. exact (He _ _ _ E _ _ _ (Hours fs Hl p name s Hname Hs) Ej Hw eq_refl).
  - intros w t Hw E. rewrite Him in E. discriminate.
Qed.
