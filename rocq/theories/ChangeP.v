(** * Answers after noticeable changes of the file system. *)
From Coq Require Import String.
From Coq Require Import List Arith NArith Bool Lia Permutation.
From Verif Require Import Str StrP Path PathP Json Types Parse Map Prog Desc Resolve Top Run FuelP RunP SpecJson JsonP SpecLoad SpecCache SpellP SimP LoadP GuarP ColdP CacheP HistP SpecChange.
Import ListNotations.

(** ** Storing a well-formed description *)
Section Store.
Variable js : str -> option json.
Hypothesis Hwf : forall s j, js s = Some j -> wf_json j.
Variable T : str -> Prop.
Hypothesis Hapart : texts_apart js T.
Variable fs : fsys.
Variable R : resolver.
Variable name : str.
Hypothesis Hjs : rv_json R = js.
Hypothesis Hdbg : rv_debug R = false.
Hypothesis Hours : ours T (eq name) fs.
Definition same_files (st st' : state) : Prop := s_pkg st' = s_pkg st /\ s_file st' = s_file st.
Lemma exports_run : forall s j st, HInv js T st -> T s -> js s = Some j ->
  exists st', same_files st st' /\ HInv js T st' /\ run fs (load_exports R j) st = (oc (exp_part j), st').
Proof.
  intros s j st Hi HT Hj. pose proof (h_run js T (eq name) fs _ st Hours (h_exports js Hwf T (eq name) R s j HT Hj) Hi) as Hi'. unfold load_exports, exp_part in *.
  destruct (jget j (lit "exports")) as [v|] eqn:Ev; [|exists st; split; [split; reflexivity|split; [exact Hi|reflexivity]]].
  rewrite run_act in *. cbn [step fst snd] in *. destruct (s_exp st (rv_cache R) (to_string v)) as [t|] eqn:E.
  - exists st. destruct Hi as [He Him]. rewrite (He _ _ _ E s j v HT Hj Ev eq_refl). split; [split; reflexivity|split; [split; assumption|reflexivity]].
  - unfold try_ in *. rewrite run_bind, run_lift in *. destruct (build_exports v) as [[t|e]|m|]; eexists; (split; [|split; [|reflexivity]]); try exact Hi'; split; reflexivity.
Qed.
Lemma imports_run : forall s j st, HInv js T st -> T s -> js s = Some j ->
  exists st', same_files st st' /\ HInv js T st' /\ run fs (load_imports R j) st = (oc (imp_part j), st').
Proof.
  intros s j st Hi HT Hj. pose proof (h_run js T (eq name) fs _ st Hours (h_imports js T (eq name) Hapart R s j HT Hj) Hi) as Hi'. unfold load_imports, imp_part in *.
  destruct (jget j (lit "imports")) as [v|] eqn:Ev; [|exists st; split; [split; reflexivity|split; [exact Hi|reflexivity]]].
  rewrite run_act in *. cbn [step fst snd] in *. pose proof (hi_imp _ _ _ Hi (rv_cache R) (to_string v)) as E. rewrite E in *.
  unfold try_ in *. rewrite run_bind, run_lift in *. destruct (build_imports v) as [[t|e]|m|]; eexists; (split; [|split; [|reflexivity]]); try exact Hi'; split; reflexivity.
Qed.
Lemma store_run : forall d st pk0, HInv js T st -> described fs js name d = PRet (Ok pk0) ->
  exists s t pk st', f_read fs (join d name) = Some s /\ f_mtime fs (join d name) = MTime t /\
    run fs (parse_and_store R d (join d name)) st = (Done (Ok (Some pk)), st') /\ pkgeq pk0 pk /\ HInv js T st' /\
    s_pkg st' = upd_path (s_pkg st) (rv_cache R) (components d) (Some (Some pk)) /\
    s_file st' = upd_path (s_file st) (rv_id R) (components (join d name)) (Some (s, t)).
Proof.
  intros d st pk0 Hi Hd. unfold parse_and_store, parse_description_file, dbg_check, try_. rewrite Hdbg. cbn [bind].
  rewrite !run_bind. unfold read_to_string. rewrite run_act. cbn [step fst snd].
  unfold described in Hd. destruct (f_read fs (join d name)) as [s|] eqn:Es; [|discriminate]. pose proof (Hours d name s eq_refl Es) as HT.
  destruct (f_mtime fs (join d name)) as [| |t] eqn:Et; try discriminate. exists s, t.
  unfold try_, get_last_modified. rewrite !run_bind. cbn [act bind run step fst snd]. rewrite Et. cbn [act bind run step fst snd].
  rewrite Hjs. destruct (js s) as [j|] eqn:Ej; [|discriminate]. rewrite run_bind, run_lift.
  destruct (alias_fields_of j) as [af|m|]; try discriminate. cbn [pbind act bind run step fst snd] in *. rewrite run_bind.
  match goal with |- context [run fs (load_exports R j) ?S] => destruct (exports_run s j S) as (st3 & [Hp3 Hf3] & Hi3 & E3) end; [|exact HT|exact Ej|].
  { destruct Hi as [He Him]. split; cbn; assumption. }
  rewrite E3. fold (exp_part j) in Hd. destruct (exp_part j) as [[ex|e]|m|]; try discriminate. cbn [oc pbind] in *. rewrite run_bind.
  destruct (imports_run s j st3 Hi3 HT Ej) as (st4 & [Hp4 Hf4] & Hi4 & E4). rewrite E4.
  fold (imp_part j) in Hd. destruct (imp_part j) as [[im|e]|m|]; try discriminate. cbn [oc pbind] in *.
  destruct (side_effects_of (join d name) j) as [se|e]; [|discriminate]. injection Hd as <-. cbn [run act bind step].
  eexists. eexists. split; [reflexivity|]. split; [reflexivity|]. split; [reflexivity|]. split.
  { unfold pkgeq. cbn. repeat split; auto. apply Permutation_sym, permute_perm. }
  split; [destruct Hi4 as [He Him]; split; cbn; assumption|]. cbn. rewrite Hp4, Hp3, Hf4, Hf3. cbn. split; reflexivity.
Qed.
End Store.

Section Change.
Variable js : str -> option json.
Hypothesis Hwf : forall s j, js s = Some j -> wf_json j.
Variable T : str -> Prop.
Hypothesis Hapart : texts_apart js T.
(** Name of the descriptions of each cache, cache of each resolver, longest refresh period. *)
Variable nm : nat -> str.
Hypothesis Hrel : forall c, is_abs (nm c) = false.
Variable own : nat -> nat.
Variable dur : N.
(** The file systems, one after the other. *)
Variable F : nat -> fsys.
Hypothesis Hours : forall i c, ours T (eq (nm c)) (F i).
Hypothesis HF : forall i, sane_fs (F i).
Hypothesis Hgood : forall i c, all_readable js (nm c) (F i).
Hypothesis Hnote : forall i j c, i <= j -> noticeable (nm c) dur (F i) (F j).
Notation member := (member js nm own dur).

(** The entry [v] for directory [k] was right for [fs]. *)
Definition was_right (fs : fsys) (name : str) (k : list comp) (v : option pkg) : Prop :=
  exists d, components d = k /\ f_dir fs d = true /\
    match v with
    | Some pk => f_file fs (join d name) = true /\ exists pk0, described fs js name d = PRet (Ok pk0) /\ pkgeq pk0 pk
    | None => nearest fs name d = None
    end.
(** The recorded time [t] was right for [fs]. *)
Definition was_seen (fs : fsys) (name : str) (k : list comp) (t : N) : Prop :=
  exists d, components (join d name) = k /\ f_dir fs d = true /\ f_file fs (join d name) = true /\ f_mtime fs (join d name) = MTime t.
Record JInv (n : nat) (st : state) : Prop := {
  ji_h : HInv js T st;
  ji_file : forall r k s t, s_file st r k = Some (s, t) -> exists i, i <= n /\ was_seen (F i) (nm (own r)) k t;
  ji_pkg : forall c k v, s_pkg st c k = Some v -> exists j, j <= n /\ was_right (F j) (nm c) k v /\
     forall r s t d, own r = c -> components d = k -> s_file st r (components (join d (nm c))) = Some (s, t) ->
       exists i, i <= j /\ was_seen (F i) (nm c) (components (join d (nm c))) t
}.
Lemma ji_empty : forall seeds, JInv 0 (empty_state seeds).
Proof. intros. constructor; [apply h_empty|cbn; discriminate..]. Qed.
Lemma ji_later : forall n m st, n <= m -> JInv n st -> JInv m st.
Proof.
  intros n m st Hl [Hh Hf Hp]. constructor; [exact Hh| |].
  - intros r k s t E. destruct (Hf r k s t E) as (i & Hi & H). exists i. split; [lia|exact H].
  - intros c k v E. destruct (Hp c k v E) as (j & Hj & H). exists j. split; [lia|exact H].
Qed.
Lemma key_inj : forall c i j p d, f_dir (F i) p = true -> f_dir (F j) d = true ->
  components (join p (nm c)) = components (join d (nm c)) -> components p = components d.
Proof.
  intros c i j p d Hp Hd E. rewrite !components_join in E; try apply Hrel.
  - eapply app_inv_tail. exact E.
  - intros ->. rewrite (sf_empty _ (HF j)) in Hd. discriminate.
  - intros ->. rewrite (sf_empty _ (HF i)) in Hp. discriminate.
Qed.

Variable n : nat.
Notation fs := (F n).
Definition tri {A} (Q : outcome A -> Prop) (p : prog A) : Prop :=
  forall st, JInv n st -> Q (out fs st p) /\ JInv n (snd (run fs p st)).
Lemma tri_ret {A} : forall (Q : outcome A -> Prop) a, Q (Done a) -> tri Q (Ret a).
Proof. intros Q a H st Hi. split; assumption. Qed.
Lemma tri_panic {A} : forall (Q : outcome A -> Prop) m, Q (Panicked m) -> tri Q (Panic m).
Proof. intros Q a H st Hi. split; assumption. Qed.
Lemma tri_fuel {A} : forall (Q : outcome A -> Prop), Q NoFuel -> tri Q OutOfFuel.
Proof. intros Q H st Hi. split; assumption. Qed.
Lemma tri_mono {A} : forall (p : prog A) (Q Q' : outcome A -> Prop), (forall r, Q r -> Q' r) -> tri Q p -> tri Q' p.
Proof. intros p Q Q' H Hp st Hi. destruct (Hp st Hi). auto. Qed.
Lemma tri_bind {A B} : forall (p : prog A) (f : A -> prog B) (Q : outcome B -> Prop),
  tri (fun r => match r with Done a => tri Q (f a) | Panicked m => Q (Panicked m) | NoFuel => Q NoFuel end) p -> tri Q (bind p f).
Proof.
  intros p f Q H st Hi. destruct (H st Hi) as [H1 H2]. unfold out in *. rewrite run_bind.
  destruct (run fs p st) as [[a|m|] st']; cbn [fst snd] in *; [exact (H1 st' H2)|auto|auto].
Qed.
Definition tok (o : op) : ans o -> Prop :=
  match o return ans o -> Prop with
  | OIsFile p => fun x => x = f_file fs p
  | OIsDir p => fun x => x = f_dir fs p
  | OExists p => fun x => x = f_exists fs p
  | ORead p => fun x => x = f_read fs p
  | OMtime p => fun x => x = f_mtime fs p
  | OCanon p => fun x => x = f_canon fs p
  | _ => fun _ => True
  end.
Lemma tri_do {A} : forall (Q : outcome A -> Prop) o k, reads o -> (forall x, tok o x -> tri Q (k x)) -> tri Q (Do o k).
Proof.
  intros Q o k Hr H st Hi. unfold out. cbn [run].
  assert (Hx : tok o (fst (step fs st o))) by (destruct o; cbn [step fst tok]; auto).
  assert (Hi' : JInv n (snd (step fs st o))).
  { destruct o; cbn [step snd]; try exact Hi; try contradiction; destruct Hi as [[He Him] Hf Hp]; (constructor; [split; assumption|assumption..]). }
  destruct (step fs st o) as [x st']. cbn [fst snd] in *. apply H; assumption.
Qed.
Definition trim : modality.
Proof.
  refine (mkModality tok (fun A => @tri A) false (fun A => @tri_ret A) (fun A => @tri_panic A) (fun A => @tri_fuel A)
    (fun A => @tri_mono A) (fun A B => @tri_bind A B) (fun A => @tri_do A) _). discriminate.
Defined.

(** ** The loader *)
Section Loader.
Variable R : resolver.
Hypothesis HR : member R.
Notation name := (nm (rv_cache R)).
Hypothesis Hname : o_desc (rv_opts R) = Some name.
Notation has d := (f_file fs (join d name)).
Notation look := (lookup_desc fs js (Some name)).
Notation ltop q := (orel (leq eq) (oc (look q))).

Lemma put_inv : forall st st' d v, JInv n st -> HInv js T st' -> f_dir fs d = true ->
  was_right fs name (components d) v ->
  s_pkg st' = upd_path (s_pkg st) (rv_cache R) (components d) (Some v) ->
  (s_file st' = s_file st \/ exists s t, f_mtime fs (join d name) = MTime t /\ has d = true /\
     s_file st' = upd_path (s_file st) (rv_id R) (components (join d name)) (Some (s, t))) ->
  JInv n st'.
Proof.
  intros st st' d v [Hh Hf Hp] Hh' Hd Hv Ep Ef. destruct HR as (_ & Hown & _).
  assert (Hf' : forall r k s t, s_file st' r k = Some (s, t) -> exists i, i <= n /\ was_seen (F i) (nm (own r)) k t).
  { destruct Ef as [Ef|(s0 & t0 & Hm & Hh0 & Ef)]; rewrite Ef; [exact Hf|]. intros r k s t. unfold upd_path.
    destruct (Nat.eqb_spec r (rv_id R)) as [->|]; cbn [andb]; [|apply Hf]. destruct (comps_eqb_spec k (components (join d name))) as [->|]; [|apply Hf].
    injection 1 as <- <-. exists n. split; [lia|]. rewrite Hown. exists d. auto. }
  constructor; [exact Hh'|exact Hf'|].
  intros c k v0. rewrite Ep. unfold upd_path at 1. intros E.
  assert (Hc : (c = rv_cache R /\ k = components d /\ v0 = v) \/ (s_pkg st c k = Some v0 /\ ~ (c = rv_cache R /\ k = components d))).
  { destruct (Nat.eqb_spec c (rv_cache R)) as [->|Hn]; cbn [andb] in E; [|right; tauto].
    destruct (comps_eqb_spec k (components d)) as [->|Hn]; [injection E as <-; left; auto|right; tauto]. }
  clear E. destruct Hc as [(-> & -> & ->)|[E Hn]].
  - exists n. split; [lia|]. split; [exact Hv|]. intros r s t d' Er Ed E. destruct (Hf' _ _ _ _ E) as (i & Hi & H). exists i. rewrite Er in H. auto.
  - destruct (Hp c k v0 E) as (j & Hj & Hr & Hold). exists j. split; [exact Hj|]. split; [exact Hr|]. intros r s t d' Er Ed E'.
    destruct Ef as [Ef|(s0 & t0 & Hm & Hh0 & Ef)]; rewrite Ef in E'; [eapply Hold; eassumption|]. unfold upd_path in E'.
    destruct (Nat.eqb_spec r (rv_id R)) as [->|]; cbn [andb] in E'; [|eapply Hold; eassumption].
    destruct (comps_eqb_spec (components (join d' (nm c))) (components (join d name))) as [Ek|]; [|eapply Hold; eassumption].
    exfalso. apply Hn. assert (c = rv_cache R) as -> by congruence. split; [reflexivity|].
    destruct Hr as (d0 & Ed0 & Hd0 & _). rewrite <- Ed0. eapply (key_inj (rv_cache R) j n); [exact Hd0|exact Hd|].
    rewrite <- Ek. apply join_congr. congruence.
Qed.
Lemma tri_store : forall q, f_dir fs q = true -> has q = true -> tri (ltop q) (parse_and_store R q (join q name)).
Proof.
  intros q Hd Hf st Hi. destruct HR as ((_ & Hj & Hdb) & Hown & Hdu). destruct (Hgood n (rv_cache R) q Hd Hf) as [pk0 E0].
  destruct (store_run js Hwf T Hapart fs R name Hj Hdb (Hours n (rv_cache R)) q st pk0 (ji_h _ _ Hi) E0) as (s & t & pk & st' & Er & Et & E & Hpk & Hh & Ep & Ef).
  unfold out. rewrite E. cbn [fst snd]. split.
  - cbn [orel]. rewrite (look_here fs js name q Hd Hf), E0. cbn [pbind oc]. eexists. split; [reflexivity|exact Hpk].
  - eapply put_inv; [exact Hi|exact Hh|exact Hd| |exact Ep|].
    + exists q. split; [reflexivity|]. split; [exact Hd|]. split; [exact Hf|]. exists pk0. auto.
    + right. exists s, t. auto.
Qed.
Lemma tri_find_up : forall f q, tri (fun r => match r with Done x => x = search fs name q | NoFuel => True | Panicked _ => False end) (find_up f q name).
Proof.
  induction f as [|f IH]; intros q; cbn [find_up]; [apply tri_fuel; exact I|].
  cbn [act bind]. apply tri_do; [exact I|]. intros x Hx. cbn [tok] in Hx. subst x.
  destruct (has q) eqn:Ef.
  - apply tri_ret. unfold search, lineage. cbn [find]. rewrite Ef. reflexivity.
  - destruct (parent q) as [q'|] eqn:Ep.
    + eapply tri_mono; [|apply IH]. intros [x|m|]; auto. intros ->. unfold search. rewrite (lineage_some _ _ Ep). cbn [find]. rewrite Ef. reflexivity.
    + apply tri_ret. unfold search. rewrite (lineage_none _ Ep). cbn [find]. rewrite Ef. reflexivity.
Qed.
Lemma tri_none_loop : forall f q, search fs name q = None ->
  tri (fun r => match r with Done x => x = Ok None | NoFuel => True | Panicked _ => False end) (none_loop R f q).
Proof.
  induction f as [|f IH]; intros q Hs; cbn [none_loop]; [apply tri_fuel; exact I|].
  cbn [act bind]. apply tri_do; [exact I|]. intros x Hx. cbn [tok] in Hx. subst x.
  destruct (f_dir fs q) eqn:Ed; [|apply IH, Hs].
  intros st Hi. unfold out. cbn [run step].
  assert (Hi' : JInv n (set_pkg st (upd_path (s_pkg st) (rv_cache R) (components q) (Some None)))).
  { eapply put_inv; [exact Hi| |exact Ed| |reflexivity|left; reflexivity].
    - destruct (ji_h _ _ Hi) as [He Him]. split; cbn; assumption.
    - exists q. split; [reflexivity|]. split; [exact Ed|]. unfold nearest. rewrite (from_dir_dir _ _ Ed). exact Hs. }
  revert Hi'. generalize (set_pkg st (upd_path (s_pkg st) (rv_cache R) (components q) (Some None))). intros st' Hi'.
  destruct (parent q) as [q'|] eqn:Ep; [|split; [reflexivity|exact Hi']]. apply IH; [|exact Hi'].
  unfold search in *. rewrite (lineage_some _ _ Ep) in Hs. cbn [find] in Hs. destruct (has q); [discriminate|exact Hs].
Qed.
Lemma described_only : forall fs1 fs2 d, f_read fs2 (join d name) = f_read fs1 (join d name) -> f_mtime fs2 (join d name) = f_mtime fs1 (join d name) ->
  described fs2 js name d = described fs1 js name d.
Proof. intros fs1 fs2 d E1 E2. unfold described. rewrite E1, E2. reflexivity. Qed.
(** An entry that is not refreshed is right. *)
Lemma kept_right : forall st q v, JInv n st -> f_dir fs q = true -> s_pkg st (rv_cache R) (components q) = Some v ->
  (has q = true -> exists s t t1, s_file st (rv_id R) (components (join q name)) = Some (s, t) /\ f_mtime fs (join q name) = MTime t1 /\ (t1 < t + dur)%N) ->
  ltop q (Done (Ok v)).
Proof.
  intros st q v Hi Hd Ev Hk. pose proof HR as (_ & Hown & _). destruct (ji_pkg _ _ Hi _ _ _ Ev) as (j & Hj & (d & Ed & Hdj & Hr) & Hold).
  assert (Hqj : f_dir (F j) q = true) by (rewrite <- Hdj; apply (sf_dir _ (HF j)); symmetry; exact Ed).
  destruct (Hnote j n (rv_cache R) Hj q Hqj Hd) as [HA HB]. cbn [orel].
  assert (Hhas : f_file (F j) (join d name) = f_file (F j) (join q name)) by (apply (sf_file _ (HF j)), same_tail_join; exact Ed).
  destruct (has q) eqn:Ef.
  - destruct (Hk eq_refl) as (s & t & t1 & Es & Et & Hlt). clear Hk.
    destruct (Hold _ _ _ q Hown eq_refl Es) as (i & Hij & (d1 & Ed1 & Hd1 & Hf1 & Hm1)).
    assert (Hc1 : components d1 = components q) by (eapply (key_inj (rv_cache R) i n); [exact Hd1|exact Hd|exact Ed1]).
    assert (Hqi : f_dir (F i) q = true) by (rewrite <- Hd1; apply (sf_dir _ (HF i)); symmetry; exact Hc1).
    assert (Hst : same_tail (join d1 name) (join q name)) by (apply same_tail_join; exact Hc1).
    rewrite (sf_file _ (HF i) _ _ Hst) in Hf1. rewrite (sf_mtime _ (HF i) _ _ Hst) in Hm1.
    destruct (Hnote i j (rv_cache R) Hij q Hqi Hqj) as [HA1 _]. destruct (HA1 Hf1) as [Hfj Hmj]. destruct (HA Hfj) as [_ Hmn].
    assert (Hsame : f_read fs (join q name) = f_read (F j) (join q name) /\ f_mtime fs (join q name) = f_mtime (F j) (join q name)).
    { destruct Hmn as [H|(tj & tn & E1 & E2 & Hle)]; [exact H|exfalso]. rewrite Et in E2. injection E2 as <-.
      destruct Hmj as [[_ H]|(ti & tj' & E3 & E4 & Hle')].
      - rewrite H, Hm1 in E1. injection E1 as <-. lia.
      - rewrite Hm1 in E3. injection E3 as <-. rewrite E4 in E1. injection E1 as ->. lia. }
    rewrite (look_here fs js name q Hd Ef), (described_only (F j) fs q (proj1 Hsame) (proj2 Hsame)).
    destruct v as [pk|].
    + destruct Hr as (_ & pk0 & E0 & Hpk). pose proof (described_same (F j) (HF j) js name q d (eq_sym Ed)) as Hs. rewrite E0 in Hs.
      destruct (described (F j) js name q) as [[pk1|e]|m|]; cbn [creq peq] in Hs; try contradiction. cbn [pbind oc].
      eexists. split; [reflexivity|]. cbn [leq okeq]. eapply pkgeq_trans; eassumption.
    + exfalso. unfold nearest in Hr. rewrite (from_dir_dir _ _ Hdj) in Hr. unfold lineage in Hr. cbn [find] in Hr. rewrite Hhas, Hfj in Hr. discriminate.
  - destruct v as [pk|].
    + exfalso. destruct Hr as (Hfj & _). rewrite Hhas in Hfj. destruct (HA Hfj) as [H _]. congruence.
    + assert (Hnj : nearest (F j) name q = None).
      { unfold nearest in *. rewrite (from_dir_dir _ _ Hqj). rewrite (from_dir_dir _ _ Hdj) in Hr.
        pose proof (find_same (F j) (HF j) name _ _ (lineage_same _ _ (Ed : same_path d q))) as Hs. rewrite Hr in Hs.
        destruct (find _ (lineage q)); [contradiction|reflexivity]. }
      destruct (HB Hnj) as [H|H]; [|congruence]. unfold lookup_desc. rewrite H, (from_dir_dir _ _ Hd). unfold lineage. cbn [oc].
      eexists. split; [reflexivity|exact I].
Qed.
Lemma tri_load : forall f q, tri (ltop q) (load_pkg_file R f q).
Proof.
  induction f as [|f IH]; intros q; cbn [load_pkg_file]; [apply tri_fuel; exact I|]. rewrite Hname.
  cbn [act bind]. apply tri_do; [exact I|]. intros x Hx. cbn [tok] in Hx. subst x.
  destruct (f_dir fs q) eqn:Ed; cbn [negb].
  2:{ destruct (parent q) as [q'|] eqn:Ep; [rewrite (look_up _ _ _ _ _ Ed Ep); apply IH|].
      apply tri_ret. cbn [orel]. rewrite (look_top _ _ _ _ Ed Ep). eexists. split; reflexivity. }
  intros st Hi. unfold out. cbn [run step]. destruct (s_pkg st (rv_cache R) (components q)) as [v|] eqn:Ev.
  - unfold try_. rewrite run_bind. unfold check_entry. rewrite run_bind. unfold need_update. rewrite run_act. cbn [step fst snd].
    pose proof HR as ((_ & Hj & Hdb) & Hown & Hdu).
    destruct (has q) eqn:Ef; cbn [negb].
    2:{ cbn [act bind run step fst snd negb]. split; [|exact Hi]. apply (kept_right st q v Hi Ed Ev). congruence. }
    assert (Hre := tri_store q Ed Ef st Hi). unfold out in Hre. rewrite Hdb.
    rewrite run_act. cbn [step fst snd]. destruct (s_file st (rv_id R) (components (join q name))) as [[s t]|] eqn:Es; [|cbn [act bind run step fst snd negb]; exact Hre].
    assert (Hm : exists t1, f_mtime fs (join q name) = MTime t1 /\ (t <= t1)%N).
    { destruct (ji_pkg _ _ Hi _ _ _ Ev) as (j & Hjn & _ & Hold). destruct (Hold _ _ _ q Hown eq_refl Es) as (i & Hij & (d1 & Ed1 & Hd1 & Hf1 & Hm1)).
      assert (Hc1 : components d1 = components q) by (eapply (key_inj (rv_cache R) i n); [exact Hd1|exact Ed|exact Ed1]).
      assert (Hqi : f_dir (F i) q = true) by (rewrite <- Hd1; apply (sf_dir _ (HF i)); symmetry; exact Hc1).
      assert (Hst : same_tail (join d1 name) (join q name)) by (apply same_tail_join; exact Hc1).
      rewrite (sf_file _ (HF i) _ _ Hst) in Hf1. rewrite (sf_mtime _ (HF i) _ _ Hst) in Hm1.
      destruct (Hnote i n (rv_cache R) ltac:(lia) q Hqi Ed) as [HA _]. destruct (HA Hf1) as [_ [[_ H]|(ti & tn & E1 & E2 & Hle)]].
      - exists t. rewrite H, Hm1. split; [reflexivity|lia].
      - rewrite Hm1 in E1. injection E1 as <-. exists tn. split; [exact E2|lia]. }
    destruct Hm as (t1 & Et & Hle). unfold try_. rewrite run_bind. unfold get_last_modified. rewrite run_act. cbn [step fst snd].
    rewrite Et. cbn [run]. destruct (N.ltb_spec t1 t) as [H|_]; [lia|]. cbn [run].
    destruct (N.leb_spec (rv_duration R) (t1 - t)) as [_|Hlt]; cbn [act bind run step fst snd negb]; [exact Hre|]. split; [|exact Hi].
    apply (kept_right st q v Hi Ed Ev). intros _. exists s, t, t1. split; [exact Es|]. split; [exact Et|lia].
  - assert (Hrest : tri (ltop q) (isf <- act (OIsFile (join q name)) ;;
       if isf then parse_and_store R q (join q name)
       else t <- find_up f q name ;; match t with Some dir => load_pkg_file R f dir | None => none_loop R f q end)).
    { cbn [act bind]. apply tri_do; [exact I|]. intros x Hx. cbn [tok] in Hx. subst x.
      destruct (has q) eqn:Ef; [apply tri_store; assumption|].
      apply tri_bind. eapply tri_mono; [|apply tri_find_up]. intros [x|m|]; [|contradiction|auto]. intros ->.
      destruct (search fs name q) as [d|] eqn:Es.
      + rewrite (look_found _ (HF n) _ _ _ _ Ed Es). apply IH.
      + eapply tri_mono; [|apply tri_none_loop, Es]. intros [x|m|]; [|contradiction|auto]. intros ->.
        cbn [orel]. rewrite (look_dir _ _ _ _ Ed), Es. eexists. split; [reflexivity|exact I]. }
    exact (Hrest st Hi).
Qed.
End Loader.
Lemma tri_right : forall R f, member R -> load_right fs js trim R f.
Proof.
  intros R f HR p. destruct HR as ((Hn & H) & H'). destruct Hn as [Hn|Hn].
  - destruct f; [apply tri_fuel; exact I|]. cbn [load_pkg_file]. rewrite Hn. apply tri_ret. cbn. eexists. split; [reflexivity|exact I].
  - rewrite Hn. apply tri_load; [|exact Hn]. split; [split; [right; exact Hn|exact H]|exact H'].
Qed.
Lemma trim_plain : plain_answers fs trim.
Proof. repeat (split; [intros p x Hx; exact Hx|]). intros p x Hx; exact Hx. Qed.
Lemma tri_call : forall c, member (call_resolver c) -> steady fs js c -> tri (orel ansrel (ev_fs fs (call_fresh fs js c))) (call_prog c).
Proof.
  intros c HR Hs. apply (call_sim fs (HF n) js nm trim eq_refl trim_plain c (proj1 HR)); [apply tri_right, HR|exact Hs].
Qed.
(** Calls that are not steady still leave the tables in order. *)
Lemma tri_keeps : forall c, member (call_resolver c) -> tri (fun _ => True) (call_prog c).
Proof.
  intros c HR.
  assert (Hb : forall A B (p : prog A) (f : A -> prog B), tri (fun _ => True) p -> (forall a, tri (fun _ => True) (f a)) -> tri (fun _ => True) (bind p f)).
  { intros A B p f Hp Hf. apply tri_bind. eapply tri_mono; [|exact Hp]. intros [a|m|] _; auto. }
  assert (Hl : forall f p, tri (fun _ => True) (load_pkg_file (call_resolver c) f p)).
  { intros f p. eapply tri_mono; [|apply (tri_right _ f HR p)]. auto. }
  destruct c as [R f base req|R f p]; cbn [call_resolver call_prog] in *; (apply Hb; [|intros; apply tri_ret; exact I]).
  - apply (closed_resolve_with (fun A => @tri A (fun _ => True))); auto.
    + intros A a. apply tri_ret. exact I.
    + intros A m. apply tri_panic. exact I.
    + intros A. apply tri_fuel. exact I.
    + intros o Ho. unfold act. apply tri_do; [exact (queries_reads _ Ho)|]. intros x _. apply tri_ret. exact I.
  - unfold load_side_effects, try_. apply Hb; [apply Hl|]. intros [[pk|]|e]; [|apply tri_ret; exact I..].
    destruct (o_desc (rv_opts R)); [apply tri_ret; exact I|apply tri_panic; exact I].
Qed.
Lemma members_agree : forall c f st st', member (call_resolver c) -> steady fs js c -> JInv n st -> JInv n st' ->
  same_outcome same_answer (out fs st (call_prog c)) (out fs st' (call_prog (with_fuel c f))).
Proof.
  intros c f st st' HR Hs Hi Hi'. destruct (with_fuel_id c) as [f0 E]. apply (outcomes_agree fs js c f0 f).
  - rewrite <- E. apply tri_call; assumption.
  - apply tri_call; [rewrite resolver_fuel|apply steady_fuel|]; assumption.
Qed.
End Change.

(** ** Histories *)
Lemma noticeable_refl : forall name dur fs, noticeable name dur fs fs.
Proof. intros name dur fs d _ _. split; auto. Qed.
Section Histories.
Variable js : str -> option json.
Hypothesis Hwf : forall s j, js s = Some j -> wf_json j.
Variable nm : nat -> str.
Hypothesis Hrel : forall c, is_abs (nm c) = false.
Variable own : nat -> nat.
Variable dur : N.
Section Seq.
Variable T : str -> Prop.
Hypothesis Hapart : texts_apart js T.
Variable F : nat -> fsys.
Hypothesis Hours : forall i c, ours T (eq (nm c)) (F i).
Hypothesis HF : forall i, sane_fs (F i).
Hypothesis Hgood : forall i c, all_readable js (nm c) (F i).
Hypothesis Hnote : forall i j c, i <= j -> noticeable (nm c) dur (F i) (F j).
Lemma history_jinv : forall h n st, (forall k fs, nth_error (systems (F n) h) k = Some fs -> fs = F (n + k)) ->
  Forall (member js nm own dur) (callers h) -> JInv js T nm own F n st ->
  exists m, snd (fst (run_history (F n) st h)) = F m /\ JInv js T nm own F m (snd (run_history (F n) st h)).
Proof.
  induction h as [|[c|fs'] h IH]; intros n st Hk Hm Hi; cbn [run_history].
  - exists n. split; [reflexivity|exact Hi].
  - assert (Hc : member js nm own dur (call_resolver c) /\ Forall (member js nm own dur) (callers h)).
    { destruct c; cbn [callers flat_map app] in Hm; inversion Hm; subst; split; assumption. }
    destruct Hc as [Hc Hm'].
    destruct (tri_keeps js Hwf T Hapart nm Hrel own dur F Hours HF Hgood Hnote n c Hc st Hi) as [_ Hi'].
    destruct (run (F n) (call_prog c) st) as [o st']. cbn [snd] in Hi'. specialize (IH n st' Hk Hm' Hi').
    destruct (run_history (F n) st' h) as [[os fs''] st'']. exact IH.
  - assert (fs' = F (S n)) as ->. { rewrite <- Nat.add_1_r. apply Hk. reflexivity. }
    apply IH; [|exact Hm|eapply ji_later; [|exact Hi]; lia]. intros k fs E. replace (S n + k) with (n + S k) by lia. apply Hk. exact E.
Qed.
End Seq.
Lemma ord_nth {A} : forall (P : A -> A -> Prop) l, ForallOrdPairs P l -> forall i j x y, i < j -> nth_error l i = Some x -> nth_error l j = Some y -> P x y.
Proof.
  intros P l H. induction H as [|a l Ha Hl IH]; intros i j x y Hlt Hx Hy; [destruct i; discriminate|].
  destruct j as [|j]; [lia|]. cbn [nth_error] in Hy. destruct i as [|i].
  - injection Hx as <-. rewrite Forall_forall in Ha. apply Ha. eapply nth_error_In. exact Hy.
  - eapply (IH i j); [lia|exact Hx|exact Hy].
Qed.
(** A list of file systems as a sequence that stays at its last one. *)
Lemma seq_of : forall fs0 rest, Forall (fun fs => sane_fs fs /\ forall k, all_readable js (nm k) fs) (fs0 :: rest) ->
  ForallOrdPairs (fun fs fs' => forall k, noticeable (nm k) dur fs fs') (fs0 :: rest) ->
  exists F : nat -> fsys, (forall i, In (F i) (fs0 :: rest)) /\ (forall i, sane_fs (F i)) /\ (forall i c, all_readable js (nm c) (F i)) /\
    (forall i j c, i <= j -> noticeable (nm c) dur (F i) (F j)) /\ forall k fs, nth_error (fs0 :: rest) k = Some fs -> fs = F k.
Proof.
  intros fs0 rest Hall Hord. set (l := fs0 :: rest) in *. set (lst := last l fs0).
  set (F := fun i => nth i l lst).
  assert (Hlast : In lst l). { unfold lst, l. clear. revert fs0. induction rest as [|x r IH]; intros fs0; [left; reflexivity|]. cbn [last]. destruct r as [|y r]; [right; left; reflexivity|]. right.
    assert (E : last (y :: r) fs0 = last (y :: r) x). { clear. revert y. induction r as [|z r IH]; intros y; [reflexivity|]. cbn [last]. apply IH. }
    change (In (last (y :: r) fs0) (x :: y :: r)). rewrite E. apply (IH x). }
  assert (HIn : forall i, In (F i) l). { intros i. unfold F. destruct (nth_in_or_default i l lst) as [H|H]; [exact H|rewrite H; exact Hlast]. }
  rewrite Forall_forall in Hall.
  assert (Hcase : forall i, (i < length l /\ nth_error l i = Some (F i)) \/ F i = lst).
  { intros i. destruct (Nat.lt_ge_cases i (length l)) as [H|H]; [left; split; [exact H|apply nth_error_nth'; exact H]|right; apply nth_overflow; exact H]. }
  assert (Hlen : nth_error l (length l - 1) = Some lst).
  { unfold lst. assert (Hne : l <> []) by (unfold l; discriminate). clearbody l. clear -Hne. revert Hne. induction l as [|a [|b l] IH]; intros Hne; [congruence|reflexivity|].
    specialize (IH ltac:(discriminate)). cbn [length] in *. replace (S (S (length l)) - 1) with (S (S (length l) - 1)) by lia. exact IH. }
  assert (Hnote : forall i j k, i <= j -> noticeable (nm k) dur (F i) (F j)).
  { intros i j k Hij. destruct (Hcase i) as [[Hi Ei]|Ei].
    - destruct (Hcase j) as [[Hj Ej]|Ej].
      + destruct (Nat.eq_dec i j) as [->|Hn]; [apply noticeable_refl|]. apply (ord_nth _ _ Hord i j); [lia|exact Ei|exact Ej].
      + rewrite Ej. destruct (Nat.eq_dec i (length l - 1)) as [->|Hn].
        * assert (E : F (length l - 1) = lst) by congruence. rewrite E. apply noticeable_refl.
        * apply (ord_nth _ _ Hord i (length l - 1)); [lia|exact Ei|exact Hlen].
    - destruct (Hcase j) as [[Hj Ej]|Ej]; [|rewrite Ei, Ej; apply noticeable_refl].
      destruct (Nat.lt_ge_cases i (length l)) as [H|H]; [|lia]. destruct (Nat.eq_dec i j) as [->|Hn]; [apply noticeable_refl|].
      apply (ord_nth _ _ Hord i j); [lia| |exact Ej]. unfold F. apply nth_error_nth'. exact H. }
  exists F. split; [exact HIn|]. split; [intros i; apply (Hall _ (HIn i))|]. split; [intros i; apply (Hall _ (HIn i))|]. split; [exact Hnote|].
  intros k fs Ek. unfold F. symmetry. apply nth_error_nth. exact Ek.
Qed.
(** The texts of the descriptions of a history. *)
Notation T0 fs0 h := (written_on (fun n => exists k, n = nm k) (systems fs0 h)).
Lemma changes_jinv : forall fs0 h seeds, texts_apart js (T0 fs0 h) ->
  Forall (fun fs => sane_fs fs /\ forall k, all_readable js (nm k) fs) (systems fs0 h) ->
  ForallOrdPairs (fun fs fs' => forall k, noticeable (nm k) dur fs fs') (systems fs0 h) ->
  Forall (member js nm own dur) (callers h) ->
  exists F m, (forall i c, ours (T0 fs0 h) (eq (nm c)) (F i)) /\ (forall i, sane_fs (F i)) /\ (forall i c, all_readable js (nm c) (F i)) /\ (forall i j c, i <= j -> noticeable (nm c) dur (F i) (F j)) /\
    snd (fst (run_history fs0 (empty_state seeds) h)) = F m /\ JInv js (T0 fs0 h) nm own F m (snd (run_history fs0 (empty_state seeds) h)).
Proof.
  intros fs0 h seeds Hap Hall Hord Hm. destruct (seq_of _ _ Hall Hord) as (F & HIn & HF & Hg & Hnote & Hk).
  assert (H0 : F 0 = fs0) by (symmetry; apply Hk; reflexivity).
  assert (Hours : forall i c, ours (T0 fs0 h) (eq (nm c)) (F i)). { intros i c d n s <- E. exists (F i), d, (nm c). split; [apply HIn|]. eauto. }
  destruct (history_jinv _ Hap F Hours HF Hg Hnote h 0 (empty_state seeds)) as (m & E & Hi).
  - intros k fs Ek. rewrite H0 in Ek. exact (Hk k fs Ek).
  - exact Hm.
  - apply ji_empty.
  - rewrite H0 in E, Hi. exists F, m. repeat (split; [assumption|]). exact Hi.
Qed.
Lemma changes_agree : forall fs0 h seeds seeds' c f, texts_apart js (T0 fs0 h) ->
  Forall (fun fs => sane_fs fs /\ forall k, all_readable js (nm k) fs) (systems fs0 h) ->
  ForallOrdPairs (fun fs fs' => forall k, noticeable (nm k) dur fs fs') (systems fs0 h) ->
  Forall (member js nm own dur) (callers h) -> member js nm own dur (call_resolver c) ->
  let '(_, fs, st) := run_history fs0 (empty_state seeds) h in
  steady fs js c -> same_outcome same_answer (out fs st (call_prog c)) (out fs (empty_state seeds') (call_prog (with_fuel c f))).
Proof.
  intros fs0 h seeds seeds' c f Hap Hall Hord Hm Hc. destruct (changes_jinv fs0 h seeds Hap Hall Hord Hm) as (F & m & HT & HF & Hg & Hn & E & Hi).
  destruct (run_history fs0 (empty_state seeds) h) as [[os fs] st]. cbn [fst snd] in E, Hi. subst fs. intros Hs.
  apply (members_agree js Hwf _ Hap nm Hrel own dur F HT HF Hg Hn m); auto. eapply ji_later; [|apply ji_empty]. lia.
Qed.
End Histories.
