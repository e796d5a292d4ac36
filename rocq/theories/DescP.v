(** * Loaded descriptions: proofs for PropDesc.v *)
From Coq Require Import String.
From Coq Require Import List Arith NArith Bool Lia Permutation.
From Verif Require Import Str StrP Path PathP Json Types Parse Map Prog Desc Resolve Top Run RunP SpecJson JsonP SpecRun LookupP GuarP SpecDesc.
Import ListNotations.

(** ** The fields *)
Lemma opt_text : forall j n, text_member j n (opt_str (jget j n)).
Proof. intros j n. unfold opt_str. destruct (jget j n) as [[]|] eqn:E; cbn [as_str text_member]; congruence. Qed.
Lemma side_strings_map : forall fp l t, side_strings fp l = Ok t -> l = map JStr t.
Proof.
  induction l as [|v l IH]; intros t H; cbn [side_strings] in H; [injection H as <-; reflexivity|].
  destruct v; cbn [as_str] in H; try discriminate. destruct (side_strings fp l) as [t'|e]; [|discriminate].
  injection H as <-. cbn [map]. rewrite <- (IH t' eq_refl). reflexivity.
Qed.
Lemma side_says : forall fp j o, side_effects_of fp j = Ok o -> says_side j o.
Proof.
  intros fp j o. unfold side_effects_of. destruct (jget j (lit "sideEffects")) as [v|] eqn:E; [|intros [= <-]; exact E].
  destruct v; cbn [as_bool as_array]; try discriminate; [intros [= <-]; exact E|].
  destruct (side_strings fp l) as [t|e] eqn:Et; [|discriminate]. intros [= <-]. cbn [says_side]. rewrite E, (side_strings_map _ _ _ Et). reflexivity.
Qed.
Definition entry_in (l : list (str * json)) (k : str) (e : alias_map) : Prop :=
  exists a v b, l = a ++ (k, v) :: b /\ usable v e /\ forall v' e', In (k, v') b -> ~ usable v' e'.
Lemma entry_cons : forall k0 v0 l k e, entry_in ((k0, v0) :: l) k e <->
  entry_in l k e \/ (k0 = k /\ usable v0 e /\ forall v' e', In (k, v') l -> ~ usable v' e').
Proof.
  intros k0 v0 l k e. split.
  - intros ([|x a] & v & b & E & Hu & Hn).
    + injection E as -> -> ->. right. auto.
    + injection E as _ E. left. exists a, v, b. auto.
  - intros [(a & v & b & -> & Hu & Hn)|(-> & Hu & Hn)].
    + exists ((k0, v0) :: a), v, b. auto.
    + exists [], v0, l. auto.
Qed.
Lemma usable_dec : forall (l : list (str * json)) k, (exists v e, In (k, v) l /\ usable v e) \/ forall v e, In (k, v) l -> ~ usable v e.
Proof.
  induction l as [|[k0 v0] l IH]; intros k; [right; intros v e []|].
  destruct (IH k) as [(v & e & Hi & Hu)|Hn]; [left; exists v, e; split; [right; exact Hi|exact Hu]|].
  destruct (str_eqb_spec k0 k) as [->|Hk].
  - assert (D : (exists e, usable v0 e) \/ forall e, ~ usable v0 e).
    { destruct v0 as [|[|]| |s| |]; try (right; intros e H; inversion H; fail); left; eexists; constructor. }
    destruct D as [[e He]|He]; [left; exists v0, e; split; [left; reflexivity|exact He]|].
    right. intros v e [E|Hi] Hu; [injection E as <-; exact (He e Hu)|exact (Hn v e Hi Hu)].
  - right. intros v e [E|Hi] Hu; [injection E as ? ?; contradiction|exact (Hn v e Hi Hu)].
Qed.
Lemma entry_some : forall l k v e, In (k, v) l -> usable v e -> exists e', entry_in l k e'.
Proof.
  induction l as [|[k0 v0] l IH]; intros k v e Hi Hu; [contradiction|]. destruct (usable_dec l k) as [(v' & e' & Hi' & Hu')|Hn].
  - destruct (IH _ _ _ Hi' Hu') as [e'' H]. exists e''. apply entry_cons. left. exact H.
  - destruct Hi as [E|Hi]; [|exfalso; exact (Hn v e Hi Hu)]. injection E as -> ->. exists e. apply entry_cons. right. auto.
Qed.
Lemma usable_insert {v e e'} : usable v e -> usable v e' -> e = e'.
Proof. intros H H'. destruct H; inversion H'; reflexivity. Qed.
Lemma imap_in_get {A} : forall (m : imap A) k v, NoDup (map fst m) -> (In (k, v) m <-> imap_get m k = Some v).
Proof.
  intros m k v Hn. split; [|apply imap_get_In]. induction m as [|[k0 v0] m IH]; [intros []|]. cbn [map fst] in Hn. inversion Hn as [|? ? H1 H2]; subst.
  intros [E|Hi]; cbn [imap_get].
  - injection E as -> ->. destruct (str_eqb_spec k k); [reflexivity|contradiction].
  - destruct (str_eqb_spec k0 k) as [->|]; [|apply IH; assumption]. exfalso. apply H1, in_map_iff. exists (k, v). auto.
Qed.
Lemma browser_fields_in : forall l acc af, browser_fields l acc = PRet af -> NoDup (map fst acc) -> NoDup (map fst af) /\
  forall k e, imap_get af k = Some e <-> entry_in l k e \/ (imap_get acc k = Some e /\ forall v e', In (k, v) l -> ~ usable v e').
Proof.
  induction l as [|[k0 v0] l IH]; intros acc af H Hn; cbn [browser_fields] in H.
  - injection H as <-. split; [exact Hn|]. intros k e. split; [intros H; right; split; [exact H|intros v e' []]|].
    intros [([|] & v & b & E & _)|[H _]]; [discriminate E|discriminate E|exact H].
  - assert (Hskip : (forall e, ~ usable v0 e) -> browser_fields l acc = PRet af -> NoDup (map fst af) /\
      forall k e, imap_get af k = Some e <-> entry_in ((k0, v0) :: l) k e \/ (imap_get acc k = Some e /\ forall v e', In (k, v) ((k0, v0) :: l) -> ~ usable v e')).
    { intros Hv H'. destruct (IH _ _ H' Hn) as [Hd Hg]. split; [exact Hd|]. intros k e. rewrite Hg, entry_cons. split.
      - intros [He|[He Hx]]; [auto|]. right. split; [exact He|]. intros v e' [E|Hi]; [injection E as <- <-; apply Hv|apply Hx; exact Hi].
      - intros [[He|(_ & Hu & _)]|[He Hx]]; [auto|exfalso; exact (Hv _ Hu)|]. right. split; [exact He|]. intros v e' Hi. apply Hx. right. exact Hi. }
    assert (Hput : forall e0, usable v0 e0 -> browser_fields l (imap_insert acc k0 e0) = PRet af -> NoDup (map fst af) /\
      forall k e, imap_get af k = Some e <-> entry_in ((k0, v0) :: l) k e \/ (imap_get acc k = Some e /\ forall v e', In (k, v) ((k0, v0) :: l) -> ~ usable v e')).
    { intros e0 Hv H'. destruct (IH _ _ H' (imap_insert_nodup _ _ _ Hn)) as [Hd Hg]. split; [exact Hd|]. intros k e. rewrite Hg, entry_cons.
      destruct (str_eqb_spec k0 k) as [->|Hk].
      - rewrite imap_get_insert_eq. split.
        + intros [He|[He Hx]]; [auto|]. injection He as <-. left. right. auto.
        + intros [[He|(_ & Hu & Hx)]|[He Hx]]; [auto| |exfalso; exact (Hx _ _ (or_introl eq_refl) Hv)].
          right. split; [rewrite (usable_insert Hu Hv); reflexivity|exact Hx].
      - rewrite imap_get_insert_ne by exact Hk. split.
        + intros [He|[He Hx]]; [auto|]. right. split; [exact He|]. intros v e' [E|Hi]; [injection E as ? ?; contradiction|apply Hx; exact Hi].
        + intros [[He|(E & _)]|[He Hx]]; [auto|contradiction|]. right. split; [exact He|]. intros v e' Hi. apply Hx. right. exact Hi. }
    destruct v0 as [|[|]| |s| |]; try discriminate H; try (apply Hskip; [intros e He; inversion He|exact H]); (eapply Hput; [constructor|exact H]).
Qed.
Lemma alias_told : forall j af seed, alias_fields_of j = PRet af ->
  NoDup (map fst (permute seed af)) /\ forall k e, In (k, e) (permute seed af) <-> browser_entry j k e.
Proof.
  intros j af seed H.
  assert (Hx : NoDup (map fst af) /\ forall k e, In (k, e) af <-> browser_entry j k e).
  { unfold alias_fields_of in H. unfold browser_entry. destruct (jget j (lit "browser")) as [v|].
    2:{ injection H as <-. split; [constructor|]. intros k e. split; [intros []|]. intros (a & v & b & E & _). discriminate E. }
    destruct (as_object v) as [l|] eqn:Ea.
    2:{ injection H as <-. split; [constructor|]. intros k e. split; [intros []|]. intros (a & w & b & E & _). injection E as ->. discriminate Ea. }
    destruct v; try discriminate Ea. injection Ea as ->. destruct (browser_fields_in l [] af H) as [Hd Hg]; [constructor|]. split; [exact Hd|].
    intros k e. rewrite (imap_in_get _ _ _ Hd), Hg. split.
    - intros [(a & v & b & -> & Hr)|[E _]]; [exists a, v, b; auto|discriminate E].
    - intros (a & v & b & E & Hr). injection E as ->. left. exists a, v, b. auto. }
  destruct Hx as [Hd Hi]. pose proof (permute_perm af seed) as Hp. split.
  - eapply Permutation_NoDup; [apply Permutation_map, Permutation_sym, Hp|exact Hd].
  - intros k e. rewrite <- Hi. split; apply Permutation_in; [exact Hp|apply Permutation_sym, Hp].
Qed.

(** ** The guarantee *)
Section D.
Variable seen : fsys -> Prop.
Variable js : str -> option json.
Hypothesis Hwf : forall s j, js s = Some j -> wf_json j.
Variable nm : nat -> str.
Definition grown (k : str) (t : ptn) : Prop := exists s j fld v, js s = Some j /\ jget j fld = Some v /\ to_string v = k /\
  (build_exports v = PRet (Ok t) \/ build_imports v = PRet (Ok t)).
Definition tells (c : nat) (v : option pkg) : Prop := match v with Some pk => told seen js (nm c) pk | None => True end.
Definition dok (o : op) : ans o -> Prop :=
  match o return ans o -> Prop with
  | ORead p => fun x => match x with Some s => exists fs, seen fs /\ f_read fs p = Some s | None => True end
  | OPkgGet c p => fun x => match x with Some v => tells c v | None => True end
  | OExpGet c k => fun x => match x with Some t => grown k t | None => True end
  | OImpGet c k => fun x => x = None
  | _ => fun _ => True
  end.
Definition dput (o : op) : Prop := match o with OPkgPut c _ v => tells c v | OExpPut _ k t => grown k t | _ => True end.
Fixpoint dg {A} (Q : A -> Prop) (p : prog A) : Prop :=
  match p with
  | Ret a => Q a
  | Panic _ | OutOfFuel => True
  | Do o k => dput o /\ forall x, dok o x -> dg Q (k x)
  end.
Lemma dg_bind {A B} : forall (p : prog A) (f : A -> prog B) (Q : A -> Prop) Q', dg Q p -> (forall a, Q a -> dg Q' (f a)) -> dg Q' (bind p f).
Proof.
  intros p f Q Q'. induction p as [a|m| |o k IH]; intros Hp Hf; cbn [bind dg] in *; auto. destruct Hp as [Ho Hk]. split; [exact Ho|].
  intros x Hx. apply IH; auto.
Qed.
Lemma dg_mono {A} : forall (p : prog A) (Q Q' : A -> Prop), dg Q p -> (forall a, Q a -> Q' a) -> dg Q' p.
Proof. intros p Q Q'. induction p as [a|m| |o k IH]; intros Hp Hf; cbn [dg] in *; auto. destruct Hp as [Ho Hk]. split; auto. Qed.
Lemma dg_try {A B} : forall (p : prog (result A)) (f : A -> prog (result B)) (Q : A -> Prop) (Q' : result B -> Prop),
  dg (fun r => match r with Ok a => Q a | Err _ => True end) p -> (forall a, Q a -> dg Q' (f a)) -> (forall e, Q' (Err e)) -> dg Q' (try_ p f).
Proof. intros p f Q Q' Hp Hf He. eapply dg_bind; [exact Hp|]. intros [a|e] H; cbn [dg]; auto. Qed.
Notation T := (fun _ => True).
Lemma dg_act {B} : forall o (f : ans o -> prog B) Q, dput o -> (forall x, dok o x -> dg Q (f x)) -> dg Q (bind (act o) f).
Proof. intros o f Q Ho Hf. cbn [act bind dg]. auto. Qed.
Definition okp (c : nat) (r : result (option pkg)) : Prop := match r with Ok v => tells c v | Err _ => True end.

Variable R : resolver.
Hypothesis HR : reads_with js nm R.
Lemma d_modified : forall p, dg T (get_last_modified p).
Proof. intros p. apply dg_act; [exact I|]. intros [] _; exact I. Qed.
Lemma d_check : forall d p, dg T (check_entry R d p).
Proof.
  intros d p. unfold check_entry. eapply dg_bind with (Q := T).
  - unfold need_update. apply dg_act; [exact I|]. intros [|] _; cbn [negb]; [|exact I]. apply dg_act; [exact I|]. intros [[s t]|] _; [|exact I].
    eapply dg_try with (Q := T); [eapply dg_mono; [apply d_modified|intros [|]; auto]| |auto]. intros n _. destruct (N.ltb n t); exact I.
  - intros u _. eapply dg_bind with (Q := T); [destruct u as [[|]|]; try exact I; destruct (rv_debug R); [cbn; auto|exact I]|].
    intros _ _. apply dg_act; [exact I|]. intros; exact I.
Qed.
Lemma d_exports : forall s j, js s = Some j -> dg (fun r => match r with Ok o => match o with
    | None => jget j (lit "exports") = None
    | Some t => exists v, jget j (lit "exports") = Some v /\ (build_exports v = PRet (Ok t) \/ build_imports v = PRet (Ok t))
    end | Err _ => True end) (load_exports R j).
Proof.
  intros s j Hj. unfold load_exports. destruct (jget j (lit "exports")) as [v|] eqn:Ev; [|reflexivity]. apply dg_act; [exact I|]. intros [t|] Ht.
  - exists v. split; [reflexivity|]. destruct Ht as (s' & j' & fld & v' & Hj' & Hv' & E & Hb).
    assert (v' = v) as ->; [|exact Hb].
    apply to_string_inj; [eapply wf_get; [eapply Hwf; exact Hj'|exact Hv']|eapply wf_get; [eapply Hwf; exact Hj|exact Ev]|exact E].
  - destruct (build_exports v) as [[t|e]| |] eqn:Eb; try exact I. cbn [lift try_ bind]. apply dg_act.
    + exists s, j, (lit "exports"), v. auto.
    + intros _ _. exists v. auto.
Qed.
Lemma d_imports : forall s j, js s = Some j -> dg (fun r => match r with Ok o => match o with
    | None => jget j (lit "imports") = None
    | Some t => exists v, jget j (lit "imports") = Some v /\ build_imports v = PRet (Ok t)
    end | Err _ => True end) (load_imports R j).
Proof.
  intros s j Hj. unfold load_imports. destruct (jget j (lit "imports")) as [v|] eqn:Ev; [|reflexivity]. apply dg_act; [exact I|]. intros [t|] Ht; [discriminate Ht|].
  destruct (build_imports v) as [[t|e]| |] eqn:Eb; try exact I. cbn [lift try_ bind]. apply dg_act.
  - exists s, j, (lit "imports"), v. auto.
  - intros _ _. exists v. auto.
Qed.
Lemma d_store : forall p, dg (okp (rv_cache R)) (parse_and_store R p (join p (nm (rv_cache R)))).
Proof.
  intros p. destruct HR as [Hj _]. unfold parse_and_store. eapply dg_try with (Q := told seen js (nm (rv_cache R))); [|intros pk Hpk|intros; exact I].
  2:{ apply dg_act; [exact Hpk|]. intros _ _. exact Hpk. }
  unfold parse_description_file. set (fp := join p (nm (rv_cache R))). eapply dg_bind with (Q := T).
  { unfold dbg_check. destruct (rv_debug R); [|exact I]. apply dg_act; [exact I|]. intros [|] _; [exact I|]. cbn. auto. }
  intros _ _. eapply dg_bind with (Q := fun r => match r with Ok s => exists fs, seen fs /\ f_read fs fp = Some s | Err _ => True end).
  { unfold read_to_string. apply dg_act; [exact I|]. intros [s|] Hs; [|exact I]. eapply dg_try with (Q := T); [| |intros; exact I].
    - eapply dg_mono; [apply d_modified|]. intros [|]; auto.
    - intros t _. apply dg_act; [exact I|]. intros _ _. exact Hs. }
  intros [s|e] Hs; [|exact I]. rewrite Hj. destruct (js s) as [j|] eqn:Ej; [|exact I].
  destruct (alias_fields_of j) as [af|m|] eqn:Ea; [|exact I..]. cbn [lift bind]. apply dg_act; [exact I|]. intros seed _.
  eapply dg_try; [eapply d_exports; exact Ej| |intros; exact I]. intros ex Hex. eapply dg_try; [eapply d_imports; exact Ej| |intros; exact I]. intros im Him. cbv zeta.
  destruct (side_effects_of fp j) as [se|e] eqn:Es; [|exact I]. cbn [dg]. destruct (alias_told j af seed Ea) as [H1 H2].
  constructor; cbn [p_dir p_name p_version p_alias p_exports p_imports p_side p_raw]; auto.
  - destruct Hs as (fs & Hf & Hr). exists fs, s. auto.
  - apply opt_text.
  - apply opt_text.
  - eapply side_says. exact Es.
Qed.
Lemma d_find : forall f p n, dg T (find_up f p n).
Proof.
  induction f as [|f IH]; intros p n; cbn [find_up]; [exact I|]. apply dg_act; [exact I|]. intros [|] _; [exact I|]. destruct (parent p); [apply IH|exact I].
Qed.
Lemma d_none : forall f p, dg (okp (rv_cache R)) (none_loop R f p).
Proof.
  induction f as [|f IH]; intros p; cbn [none_loop]; [exact I|]. apply dg_act; [exact I|]. intros [|] _; [|apply IH].
  apply dg_act; [exact I|]. intros _ _. destruct (parent p); [apply IH|exact I].
Qed.
Lemma d_load : forall f p, dg (okp (rv_cache R)) (load_pkg_file R f p).
Proof.
  induction f as [|f IH]; intros p; cbn [load_pkg_file]; [exact I|]. destruct HR as [_ [Hn|Hn]]; rewrite Hn; [exact I|].
  apply dg_act; [exact I|]. intros [|] _; cbn [negb]; [|destruct (parent p); [apply IH|exact I]]. cbv zeta.
  apply dg_act; [exact I|]. intros [v|] Hv.
  - eapply dg_try with (Q := T); [eapply dg_mono; [apply d_check|intros [|]; auto]| |intros; exact I]. intros [|] _; cbn [negb]; [apply d_store|exact Hv].
  - apply dg_act; [exact I|]. intros [|] _; [apply d_store|]. eapply dg_bind; [apply d_find|]. intros [d|] _; [apply IH|apply d_none].
Qed.
End D.
Lemma d_call : forall seen js (Hwf : forall s j, js s = Some j -> wf_json j) nm c, call_reads js nm c -> dg seen js nm (fun _ => True) (call_prog c).
Proof.
  intros seen js Hwf nm [R f base req|R f p] Hc; cbn [call_reads call_prog] in *.
  - eapply dg_bind with (Q := fun _ => True); [|intros; exact I]. apply (closed_resolve_with (fun A => @dg seen js nm A (fun _ => True))); try (intros; exact I).
    + intros A B p g Hp Hg. eapply dg_bind; [exact Hp|]. auto.
    + intros o Ho. cbn [act dg]. split; [destruct o; try exact I; contradiction|auto].
    + intros q. eapply dg_mono; [eapply d_load; eassumption|auto].
  - eapply dg_bind with (Q := fun _ => True); [|intros; exact I]. unfold load_side_effects. eapply dg_try with (Q := fun _ => True); [| |auto].
    + eapply dg_mono; [eapply d_load; eassumption|]. intros [|]; auto.
    + intros [pk|] _; [|exact I]. destruct (o_desc (rv_opts R)); exact I.
Qed.

(** ** Tables *)
Section Tables.
Variable seen : fsys -> Prop.
Variable js : str -> option json.
Hypothesis Hwf : forall s j, js s = Some j -> wf_json j.
Variable nm : nat -> str.
Notation dg := (dg seen js nm).
Record all_told (st : state) : Prop := {
  at_pkg : forall c k pk, s_pkg st c k = Some (Some pk) -> told seen js (nm c) pk;
  at_exp : forall c k t, s_exp st c k = Some t -> grown js k t;
  at_imp : forall c k, s_imp st c k = None
}.
Lemma step_told : forall fs st o, seen fs -> all_told st -> dput seen js nm o -> all_told (snd (step fs st o)) /\ dok seen js nm o (fst (step fs st o)).
Proof.
  intros fs st o Hfs Hst Ho. pose proof Hst as [H1 H2 H3]. destruct o; cbn [step snd fst dok] in *; try (split; [exact Hst|exact I]).
  - split; [exact Hst|]. destruct (f_read fs p) as [s|] eqn:E; [|exact I]. exists fs. auto.
  - split; [exact Hst|]. destruct (s_pkg st c (components p)) as [[pk|]|] eqn:E; try exact I. eapply H1. exact E.
  - split; [|exact I]. constructor; auto. intros c0 k0 pk. cbn. unfold upd_path. destruct (Nat.eqb_spec c0 c) as [->|]; cbn [andb]; [|apply H1].
    destruct (comps_eqb k0 (components p)); [|apply H1]. intros E. injection E as ->. exact Ho.
  - split; [exact Hst|]. destruct (s_exp st c k) as [t|] eqn:E; [|exact I]. eapply H2. exact E.
  - split; [|exact I]. constructor; auto. intros c0 k0 t0. cbn. unfold upd_str. destruct (Nat.eqb_spec c0 c) as [->|]; cbn [andb]; [|apply H2].
    destruct (str_eqb_spec k0 k) as [->|]; [|apply H2]. intros E. injection E as <-. exact Ho.
  - split; [exact Hst|]. apply H3.
  - split; [constructor; assumption|exact I].
  - split; [constructor; assumption|exact I].
  - split; [constructor; assumption|exact I].
  - split; [constructor; assumption|exact I].
Qed.
Lemma run_told {A} : forall fs (Q : A -> Prop) (p : prog A) st, seen fs -> dg Q p -> all_told st ->
  all_told (snd (run fs p st)) /\ match fst (run fs p st) with Done a => Q a | _ => True end.
Proof.
  intros fs Q p. induction p as [a|m| |o k IH]; intros st Hfs Hp Hst; cbn [run DescP.dg fst snd] in *; auto.
  destruct Hp as [Ho Hk]. destruct (step_told fs st o Hfs Hst Ho) as [H1 H2]. destruct (step fs st o) as [x st']. cbn [fst snd] in *. apply IH; auto.
Qed.
Lemma step_nth_told {A} : forall fs (l : list (prog A)) i st, seen fs -> Forall (dg (fun _ => True)) l -> all_told st ->
  Forall (dg (fun _ => True)) (fst (step_nth fs st i l)) /\ all_told (snd (step_nth fs st i l)).
Proof.
  intros fs l. induction l as [|p l IH]; intros i st Hfs Hl Hst; [destruct i; auto|]. inversion Hl as [|? ? Hp Hl']; subst.
  destruct i as [|i]; cbn [step_nth].
  - destruct p as [a|m| |o k]; cbn [thread_step fst snd]; try (split; [exact Hl|exact Hst]). destruct Hp as [Ho Hk].
    destruct (step_told fs st o Hfs Hst Ho) as [H1 H2]. destruct (step fs st o) as [x st']. cbn [fst snd] in *. split; [constructor; auto|exact H1].
  - specialize (IH i st Hfs Hl' Hst). destruct (step_nth fs st i l) as [l' st']. cbn [fst snd] in *. destruct IH as [H1 H2]. split; [constructor; auto|exact H2].
Qed.
Lemma moving_told {A} : forall sched (l : list (prog A)) st, Forall (fun x => seen (fst x)) sched -> Forall (dg (fun _ => True)) l -> all_told st ->
  all_told (snd (run_moving sched st l)).
Proof.
  induction sched as [|[fs i] sched IH]; intros l st Hs Hl Hst; [exact Hst|]. inversion Hs as [|? ? H1 H2]; subst. cbn [run_moving fst] in *.
  destruct (step_nth_told fs l i st H1 Hl Hst) as [H3 H4]. destruct (step_nth fs st i l) as [l' st']. apply IH; assumption.
Qed.
Lemma empty_told : forall seeds, all_told (empty_state seeds).
Proof. intros seeds. constructor; [discriminate|discriminate|reflexivity]. Qed.
Lemma sched_told : forall calls sched seeds, Forall (call_reads js nm) calls -> Forall (fun x => seen (fst x)) sched ->
  all_told (snd (run_moving sched (empty_state seeds) (map call_prog calls))).
Proof.
  intros calls sched seeds Hc Hs. apply moving_told; [exact Hs| |apply empty_told]. apply Forall_forall. intros p Hp. apply in_map_iff in Hp.
  destruct Hp as (c & <- & Hi). apply d_call; [exact Hwf|]. eapply Forall_forall in Hc; eassumption.
Qed.
Lemma loaded_told : forall fs R f p st pk st', seen fs -> reads_with js nm R -> all_told st ->
  run fs (load_pkg_file R f p) st = (Done (Ok (Some pk)), st') -> told seen js (nm (rv_cache R)) pk.
Proof.
  intros fs R f p st pk st' Hfs HR Hst E. destruct (run_told fs _ _ st Hfs (d_load seen js Hwf nm R HR f p) Hst) as [_ H]. rewrite E in H. exact H.
Qed.
End Tables.

(** ** Final statements *)
Section Final.
Variable seen : fsys -> Prop.
Variable js : str -> option json.
Hypothesis Hwf : forall s j, js s = Some j -> wf_json j.
Variable nm : nat -> str.
Variables (calls : list call) (sched : list (fsys * nat)) (seeds : nat -> list nat).
Hypothesis Hc : Forall (call_reads js nm) calls.
Hypothesis Hs : Forall (fun x => seen (fst x)) sched.
Notation st := (snd (run_moving sched (empty_state seeds) (map call_prog calls))).
Lemma fin_56_tables : forall c k pk, s_pkg st c k = Some (Some pk) -> told seen js (nm c) pk.
Proof. intros c k pk. apply (at_pkg _ _ _ _ (sched_told seen js Hwf nm calls sched seeds Hc Hs)). Qed.
Lemma fin_56_loaded : forall fs R f p pk st', seen fs -> reads_with js nm R ->
  run fs (load_pkg_file R f p) st = (Done (Ok (Some pk)), st') -> told seen js (nm (rv_cache R)) pk.
Proof. intros fs R f p pk st' Hfs HR E. eapply loaded_told; eauto using sched_told. Qed.
Lemma fin_56_side : forall fs R f p q se st', seen fs -> reads_with js nm R ->
  run fs (load_side_effects R f p) st = (Done (Ok (Some (q, se))), st') ->
  exists fs' s j, seen fs' /\ f_read fs' q = Some s /\ js s = Some j /\ says_side j se.
Proof.
  intros fs R f p q se st' Hfs HR E. unfold load_side_effects, try_ in E. rewrite run_bind in E.
  destruct (run fs (load_pkg_file R f p) st) as [[[[pk|]|e]|m|] st1] eqn:El; try discriminate E.
  pose proof HR as [_ [Hn|Hn]]; rewrite Hn in E; [discriminate E|]. injection E as <- <- <-.
  destruct (fin_56_loaded _ _ _ _ _ _ Hfs HR El) as [(fs' & s & H1 & H2 & H3) _ _ _ _ H4 _ _]. exists fs', s, (p_raw pk). auto.
Qed.
Lemma leads_chain : forall name pk v e, told seen js name pk -> leads (p_raw pk) v e -> chain (imap_get (p_alias pk)) v e.
Proof.
  intros name pk v e [_ _ _ Hb Hd _ _ _] H.
  assert (G : forall k x, imap_get (p_alias pk) k = Some x <-> browser_entry (p_raw pk) k x) by (intros; rewrite <- Hb; symmetry; apply imap_in_get, Hd).
  induction H as [|s Hn|s v e Hs' Hl IH]; [constructor| |].
  - apply ChEnd. destruct (imap_get (p_alias pk) s) as [x|] eqn:E; [|reflexivity]. exfalso. apply G in E. exact (Hn _ E).
  - eapply ChStep; [apply G; exact Hs'|exact IH].
Qed.
Lemma fin_26_object : forall fs R f0 i pk st1 k v e, seen fs -> reads_with js nm R -> no_remap R (i_path i) (r_target (i_req i)) ->
  r_kind (i_req i) = get_target_kind (r_target (i_req i)) -> starts_with_char (r_target (i_req i)) c_hash = false ->
  run fs (load_pkg_file R f0 (match r_kind (i_req i) with Normal => join (join (i_path i) MODULE) (r_target (i_req i)) | _ => get_path i end)) st = (Done (Ok (Some pk)), st1) ->
  o_browser (rv_opts R) = true ->
  browser_entry (p_raw pk) k v -> browser_key (rv_opts R) (p_dir pk) i k ->
  (forall k' v', browser_entry (p_raw pk) k' v' -> browser_key (rv_opts R) (p_dir pk) i k' -> k' = k) ->
  leads (p_raw pk) v e ->
  exists n, forall f, n <= f -> run fs (resolve_ R (load_pkg_file R f0) (S f) i) st =
    match e with
    | AIgnored => (Done (Success RIgnored), st1)
    | ATarget t => let (r, st') := run fs (final_step R (load_pkg_file R f0) (S f) (mkInfo (p_dir pk) (req_with_target (i_req i) t))) st1 in (settled i r, st')
    end.
Proof.
  intros fs R f0 i pk st1 k v e Hfs HR Hr Hk Hh Hl Ho He Hkey Hu Hld. pose proof (fin_56_loaded _ _ _ _ _ _ Hfs HR Hl) as Ht.
  pose proof Ht as [_ _ _ Hb Hd _ _ _]. pose proof (proj2 (Hb k v) He) as Hin. apply in_split in Hin. destruct Hin as (l1 & l2 & El).
  eapply browser_request; try eassumption; [|eapply leads_chain; eassumption].
  intros k' v' Hi Hk'. assert (Hi' : In (k', v') (p_alias pk)) by (rewrite El; apply in_app_iff; left; exact Hi).
  assert (k' = k) by (eapply Hu; [apply Hb; exact Hi'|exact Hk']). subst k'. rewrite El, map_app in Hd. cbn [map fst] in Hd.
  apply NoDup_remove_2 in Hd. apply Hd, in_app_iff. left. apply in_map_iff. exists (k, v'). auto.
Qed.
End Final.
