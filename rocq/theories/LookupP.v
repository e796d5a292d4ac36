(** * Steps of a resolution: aliases, prefer_relative, files, directories, node_modules. *)
From Coq Require Import String.
From Coq Require Import List Arith NArith Bool Lia.
From Verif Require Import Str StrP Path PathP Json Types Parse ParseP Map Prog Desc Resolve Top Run Exec ExecP ApiP FuelP RunP SpecRun TsP.
Import ListNotations.

(** What [_resolve] does with the last status  (src/lib.rs:244-256). *)
Definition finish_ (i : info) (s : stats) : prog stats :=
  match s with
  | Success r => Ret (Success r)
  | SError e ei => Ret (SError (if str_eqb e TAG then resolve_failed_message i else e) ei)
  | Resolving _ => Panic p_unreachable
  end.
Definition tail_ (R : resolver) load (f : nat) (i : info) : prog stats :=
  s <- and_then (pkg_step R load (S f) i) (final_step R load (S f)) ;; finish_ i s.

Lemma run_ret_bind {A B} : forall fs (a : A) (f : A -> prog B) st, run fs (bind (Ret a) f) st = run fs (f a) st.
Proof. reflexivity. Qed.

Lemma resolve__plain : forall R load fs f i st,
  (forall rec, alias_apply R rec i = Ret (Resolving i)) -> (forall rec, prefer_relative_apply R rec i = Ret (Resolving i)) ->
  run fs (resolve_ R load (S f) i) st = run fs (tail_ R load f i) st.
Proof.
  intros R load fs f i st Ha Hp. cbn [resolve_]. unfold tail_. rewrite Ha. cbn [and_then bind]. rewrite Hp. reflexivity.
Qed.
Lemma plain_alias : forall R rec i, alias_apply (plain R) rec i = Ret (Resolving i).
Proof. intros R rec i. unfold alias_apply. cbn. destruct (contains _ _); reflexivity. Qed.
Lemma plain_prefer : forall R rec i, prefer_relative_apply (plain R) rec i = Ret (Resolving i).
Proof. intros R rec i. unfold prefer_relative_apply. cbn [plain with_opts rv_opts plain_opts o_prefer_relative]. destruct (_ || _); reflexivity. Qed.
Lemma plain_tail : forall R load f i, tail_ (plain R) load f i = tail_ R load f i.
Proof. intros [[] ? ? ? ? ? ?] load f i. reflexivity. Qed.
Lemma plain_run : forall R load fs f i st, run fs (resolve_ (plain R) load (S f) i) st = run fs (tail_ R load f i) st.
Proof.
  intros. rewrite resolve__plain; [|intros; apply plain_alias|intros; apply plain_prefer]. rewrite plain_tail. reflexivity.
Qed.
Lemma plain_load : forall R f p, load_pkg_file (plain R) f p = load_pkg_file R f p.
Proof. intros [[] ? ? ? ? ? ?] f p. reflexivity. Qed.

Lemma first_of_default : forall d d' l st r st', (forall st r st', d st = (r, st') -> d' st = (r, st')) ->
  first_of l d st r st' -> first_of l d' st r st'.
Proof.
  intros d d' l st r st' H E. destruct E.
  - eapply FOHit; eassumption.
  - eapply FOMiss; [eassumption|]. apply H. assumption.
  - eapply FOPanic; eassumption.
  - eapply FOFuel; eassumption.
Qed.

(** ** Aliases *)
Lemma replacen1_prefix : forall from rest to, replacen1 (from ++ rest) from to = to ++ rest.
Proof.
  intros from rest to. destruct (from ++ rest) as [|c r] eqn:E; cbn [replacen1].
  - rewrite <- E, starts_with_app, skipn_app, skipn_all, Nat.sub_diag. reflexivity.
  - rewrite <- E, starts_with_app, skipn_app, skipn_all, Nat.sub_diag. reflexivity.
Qed.
Lemma prefix_dec : forall p s, starts_with s p = true <-> prefix p s.
Proof. intros. apply starts_with_spec. Qed.
Lemma alias_loop_run : forall fs rec i l cs b, alias_plan (r_target (i_req i)) l cs b -> forall (k : info -> prog stats) (d : attempt) more st r st',
  (b = true -> d = (fun st => (Done (Success RIgnored), st))) ->
  (b = false -> forall st, run fs (k i) st = (r, st') -> first_of more d st r st') ->
  (b = true -> more = []) ->
  run fs (and_then (alias_loop rec i l) k) st = (r, st') ->
  first_of (map (fun t => run fs (rec (retarget i t))) cs ++ more) d st r st'.
Proof.
  intros fs rec i l cs b H. induction H as [|from to l cs b Hn H IH|from l Hp|from to l cs b Hp Ht H IH|from to rest l cs b Ht Hn H IH];
    intros k d more st r st' Hd Hk Hm Hr; cbn [alias_loop map app] in *.
  - apply Hk; [reflexivity|]. exact Hr.
  - replace (starts_with (r_target (i_req i)) from) with false in Hr; [eauto|].
    symmetry. destruct (starts_with _ _) eqn:E; [apply prefix_dec in E; contradiction|reflexivity].
  - apply prefix_dec in Hp. rewrite Hp in Hr. cbn in Hr. inversion Hr; subst. rewrite (Hm eq_refl).
    eapply FOMiss; [constructor|]. rewrite Hd; reflexivity.
  - apply prefix_dec in Hp. rewrite Hp in Hr. apply prefix_dec in Ht. rewrite Ht, orb_true_r in Hr. eauto.
  - rewrite Ht in Hr at 1. rewrite starts_with_app in Hr.
    assert (E1 : starts_with (r_target (i_req i)) to = false).
    { destruct (starts_with _ to) eqn:E; [apply prefix_dec in E; contradiction|reflexivity]. }
    assert (E2 : str_eqb (r_target (i_req i)) to = false).
    { apply str_eqb_neq. intros E. apply Hn. exists []. rewrite app_nil_r. exact E. }
    rewrite E1, E2 in Hr. cbn [orb] in Hr. rewrite Ht in Hr at 1. rewrite replacen1_prefix in Hr.
    apply first_of_cons. unfold retarget at 1. unfold and_then in Hr. rewrite run_bind, run_bind in Hr.
    destruct (run fs (rec (mkInfo (i_path i) (req_with_target (i_req i) (to ++ rest)))) st) as [[s|m|] st1]; try exact Hr.
    destruct (is_success s) eqn:Es.
    + destruct s; try discriminate. exact Hr.
    + eapply IH; eauto. unfold and_then. rewrite run_bind. exact Hr.
Qed.

Definition no_alias_here (R : resolver) (i : info) : Prop := contains (i_path i) MODULE = true.
Lemma prefix_prop_dec : forall p s, {prefix p s} + {~ prefix p s}.
Proof. intros p s. destruct (starts_with s p) eqn:E; [left; apply prefix_dec, E|right; intros H; apply prefix_dec in H; congruence]. Qed.
Lemma alias_plan_total : forall t l, exists cs b, alias_plan t l cs b.
Proof.
  intros t. induction l as [|[from to] l [cs [b IH]]]; [exists [], false; apply APNil|].
  destruct (prefix_prop_dec from t) as [[rest Hp]|Hn]; [|exists cs, b; apply APOther; assumption].
  destruct to as [to|].
  - destruct (prefix_prop_dec to t) as [Ht|Ht].
    + exists cs, b. apply APAlready; auto. exists rest. exact Hp.
    + exists ((to ++ rest) :: cs), b. apply APRewrite; auto.
  - exists [], true. apply APIgnored. exists rest. exact Hp.
Qed.

(** [resolve_] as attempts: the alias rewritings, then (unless an [Ignored] alias was met) the
    relative spelling if asked for, then the plain resolution. *)
Lemma prefer_run : forall R load fs f i st r st',
  run fs (s <- and_then (and_then (prefer_relative_apply R (resolve_ R load f) i) (pkg_step R load (S f))) (final_step R load (S f)) ;; finish_ i s) st = (r, st') ->
  first_of (map (fun t => run fs (resolve_ R load f (retarget i t))) (prefer_list R i)) (run fs (tail_ R load f i)) st r st'.
Proof.
  intros R load fs f i st r st' H. unfold prefer_list, prefer_relative_apply in *.
  destruct (_ || _).
  - rewrite andb_false_r. cbn [map]. eapply FOMiss; [constructor|exact H].
  - rewrite andb_true_r. destruct (o_prefer_relative (rv_opts R)); cbn [map]; [|eapply FOMiss; [constructor|exact H]].
    apply first_of_cons. unfold retarget. unfold and_then in H. rewrite run_bind, run_bind, run_bind, run_bind in H.
    destruct (run fs (resolve_ R load f (mkInfo (i_path i) (req_with_target (i_req i) (lit "./" ++ r_target (i_req i))))) st) as [[s|m|] st1];
      try exact H.
    destruct (is_success s) eqn:Es.
    + destruct s; try discriminate. exact H.
    + eapply FOMiss; [constructor|]. unfold tail_, and_then. rewrite run_bind, run_bind. exact H.
Qed.
(** [finish_] only acts on failures. *)
Lemma resolve__attempts : forall R load fs f i cs b st r st', contains (i_path i) MODULE = false ->
  alias_plan (r_target (i_req i)) (o_alias (rv_opts R)) cs b ->
  run fs (resolve_ R load (S f) i) st = (r, st') ->
  first_of (map (fun t => run fs (resolve_ R load f (retarget i t))) (cs ++ if b then [] else prefer_list R i))
    (if b then (fun st => (Done (Success RIgnored), st)) else run fs (resolve_ (plain R) load (S f) i)) st r st'.
Proof.
  intros R load fs f i cs b st r st' Hc Hp H. rewrite map_app.
  assert (H' : run fs (and_then (alias_loop (resolve_ R load f) i (o_alias (rv_opts R)))
     (fun i1 => s <- and_then (and_then (prefer_relative_apply R (resolve_ R load f) i1) (pkg_step R load (S f))) (final_step R load (S f)) ;; finish_ i s)) st = (r, st')).
  { cbn [resolve_] in H. unfold alias_apply in H. rewrite Hc in H. unfold and_then in *. rewrite !run_bind in H. rewrite !run_bind.
    destruct (run fs (alias_loop (resolve_ R load f) i (o_alias (rv_opts R))) st) as [[[x|i1|e i1]|m|] st1] eqn:E; try exact H.
    - rewrite !run_bind. exact H.
    - (* aliases never end in an error *)
      exfalso. clear -E. revert st E. induction (o_alias (rv_opts R)) as [|[from to] l IH]; intros st E; cbn [alias_loop] in E; [inversion E|].
      destruct (starts_with _ from); [|eauto]. destruct to as [t|]; [|inversion E].
      destruct (_ || _); [eauto|]. rewrite run_bind in E.
      match type of E with context[run fs ?p st] => destruct (run fs p st) as [[s|m|] st2] end; try discriminate.
      destruct (is_success s) eqn:Es; [inversion E; subst; discriminate|eauto]. }
  eapply alias_loop_run; [exact Hp| | | |exact H'].
  - intros ->. reflexivity.
  - intros -> st1 H1.
    assert (E : first_of (map (fun t => run fs (resolve_ R load f (retarget i t))) (prefer_list R i)) (run fs (tail_ R load f i)) st1 r st').
    { apply prefer_run, H1. }
    revert E. apply first_of_default. intros. rewrite plain_run. assumption.
  - intros ->. reflexivity.
Qed.
Lemma resolve__in_modules : forall R load fs f i st r st', contains (i_path i) MODULE = true ->
  run fs (resolve_ R load (S f) i) st = (r, st') ->
  first_of (map (fun t => run fs (resolve_ R load f (retarget i t))) (prefer_list R i))
    (run fs (resolve_ (plain R) load (S f) i)) st r st'.
Proof.
  intros R load fs f i st r st' Hc H. cbn [resolve_] in H. unfold alias_apply in H. rewrite Hc in H. cbn [and_then bind] in H.
  assert (E : first_of (map (fun t => run fs (resolve_ R load f (retarget i t))) (prefer_list R i)) (run fs (tail_ R load f i)) st r st').
  { apply prefer_run, H. }
  revert E. apply first_of_default. intros. rewrite plain_run. assumption.
Qed.

(** ** Files *)
Lemma enforce_spec : forall R, enforce R = match o_enforce (rv_opts R) with Some true => true | _ => false end.
Proof. intros R. unfold enforce. destruct (o_enforce (rv_opts R)) as [[]|]; reflexivity. Qed.
(** The checks made up to the first file. *)
Fixpoint checks (fs : fsys) (l : list path) : list ev :=
  match l with
  | [] => []
  | p :: r => mkev (OIsFile p) (f_file fs p) :: if f_file fs p then [] else checks fs r
  end.
Lemma extensions_run : forall fs p i exts st, run fs (extensions_loop p i exts) st =
  (Done (match pick fs (map (fun e => p ++ e) exts) with Some q => picked i q | None => Resolving i end), st).
Proof.
  intros fs p i exts st. induction exts as [|e r IH]; [reflexivity|]. cbn [extensions_loop act bind run step map pick find].
  unfold append_ext. destruct (f_file fs (p ++ e)); [reflexivity|]. exact IH.
Qed.
Lemma extensions_tr : forall fs p i exts st, run_tr fs (extensions_loop p i exts) st = checks fs (map (fun e => p ++ e) exts).
Proof.
  intros fs p i exts st. induction exts as [|e r IH]; [reflexivity|]. cbn [extensions_loop act bind run_tr step map checks].
  unfold append_ext. destruct (f_file fs (p ++ e)); [reflexivity|]. rewrite IH. reflexivity.
Qed.
Lemma as_file_run : forall fs R i st, run fs (resolve_as_file R i) st =
  (Done (match pick fs (file_candidates (rv_opts R) (get_path i)) with Some q => picked i q | None => Resolving i end), st).
Proof.
  intros fs R i st. unfold resolve_as_file, extensions_apply, file_candidates. rewrite enforce_spec.
  destruct (o_enforce (rv_opts R)) as [[]|]; cbn [negb]; [apply extensions_run| |];
    cbn [act bind run step app pick find]; (destruct (f_file fs (get_path i)); [reflexivity|]; apply extensions_run).
Qed.
Lemma as_file_tr : forall fs R i st, run_tr fs (resolve_as_file R i) st = checks fs (file_candidates (rv_opts R) (get_path i)).
Proof.
  intros fs R i st. unfold resolve_as_file, extensions_apply, file_candidates. rewrite enforce_spec.
  destruct (o_enforce (rv_opts R)) as [[]|]; cbn [negb]; [apply extensions_tr| |];
    cbn [act bind run_tr step app checks]; (destruct (f_file fs (get_path i)); [reflexivity|]; rewrite extensions_tr; reflexivity).
Qed.
Lemma pick_some : forall fs l q, pick fs l = Some q <-> first_file fs l q.
Proof.
  intros fs l q. unfold pick, first_file. split.
  - induction l as [|p r IH]; cbn [find]; [discriminate|]. destruct (f_file fs p) eqn:E.
    + intros H. inversion H; subst. exists [], r. auto.
    + intros H. destruct (IH H) as [l1 [l2 [-> [H1 H2]]]]. exists (p :: l1), l2. auto.
  - intros [l1 [l2 [-> [H1 H2]]]]. induction H1 as [|p l1 Hp H1 IH]; cbn [app find]; [rewrite H2; reflexivity|].
    rewrite Hp. exact IH.
Qed.
Lemma pick_none : forall fs l, pick fs l = None <-> no_file fs l.
Proof.
  intros fs l. unfold pick, no_file. split.
  - intros H. apply Forall_forall. intros p Hp. exact (find_none _ _ H p Hp).
  - intros H. destruct (find (f_file fs) l) as [p|] eqn:E; [|reflexivity]. apply find_some in E. destruct E as [Hi E].
    rewrite Forall_forall in H. rewrite (H p Hi) in E. discriminate.
Qed.
Lemma checks_first : forall fs l1 q l2, Forall (fun p => f_file fs p = false) l1 -> f_file fs q = true ->
  checks fs (l1 ++ q :: l2) = map (fun p => mkev (OIsFile p) false) l1 ++ [mkev (OIsFile q) true].
Proof.
  intros fs l1 q l2 H Hq. induction H as [|p l1 Hp H IH]; cbn [app checks map].
  - rewrite Hq. reflexivity.
  - rewrite Hp. f_equal. exact IH.
Qed.
Lemma run_tr_bind {A B} : forall fs (p : prog A) (f : A -> prog B) st,
  run_tr fs (bind p f) st = run_tr fs p st ++
    match run fs p st with (Done a, st') => run_tr fs (f a) st' | _ => [] end.
Proof.
  intros fs p f. induction p as [a|m| |o k IH]; intros st; cbn [bind run_tr run app]; try reflexivity.
  destruct (step fs st o) as [x st']. cbn [app]. f_equal. apply IH.
Qed.

Lemma alias_field_off : forall R f opk i, o_browser (rv_opts R) = false -> alias_field_apply R f opk i = Ret (Resolving i).
Proof. intros R f opk i H. unfold alias_field_apply. rewrite H. reflexivity. Qed.
Lemma settled_run : forall fs p i st, run fs (s <- p ;; finish_ i s) st = let (r, st') := run fs p st in (settled i r, st').
Proof.
  intros fs p i st. rewrite run_bind. destruct (run fs p st) as [[[r|i'|e i']|m|] st']; reflexivity.
Qed.
Lemma finish_tr : forall fs i s st, run_tr fs (finish_ i s) st = [].
Proof. intros fs i [] st; reflexivity. Qed.

(** ** The browser field *)
Lemma comps_eqb_eq : forall a b, comps_eqb a b = true <-> a = b.
Proof.
  induction a as [|x a IH]; intros [|y b]; cbn [comps_eqb]; split; intros H; try discriminate; try reflexivity.
  - apply andb_true_iff in H. destruct H as [H1 H2]. apply IH in H2. subst b. f_equal.
    destruct x, y; cbn [comp_eqb] in H1; try discriminate; try reflexivity. apply str_eqb_eq in H1. congruence.
  - inversion H; subst. apply andb_true_iff. split; [|apply IH; reflexivity].
    destruct y; cbn [comp_eqb]; auto. apply str_eqb_refl.
Qed.
Lemma path_eqb_eq : forall p q, path_eqb p q = true <-> components p = components q.
Proof. intros. apply comps_eqb_eq. Qed.
Lemma should_deal_spec : forall R pk i k, should_deal_alias R pk i k = true <-> browser_key (rv_opts R) (p_dir pk) i k.
Proof.
  intros R pk i k. unfold should_deal_alias, browser_key, alias_key_path_matches.
  assert (H : (path_eqb (join (p_dir pk) k) (get_path i) ||
     existsb (fun ext => path_eqb (join (p_dir pk) k) (append_ext (get_path i) ext)) (o_extensions (rv_opts R)) = true) <->
     (components (join (p_dir pk) k) = components (get_path i) \/
      exists ext, In ext (o_extensions (rv_opts R)) /\ components (join (p_dir pk) k) = components (get_path i ++ ext))).
  { rewrite orb_true_iff, path_eqb_eq, existsb_exists. unfold append_ext.
    split; intros [H|[e [H1 H2]]]; auto; right; exists e; split; auto; apply path_eqb_eq, H2. }
  destruct (r_kind (i_req i)); try exact H. rewrite str_eqb_eq. split; intros; congruence.
Qed.
Lemma alias_field_silent : forall R f opk i, browser_silent (rv_opts R) opk i -> alias_field_apply R f opk i = Ret (Resolving i).
Proof.
  intros R f opk i [H|H]; [apply alias_field_off, H|]. unfold alias_field_apply.
  destruct (negb _); [reflexivity|]. destruct opk as [pk|]; [|reflexivity]. specialize (H pk).
  assert (H' : forall l, (forall k v, In (k, v) l -> ~ browser_key (rv_opts R) (p_dir pk) i k) ->
    alias_field_loop R f pk i l = Ret (Resolving i)).
  { induction l as [|[k v] l IH]; intros Hl; [reflexivity|]. cbn [alias_field_loop].
    destruct (should_deal_alias R pk i k) eqn:E.
    - apply should_deal_spec in E. exfalso. apply (Hl k v); [left; reflexivity|exact E].
    - apply IH. intros k' v' Hin. apply (Hl k' v'). right. exact Hin. }
  apply H'. intros k v. apply H. reflexivity.
Qed.
Lemma chase_sound : forall f v af e, chase f v af = PRet e -> chain (imap_get af) v e.
Proof.
  induction f as [|f IH]; intros v af e H; cbn [chase] in H; [discriminate|]. destruct v as [s|].
  - destruct (imap_get af s) as [n|] eqn:E; [eapply ChStep; eauto|]. inversion H; subst. apply ChEnd, E.
  - inversion H; subst. apply ChIgnored.
Qed.
Lemma chase_complete : forall v af e, chain (imap_get af) v e -> exists n, forall f, n <= f -> chase f v af = PRet e.
Proof.
  intros v af e H. induction H as [|s H|s v e H Hc [n IH]].
  - exists 1. intros [|f] Hf; [lia|reflexivity].
  - exists 1. intros [|f] Hf; [lia|]. cbn [chase]. rewrite H. reflexivity.
  - exists (S n). intros [|f] Hf; [lia|]. cbn [chase]. rewrite H. apply IH. lia.
Qed.
Lemma chain_fun : forall get v e, chain get v e -> forall e', chain get v e' -> e = e'.
Proof.
  intros get v e H. induction H as [|s H|s v e H Hc IH]; intros e' He'; inversion He'; subst; try congruence.
  apply IH. congruence.
Qed.
Lemma alias_field_loop_hit : forall R f pk i l k v,
  (forall k' v', In (k', v') l -> browser_key (rv_opts R) (p_dir pk) i k' -> k' = k /\ v' = v) ->
  In (k, v) l -> browser_key (rv_opts R) (p_dir pk) i k ->
  alias_field_loop R f pk i l =
    (x <- lift (chase f v (p_alias pk)) ;;
     match x with
     | ATarget converted => Ret (Resolving (with_target (with_path i (p_dir pk)) converted))
     | AIgnored => Ret (Success RIgnored)
     end).
Proof.
  intros R f pk i l k v Hu Hin Hk. induction l as [|[k' v'] l IH]; [destruct Hin|]. cbn [alias_field_loop].
  destruct (should_deal_alias R pk i k') eqn:E.
  - apply should_deal_spec in E. destruct (Hu k' v') as [-> ->]; [left; reflexivity|exact E|]. reflexivity.
  - apply IH.
    + intros k0 v0 H0. apply Hu. right. exact H0.
    + destruct Hin as [Hin|Hin]; [|exact Hin]. inversion Hin; subst. apply should_deal_spec in Hk. congruence.
Qed.

Lemma alias_field_loop_first : forall R f pk i l1 k v l2,
  (forall k' v', In (k', v') l1 -> ~ browser_key (rv_opts R) (p_dir pk) i k') -> browser_key (rv_opts R) (p_dir pk) i k ->
  alias_field_loop R f pk i (l1 ++ (k, v) :: l2) =
    (x <- lift (chase f v (p_alias pk)) ;;
     match x with
     | ATarget converted => Ret (Resolving (with_target (with_path i (p_dir pk)) converted))
     | AIgnored => Ret (Success RIgnored)
     end).
Proof.
  intros R f pk i l1 k v l2 Hu Hk. induction l1 as [|[k' v'] l1 IH]; cbn [app alias_field_loop].
  - apply should_deal_spec in Hk. rewrite Hk. reflexivity.
  - destruct (should_deal_alias R pk i k') eqn:E.
    + apply should_deal_spec in E. exfalso. eapply Hu; [left; reflexivity|exact E].
    + apply IH. intros k0 v0 H0. apply (Hu k0 v0). right. exact H0.
Qed.

Lemma alias_loop_none : forall rec i l, Forall (fun a => ~ prefix (fst a) (r_target (i_req i))) l ->
  alias_loop rec i l = Ret (Resolving i).
Proof.
  intros rec i l H. induction H as [|[from to] l Hx H IH]; [reflexivity|]. cbn [alias_loop].
  destruct (starts_with (r_target (i_req i)) from) eqn:E; [apply prefix_dec in E; contradiction|exact IH].
Qed.
Lemma no_remap_steps : forall R i, no_remap R (i_path i) (r_target (i_req i)) ->
  (forall rec, alias_apply R rec i = Ret (Resolving i)) /\ (forall rec, prefer_relative_apply R rec i = Ret (Resolving i)).
Proof.
  intros R i [Ha [Hp Ht]]. split.
  - intros rec. unfold alias_apply. destruct (contains (i_path i) MODULE); [reflexivity|].
    destruct Ha as [->|[H|H]]; [reflexivity|discriminate|apply alias_loop_none, H].
  - intros rec. unfold prefer_relative_apply. destruct (_ || _) eqn:E; [reflexivity|].
    destruct Hp as [->|[H|H]]; [reflexivity| |]; apply prefix_dec in H; apply orb_false_iff in E; destruct E; congruence.
Qed.
Lemma path_not_hash : forall t, path_kind (get_target_kind t) -> starts_with_char t c_hash = false.
Proof.
  intros t H. destruct (starts_with_char t c_hash) eqn:E; [|reflexivity]. exfalso. destruct t as [|c r]; [discriminate|].
  unfold get_target_kind in H. rewrite E in H. destruct H as [H|[H|H]]; discriminate.
Qed.
Lemma imports_not_hash : forall R load f opk i, starts_with_char (r_target (i_req i)) c_hash = false ->
  imports_apply R load (S f) opk i = Ret (Resolving i).
Proof. intros R load f opk i H. cbn [imports_apply]. destruct opk; [|reflexivity]. rewrite H. reflexivity. Qed.
Lemma parse_kind : forall s, r_kind (parse s) = get_target_kind (r_target (parse s)).
Proof. intros s. unfold parse. destruct (parse_identifier s) as [[t q] fr]. reflexivity. Qed.

Lemma path_request_tail : forall R load fs f i st, no_remap R (i_path i) (r_target (i_req i)) ->
  r_kind (i_req i) = get_target_kind (r_target (i_req i)) -> path_kind (r_kind (i_req i)) ->
  forall opk st1, run fs (load (get_path i)) st = (Done (Ok opk), st1) -> browser_silent (rv_opts R) opk i ->
  run fs (resolve_ R load (S f) i) st =
  run fs (s <- and_then (resolve_as_file R i) (resolve_as_dir R load (S f)) ;; finish_ i s) st1 /\
  run_tr fs (resolve_ R load (S f) i) st = run_tr fs (load (get_path i)) st ++
  run_tr fs (s <- and_then (resolve_as_file R i) (resolve_as_dir R load (S f)) ;; finish_ i s) st1.
Proof.
  intros R load fs f i st Hn Hk Hp opk st1 Hl Hb. destruct (no_remap_steps R i Hn) as [H1 H2].
  assert (E : resolve_ R load (S f) i = tail_ R load f i).
  { cbn [resolve_]. unfold tail_. rewrite H1. cbn [and_then bind]. rewrite H2. reflexivity. }
  rewrite E. clear E.
  assert (Ef : final_step R load (S f) i = and_then (resolve_as_file R i) (resolve_as_dir R load (S f))).
  { unfold final_step. destruct Hp as [-> | [-> | ->]]; reflexivity. }
  assert (Hi : and_then (imports_apply R load (S f) opk i) (alias_field_apply R (S f) opk) = Ret (Resolving i)).
  { rewrite imports_not_hash by (apply path_not_hash; rewrite <- Hk; exact Hp). cbn [and_then bind]. apply alias_field_silent, Hb. }
  assert (Ek : match r_kind (i_req i) with Normal => join (join (i_path i) MODULE) (r_target (i_req i)) | _ => get_path i end = get_path i).
  { destruct Hp as [-> | [-> | ->]]; reflexivity. }
  assert (Hs : run fs (pkg_step R load (S f) i) st = (Done (Resolving i), st1)).
  { unfold pkg_step. rewrite Ek, run_bind, Hl, Hi. reflexivity. }
  assert (Ht : run_tr fs (pkg_step R load (S f) i) st = run_tr fs (load (get_path i)) st).
  { unfold pkg_step. rewrite Ek, run_tr_bind, Hl, Hi. apply app_nil_r. }
  unfold tail_. rewrite <- Ef. split.
  - rewrite !run_bind, run_and_then, Hs. reflexivity.
  - rewrite (run_tr_bind _ (and_then (pkg_step R load (S f) i) _)), run_and_then, Hs.
    unfold and_then. rewrite !run_tr_bind, Hs, Ht, app_assoc. reflexivity.
Qed.

(** ** Main files *)
Lemma kind_dot : forall x, get_target_kind (lit "./" ++ x) = Relative.
Proof. exact kind_rel. Qed.
Lemma with_target_twice : forall i a b, with_target (with_target i a) b = with_target i b.
Proof. reflexivity. Qed.
Lemma pick_app : forall fs a b, pick fs (a ++ b) = match pick fs a with Some q => Some q | None => pick fs b end.
Proof. intros fs a b. unfold pick. induction a as [|p a IH]; cbn [app find]; [reflexivity|]. destruct (f_file fs p); auto. Qed.
Lemma get_path_dot : forall p r x, get_path (mkInfo p (req_with_target r (lit "./" ++ x))) = join p (lit "./" ++ x).
Proof. intros. unfold get_path. cbn [i_req i_path req_with_target r_target]. reflexivity. Qed.
Lemma checks_app : forall fs a b, checks fs (a ++ b) = checks fs a ++ match pick fs a with Some _ => [] | None => checks fs b end.
Proof. intros fs a b. unfold pick. induction a as [|p a IH]; cbn [app checks find]; [reflexivity|]. destruct (f_file fs p); cbn [app]; [reflexivity|]. f_equal. exact IH. Qed.
Lemma main_file_run : forall R load fs fu opk i files mi st,
  (forall f, In f files -> browser_silent (rv_opts R) opk (with_target mi (lit "./" ++ f))) ->
  run fs (main_file_loop R load (S fu) opk i files mi) st =
    (Done (match pick fs (main_file_paths R (i_path mi) files) with Some q => picked mi q | None => Resolving i end), st) /\
  run_tr fs (main_file_loop R load (S fu) opk i files mi) st = checks fs (main_file_paths R (i_path mi) files).
Proof.
  intros R load fs fu opk i files. induction files as [|f r IH]; intros mi st Hb; [split; reflexivity|].
  cbn [main_file_loop main_file_paths flat_map]. fold (main_file_paths R (i_path mi) r).
  assert (E : and_then (and_then (and_then (exports_apply R opk (with_target mi (lit "./" ++ f)))
    (imports_apply R load (S fu) opk)) (alias_field_apply R (S fu) opk)) (resolve_as_file R) = resolve_as_file R (with_target mi (lit "./" ++ f))).
  { assert (E1 : exports_apply R opk (with_target mi (lit "./" ++ f)) = Ret (Resolving (with_target mi (lit "./" ++ f)))).
    { destruct opk; [|reflexivity]. unfold exports_apply, with_target, req_with_target. cbn [i_req r_kind]. rewrite kind_dot. reflexivity. }
    rewrite E1. cbn [and_then bind]. rewrite imports_not_hash by reflexivity. cbn [and_then bind].
    rewrite alias_field_silent by (apply Hb; left; reflexivity). reflexivity. }
  rewrite E. rewrite run_bind, run_tr_bind, as_file_run, as_file_tr, pick_app, checks_app.
  change (get_path (with_target mi (lit "./" ++ f))) with (join (i_path mi) (lit "./" ++ f)).
  destruct (pick fs (file_candidates (rv_opts R) (join (i_path mi) (lit "./" ++ f)))) as [q|] eqn:Ep.
  - cbn [is_success picked]. split; [reflexivity|]. reflexivity.
  - cbn [is_success extract_info bind]. destruct (IH (with_target mi (lit "./" ++ f)) st) as [IH1 IH2].
    { intros f' Hf'. rewrite with_target_twice. apply Hb. right. exact Hf'. }
    split; [exact IH1|]. rewrite IH2. reflexivity.
Qed.

(** ** Main fields *)
Lemma opt_str_some : forall o s, opt_str o = Some s <-> o = Some (JStr s).
Proof. intros [j|] t; [destruct j|]; cbn; split; intros H; inversion H; subst; auto. Qed.
Lemma opt_str_none : forall o, opt_str o = None <-> forall s, o <> Some (JStr s).
Proof.
  intros o. split; intros H.
  - intros s E. apply opt_str_some in E. congruence.
  - destruct (opt_str o) as [s|] eqn:E; [|reflexivity]. apply opt_str_some in E. destruct (H s E).
Qed.
Lemma main_plan_total : forall j l, exists ms, main_plan j l ms.
Proof.
  intros j l. induction l as [|f l [ms IH]]; [exists []; constructor|].
  destruct (opt_str (jget j f)) as [m|] eqn:E.
  - apply opt_str_some in E. destruct (str_eq_dec m (lit ".")) as [->|H1]; [exists []; eapply MPStop; eauto|].
    destruct (str_eq_dec m (lit "./")) as [->|H2]; [exists []; eapply MPStop; eauto|].
    exists (dotted m :: ms). eapply MPMain; eauto.
  - exists ms. apply MPSkip; [apply opt_str_none, E|exact IH].
Qed.
Lemma dotted_rel : forall m, exists x, dotted m = lit "./" ++ x.
Proof.
  intros m. unfold dotted. destruct (starts_with m (lit "./")) eqn:E; [|eauto]. apply starts_with_spec in E. exact E.
Qed.
Definition main_attempt (R : resolver) (rad : info -> prog stats) fs (mi : info) (m : str) : attempt :=
  run fs (and_then (resolve_as_file R (with_target mi m)) rad).
(** The first main field that resolves decides, provided no main field fails while naming an
    existing directory. *)
Lemma main_field_run : forall R rad fs fu pk i fields ms, main_plan (p_raw pk) fields ms ->
  forall (k : info -> prog stats) mi st r st',
  (forall m, In m ms -> browser_silent (rv_opts R) (Some pk) (with_target mi m)) ->
  (forall m, In m ms -> pick fs (file_candidates (rv_opts R) (join (i_path mi) m)) = None ->
     forall st s st', run fs (rad (with_target mi m)) st = (Done s, st') -> is_success s = false ->
     exists t, extract_info s = Ret (with_target mi t)) ->
  run fs (and_then (main_field_loop R rad fu pk i fields mi) k) st = (r, st') ->
  first_of (map (main_attempt R rad fs mi) ms) (run fs (k i)) st r st'.
Proof.
  intros R rad fs fu pk i fields ms H. induction H as [|f l ms Hn H IH|f l m Hm Hd|f l m ms Hm H1 H2 H IH];
    intros k mi st r st' Hb Hf Hr; cbn [main_field_loop map] in *.
  - eapply FOMiss; [constructor|exact Hr].
  - apply opt_str_none in Hn. rewrite Hn in Hr. eapply IH; eauto.
  - apply opt_str_some in Hm. rewrite Hm in Hr.
    assert (E : str_eqb m s_dot || str_eqb m (lit "./") = true) by (destruct Hd as [-> | ->]; reflexivity).
    rewrite E in Hr. eapply FOMiss; [constructor|exact Hr].
  - apply opt_str_some in Hm. rewrite Hm in Hr.
    assert (E : str_eqb m s_dot || str_eqb m (lit "./") = false).
    { apply orb_false_iff. split; apply str_eqb_neq; assumption. }
    rewrite E in Hr. clear E.
    assert (Em : (if starts_with m (lit "./") then with_target mi m else with_target mi (lit "./" ++ m)) = with_target mi (dotted m)).
    { unfold dotted. destruct (starts_with m (lit "./")); reflexivity. }
    rewrite Em in Hr. rewrite alias_field_silent in Hr by (apply Hb; left; reflexivity).
    unfold and_then at 1 in Hr. rewrite run_bind, run_bind in Hr. change (and_then (Ret (Resolving (with_target mi (dotted m)))) (resolve_as_file R)) with (resolve_as_file R (with_target mi (dotted m))) in Hr.
    apply first_of_cons. unfold main_attempt at 1.
    assert (Hgp : get_path (with_target mi (dotted m)) = join (i_path mi) (dotted m)).
    { destruct (dotted_rel m) as [x ->]. apply get_path_dot. }
    pose proof (Hf (dotted m) (or_introl eq_refl)) as Hfm.
    rewrite run_and_then, as_file_run, Hgp in Hr. rewrite run_and_then, as_file_run, Hgp.
    destruct (pick fs (file_candidates (rv_opts R) (join (i_path mi) (dotted m)))) as [q|].
    + cbn [is_success picked] in *. exact Hr.
    + specialize (Hfm eq_refl st).
      destruct (run fs (rad (with_target mi (dotted m))) st) as [[s|msg|] st1]; try exact Hr.
      specialize (Hfm s st1 eq_refl).
      destruct (is_success s) eqn:Es.
      * destruct s; try discriminate. exact Hr.
      * destruct (Hfm eq_refl) as [t Et]. rewrite Et in Hr. cbn [bind] in Hr.
        rewrite <- (map_ext (main_attempt R rad fs (with_target mi t))) by reflexivity.
        eapply IH.
        -- intros m' Hm'. rewrite with_target_twice. apply Hb. right. exact Hm'.
        -- intros m' Hm' Hp' st2 s2 st2' Hr2 Hs2. rewrite with_target_twice in Hr2.
           destruct (Hf m' (or_intror Hm') Hp' st2 s2 st2' Hr2 Hs2) as [t2 Ht2]. exists t2. rewrite with_target_twice. exact Ht2.
        -- unfold and_then. rewrite run_bind. exact Hr.
Qed.

(** ** Directories *)
Lemma as_dir_absent : forall R load fs f i st, f_dir fs (get_path i) = false ->
  run fs (resolve_as_dir R load (S f) i) st = (Done (SError TAG i), st).
Proof. intros R load fs f i st H. cbn [resolve_as_dir act bind run step]. rewrite H. reflexivity. Qed.
Lemma as_dir_load_err : forall R load fs f i st e st1, f_dir fs (get_path i) = true -> run fs (load (get_path i)) st = (Done (Err e), st1) ->
  run fs (resolve_as_dir R load (S f) i) st = (Done (SError e i), st1).
Proof. intros R load fs f i st e st1 H Hl. cbn [resolve_as_dir act bind run step]. rewrite H. cbn [negb]. rewrite run_bind, Hl. reflexivity. Qed.
Lemma as_dir_enter : forall R load fs f i st opk st1, f_dir fs (get_path i) = true -> run fs (load (get_path i)) st = (Done (Ok opk), st1) ->
  run fs (resolve_as_dir R load (S f) i) st =
  run fs (and_then (main_field_apply R (resolve_as_dir R load f) (S f) opk (dir_info i)) (main_file_apply R load (S f) opk)) st1.
Proof. intros R load fs f i st opk st1 H Hl. cbn [resolve_as_dir act bind run step]. rewrite H. cbn [negb]. rewrite run_bind, Hl. reflexivity. Qed.
Lemma main_file_apply_run : forall R load fs fu opk i st,
  (forall f, In f (o_main_files (rv_opts R)) -> browser_silent (rv_opts R) opk (with_target i (lit "./" ++ f))) ->
  run fs (main_file_apply R load (S fu) opk i) st = (Done (main_file_result R fs i), st).
Proof.
  intros R load fs fu opk i st Hb. unfold main_file_apply. rewrite info_eta.
  apply (main_file_run R load fs fu opk i _ i st Hb).
Qed.
Lemma as_dir_attempts : forall R load fs f i st pk st1 ms r st', f_dir fs (get_path i) = true ->
  run fs (load (get_path i)) st = (Done (Ok (Some pk)), st1) -> components (p_dir pk) = components (get_path i) ->
  main_plan (p_raw pk) (o_main_fields (rv_opts R)) ms ->
  (forall m, In m (ms ++ map (fun x => lit "./" ++ x) (o_main_files (rv_opts R))) ->
     browser_silent (rv_opts R) (Some pk) (with_target (dir_info i) m)) ->
  (forall m, In m ms -> no_file fs (file_candidates (rv_opts R) (join (get_path i) m)) -> f_dir fs (join (get_path i) m) = true ->
     forall st s st', run fs (resolve_as_dir R load f (with_target (dir_info i) m)) st = (Done s, st') -> is_success s = true) ->
  run fs (resolve_as_dir R load (S f) i) st = (r, st') ->
  first_of (map (fun m => run fs (and_then (resolve_as_file R (with_target (dir_info i) m)) (resolve_as_dir R load f))) ms)
    (fun st => (Done (main_file_result R fs (dir_info i)), st)) st1 r st'.
Proof.
  intros R load fs f i st pk st1 ms r st' Hd Hl Hc Hm Hb Hs Hr.
  rewrite (as_dir_enter _ _ _ _ _ _ _ _ Hd Hl) in Hr. unfold main_field_apply in Hr.
  change (i_path (dir_info i)) with (get_path i) in Hr.
  replace (path_eqb (get_path i) (p_dir pk)) with true in Hr by (symmetry; apply path_eqb_eq; congruence).
  cbn [negb] in Hr. rewrite (info_eta (dir_info i)) in Hr || change (mkInfo (get_path i) (i_req (dir_info i))) with (dir_info i) in Hr.
  eapply main_field_run in Hr; [|exact Hm| |].
  - eapply first_of_default; [|exact Hr]. intros st0 r0 st0' H0. rewrite main_file_apply_run in H0; [exact H0|].
    intros x Hx. apply Hb. apply in_or_app. right. apply in_map_iff. eauto.
  - intros m Hin. apply Hb. apply in_or_app. auto.
  - intros m Hin Hp st2 s st2' H2 H3. apply pick_none in Hp. change (i_path (dir_info i)) with (get_path i) in Hp.
    destruct (f_dir fs (join (get_path i) m)) eqn:Ed.
    + rewrite (Hs m Hin Hp Ed _ _ _ H2) in H3. discriminate.
    + assert (Hg : get_path (with_target (dir_info i) m) = join (get_path i) m).
      { assert (Hall : Forall (fun m => exists x, m = lit "./" ++ x) ms).
        { clear -Hm. induction Hm; auto. constructor; [apply dotted_rel|auto]. }
        rewrite Forall_forall in Hall. destruct (Hall m Hin) as [x ->]. apply get_path_dot. }
      destruct f as [|f]; [cbn in H2; discriminate|]. rewrite as_dir_absent in H2 by (rewrite Hg; exact Ed).
      inversion H2; subst. exists m. reflexivity.
Qed.
Lemma as_dir_no_main : forall R load fs f i st opk st1, f_dir fs (get_path i) = true ->
  run fs (load (get_path i)) st = (Done (Ok opk), st1) ->
  (forall pk, opk = Some pk -> components (p_dir pk) <> components (get_path i) \/ main_plan (p_raw pk) (o_main_fields (rv_opts R)) []) ->
  (forall m, In m (o_main_files (rv_opts R)) -> browser_silent (rv_opts R) opk (with_target (dir_info i) (lit "./" ++ m))) ->
  run fs (resolve_as_dir R load (S f) i) st = (Done (main_file_result R fs (dir_info i)), st1).
Proof.
  intros R load fs f i st opk st1 Hd Hl Hc Hb. rewrite (as_dir_enter _ _ _ _ _ _ _ _ Hd Hl).
  assert (E : main_field_apply R (resolve_as_dir R load f) (S f) opk (dir_info i) = Ret (Resolving (dir_info i))).
  { destruct opk as [pk|]; [|reflexivity]. cbn [main_field_apply]. destruct (negb _) eqn:En; [reflexivity|].
    destruct (Hc pk eq_refl) as [Hn|Hm].
    - exfalso. apply Hn. apply negb_false_iff, path_eqb_eq in En. symmetry. exact En.
    - clear -Hm. generalize (mkInfo (i_path (dir_info i)) (i_req (dir_info i))) as mi. intros mi.
      remember [] as ms eqn:Ems. revert mi. induction Hm as [|fl l ms Hn Hm IH|fl l m Hj Hd|fl l m ms Hj H1 H2 Hm IH]; intros mi; cbn [main_field_loop].
      + reflexivity.
      + apply opt_str_none in Hn. rewrite Hn. apply IH, Ems.
      + apply opt_str_some in Hj. rewrite Hj. destruct Hd as [-> | ->]; reflexivity.
      + discriminate. }
  rewrite E. cbn [and_then bind]. apply main_file_apply_run, Hb.
Qed.

(** ** node_modules *)
Lemma up_chain_total : forall p, exists l, up_chain p l.
Proof.
  intros p. remember (length (components p)) as n eqn:En. revert p En.
  induction n as [n IH] using lt_wf_ind. intros p En. destruct (parent p) as [q|] eqn:E.
  - destruct (IH (length (components q))) with (p := q) as [l Hl]; auto.
    + apply parent_shorter in E. lia.
    + exists (p :: l). eapply UCStep; eauto.
  - exists [p]. apply UCRoot, E.
Qed.
Lemma modules_walk : forall R load fs n m l i st s st', n <= m -> up_chain (i_path i) l ->
  run fs (resolve_as_modules R load n i) st = (Done s, st') ->
  walk (fun i => run fs (modules_level R load m i)) l i st s st'.
Proof.
  intros R load fs n m. induction n as [|n IH]; intros l i st s st' Hnm Hc H; cbn [resolve_as_modules] in H; [discriminate|].
  rewrite run_bind in H. destruct (run fs (modules_level R load (S n) i) st) as [[x|msg|] st1] eqn:E; try discriminate.
  assert (E' : run fs (modules_level R load m (mkInfo (i_path i) (i_req i))) st = (Done x, st1)).
  { rewrite info_eta, <- E. apply fle_run; [apply modules_level_fle; [intros; apply fle_refl|exact Hnm]|]. unfold out. rewrite E. discriminate. }
  assert (Hl : exists l', l = i_path i :: l') by (inversion Hc; subst; eauto). destruct Hl as [l' ->].
  destruct x as [s0|[r0|i1|e0 i0]]; cbn [and_then bind run] in H.
  - inversion H; subst. apply WEarly. exact E'.
  - inversion H; subst. apply WDecides; [exact E'|discriminate].
  - eapply WClimbs; [exact E'|]. inversion Hc as [p Hp|p q l1 Hp Hc']; subst; rewrite Hp in H.
    + cbn in H. inversion H; subst. constructor.
    + rewrite run_bind in H.
      destruct (run fs (resolve_as_modules R load n (with_path i1 q)) st1) as [[s1|msg|] st2] eqn:E2; try discriminate.
      assert (Hw : walk (fun i => run fs (modules_level R load m i)) l' (with_path i1 q) st1 s1 st2).
      { eapply IH; [lia|exact Hc'|exact E2]. }
      assert (Hnr : forall i2, s1 <> Resolving i2).
      { intros i2 ->. clear -E2. revert E2. generalize (with_path i1 q) as j. intros j.
        destruct n as [|n]; cbn [resolve_as_modules]; [discriminate|]. rewrite run_bind.
        destruct (run fs (modules_level R load (S n) j) st1) as [[[s0|s0]|?|] st3] eqn:E3; try discriminate.
        - cbn [run]. intros H. inversion H; subst. exfalso. clear -E3. unfold modules_level in E3.
          cbn [act bind run step] in E3. destruct (negb (f_dir fs (join (i_path j) MODULE))); [discriminate|].
          destruct (module_name _); [|discriminate]. rewrite run_bind in E3.
          destruct (run fs (load _) st1) as [[[opk|e]|?|] ?]; try discriminate.
          cbn [act bind run step] in E3. destruct (_ && _); rewrite run_bind in E3.
          + match type of E3 with context[run fs ?p ?s] => destruct (run fs p s) as [[s9|?|] ?] end; try discriminate.
            destruct (is_success s9); discriminate.
          + match type of E3 with context[run fs ?p ?s] => destruct (run fs p s) as [[[]|?|] ?] end; try discriminate.
            destruct (str_eqb _ _); discriminate.
        - rewrite run_bind. match goal with |- context[run fs ?p ?s] => destruct (run fs p s) as [[[]|?|] ?] end; discriminate. }
      destruct l' as [|d l']; [inversion Hc'|].
      destruct s1 as [r1|i2|e1 i2]; cbn [run] in H; [|destruct (Hnr i2 eq_refl)|]; inversion H; subst;
        inversion Hw; subst;
        first [apply WEarly; assumption|apply WDecides; [assumption|discriminate]|eapply WClimbs; eassumption].
  - inversion H; subst. apply WDecides; [exact E'|discriminate].
Qed.
Lemma level_absent : forall R load fs f i st, f_dir fs (join (i_path i) MODULE) = false ->
  run fs (modules_level R load f i) st = (Done (inr (Resolving i)), st) /\
  run_tr fs (modules_level R load f i) st = [mkev (OIsDir (join (i_path i) MODULE)) false].
Proof. intros R load fs f i st H. unfold modules_level. cbn [act bind run run_tr step]. rewrite H. split; reflexivity. Qed.

Lemma walk_pass : forall level pre r st st1, all_pass level pre r st st1 -> forall post i s st', i_req i = r -> post <> [] ->
  walk level (pre ++ post) i st s st' -> exists i', i_req i' = r /\ walk level post i' st1 s st'.
Proof.
  intros level pre r st st1 H. induction H as [r st|d l r st i1 st1 st2 Hl Hr H IH]; intros post i s st' Hi Hp Hw; cbn [app] in Hw.
  - eauto.
  - destruct i as [ip ir]; cbn [i_req] in Hi; subst ir.
    inversion Hw as [|d0 l0 i0 st0 s0 st0' Hx|d0 l0 i0 st0 s0 st0' Hx Hn|d0 l0 i0 st0 i2 st2' s0 st0' Hx Hw']; cbn [i_req] in *; clear Hw; subst; rewrite Hl in Hx; inversion Hx; subst.
    + destruct (Hn i1 eq_refl).
    + eapply IH; eauto.
Qed.

(** The parts of a bare specifier *)
Lemma slash_indices_none : forall s k, ~ In c_slash s -> slash_indices k s = [].
Proof.
  induction s as [|c s IH]; intros k H; cbn [slash_indices]; [reflexivity|].
  destruct (N.eqb_spec c c_slash) as [->|E]; [destruct H; left; reflexivity|]. apply IH. intros Hi. apply H. right. exact Hi.
Qed.
Lemma slash_indices_app : forall a b k, ~ In c_slash a -> slash_indices k (a ++ c_slash :: b) = (k + length a) :: slash_indices (S (k + length a)) b.
Proof.
  induction a as [|c a IH]; intros b k H; cbn [app slash_indices length].
  - rewrite Nat.add_0_r. reflexivity.
  - destruct (N.eqb_spec c c_slash) as [->|E]; [destruct H; left; reflexivity|].
    rewrite IH by (intros Hi; apply H; right; exact Hi). rewrite Nat.add_succ_r. reflexivity.
Qed.
Lemma ascii_app : forall a b, ascii_str (a ++ b) <-> ascii_str a /\ ascii_str b.
Proof. intros. unfold ascii_str. rewrite Forall_app. reflexivity. Qed.
Lemma slice_to_ascii : forall a b, ascii_str a -> slice_to (a ++ b) (length a) = Some a.
Proof. intros a b H. unfold slice_to. rewrite <- (ascii_blen a H), byte_split_app. reflexivity. Qed.
Lemma starts_char_app : forall a b c, a <> [] -> starts_with_char (a ++ b) c = starts_with_char a c.
Proof. intros [|x a] b c H; [destruct H; reflexivity|reflexivity]. Qed.
Lemma starts_char_slash : forall a b, starts_with_char (a ++ c_slash :: b) c_at = starts_with_char a c_at.
Proof. intros [|x a] b; reflexivity. Qed.
Lemma module_name_parts : forall t n s, bare_parts t n s -> (t <> n -> ascii_str n) -> module_name t = Some n.
Proof.
  intros t n s H Ha. unfold module_name. destruct H as [n Hn Hs|n s Hn Hs|a n Hn Hs Hn'|a n s Hn Hs Hn'].
  - rewrite Hs, slash_indices_none by exact Hn. reflexivity.
  - rewrite starts_char_slash, Hs, slash_indices_app by exact Hn. cbn [nth_error plus]. apply slice_to_ascii, Ha.
    intros E. apply (f_equal (@length _)) in E. rewrite app_length in E. cbn in E. lia.
  - rewrite starts_char_slash, Hs, slash_indices_app by exact Hn. cbn [nth_error]. rewrite slash_indices_none by exact Hn'. reflexivity.
  - rewrite starts_char_slash, Hs, slash_indices_app by exact Hn. cbn [nth_error plus]. rewrite slash_indices_app by exact Hn'. cbn [nth_error plus].
    replace (a ++ c_slash :: n ++ c_slash :: s) with ((a ++ c_slash :: n) ++ c_slash :: s) in * by (rewrite <- app_assoc; reflexivity).
    replace (S (length a + length n)) with (length (a ++ c_slash :: n)) by (rewrite app_length; cbn; lia).
    apply slice_to_ascii, Ha. intros E. apply (f_equal (@length _)) in E. rewrite app_length in E. cbn in E. lia.
Qed.
Lemma exports_subpath_run : forall fs pk i n s st, bare_parts (r_target (i_req i)) n s ->
  (s = lit "." -> f_exists fs (join (i_path i) n) = true \/ p_name pk = Some n) ->
  run fs (exports_subpath pk i) st = (Done (Some s), st).
Proof.
  intros fs pk i n s st H He. unfold exports_subpath. remember (r_target (i_req i)) as t eqn:Et.
  assert (Hd : forall x chars, find_char chars c_slash = None -> x = n -> s = lit "." -> run fs (match find_char chars c_slash with
    | Some (_, after) => Ret (Some (c_dot :: c_slash :: after))
    | None => e <- act (OExists (join (i_path i) x)) ;; (if e || opt_str_eqb (p_name pk) x then Ret (Some s_dot) else Ret None) end) st = (Done (Some s), st)).
  { intros x chars Hf -> ->. rewrite Hf. cbn [act bind run step].
    destruct (He eq_refl) as [-> | ->]; [reflexivity|]. cbn [opt_str_eqb]. rewrite str_eqb_refl, orb_true_r. reflexivity. }
  destruct H as [n Hn Hs|n s Hn Hs|a n Hn Hs Hn'|a n s Hn Hs Hn'].
  - rewrite Hs. cbn [bind]. apply Hd; auto. apply find_char_none, Hn.
  - rewrite starts_char_slash, Hs. cbn [bind]. rewrite find_char_first by exact Hn. reflexivity.
  - rewrite starts_char_slash, Hs. rewrite find_char_first by exact Hn. cbn [bind]. apply Hd; auto. apply find_char_none, Hn'.
  - rewrite starts_char_slash, Hs. rewrite find_char_first by exact Hn. cbn [bind]. rewrite find_char_first by exact Hn'. reflexivity.
Qed.
Lemma exports_remaining_spec : forall i s, exports_remaining i s = exports_request s (r_query (i_req i)) (r_fragment (i_req i)).
Proof. intros i s. unfold exports_remaining, exports_request. destruct (r_query (i_req i)), (r_fragment (i_req i)); reflexivity. Qed.
Lemma exports_loop_none : forall fs pk i l st,
  (forall c, In c l -> f_file fs (get_path (mkInfo (p_dir pk) (parse c))) = false \/ check_target (r_target (parse c)) = PRet false) ->
  run fs (exports_loop pk i l) st = (Done (SError (not_exported (r_target (i_req i))) i), st).
Proof.
  intros fs pk i l st H. induction l as [|c l IH]; [reflexivity|]. cbn [exports_loop act bind run step].
  specialize (IH (fun c' Hc' => H c' (or_intror Hc'))).
  destruct (f_file fs (get_path (mkInfo (p_dir pk) (parse c)))) eqn:E; [|exact IH].
  destruct (H c (or_introl eq_refl)) as [H1|H1]; [congruence|]. cbn [i_req]. rewrite H1. exact IH.
Qed.
(** One level of node_modules for a package with an exports field that selects nothing. *)
Lemma level_not_exported : forall R load fs f d r n s st pk st1 tree,
  r_kind r = Normal -> (r_target r <> n -> ascii_str n) -> bare_parts (r_target r) n s ->
  f_dir fs (join d MODULE) = true -> f_dir fs (join (join d MODULE) n) = true ->
  (s = lit "." -> f_exists fs (join (join d MODULE) n) = true) ->
  run fs (load (join (join d MODULE) (r_target r))) st = (Done (Ok (Some pk)), st1) ->
  contains (p_dir pk) MODULE = true -> p_exports pk = Some tree ->
  forall x, field_process FExports tree (exports_request s (r_query r) (r_fragment r)) (o_conditions (rv_opts R)) = PRet x ->
  (forall l, x = Ok l -> forall c, In c l ->
     f_file fs (get_path (mkInfo (p_dir pk) (parse c))) = false \/ check_target (r_target (parse c)) = PRet false) ->
  exists i', run fs (modules_level R load f (mkInfo d r)) st =
    (Done (inr (match x with Ok _ => SError (not_exported (r_target r)) i' | Err e => if str_eqb e TAG then Resolving (mkInfo d r) else SError e i' end)), st1).
Proof.
  intros R load fs f d r n s st pk st1 tree Hk Ha Hp Hd Hd2 He Hl Hm Hx x Hf Hc. unfold modules_level.
  cbn [i_path i_req act bind run step]. rewrite Hd. cbn [negb]. rewrite (module_name_parts _ _ _ Hp Ha), run_bind, Hl.
  cbn [act bind run step]. rewrite Hd2. cbn [negb andb]. rewrite run_bind, !run_and_then.
  assert (E : run fs (exports_apply R (Some pk) (mkInfo (join d MODULE) r)) st1 =
    (Done (match x with Ok _ => SError (not_exported (r_target r)) (mkInfo (join d MODULE) r) | Err e => SError e (mkInfo (join d MODULE) r) end), st1)).
  { unfold exports_apply. cbn [i_req]. rewrite Hk. cbn [kind_eqb negb]. unfold is_in_module. rewrite Hm. cbn [negb andb]. rewrite Hx.
    rewrite run_bind, (exports_subpath_run fs pk (mkInfo (join d MODULE) r) n s) by (auto).
    rewrite exports_remaining_spec. cbn [i_req]. rewrite Hf. cbn [lift bind]. destruct x as [l|e]; [|reflexivity].
    rewrite exports_loop_none by (apply Hc; reflexivity). reflexivity. }
  rewrite E. exists (mkInfo (join d MODULE) r). destruct x as [l|e]; [reflexivity|]. destruct (str_eqb e TAG); reflexivity.
Qed.

(** Bare specifiers, nothing remapped. *)
Lemma bare_walk : forall R load fs f i st opk st1 l s st', no_remap R (i_path i) (r_target (i_req i)) ->
  r_kind (i_req i) = Normal -> starts_with_char (r_target (i_req i)) c_hash = false ->
  run fs (load (join (join (i_path i) MODULE) (r_target (i_req i)))) st = (Done (Ok opk), st1) ->
  browser_silent (rv_opts R) opk i -> up_chain (i_path i) l ->
  run fs (resolve_ R load (S f) i) st = (Done s, st') ->
  exists s0, walk (fun i => run fs (modules_level R load (S f) i)) l i st1 s0 st' /\ Done s = settled i (Done s0).
Proof.
  intros R load fs f i st opk st1 l s st' Hn Hk Hh Hl Hb Hc Hr. destruct (no_remap_steps R i Hn) as [H1 H2].
  rewrite resolve__plain in Hr by assumption. unfold tail_ in Hr. rewrite settled_run, run_and_then in Hr.
  assert (Hs : run fs (pkg_step R load (S f) i) st = (Done (Resolving i), st1)).
  { unfold pkg_step. rewrite Hk, run_bind, Hl, imports_not_hash by exact Hh. cbn [and_then bind].
    rewrite alias_field_silent by exact Hb. reflexivity. }
  rewrite Hs in Hr. unfold final_step in Hr. rewrite Hk in Hr.
  destruct (run fs (resolve_as_modules R load (S f) i) st1) as [r0 st2] eqn:E. inversion Hr as [[Hr1 Hr2]]. subst st2.
  destruct r0 as [s0|m|]; try discriminate. exists s0. split; [|reflexivity].
  eapply modules_walk; [apply le_n|exact Hc|exact E].
Qed.

(** ** The specifier while climbing *)
Lemma main_field_resolving : forall R rad fs fu pk i fields mi st j st',
  run fs (main_field_loop R rad fu pk i fields mi) st = (Done (Resolving j), st') -> j = i.
Proof.
  intros R rad fs fu pk i fields. induction fields as [|f l IH]; intros mi st j st' H; cbn [main_field_loop] in H; [inversion H; reflexivity|].
  destruct (opt_str (jget (p_raw pk) f)) as [m|]; [|eauto].
  destruct (_ || _); [inversion H; reflexivity|]. rewrite run_bind in H.
  match type of H with context[run fs ?p st] => destruct (run fs p st) as [[s|?|] st1] end; try discriminate.
  destruct (is_success s) eqn:Es; [inversion H; subst; discriminate|]. rewrite run_bind in H.
  destruct s as [r|i1|e i1]; try discriminate; cbn [extract_info run] in H; eauto.
Qed.
Lemma main_file_resolving : forall R load fs fu opk i files mi st j st',
  run fs (main_file_loop R load fu opk i files mi) st = (Done (Resolving j), st') -> j = i.
Proof.
  intros R load fs fu opk i files. induction files as [|f l IH]; intros mi st j st' H; cbn [main_file_loop] in H; [inversion H; reflexivity|].
  rewrite run_bind in H. match type of H with context[run fs ?p st] => destruct (run fs p st) as [[s|?|] st1] end; try discriminate.
  destruct (is_success s) eqn:Es; [inversion H; subst; discriminate|]. rewrite run_bind in H.
  destruct s as [r|i1|e i1]; try discriminate; cbn [extract_info run] in H; eauto.
Qed.
Lemma as_dir_resolving : forall R load fs n i st j st', run fs (resolve_as_dir R load n i) st = (Done (Resolving j), st') ->
  j = dir_info i /\ f_dir fs (get_path i) = true.
Proof.
  intros R load fs [|n] i st j st' H; [discriminate|]. destruct (f_dir fs (get_path i)) eqn:Ed.
  2:{ rewrite as_dir_absent in H by exact Ed. discriminate. }
  split; [|reflexivity]. destruct (run fs (load (get_path i)) st) as [[[opk|e]|?|] st1] eqn:El.
  - rewrite (as_dir_enter _ _ _ _ _ _ _ _ Ed El), run_and_then in H.
    destruct (run fs (main_field_apply R (resolve_as_dir R load n) (S n) opk (dir_info i)) st1) as [[[r|i1|e i1]|?|] st2] eqn:Em; try discriminate.
    assert (i1 = dir_info i) as ->.
    { unfold main_field_apply in Em. destruct opk as [pk|]; [|inversion Em; reflexivity].
      destruct (negb _); [inversion Em; reflexivity|]. eapply main_field_resolving, Em. }
    unfold main_file_apply in H. eapply main_file_resolving, H.
  - rewrite (as_dir_load_err _ _ _ _ _ _ _ _ Ed El) in H. discriminate.
  - cbn [resolve_as_dir act bind run step] in H. rewrite Ed in H. cbn [negb] in H. rewrite run_bind, El in H. discriminate.
  - cbn [resolve_as_dir act bind run step] in H. rewrite Ed in H. cbn [negb] in H. rewrite run_bind, El in H. discriminate.
Qed.
(** A level that does not decide hands on its own request, or an existing directory in which
    nothing was found, with the specifier erased. *)
Lemma level_climbs : forall R load fs f i st i1 st1,
  run fs (modules_level R load f i) st = (Done (inr (Resolving i1)), st1) ->
  i1 = i \/ exists j, f_dir fs (get_path j) = true /\ i1 = dir_info j.
Proof.
  intros R load fs f i st i1 st1 H. unfold modules_level in H. cbn [act bind run step] in H.
  destruct (negb (f_dir fs (join (i_path i) MODULE))); [inversion H; auto|].
  destruct (module_name _); [|discriminate]. rewrite run_bind in H.
  destruct (run fs (load _) st) as [[[opk|e]|?|] st2]; try discriminate.
  cbn [act bind run step] in H. destruct (_ && _); rewrite run_bind in H.
  - rewrite as_file_run in H. destruct (pick _ _); cbn [is_success picked] in H; inversion H; subst; auto.
  - unfold and_then at 1 in H. rewrite run_bind in H.
    match type of H with context[run fs (and_then ?p (resolve_as_file R)) ?z] => destruct (run fs (and_then p (resolve_as_file R)) z) as [[[r|j|e j]|?|] st3] end;
      try discriminate; cbn [run] in H.
    + destruct (run fs (resolve_as_dir R load f j) st3) as [[[r|j1|e j1]|?|] st4] eqn:Ed; try discriminate.
      * cbn [run] in H. inversion H; subst. apply as_dir_resolving in Ed. destruct Ed as [-> Ed]. right. eauto.
      * destruct (str_eqb e TAG); inversion H; subst; auto.
    + destruct (str_eqb e TAG); inversion H; subst; auto.
Qed.
Lemma and_then_ret : forall i f, and_then (Ret (Resolving i)) f = f i.
Proof. reflexivity. Qed.
(** Without an exports field and without a directory of that name, the same request goes on. *)
Lemma level_same : forall R load fs f d r st opk st2 i1 st1, r_kind r = Normal -> starts_with_char (r_target r) c_hash = false ->
  run fs (load (join (join d MODULE) (r_target r))) st = (Done (Ok opk), st2) ->
  (forall pk, opk = Some pk -> p_exports pk = None) -> o_browser (rv_opts R) = false ->
  f_dir fs (join (join d MODULE) (lit "./" ++ r_target r)) = false ->
  run fs (modules_level R load (S f) (mkInfo d r)) st = (Done (inr (Resolving i1)), st1) -> i1 = mkInfo d r.
Proof.
  intros R load fs f d r st opk st2 i1 st1 Hk Hh Hl Hx Hb Hd H. unfold modules_level in H. cbn [i_path i_req act bind run step] in H.
  destruct (negb (f_dir fs (join d MODULE))); [inversion H; auto|].
  destruct (module_name _); [|discriminate]. rewrite run_bind, Hl in H.
  cbn [act bind run step] in H. destruct (_ && _); rewrite run_bind in H.
  - rewrite as_file_run in H. destruct (pick _ _); cbn [is_success picked] in H; inversion H; subst; auto.
  - assert (E1 : exports_apply R opk (mkInfo (join d MODULE) r) = Ret (Resolving (mkInfo (join d MODULE) r))).
    { destruct opk as [pk|]; [|reflexivity]. unfold exports_apply. rewrite (Hx pk eq_refl).
      destruct (negb _); [reflexivity|]. destruct (_ && _); reflexivity. }
    rewrite E1, and_then_ret, imports_not_hash, and_then_ret in H by exact Hh. cbn [i_req] in H.
    rewrite Hk, alias_field_off, and_then_ret in H by exact Hb.
    rewrite run_and_then, as_file_run in H. destruct (pick _ _).
    + inversion H.
    + rewrite as_dir_absent in H; [inversion H; reflexivity|].
      unfold with_target. rewrite get_path_dot. exact Hd.
Qed.

(** ** Internal requests *)
Lemma hash_kind : forall t, starts_with_char t c_hash = true -> get_target_kind t = Internal.
Proof. intros [|c t] H; [discriminate|]. unfold get_target_kind. rewrite H. reflexivity. Qed.
Lemma internal_request : forall R load fs f i st pk root st1, no_remap R (i_path i) (r_target (i_req i)) ->
  r_kind (i_req i) = get_target_kind (r_target (i_req i)) -> starts_with_char (r_target (i_req i)) c_hash = true ->
  run fs (load (get_path i)) st = (Done (Ok (Some pk)), st1) -> p_imports pk = Some root ->
  (forall e, (field_process FImports root (r_target (i_req i)) (o_conditions (rv_opts R)) = PRet (Err e)) \/
     (field_process FImports root (r_target (i_req i)) (o_conditions (rv_opts R)) = PRet (Ok []) /\ e = not_exported (r_target (i_req i))) ->
   run fs (resolve_ R load (S f) i) st = (settled i (Done (SError e i)), st1) /\
   run_tr fs (resolve_ R load (S f) i) st = run_tr fs (load (get_path i)) st) /\
  (forall item rest, field_process FImports root (r_target (i_req i)) (o_conditions (rv_opts R)) = PRet (Ok (item :: rest)) ->
   path_kind (r_kind (parse item)) -> browser_silent (rv_opts R) (Some pk) (mkInfo (p_dir pk) (parse item)) ->
   let i' := mkInfo (p_dir pk) (parse item) in
   (f_file fs (get_path i') = true -> check_target (r_target (parse item)) = PRet true ->
      run fs (resolve_ R load (S f) i) st =
      let (r, st') := run fs (and_then (resolve_as_file R i') (resolve_as_dir R load (S f))) st1 in (settled i r, st')) /\
   (f_file fs (get_path i') = false \/ check_target (r_target (parse item)) = PRet false ->
      run fs (resolve_ R load (S f) i) st = (settled i (Done (SError (not_exported (r_target (i_req i))) i')), st1))).
Proof.
  intros R load fs f i st pk root st1 Hn Hk Hh Hl Hi. destruct (no_remap_steps R i Hn) as [H1 H2].
  assert (E : resolve_ R load (S f) i = tail_ R load f i).
  { cbn [resolve_]. unfold tail_. rewrite H1. cbn [and_then bind]. rewrite H2. reflexivity. }
  rewrite E. clear E. rewrite (hash_kind _ Hh) in Hk. split.
  - intros e He.
    assert (Ei : and_then (imports_apply R load (S f) (Some pk) i) (alias_field_apply R (S f) (Some pk)) = Ret (SError e i)).
    { cbn [imports_apply]. rewrite Hh. cbn [negb]. rewrite Hi. destruct He as [-> |[-> ->]]; reflexivity. }
    unfold tail_. rewrite settled_run, run_and_then, run_tr_bind, run_and_then. unfold and_then. rewrite run_tr_bind.
    unfold pkg_step. rewrite Hk, run_bind, run_tr_bind, Hl, Ei. cbn [run run_tr]. split; [reflexivity|].
    cbn [finish_ run_tr]. rewrite !app_nil_r. reflexivity.
  - intros item rest Hf Hp Hb i'. unfold tail_. rewrite settled_run, run_and_then. unfold pkg_step. rewrite Hk, run_bind, Hl.
    rewrite run_and_then. cbn [imports_apply]. rewrite Hh. cbn [negb]. rewrite Hi, Hf. cbn [lift bind].
    assert (E : forall {X} (a b c : X), match r_kind (parse item) with Normal => a | Internal => b | _ => c end = c).
    { intros X a b c. destruct Hp as [-> |[-> | ->]]; reflexivity. }
    rewrite E. fold i'. unfold imports_check. cbn [act bind run step].
    split.
    + intros Hx Hc. rewrite Hx. change (r_target (i_req i')) with (r_target (parse item)). rewrite Hc. cbn [lift bind run].
      rewrite alias_field_silent by exact Hb. cbn [run]. unfold final_step. change (r_kind (i_req i')) with (r_kind (parse item)).
      destruct Hp as [-> |[-> | ->]]; reflexivity.
    + intros Hx. destruct (f_file fs (get_path i')); [|reflexivity].
      destruct Hx as [Hx|Hx]; [discriminate|]. change (r_target (i_req i')) with (r_target (parse item)). rewrite Hx. reflexivity.
Qed.

(** ** Browser remapping of a request *)
Lemma browser_request : forall R load fs i st pk st1 l1 k v l2 e, no_remap R (i_path i) (r_target (i_req i)) ->
  r_kind (i_req i) = get_target_kind (r_target (i_req i)) -> starts_with_char (r_target (i_req i)) c_hash = false ->
  run fs (load (match r_kind (i_req i) with Normal => join (join (i_path i) MODULE) (r_target (i_req i)) | _ => get_path i end)) st = (Done (Ok (Some pk)), st1) ->
  o_browser (rv_opts R) = true ->
  p_alias pk = l1 ++ (k, v) :: l2 -> browser_key (rv_opts R) (p_dir pk) i k ->
  (forall k' v', In (k', v') l1 -> ~ browser_key (rv_opts R) (p_dir pk) i k') ->
  chain (imap_get (p_alias pk)) v e ->
  exists n, forall f, n <= f -> run fs (resolve_ R load (S f) i) st =
    match e with
    | AIgnored => (Done (Success RIgnored), st1)
    | ATarget t => let (r, st') := run fs (final_step R load (S f) (mkInfo (p_dir pk) (req_with_target (i_req i) t))) st1 in (settled i r, st')
    end.
Proof.
  intros R load fs i st pk st1 l1 k v l2 e Hn Hk Hh Hl Hb Hin Hkey Hu Hc. destruct (no_remap_steps R i Hn) as [H1 H2].
  destruct (chase_complete _ _ _ Hc) as [n Hch]. exists n. intros f Hf.
  rewrite resolve__plain by assumption. unfold tail_. rewrite settled_run, run_and_then. unfold pkg_step. rewrite run_bind, Hl.
  rewrite imports_not_hash by exact Hh. cbn [and_then bind].
  unfold alias_field_apply. rewrite Hb. cbn [negb]. rewrite Hin at 1. rewrite (alias_field_loop_first _ _ _ _ l1 k v l2 Hu Hkey), Hch by lia.
  cbn [lift bind]. destruct e as [t|]; [|reflexivity]. reflexivity.
Qed.
Lemma browser_order : forall R f pk i l, Permutation.Permutation (p_alias pk) l -> NoDup (map fst (p_alias pk)) ->
  (forall k v k' v', In (k, v) (p_alias pk) -> In (k', v') (p_alias pk) -> browser_key (rv_opts R) (p_dir pk) i k ->
     browser_key (rv_opts R) (p_dir pk) i k' -> k = k') ->
  alias_field_apply R f (Some (mkPkg (p_dir pk) (p_name pk) (p_version pk) l (p_exports pk) (p_imports pk) (p_side pk) (p_raw pk))) i =
  alias_field_apply R f (Some pk) i.
Proof.
  intros R f pk i l Hp Hnd Hu. set (pk' := mkPkg _ _ _ l _ _ _ _). unfold alias_field_apply.
  destruct (negb (o_browser (rv_opts R))); [reflexivity|].
  change (p_alias pk') with l.
  destruct (existsb (fun kv => should_deal_alias R pk i (fst kv)) (p_alias pk)) eqn:Ex.
  - apply existsb_exists in Ex. destruct Ex as [[k v] [Hin Hk]]. cbn [fst] in Hk. apply should_deal_spec in Hk.
    assert (Hu1 : forall k' v', In (k', v') (p_alias pk) -> browser_key (rv_opts R) (p_dir pk) i k' -> k' = k /\ v' = v).
    { intros k' v' Hin' Hk'. assert (k' = k) as -> by (eapply Hu; eauto). split; [reflexivity|].
      pose proof (imap_In_get _ _ _ Hnd Hin) as G1. pose proof (imap_In_get _ _ _ Hnd Hin') as G2. congruence. }
    rewrite (alias_field_loop_hit R f pk i _ k v Hu1 Hin Hk).
    rewrite (alias_field_loop_hit R f pk' i l k v).
    + assert (Hc : forall n t, chase n t l = chase n t (p_alias pk)).
      { induction n as [|n IH]; intros t; [reflexivity|]. cbn [chase]. destruct t as [s|]; [|reflexivity].
        rewrite (imap_get_perm l (p_alias pk)); [destruct (imap_get (p_alias pk) s); [apply IH|reflexivity]| |apply Permutation.Permutation_sym, Hp].
        eapply Permutation.Permutation_NoDup; [apply Permutation.Permutation_map, Hp|exact Hnd]. }
      change (p_alias pk') with l. rewrite Hc. reflexivity.
    + intros k' v' Hin'. apply Hu1. eapply Permutation.Permutation_in; [apply Permutation.Permutation_sym, Hp|exact Hin'].
    + eapply Permutation.Permutation_in; eassumption.
    + exact Hk.
  - assert (Hno : forall l', (forall kv, In kv l' -> In kv (p_alias pk)) -> forall q, p_dir q = p_dir pk -> alias_field_loop R f q i l' = Ret (Resolving i)).
    { induction l' as [|[k v] l' IH]; intros Hl' q Hq; [reflexivity|]. cbn [alias_field_loop].
      destruct (should_deal_alias R q i k) eqn:Es.
      - exfalso. assert (existsb (fun kv => should_deal_alias R pk i (fst kv)) (p_alias pk) = true); [|congruence].
        apply existsb_exists. exists (k, v). split; [apply Hl'; left; reflexivity|]. cbn [fst]. unfold should_deal_alias in *. rewrite <- Hq. exact Es.
      - apply IH; [|exact Hq]. intros kv Hkv. apply Hl'. right. exact Hkv. }
    rewrite (Hno (p_alias pk)) by auto. apply Hno; [|reflexivity].
    intros kv Hkv. eapply Permutation.Permutation_in; [apply Permutation.Permutation_sym, Hp|exact Hkv].
Qed.
