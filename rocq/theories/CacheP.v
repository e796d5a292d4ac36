(** * Tables filled by any calls on an unchanging file system stay good. *)
From Coq Require Import String.
From Coq Require Import List Arith NArith Bool Lia Permutation.
From Verif Require Import Str StrP Path PathP Json Types Parse Map Prog Desc Resolve Top Run Exec ExecP ApiP Posix FuelP SpecRun LookupP SpecLoad PosixP SpellP SimP LoadP GuarP SpecCache.
Import ListNotations.

Lemma comps_eqb_spec : forall a b, Bool.reflect (a = b) (comps_eqb a b).
Proof. intros a b. apply iff_reflect. symmetry. apply comps_eqb_eq. Qed.

Section Cache.
Variable fs : fsys.
Hypothesis Hfs : sane_fs fs.
Variable js : str -> option json.
Variable nm : nat -> str.
Hypothesis Hinj : forall c v v', field_on fs js (nm c) (lit "exports") v -> field_on fs js (nm c) (lit "exports") v' -> to_string v = to_string v' -> v = v'.
Hypothesis Hclash : forall c v v', field_on fs js (nm c) (lit "exports") v -> field_on fs js (nm c) (lit "imports") v' -> hash_keys v' -> to_string v <> to_string v'.

Record Inv (st : state) : Prop := {
  inv_pkg : forall c k v, s_pkg st c k = Some v -> pkg_good fs js (nm c) k v;
  inv_exp : forall c k t, s_exp st c k = Some t -> exp_good fs js (nm c) k t;
  inv_imp : forall c k, s_imp st c k = None;
  inv_file : forall r k s t, s_file st r k = Some (s, t) -> file_good fs k t
}.
Lemma inv_empty : forall seeds, Inv (empty_state seeds).
Proof. intros. constructor; cbn; try discriminate. reflexivity. Qed.
Lemma step_inv : forall st o, Inv st -> put_ok fs js nm o -> okc fs js nm o (fst (step fs st o)) /\ Inv (snd (step fs st o)).
Proof.
  intros st o [Hp He Hi Hf] Hput. destruct o; cbn [step fst snd okx put_ok] in *; (split; [auto|]);
    try (constructor; assumption); try (intros; eauto; fail).
  - constructor; cbn; auto. intros c0 k v0. unfold upd_path. destruct (Nat.eqb_spec c0 c) as [->|]; cbn [andb]; [|apply Hp].
    destruct (comps_eqb_spec k (components p)) as [->|]; [|apply Hp]. injection 1 as <-. exact Hput.
  - constructor; cbn; auto. intros c0 k0 v0. unfold upd_str. destruct (Nat.eqb_spec c0 c) as [->|]; cbn [andb]; [|apply He].
    destruct (str_eqb_spec k0 k) as [->|]; [|apply He]. injection 1 as <-. exact Hput.
  - constructor; cbn; auto. intros r0 k s0 t0. unfold upd_path. destruct (Nat.eqb_spec r0 r) as [->|]; cbn [andb]; [|apply Hf].
    destruct (comps_eqb_spec k (components p)) as [->|]; [|apply Hf]. injection 1 as <- <-. exact Hput.
Qed.
Lemma run_inv {A} : forall (p : prog A) Q st, wg fs js nm Q p -> Inv st -> Q (out fs st p) /\ Inv (snd (run fs p st)).
Proof.
  unfold out. induction p as [a|m| |o k IH]; intros Q st Hw Hi; cbn [run wgx fst snd] in *; auto.
  destruct Hw as [Hput Hk]. destruct (step_inv st o Hi Hput) as [Hx Hi']. destruct (step fs st o) as [x st'].
  cbn [fst snd] in *. apply IH; auto.
Qed.
(** Two facts about the same program can be combined. *)
Lemma wg_and {ex A} : forall (p : prog A) Q, wx (okx fs js nm ex) Q p -> Gx fs js nm ex p -> wgx fs js nm ex Q p.
Proof.
  intros p Q. unfold Gx. induction p as [a|m| |o k IH]; cbn [wx wgx]; auto. intros Hx [Hp Hg]. split; [exact Hp|].
  intros x Hok. apply IH; auto.
Qed.

Notation client := (client js nm).
Lemma client_load {ex} : forall R f p, client R -> Gx fs js nm ex (load_pkg_file R f p).
Proof.
  intros R f p (Hn & Hj & Hd). destruct Hn as [Hn|Hn].
  - destruct f; [exact I|]. cbn [load_pkg_file]. rewrite Hn. exact I.
  - eapply wg_mono; [|apply wg_load; eassumption]. auto.
Qed.
Lemma client_call {ex} : forall c, client (call_resolver c) -> Gx fs js nm ex (call_prog c).
Proof.
  intros [R f base req|R f p] H; cbn [call_resolver call_prog] in *.
  - apply G_bind; [|intros; exact I]. apply G_resolve_with. intros. apply client_load, H.
  - apply G_bind; [|intros; exact I]. unfold load_side_effects. apply G_try; [apply client_load, H|].
    intros [pk|]; [|exact I]. destruct (o_desc _); exact I.
Qed.
Lemma history_inv : forall h st, Forall (fun e => match e with ECall c => client (call_resolver c) | EFs _ => False end) h ->
  Inv st -> Inv (snd (run_history fs st h)).
Proof.
  induction h as [|[c|fs'] h IH]; intros st Hh Hi; [exact Hi| |inversion Hh; contradiction].
  inversion Hh as [|? ? Hc Hh']; subst. cbn [run_history].
  pose proof (run_inv _ _ st (client_call c Hc) Hi) as [_ Hi'].
  destruct (run fs (call_prog c) st) as [o st']. specialize (IH st' Hh' Hi').
  destruct (run_history fs st' h) as [[os fs''] st'']. exact IH.
Qed.

(** Interleavings. *)
Lemma thread_inv {A} : forall (p : prog A) Q st, wg fs js nm Q p -> Inv st ->
  wg fs js nm Q (fst (thread_step fs st p)) /\ Inv (snd (thread_step fs st p)).
Proof.
  intros [a|m| |o k] Q st Hw Hi; cbn [thread_step fst snd]; auto.
  cbn [wgx] in Hw. destruct Hw as [Hput Hk]. destruct (step_inv st o Hi Hput) as [Hx Hi'].
  destruct (step fs st o) as [x st']. cbn [fst snd] in *. auto.
Qed.
Lemma step_nth_inv {A} : forall (l : list (prog A)) Qs i st, Forall2 (fun Q p => wg fs js nm Q p) Qs l -> Inv st ->
  Forall2 (fun Q p => wg fs js nm Q p) Qs (fst (step_nth fs st i l)) /\ Inv (snd (step_nth fs st i l)).
Proof.
  induction l as [|p l IH]; intros Qs i st Hl Hi; cbn [step_nth]; [destruct i; auto|].
  inversion Hl as [|Q ? Qs' ? Hp Hl']; subst. destruct i as [|i]; cbn [step_nth].
  - destruct (thread_inv p Q st Hp Hi) as [H1 H2]. destruct (thread_step fs st p). cbn [fst snd] in *. split; [constructor|]; assumption.
  - destruct (IH Qs' i st Hl' Hi) as [H1 H2]. destruct (step_nth fs st i l). cbn [fst snd] in *. split; [constructor|]; assumption.
Qed.
Lemma sched_inv {A} : forall sched (l : list (prog A)) Qs st, Forall2 (fun Q p => wg fs js nm Q p) Qs l -> Inv st ->
  Forall2 (fun Q p => wg fs js nm Q p) Qs (fst (run_sched fs sched st l)) /\ Inv (snd (run_sched fs sched st l)).
Proof.
  induction sched as [|i sched IH]; intros l Qs st Hl Hi; cbn [run_sched]; [auto|].
  destruct (step_nth_inv l Qs i st Hl Hi) as [H1 H2]. destruct (step_nth fs st i l). cbn [fst snd] in *. apply IH; auto.
Qed.

(** ** The answer without tables *)
Lemma fle_ev {A} : forall (p q : prog A), fle p q -> ev_fs fs p <> NoFuel -> ev_fs fs q = ev_fs fs p.
Proof.
  intros p q. induction 1 as [q|a|m|o k k' H IH]; cbn [ev_fs]; intros Hn; auto. contradiction Hn. reflexivity.
Qed.
Definition fresh_load (R : resolver) (p : path) : prog (result (option pkg)) := lift (lookup_desc fs js (o_desc (rv_opts R)) p).
Lemma lookup_facts : forall name p o, lookup_desc fs js name p = PRet (Ok (Some o)) ->
  exists n s j, name = Some n /\ f_dir fs (p_dir o) = true /\ f_read fs (join (p_dir o) n) = Some s /\ js s = Some j /\
    alias_fields_of j = PRet (p_alias o) /\ p_raw o = j.
Proof.
  intros [n|] p o H; [|discriminate]. unfold lookup_desc in H. destruct (from_dir fs p); [discriminate|].
  destruct (nearest fs n p) as [d|]; [|discriminate]. destruct (f_dir fs d) eqn:Ed; [|discriminate].
  unfold described in H. destruct (f_read fs (join d n)) as [s|] eqn:Es; [|discriminate].
  destruct (f_mtime fs (join d n)); try discriminate. destruct (js s) as [j|] eqn:Ej; [|discriminate].
  destruct (alias_fields_of j) as [af| |] eqn:Ea; try discriminate. cbn [pbind] in H.
  match type of H with pbind (pbind ?X _) _ = _ => destruct X as [[ex|]| |]; try discriminate end. cbn [pbind] in H.
  match type of H with pbind (pbind ?X _) _ = _ => destruct X as [[im|]| |]; try discriminate end. cbn [pbind] in H.
  destruct (side_effects_of (join d n) j); [|discriminate]. cbn [pbind] in H. injection H as <-. cbn.
  exists n, s, j. repeat split; assumption.
Qed.

Lemma load_leq {ex} : forall R f p, client R -> wx (okx fs js nm ex) (orel (leq eq) (oc (lookup_desc fs js (o_desc (rv_opts R)) p))) (load_pkg_file R f p).
Proof.
  intros R f p (Hn & Hj & Hd). destruct Hn as [Hn|Hn].
  { destruct f; [exact I|]. cbn [load_pkg_file]. rewrite Hn. cbn. eexists. split; [reflexivity|exact I]. }
  rewrite Hn. apply wg_wx, wg_load; assumption.
Qed.
(** What a reading of "every outcome" must give for the lockstep with the lookup without tables. *)
Definition plain_answers (M : modality) : Prop :=
  (forall p x, md_ok M (OIsFile p) x -> x = f_file fs p) /\ (forall p x, md_ok M (OIsDir p) x -> x = f_dir fs p) /\
  (forall p x, md_ok M (OExists p) x -> x = f_exists fs p) /\ (forall p x, md_ok M (ORead p) x -> x = f_read fs p) /\
  (forall p x, md_ok M (OCanon p) x -> x = f_canon fs p).
Definition load_right (M : modality) (R : resolver) (f : nat) : Prop :=
  forall p, md_go M _ (orel (leq eq) (oc (lookup_desc fs js (o_desc (rv_opts R)) p))) (load_pkg_file R f p).
Lemma okc_plain : forall tot, plain_answers (wxm (okc fs js nm) tot).
Proof. intros tot. repeat split; intros p x Hx; apply Hx; try exact I; left; exact I. Qed.
Lemma okc_load : forall R f, client R -> load_right (wxm (okc fs js nm) false) R f.
Proof. intros R f HR p. apply load_leq, HR. Qed.

Section Client.
Variable M : modality.
Hypothesis HM : plain_answers M.
Variable R : resolver.
Hypothesis HR : client R.
Hypothesis Hbr : browser_clear fs js R.
Definition aliasrel (pk pk' : pkg) : Prop :=
  Permutation (p_alias pk) (p_alias pk') /\ NoDup (map fst (p_alias pk)) /\
  (o_browser (rv_opts R) = false \/ clear_keys (o_extensions (rv_opts R)) (p_dir pk) (p_alias pk)).

Lemma alias_nodup : forall j l, alias_fields_of j = PRet l -> NoDup (map fst l).
Proof.
  intros j l. unfold alias_fields_of. destruct (jget j (lit "browser")) as [v|]; [|intros [= <-]; constructor].
  destruct (as_object v) as [m|]; [|intros [= <-]; constructor].
  assert (H : forall m acc l, NoDup (map fst acc) -> browser_fields m acc = PRet l -> NoDup (map fst l)).
  { clear. induction m as [|[k v] m IH]; intros acc l Hn H; cbn [browser_fields] in H; [injection H as <-; exact Hn|].
    destruct v as [|[|]| |s| |]; try discriminate; try (eapply IH; [|exact H]; auto using imap_insert_nodup). }
  apply H. constructor.
Qed.
Notation lrelR := (lrel fs R R aliasrel).
Lemma fieldrel_refl : forall k o, fieldrel R R k o o.
Proof. intros k [t|]; cbn; auto. Qed.
Lemma leq_lrel : forall p x y z, o_desc (rv_opts R) = Some (nm (rv_cache R)) ->
  lookup_desc fs js (Some (nm (rv_cache R))) p = PRet x -> leq erel x y -> leq eq y z -> lrelR x z.
Proof.
  intros p x y z Hn Ex Hl Hz.
  destruct x as [o|e], y as [o'|e'], z as [o''|e'']; cbn [leq lrel] in *; try contradiction.
  + pose proof (okeq_trans _ _ _ Hl Hz) as Ho. destruct o as [pk|], o'' as [pk''|]; cbn [okeq okrel] in *; try contradiction; auto.
    destruct (lookup_facts _ _ _ Ex) as (n & s & j & En & Hdir & Hr & Hjs & Ha & Hraw). injection En as <-.
    destruct Ho as (H1 & H2 & H3 & H4 & H5 & H6 & H7 & H8). constructor; auto.
    * rewrite H4. apply fieldrel_refl.
    * rewrite H5. apply fieldrel_refl.
    * intros fld _. rewrite H7. reflexivity.
    * split; [exact H8|]. split; [eapply alias_nodup; exact Ha|]. destruct Hbr as [Hb|Hb]; [left; exact Hb|right].
      eapply Hb; eassumption.
  + subst e''. exact Hl.
Qed.
Lemma load_sim : md_tot M = false -> forall f, load_right M R f -> forall p q, same_path p q -> sim fs M lrelR (fresh_load R p) (load_pkg_file R f q).
Proof.
  intros Htot f Hld p q Hs. pose proof HR as (Hn & Hj & Hd). unfold sim, orel_. rewrite Htot.
  assert (Hev : ev_fs fs (fresh_load R p) = oc (lookup_desc fs js (o_desc (rv_opts R)) p)).
  { unfold fresh_load. destruct (lookup_desc fs js _ p) as [[|]| |]; reflexivity. }
  rewrite Hev. eapply md_mono; [|apply Hld]. destruct Hn as [Hn|Hn]; rewrite Hn.
  { cbn [lookup_desc oc]. intros [z|mz|]; cbn [orel]; [|intros (? & E & ?); discriminate|auto].
    intros (y' & E & Hz). injection E as <-. exists (Ok None). split; [reflexivity|]. destruct z as [[pk|]|e]; cbn in *; try contradiction; auto. }
  pose proof (look_same fs Hfs js (nm (rv_cache R)) p q Hs) as Hl.
  destruct (lookup_desc fs js (Some (nm (rv_cache R))) p) as [x|m|] eqn:Ex, (lookup_desc fs js (Some (nm (rv_cache R))) q) as [y|m'|];
    cbn [creq] in Hl; try contradiction; cbn [oc orel]; intros [z|mz|]; try (intros (? & E & ?); discriminate); auto.
  - intros (y' & E & Hz). injection E as <-. exists x. split; [reflexivity|]. eapply leq_lrel; eassumption.
  - intros (m0 & E & Hm). injection E as <-. subst m'. eexists. split; [reflexivity|exact Hm].
Qed.

Lemma chase_in : forall n t af e, chase n t af = PRet e -> e = t \/ exists k, In (k, e) af.
Proof.
  induction n as [|n IH]; intros t af e H; cbn [chase] in H; [discriminate|].
  destruct t as [s|]; [|injection H as <-; auto]. destruct (imap_get af s) as [v|] eqn:Eg; [|injection H as <-; auto].
  destruct (IH _ _ _ H) as [->|He]; [|auto]. right. exists s. apply imap_get_In. exact Eg.
Qed.
Lemma chase_perm : forall n t l l', Permutation l l' -> NoDup (map fst l) -> chase n t l = chase n t l'.
Proof.
  intros n t l l' Hp Hn. revert t. induction n as [|n IH]; intros t; [reflexivity|]. cbn [chase]. destruct t as [s|]; [|reflexivity].
  rewrite (imap_get_perm l l' s Hn Hp). destruct (imap_get l' s); [apply IH|reflexivity].
Qed.
Lemma deal_same : forall pk pk' i j k, same_path (p_dir pk) (p_dir pk') -> irel i j ->
  should_deal_alias R pk i k = should_deal_alias R pk' j k.
Proof.
  intros pk pk' i j k Hd Hi. unfold should_deal_alias. pose proof Hi as [[Hr _] _]. rewrite <- Hr.
  assert (E : alias_key_path_matches (join (p_dir pk) k) i (o_extensions (rv_opts R)) = alias_key_path_matches (join (p_dir pk') k) j (o_extensions (rv_opts R))).
  { unfold alias_key_path_matches. pose proof (get_path_tail _ _ Hi) as Ht. pose proof (same_path_join _ _ k Hd) as Hj.
    f_equal; [apply path_eqb_congr; [exact Hj|apply same_tail_path, Ht]|].
    induction (o_extensions (rv_opts R)) as [|e l IH]; [reflexivity|]. cbn [existsb]. f_equal; [|exact IH].
    apply path_eqb_congr; [exact Hj|]. unfold append_ext. apply same_tail_path, same_tail_app, Ht. }
  destruct (r_kind (i_req i)); try exact E. reflexivity.
Qed.
Lemma browser_sim : forall fuel pk pk' i j, aliasrel pk pk' -> same_path (p_dir pk) (p_dir pk') -> irel i j ->
  sim fs M (srel_ irel) (alias_field_apply R fuel (Some pk) i) (alias_field_apply R fuel (Some pk') j).
Proof.
  intros fuel pk pk' i j (Hp & Hn & Hc) Hd Hi. unfold alias_field_apply. destruct (o_browser (rv_opts R)) eqn:Eb; cbn [negb].
  2:{ apply sim_ret. exact Hi. }
  destruct Hc as [Hc|Hc]; [discriminate|].
  assert (Hno : forall q k l, (forall kv, In kv l -> should_deal_alias R q k (fst kv) = false) -> alias_field_loop R fuel q k l = Ret (Resolving k)).
  { clear. intros q k l. induction l as [|[a b] l IH]; intros H; [reflexivity|]. cbn [alias_field_loop].
    pose proof (H (a, b) (or_introl eq_refl)) as E. cbn [fst] in E. rewrite E. apply IH. intros kv Hkv. apply H. right; exact Hkv. }
  destruct (existsb (fun kv => should_deal_alias R pk i (fst kv)) (p_alias pk)) eqn:Ex.
  - apply existsb_exists in Ex. destruct Ex as [[k v] [Hin Hk]]. cbn [fst] in Hk. apply should_deal_spec in Hk.
    assert (Hu : forall k' v', In (k', v') (p_alias pk) -> browser_key (rv_opts R) (p_dir pk) i k' -> k' = k /\ v' = v).
    { intros k' v' Hin' Hk'. assert (k' = k) as ->.
      { unfold browser_key in Hk, Hk'. destruct Hc as [Hc _]. pose proof (Hc (get_path i) k v k' v' Hin Hin') as H. unfold hits in H.
        destruct (r_kind (i_req i)); try (symmetry; apply H; assumption). congruence. }
      split; [reflexivity|]. pose proof (imap_In_get _ _ _ Hn Hin) as G1. pose proof (imap_In_get _ _ _ Hn Hin') as G2. congruence. }
    assert (Hkey : forall q, browser_key (rv_opts R) (p_dir pk') j q <-> browser_key (rv_opts R) (p_dir pk) i q).
    { intros q. rewrite <- !should_deal_spec, (deal_same pk pk' i j q Hd Hi). reflexivity. }
    rewrite (alias_field_loop_hit R fuel pk i _ k v Hu Hin Hk).
    rewrite (alias_field_loop_hit R fuel pk' j _ k v).
    + rewrite <- (chase_perm fuel v (p_alias pk) (p_alias pk') Hp Hn).
      eapply sim_bind with (V := fun a b => a = b /\ exists k, In (k, a) (p_alias pk)).
      * destruct (chase fuel v (p_alias pk)) as [e|m|] eqn:Ec; [|apply sim_panic|apply sim_fuel].
        apply sim_ret. split; [reflexivity|]. destruct (chase_in _ _ _ _ Ec) as [->|He]; eauto.
      * intros [t|] b [<- [k0 H0]]; [|apply sim_ret; exact I]. apply sim_ret. cbn [srel_].
        apply iweak_busy.
        -- split; [|exact Hd]. cbn. destruct Hi as [[Hr _] _]. rewrite Hr. reflexivity.
        -- cbn. destruct Hc as [_ Hc]. apply (Hc k0). exact H0.
    + intros k' v' Hin' Hk'. apply Hu; [eapply Permutation_in; [apply Permutation_sym, Hp|exact Hin']|apply Hkey, Hk'].
    + eapply Permutation_in; eassumption.
    + apply Hkey, Hk.
  - assert (Hf : forall kv, In kv (p_alias pk) -> should_deal_alias R pk i (fst kv) = false).
    { intros kv Hin. destruct (should_deal_alias R pk i (fst kv)) eqn:E; [|reflexivity].
      exfalso. assert (existsb (fun kv => should_deal_alias R pk i (fst kv)) (p_alias pk) = true) by (apply existsb_exists; eauto). congruence. }
    rewrite (Hno pk i _ Hf), (Hno pk' j).
    + apply sim_ret. exact Hi.
    + intros kv Hin. rewrite <- (deal_same pk pk' i j _ Hd Hi). apply Hf. eapply Permutation_in; [apply Permutation_sym, Hp|exact Hin].
Qed.

(** [K] is a loader that may give up before the loader of the other side does. *)
Lemma client_sim_by : forall fuel K, (forall p, fle (K p) (fresh_load R p)) -> (forall p q, same_path p q -> sim fs M lrelR (K p) (load_pkg_file R fuel q)) ->
  forall base req, patterns_clear fs R (r_target (parse req)) ->
  sim fs M arel (resolve_with R K fuel base req) (resolve R fuel base req).
Proof.
  intros fuel K HK Hld base req Ht. destruct HM as (Mf & Md & Me & Mr & Mc).
  apply (sim_resolve_ts fs M R R K (load_pkg_file R fuel) aliasrel); auto.
  - intros p q x H Hx. apply Mf in Hx. subst x. symmetry. apply (sf_file _ Hfs), H.
  - intros p q x H Hd Hx. apply Mf in Hx. subst x. apply (sf_kind _ Hfs). rewrite <- (sf_dir _ Hfs _ _ H). exact Hd.
  - intros p q x H Hx. apply Md in Hx. subst x. symmetry. apply (sf_dir _ Hfs), H.
  - intros p q x H Hx. apply Me in Hx. subst x. symmetry. apply (sf_exists _ Hfs), H.
  - intros p q x H Hx. apply Mc in Hx. subst x. symmetry. apply (sf_canon _ Hfs), H.
  - apply (sf_kind _ Hfs).
  - apply browser_sim.
  - intros p q x H Hx. apply Mr in Hx. subst x. symmetry. apply (sf_read _ Hfs), H.
  - intros loc c t m Hl Hc H1 H2. apply clear_one. eapply Ht; [exact Hl| |exact H1|exact H2].
    exists fuel. destruct HR as (_ & -> & _). rewrite <- Hc. apply fle_ev; [apply parse_file_fle; [exact HK|apply le_n]|]. rewrite Hc. discriminate.
Qed.
Lemma client_sim : md_tot M = false -> forall fuel, load_right M R fuel -> forall base req, patterns_clear fs R (r_target (parse req)) ->
  sim fs M arel (resolve_with R (fresh_load R) fuel base req) (resolve R fuel base req).
Proof. intros Htot fuel Hld. apply client_sim_by; [intros; apply fle_refl|apply load_sim; assumption]. Qed.
End Client.

(** ** Whole calls *)
Definition call_fresh (c : call) : prog answer :=
  match c with
  | CResolve R f base req => r <- resolve_with R (fresh_load R) f base req ;; Ret (AResolve r)
  | CSide R f p => r <- try_ (fresh_load R p) (fun o =>
      match o with
      | None => Ret (Ok None)
      | Some pk =>
          match o_desc (rv_opts R) with
          | None => Panic (lit "called `Option::unwrap()` on a `None` value")
          | Some name => Ret (Ok (Some (join (p_dir pk) name, p_side pk)))
          end
      end) ;; Ret (ASide r)
  end.
Definition ansrel (a b : answer) : Prop :=
  match a, b with
  | AResolve r, AResolve r' => arel r r'
  | ASide r, ASide r' =>
      match r, r' with Ok x, Ok y => same_side x y | Err e, Err e' => respelled e e' | _, _ => False end
  | _, _ => False
  end.
Definition call_fuel (c : call) : nat := match c with CResolve _ f _ _ => f | CSide _ f _ => f end.
Lemma call_sim : forall M, md_tot M = false -> plain_answers M -> forall c, client (call_resolver c) -> load_right M (call_resolver c) (call_fuel c) -> steady fs js c ->
  sim fs M ansrel (call_fresh c) (call_prog c).
Proof.
  intros M Htot HM [R f base req|R f p] HR Hld Hs; cbn [call_resolver call_prog call_fresh steady call_fuel] in *.
  - destruct Hs as [Hb Hp]. eapply sim_bind; [apply client_sim; assumption|]. intros a b H. apply sim_ret. exact H.
  - eapply sim_bind with (V := fun r r' => ansrel (ASide r) (ASide r')); [|intros a b H; apply sim_ret; exact H].
    unfold load_side_effects, try_. eapply sim_bind with (V := leq eq).
    + unfold sim, orel_. rewrite Htot.
      replace (ev_fs fs (fresh_load R p)) with (oc (lookup_desc fs js (o_desc (rv_opts R)) p)); [apply Hld|].
      unfold fresh_load. destruct (lookup_desc _ _ _ _) as [[|]| |]; reflexivity.
    + intros [[pk|]|e] [[pk'|]|e'] H; cbn [leq okeq] in H; try contradiction.
      * destruct (o_desc (rv_opts R)) as [name|]; [|apply sim_panic]. apply sim_ret. cbn [ansrel same_side].
        destruct H as (H1 & H2 & H3 & H4 & H5 & H6 & H7 & H8). split; [apply same_path_join, H1|exact H6].
      * apply sim_ret. exact I.
      * subst e'. apply sim_ret. cbn [ansrel]. apply respelled_refl.
Qed.
Lemma call_wg : forall c, client (call_resolver c) -> steady fs js c ->
  wg fs js nm (orel ansrel (ev_fs fs (call_fresh c))) (call_prog c).
Proof. intros c HR Hs. apply wg_and; [apply (call_sim (wxm (okc fs js nm) false) eq_refl (okc_plain false)); [exact HR|apply okc_load, HR|exact Hs]|apply client_call, HR]. Qed.
Lemma call_fresh_fle : forall c f f', f <= f' -> fle (call_fresh (with_fuel c f)) (call_fresh (with_fuel c f')).
Proof.
  intros [R f0 base req|R f0 p] f f' Hf; cbn [with_fuel call_fresh]; [|apply fle_refl].
  apply fle_bind; [|intros; apply fle_refl]. apply resolve_with_fle; [intros; apply fle_refl|exact Hf].
Qed.
Lemma ev_agree : forall c f f', ev_fs fs (call_fresh (with_fuel c f)) <> NoFuel -> ev_fs fs (call_fresh (with_fuel c f')) <> NoFuel ->
  ev_fs fs (call_fresh (with_fuel c f)) = ev_fs fs (call_fresh (with_fuel c f')).
Proof.
  intros c f f' H H'.
  rewrite <- (fle_ev _ _ (call_fresh_fle c f (Nat.max f f') (Nat.le_max_l _ _)) H).
  apply (fle_ev _ _ (call_fresh_fle c f' (Nat.max f f') (Nat.le_max_r _ _)) H').
Qed.
Lemma answers_agree : forall l a b, ansrel l a -> ansrel l b -> same_answer a b.
Proof.
  intros [r|r] [a|a] [b|b]; cbn [ansrel]; try contradiction.
  - destruct r as [x|e], a as [y|e1], b as [z|e2]; cbn [arel same_answer same_result]; try contradiction; [congruence|].
    intros [H _] [H' _]. exists e. split; assumption.
  - destruct r as [x|e], a as [y|e1], b as [z|e2]; cbn [same_answer same_result]; try contradiction.
    + destruct x as [[p s]|], y as [[q t]|], z as [[q' t']|]; cbn [same_side]; try contradiction; auto.
      unfold same_path. intros [H ->] [H' ->]. split; congruence.
    + intros H H'. exists e. split; assumption.
Qed.
Lemma outcomes_agree : forall c f f' o o',
  orel ansrel (ev_fs fs (call_fresh (with_fuel c f))) o -> orel ansrel (ev_fs fs (call_fresh (with_fuel c f'))) o' ->
  same_outcome same_answer o o'.
Proof.
  intros c f f' o o' H H'. pose proof (ev_agree c f f') as E.
  destruct o as [a|m|], o' as [b|m'|]; cbn [orel same_outcome] in *; auto.
  - destruct H as (x & Hx & Ha), H' as (y & Hy & Hb). rewrite Hx, Hy in E.
    specialize (E ltac:(discriminate) ltac:(discriminate)). injection E as <-. eapply answers_agree; eassumption.
  - destruct H as (x & Hx & Ha), H' as (y & Hy & Hb). rewrite Hx, Hy in E. specialize (E ltac:(discriminate) ltac:(discriminate)). discriminate.
  - destruct H as (x & Hx & Ha), H' as (y & Hy & Hb). rewrite Hx, Hy in E. specialize (E ltac:(discriminate) ltac:(discriminate)). discriminate.
  - destruct H as (x & Hx & Ha), H' as (y & Hy & Hb). rewrite Hx, Hy in E. specialize (E ltac:(discriminate) ltac:(discriminate)).
    injection E as <-. exists x. split; assumption.
Qed.
Lemma with_fuel_id : forall c, exists f, c = with_fuel c f.
Proof. intros [R f b r|R f p]; exists f; reflexivity. Qed.
Lemma steady_fuel : forall c f, steady fs js c -> steady fs js (with_fuel c f).
Proof. intros [R f0 b r|R f0 p] f; exact (fun x => x). Qed.
Lemma resolver_fuel : forall c f, call_resolver (with_fuel c f) = call_resolver c.
Proof. intros [R f0 b r|R f0 p] f; reflexivity. Qed.

Lemma states_agree : forall c f st st', client (call_resolver c) -> steady fs js c -> Inv st -> Inv st' ->
  same_outcome same_answer (out fs st (call_prog c)) (out fs st' (call_prog (with_fuel c f))).
Proof.
  intros c f st st' HR Hs Hi Hi'. destruct (with_fuel_id c) as [f0 E].
  apply (outcomes_agree c f0 f).
  - rewrite <- E. apply run_inv; [apply call_wg; assumption|exact Hi].
  - apply run_inv; [apply call_wg; [rewrite resolver_fuel|apply steady_fuel]; assumption|exact Hi'].
Qed.
(** Threads that have come to an end. *)
Lemma sched_agree : forall l sched st st' f, Forall (fun c => client (call_resolver c) /\ steady fs js c) l -> Inv st -> Inv st' ->
  Forall2 (fun c p => same_outcome same_answer (settled p) (out fs st' (call_prog (with_fuel c f))))
          l (fst (run_sched fs sched st (map call_prog l))).
Proof.
  intros l sched st st' f Hl Hi Hi'.
  destruct (sched_inv sched (map call_prog l) (map (fun c => orel ansrel (ev_fs fs (call_fresh c))) l) st) as [H _]; [|exact Hi|].
  - clear sched. induction Hl as [|c l [H1 H2] Hl IH]; cbn [map]; constructor; [apply call_wg; assumption|exact IH].
  - revert H. generalize (fst (run_sched fs sched st (map call_prog l))). induction Hl as [|c l [H1 H2] Hl IH]; intros ps H; inversion H as [|? p ? ps' Hp Hps]; subst; constructor; [|apply IH, Hps].
    destruct p as [a|m| |o k]; cbn [settled]; try exact I.
    + cbn [wg] in Hp. destruct (with_fuel_id c) as [f0 E]. apply (outcomes_agree c f0 f); [rewrite <- E; exact Hp|].
      apply run_inv; [apply call_wg; [rewrite resolver_fuel|apply steady_fuel]; assumption|exact Hi'].
    + cbn [wg] in Hp. destruct (with_fuel_id c) as [f0 E]. apply (outcomes_agree c f0 f); [rewrite <- E; exact Hp|].
      apply run_inv; [apply call_wg; [rewrite resolver_fuel|apply steady_fuel]; assumption|exact Hi'].
Qed.
End Cache.
