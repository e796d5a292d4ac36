(** * A path request is about the path it denotes: proofs for PropDenote.v *)
From Coq Require Import String.
From Coq Require Import List Arith NArith Bool Lia.
From Verif Require Import Str StrP Path PathP Json Types Parse Map Prog Desc Resolve Top Run RunP Exec ExecP Posix PosixP Demo WitnessP SpecRun SpecLoad SpellP SpecCache SpecJson SimP LoadP GuarP FuelP LookupP LookupTopP CacheP PropCacheP SpecDenote.
Import ListNotations.

(** ** The same operations, with related results *)
Inductive psame {A B} (Q : A -> B -> Prop) : prog A -> prog B -> Prop :=
| PsRet a b : Q a b -> psame Q (Ret a) (Ret b)
| PsPanic m : psame Q (Panic m) (Panic m)
| PsFuel : psame Q OutOfFuel OutOfFuel
| PsDo o k k' : (forall x, psame Q (k x) (k' x)) -> psame Q (Do o k) (Do o k').
Lemma psame_refl {A} : forall (Q : A -> A -> Prop) (p : prog A), (forall a, Q a a) -> psame Q p p.
Proof. intros Q p H. induction p; constructor; auto. Qed.
Lemma psame_bind {A B A' B'} : forall (Q : A -> B -> Prop) (Q' : A' -> B' -> Prop) p q f g, psame Q p q ->
  (forall a b, Q a b -> psame Q' (f a) (g b)) -> psame Q' (bind p f) (bind q g).
Proof. intros Q Q' p q f g H Hf. induction H; cbn [bind]; try constructor; auto. Qed.
Lemma psame_bind2 {A B A' B' C} : forall (Q : A -> B -> Prop) (Q' : A' -> B' -> Prop) p q (f : A -> prog C) (g : C -> prog A') h, psame Q p q ->
  (forall a b, Q a b -> psame Q' (bind (f a) g) (h b)) -> psame Q' (bind (bind p f) g) (bind q h).
Proof. intros Q Q' p q f g h H Hf. induction H; cbn [bind]; try constructor; auto. Qed.
Lemma psame_run {A B} : forall (Q : A -> B -> Prop) p q, psame Q p q -> forall fs st,
  match fst (run fs p st), fst (run fs q st) with Done a, Done b => Q a b | Panicked m, Panicked m' => m = m' | NoFuel, NoFuel => True | _, _ => False end.
Proof.
  intros Q p q H. induction H as [a b H|m| |o k k' H IH]; intros fs st; cbn [run fst]; auto.
  destruct (step fs st o) as [x st']. apply IH.
Qed.

Section Core.
Variable R : resolver.
Variable load : path -> prog (result (option pkg)).
Variable n : nat.
(** [_resolve] after the alias and prefer_relative steps, without the message. *)
Definition core (i : info) : prog stats := and_then (pkg_step R load (S n) i) (final_step R load (S n)).
Definition ended (s : stats) : prog (result rresult) :=
  match s with Success r => normalize_result R r | SError e _ => Ret (Err e) | Resolving _ => Panic p_unreachable end.
Definition body (i : info) : prog (result rresult) := s <- core i ;; ended s.
(** The path itself as a request. *)
Definition at_path (i : info) : info := mkInfo (get_path i) (mkReq [] (r_query (i_req i)) (r_fragment (i_req i)) Relative).
Definition like (s s' : stats) : Prop :=
  match s, s' with Success a, Success b => a = b | SError e _, SError e' _ => e = e' | Resolving _, Resolving _ => True | _, _ => False end.
Definition likei (i : info) (s s' : stats) : Prop :=
  s = s' \/ (s = Resolving i /\ s' = Resolving (at_path i)) \/ exists e, s = SError e i /\ s' = SError e (at_path i).
Lemma at_path_get : forall i, get_path (at_path i) = get_path i.
Proof. reflexivity. Qed.
Lemma file_like : forall i, psame (likei i) (resolve_as_file R i) (resolve_as_file R (at_path i)).
Proof.
  intros i. unfold resolve_as_file, extensions_apply. rewrite at_path_get.
  assert (He : psame (likei i) (extensions_loop (get_path i) i (o_extensions (rv_opts R))) (extensions_loop (get_path i) (at_path i) (o_extensions (rv_opts R)))).
  { induction (o_extensions (rv_opts R)) as [|e l IH]; cbn [extensions_loop]; [constructor; right; left; auto|].
    cbn [act bind]. constructor. intros [|]; [constructor; left; reflexivity|exact IH]. }
  destruct (negb (enforce R)); [|exact He]. cbn [act bind]. constructor. intros [|]; [constructor; left; reflexivity|exact He].
Qed.
Lemma dir_like : forall f i, psame like (resolve_as_dir R load f i) (resolve_as_dir R load f (at_path i)).
Proof.
  intros [|f] i; cbn [resolve_as_dir]; [constructor|]. rewrite at_path_get. cbn [act bind]. constructor. intros [|]; cbn [negb]; [|constructor; reflexivity].
  eapply psame_bind; [apply (psame_refl eq); intros; reflexivity|]. intros a b <-. destruct a as [opk|e]; [|constructor; reflexivity].
  apply psame_refl. intros [r|j|e j]; cbn; auto.
Qed.
Lemma like_refl : forall s, like s s. Proof. intros [r|i|e i]; cbn; auto. Qed.
Lemma final_like : forall i, path_kind (r_kind (i_req i)) -> psame like (final_step R load (S n) i) (final_step R load (S n) (at_path i)).
Proof.
  intros i Hk. unfold final_step. cbn [at_path i_req r_kind].
  assert (H : psame like (and_then (resolve_as_file R i) (resolve_as_dir R load (S n))) (and_then (resolve_as_file R (at_path i)) (resolve_as_dir R load (S n)))).
  { unfold and_then. eapply psame_bind; [apply file_like|]. intros s s' [<-|[[-> ->]|(e & -> & ->)]].
    - apply psame_refl, like_refl.
    - apply dir_like.
    - constructor. reflexivity. }
  destruct Hk as [Hk|[Hk|Hk]]; rewrite Hk; exact H.
Qed.
Lemma browser_like : forall f opk i, path_kind (r_kind (i_req i)) -> psame (likei i) (alias_field_apply R f opk i) (alias_field_apply R f opk (at_path i)).
Proof.
  intros f opk i Hk. unfold alias_field_apply. destruct (negb (o_browser (rv_opts R))); [constructor; right; left; auto|].
  destruct opk as [pk|]; [|constructor; right; left; auto].
  assert (Hd : forall k, should_deal_alias R pk (at_path i) k = should_deal_alias R pk i k).
  { intros k. unfold should_deal_alias. cbn [at_path i_req r_kind]. change (alias_key_path_matches ?a (mkInfo (get_path i) _) ?l) with (alias_key_path_matches a i l).
    destruct Hk as [Hk|[Hk|Hk]]; rewrite Hk; reflexivity. }
  generalize (p_alias pk). intros l. induction l as [|[k v] l IH]; cbn [alias_field_loop]; [constructor; right; left; auto|].
  rewrite Hd. destruct (should_deal_alias R pk i k); [|exact IH]. apply psame_refl. intros a. left. reflexivity.
Qed.
Lemma step_like : forall i, path_kind (r_kind (i_req i)) -> r_kind (i_req i) = get_target_kind (r_target (i_req i)) ->
  psame (likei i) (pkg_step R load (S n) i) (pkg_step R load (S n) (at_path i)).
Proof.
  intros i Hk He. unfold pkg_step.
  assert (E1 : match r_kind (i_req i) with Normal => join (join (i_path i) MODULE) (r_target (i_req i)) | _ => get_path i end = get_path i) by (destruct Hk as [Hk|[Hk|Hk]]; rewrite Hk; reflexivity).
  rewrite E1. change (match r_kind (i_req (at_path i)) with Normal => join (join (i_path (at_path i)) MODULE) (r_target (i_req (at_path i))) | _ => get_path (at_path i) end) with (get_path i).
  eapply psame_bind; [apply (psame_refl eq); intros; reflexivity|]. intros a b <-.
  destruct a as [opk|e]; [|constructor; right; right; exists e; auto].
  rewrite (imports_not_hash R load n opk i) by (apply path_not_hash; rewrite <- He; exact Hk).
  rewrite (imports_not_hash R load n opk (at_path i)) by reflexivity.
  cbn [and_then bind]. apply browser_like, Hk.
Qed.
Lemma core_like : forall i, path_kind (r_kind (i_req i)) -> r_kind (i_req i) = get_target_kind (r_target (i_req i)) ->
  psame like (core i) (core (at_path i)).
Proof.
  intros i Hk He. unfold core, and_then. eapply psame_bind; [apply step_like; assumption|]. intros s s' [<-|[[-> ->]|(e & -> & ->)]].
  - apply psame_refl, like_refl.
  - apply final_like, Hk.
  - constructor. reflexivity.
Qed.
(** The answers of the whole call and of the body on the path alone. *)
Definition worded (i : info) (r r' : result rresult) : Prop :=
  match r, r' with Ok x, Ok y => x = y | Err e, Err e' => e = (if str_eqb e' TAG then resolve_failed_message i else e') | _, _ => False end.
Lemma normalize_worded : forall i r, psame (worded i) (normalize_result R r) (normalize_result R r).
Proof.
  intros i [j|]; cbn [normalize_result]; [|constructor; reflexivity]. destruct (_ && _); [constructor|].
  unfold normalize_path. destruct (o_symlinks (rv_opts R)); [|constructor; reflexivity]. cbn [act bind try_]. constructor. intros [q|]; constructor; reflexivity.
Qed.
Lemma body_like : forall base req, let i := mkInfo base (parse req) in no_remap R base (r_target (parse req)) -> path_kind (r_kind (parse req)) ->
  psame (worded i) (resolve_with R load (S n) base req) (body (at_path i)).
Proof.
  intros base req i Hn Hk. pose proof Hn as (_ & _ & Ht). destruct (no_remap_steps R i Hn) as [H1 H2].
  unfold resolve_with, body. rewrite Ht. fold i. cbn [resolve_]. rewrite H1. unfold and_then at 2 3. cbn [bind]. rewrite H2. cbn [bind].
  fold (core i). eapply psame_bind2; [apply core_like; [exact Hk|apply parse_kind]|].
  intros [r|j|e j] [r'|j'|e' j'] H; cbn [like] in H; try contradiction; cbn [bind ended].
  - subst r'. apply normalize_worded.
  - constructor.
  - subst e'. constructor. cbn [worded]. reflexivity.
Qed.
End Core.

Section Final.
Variable fs : fsys.
Hypothesis Hfs : sane_fs fs.
Variable js : str -> option json.
Hypothesis Hjs : forall s j, js s = Some j -> wf_json j.
Variable nm : nat -> str.
Hypothesis Hclash : no_clash fs js nm.
Notation M := (wxm (okc fs js nm) false).
Lemma body_sim : forall R n i j, client js nm R -> browser_clear fs js R -> irel i j ->
  sim fs M arel (body R (fresh_load fs js R) n i) (body R (load_pkg_file R (S n)) n j).
Proof.
  intros R n i j HR Hb Hi. destruct (okc_plain fs js nm false) as (Mf & Md & Me & Mr & Mc).
  assert (Hload : forall p q, same_path p q -> sim fs M (lrel fs R R (aliasrel R)) (fresh_load fs js R p) (load_pkg_file R (S n) q)).
  { apply (load_sim fs Hfs js nm M R HR Hb eq_refl). apply (okc_load fs Hfs js nm (fin_inj fs js Hjs nm) Hclash), HR. }
  assert (H1 : forall p q (x : ans (OIsFile q)), same_tail p q -> md_ok M (OIsFile q) x -> x = f_file fs p).
  { intros p q x H Hx. apply Mf in Hx. subst x. symmetry. apply (sf_file _ Hfs), H. }
  assert (H2 : forall p q (x : ans (OIsFile q)), same_path p q -> f_dir fs p = true -> md_ok M (OIsFile q) x -> x = false).
  { intros p q x H Hd Hx. apply Mf in Hx. subst x. apply (sf_kind _ Hfs). rewrite <- (sf_dir _ Hfs _ _ H). exact Hd. }
  assert (H3 : forall p q (x : ans (OIsDir q)), same_path p q -> md_ok M (OIsDir q) x -> x = f_dir fs p).
  { intros p q x H Hx. apply Md in Hx. subst x. symmetry. apply (sf_dir _ Hfs), H. }
  assert (H4 : forall p q (x : ans (OExists q)), same_tail p q -> md_ok M (OExists q) x -> x = f_exists fs p).
  { intros p q x H Hx. apply Me in Hx. subst x. symmetry. apply (sf_exists _ Hfs), H. }
  assert (H5 : forall p q (x : ans (OCanon q)), same_tail p q -> md_ok M (OCanon q) x -> x = f_canon fs p).
  { intros p q x H Hx. apply Mc in Hx. subst x. symmetry. apply (sf_canon _ Hfs), H. }
  pose proof (sf_kind _ Hfs) as H6.
  pose proof (browser_sim fs M R) as H7.
  unfold body. apply sim_bind with (V := srel_ irel).
  - unfold core. apply sim_and_then with (IR := irel).
    + apply (sim_pkg_step fs M R R _ _ (aliasrel R)); assumption.
    + intros a b Hab. apply (sim_final_step fs M R R _ _ (aliasrel R)); try assumption; reflexivity.
  - intros a b Hab. unfold ended. apply (sim_finish fs M R R); try assumption; reflexivity.
Qed.
Lemma psame_G {A B} : forall (Q : A -> B -> Prop) p p', psame Q p p' -> Gx fs js nm True p -> Gx fs js nm True p'.
Proof.
  intros Q p p' H. unfold Gx. induction H as [a b _|m| |o k k' _ IH]; cbn [wgx]; auto. intros [Hp Hk]. split; auto.
Qed.
Notation after h seeds := (snd (run_history fs (empty_state seeds) (map ECall h))).
Lemma body_out : forall R n base req j st, client js nm R -> browser_clear fs js R -> Inv fs js nm st ->
  no_remap R base (r_target (parse req)) -> path_kind (r_kind (parse req)) -> irel j (at_path (mkInfo base (parse req))) ->
  orel arel (ev_fs fs (body R (fresh_load fs js R) n j)) (out fs st (body R (load_pkg_file R (S n)) n (at_path (mkInfo base (parse req))))).
Proof.
  intros R n base req j st HR Hb Hi Hn Hk Hij.
  refine (proj1 (run_inv fs js nm _ (orel arel (ev_fs fs (body R (fresh_load fs js R) n j))) st _ Hi)). apply wg_and; [apply body_sim; assumption|].
  eapply psame_G; [apply (body_like R (load_pkg_file R (S n)) n base req Hn Hk)|].
  apply G_resolve_with. intros p. apply client_load; try assumption. exact (fin_inj fs js Hjs nm).
Qed.
Lemma denotes_path : forall base req p q f, denotes base req p q f -> at_path (mkInfo base (parse req)) = mkInfo p (mkReq [] q f Relative).
Proof.
  intros base req p q f (Hk & Hq & Hf & Hp). unfold at_path. cbn [i_path i_req]. rewrite Hq, Hf. f_equal. subst p.
  unfold get_path. cbn [i_path i_req]. destruct (str_eqb_spec (r_target (parse req)) []) as [->|E1]; [reflexivity|].
  destruct (str_eqb_spec (r_target (parse req)) s_dot) as [->|E2]; [reflexivity|]. cbn [orb].
  destruct (r_target (parse req)) as [|c [|c' t]]; [contradiction| |].
  - destruct (N.eq_dec c 46) as [->|Hc]; [contradiction E2; reflexivity|].
    destruct c as [|c]; [reflexivity|]. do 6 (destruct c as [c|c|]; try reflexivity). contradiction Hc; reflexivity.
  - destruct c as [|c]; [reflexivity|]. do 6 (destruct c as [c|c|]; try reflexivity).
Qed.
Lemma no_such_msg : forall base req, no_such base req = resolve_failed_message (mkInfo base (parse req)).
Proof. intros. unfold no_such, resolve_failed_message, request_display. cbn [i_req i_path]. rewrite <- !app_assoc. reflexivity. Qed.
Lemma irel_paths : forall p p' q f, same_tail p p' -> irel (mkInfo p (mkReq [] q f Relative)) (mkInfo p' (mkReq [] q f Relative)).
Proof. intros p p' q f H. split; [split; [reflexivity|apply same_tail_path, H]|]. intros _. exact H. Qed.
Lemma fin_69_same : forall R base req base' req' p p' q fr f st st', client js nm R -> browser_clear fs js R ->
  Inv fs js nm st -> Inv fs js nm st' ->
  no_remap R base (r_target (parse req)) -> no_remap R base' (r_target (parse req')) ->
  denotes base req p q fr -> denotes base' req' p' q fr -> same_tail p p' ->
  same_outcome (same_for base req base' req') (out fs st (call_prog (CResolve R f base req))) (out fs st' (call_prog (CResolve R f base' req'))).
Proof.
  intros R base req base' req' p p' q fr f st st' HR Hb Hi Hi' Hn Hn' Hd Hd' Ht.
  destruct f as [|n].
  { cbn [call_prog]. unfold out, resolve, resolve_with. destruct Hn as (_ & _ & ->). exact I. }
  pose proof (body_like R (load_pkg_file R (S n)) n base req Hn (proj1 Hd)) as L.
  pose proof (body_like R (load_pkg_file R (S n)) n base' req' Hn' (proj1 Hd')) as L'.
  pose proof (psame_run _ _ _ L fs st) as P. pose proof (psame_run _ _ _ L' fs st') as P'.
  pose proof (body_out R n base req (mkInfo p (mkReq [] q fr Relative)) st HR Hb Hi Hn (proj1 Hd)) as B.
  pose proof (body_out R n base' req' (mkInfo p (mkReq [] q fr Relative)) st' HR Hb Hi' Hn' (proj1 Hd')) as B'.
  rewrite (denotes_path _ _ _ _ _ Hd) in *. rewrite (denotes_path _ _ _ _ _ Hd') in *.
  specialize (B (irel_paths _ _ _ _ (or_introl eq_refl))). specialize (B' (irel_paths _ _ _ _ Ht)).
  unfold out in *. cbn [call_prog]. unfold resolve. rewrite !run_bind.
  destruct (run fs (resolve_with R (load_pkg_file R (S n)) (S n) base req) st) as [o1 s1].
  destruct (run fs (resolve_with R (load_pkg_file R (S n)) (S n) base' req') st') as [o2 s2].
  cbn [fst] in *.
  destruct (fst (run fs (body R (load_pkg_file R (S n)) n (mkInfo p (mkReq [] q fr Relative))) st)) as [b1|m1|];
  destruct (fst (run fs (body R (load_pkg_file R (S n)) n (mkInfo p' (mkReq [] q fr Relative))) st')) as [b2|m2|];
  destruct o1 as [a1|n1|], o2 as [a2|n2|]; cbn [orel] in *; try contradiction; cbn [run fst same_outcome]; auto.
  - destruct B as (x & Ex & A), B' as (y & Ey & A'). rewrite Ex in Ey. injection Ey as <-.
    destruct x as [x|e], b1 as [x1|e1], b2 as [x2|e2], a1 as [z1|w1], a2 as [z2|w2]; cbn [arel worded same_for] in *; try contradiction; [congruence|].
    destruct A as [A Ta], A' as [A' Ta']. subst w1 w2. rewrite !no_such_msg.
    destruct (str_eqb_spec e1 TAG) as [E1|E1]; destruct (str_eqb_spec e2 TAG) as [E2|E2].
    + left. split; reflexivity.
    + exfalso. apply E2, Ta', Ta, E1.
    + exfalso. apply E1, Ta, Ta', E2.
    + right. exists e. split; assumption.
  - destruct B as (x & Ex & A), B' as (y & Ey & A'). congruence.
  - destruct B as (x & Ex & A), B' as (y & Ey & A'). congruence.
  - destruct B as (x & Ex & A), B' as (y & Ey & A'). rewrite Ex in Ey. injection Ey as <-. subst n1 n2. exists x. split; assumption.
Qed.
Lemma fin_69 : forall R base req base' req' p p' q fr f f' h h' seeds seeds', client js nm R -> browser_clear fs js R ->
  Forall (fun c => client js nm (call_resolver c)) h -> Forall (fun c => client js nm (call_resolver c)) h' ->
  no_remap R base (r_target (parse req)) -> no_remap R base' (r_target (parse req')) ->
  denotes base req p q fr -> denotes base' req' p' q fr -> same_tail p p' ->
  same_outcome (same_for base req base' req')
    (out fs (after h seeds) (call_prog (CResolve R f base req))) (out fs (after h' seeds') (call_prog (CResolve R f' base' req'))).
Proof.
  intros R base req base' req' p p' q fr f f' h h' seeds seeds' HR Hb Hh Hh' Hn Hn' Hd Hd' Ht.
  assert (Hle : forall f f' b r, f <= f' -> fle (call_prog (CResolve R f b r)) (call_prog (CResolve R f' b r))).
  { intros. apply fle_bind; [apply resolve_fle; assumption|]. intros a. apply fle_refl. }
  pose proof (fin_69_same R base req base' req' p p' q fr (Nat.max f f') (after h seeds) (after h' seeds') HR Hb
    (fin_history fs Hfs js Hjs nm Hclash h seeds Hh) (fin_history fs Hfs js Hjs nm Hclash h' seeds' Hh') Hn Hn' Hd Hd' Ht) as H.
  pose proof (fle_run _ _ (Hle f (Nat.max f f') base req (Nat.le_max_l _ _)) fs (after h seeds)) as E.
  pose proof (fle_run _ _ (Hle f' (Nat.max f f') base' req' (Nat.le_max_r _ _)) fs (after h' seeds')) as E'.
  unfold out in *.
  destruct (fst (run fs (call_prog (CResolve R f base req)) (after h seeds))) eqn:F; [| |exact I];
  rewrite E in H by discriminate; rewrite F in H;
  (destruct (fst (run fs (call_prog (CResolve R f' base' req')) (after h' seeds'))) eqn:F'; [| |exact I]);
  rewrite E' in H by discriminate; rewrite F' in H; exact H.
Qed.
(** ** Concurrent calls *)
Definition outrel {A B} (Q : A -> B -> Prop) (r : outcome A) (b : outcome B) : Prop :=
  match r, b with Done a, Done b => Q a b | Panicked m, Panicked m' => m = m' | NoFuel, NoFuel => True | _, _ => False end.
Lemma psame_wg {A B} : forall (Q : A -> B -> Prop) p q, psame Q p q -> forall (P : outcome B -> Prop), wg fs js nm P q ->
  wg fs js nm (fun r => exists b, P b /\ outrel Q r b) p.
Proof.
  intros Q p q H P. induction H as [a b H|m| |o k k' _ IH]; cbn [wgx].
  - intros HP. exists (Done b). split; assumption.
  - intros HP. exists (Panicked m). split; [assumption|reflexivity].
  - intros HP. exists NoFuel. split; [assumption|exact I].
  - intros [Hp Hk]. split; [assumption|]. intros x Hx. apply IH, Hk, Hx.
Qed.
Lemma fle_wg {A} : forall (p q : prog A), fle p q -> forall (P : outcome A -> Prop), wg fs js nm P q -> wg fs js nm (fun r => r = NoFuel \/ P r) p.
Proof.
  intros p q H P. induction H as [q|a|m|o k k' _ IH]; cbn [wgx]; auto. intros [Hp Hk]. split; [assumption|]. intros x Hx. apply IH, Hk, Hx.
Qed.
Definition fits R n p q fr base req (r : outcome answer) : Prop :=
  r = NoFuel \/ exists b, orel arel (ev_fs fs (body R (fresh_load fs js R) n (mkInfo p (mkReq [] q fr Relative)))) b /\
    outrel (fun a b => exists z, a = AResolve z /\ worded (mkInfo base (parse req)) z b) r b.
Lemma call_fits : forall R n f base req p p' q fr, client js nm R -> browser_clear fs js R -> f <= S n ->
  no_remap R base (r_target (parse req)) -> denotes base req p' q fr -> same_tail p p' ->
  wg fs js nm (fits R n p q fr base req) (call_prog (CResolve R f base req)).
Proof.
  intros R n f base req p p' q fr HR Hb Hf Hn Hd Ht.
  eapply fle_wg; [cbn [call_prog]; apply fle_bind; [apply resolve_fle, Hf|intros a; apply fle_refl]|].
  apply wg_bind. eapply wg_mono; [|eapply psame_wg; [apply (body_like R (load_pkg_file R (S n)) n base req Hn (proj1 Hd))|]].
  - intros [a|m|] (b & Hx & Hr); cbn [wgx]; exists b; (split; [exact Hx|]); destruct b; cbn [outrel] in *; try contradiction; auto.
    exists a. auto.
  - rewrite (denotes_path _ _ _ _ _ Hd). apply wg_and.
    + apply body_sim; [exact HR|exact Hb|apply irel_paths, Ht].
    + rewrite <- (denotes_path _ _ _ _ _ Hd). eapply psame_G; [apply (body_like R (load_pkg_file R (S n)) n base req Hn (proj1 Hd))|].
      apply G_resolve_with. intros z. apply client_load; try assumption. exact (fin_inj fs js Hjs nm).
Qed.
Lemma fits_agree : forall R n p q fr base req base' req' r r', fits R n p q fr base req r -> fits R n p q fr base' req' r' ->
  same_outcome (same_for base req base' req') r r'.
Proof.
  intros R n p q fr base req base' req' r r' [->|(b & B & H)]; [intros _; exact I|]. intros [->|(b' & B' & H')]; [destruct r; exact I|].
  destruct r as [a|m|], b as [b1|mb|]; cbn [outrel] in H; try contradiction; try exact I;
  destruct r' as [a'|m'|], b' as [b2|mb'|]; cbn [outrel] in H'; try contradiction; try exact I; cbn [orel same_outcome] in *.
  - destruct H as (z1 & -> & H), H' as (z2 & -> & H').
    destruct B as (x & Ex & A), B' as (y & Ey & A'). rewrite Ex in Ey. injection Ey as <-.
    destruct x as [x|e], b1 as [x1|e1], b2 as [x2|e2], z1 as [z1|w1], z2 as [z2|w2]; cbn [arel worded same_for] in *; try contradiction; [congruence|].
    destruct A as [A Ta], A' as [A' Ta']. subst w1 w2. rewrite !no_such_msg.
    destruct (str_eqb_spec e1 TAG) as [E1|E1]; destruct (str_eqb_spec e2 TAG) as [E2|E2].
    + left. split; reflexivity.
    + exfalso. apply E2, Ta', Ta, E1.
    + exfalso. apply E1, Ta, Ta', E2.
    + right. exists e. split; assumption.
  - destruct B as (x & Ex & A), B' as (y & Ey & A'). congruence.
  - destruct B as (x & Ex & A), B' as (y & Ey & A'). congruence.
  - destruct B as (x & Ex & A), B' as (y & Ey & A'). rewrite Ex in Ey. injection Ey as <-. subst. exists x. split; assumption.
Qed.
Lemma fin_69_threads : forall l h sched seeds a b R f base req f' base' req' p p' q fr x y,
  Forall (fun c => client js nm (call_resolver c)) h -> Forall (fun c => client js nm (call_resolver c)) l -> browser_clear fs js R ->
  nth_error l a = Some (CResolve R f base req) -> nth_error l b = Some (CResolve R f' base' req') ->
  no_remap R base (r_target (parse req)) -> no_remap R base' (r_target (parse req')) ->
  denotes base req p q fr -> denotes base' req' p' q fr -> same_tail p p' ->
  nth_error (fst (run_sched fs sched (after h seeds) (map call_prog l))) a = Some x ->
  nth_error (fst (run_sched fs sched (after h seeds) (map call_prog l))) b = Some y ->
  same_outcome (same_for base req base' req') (settled x) (settled y).
Proof.
  intros l h sched seeds a b R f base req f' base' req' p p' q fr x y Hh Hl Hb La Lb Hn Hn' Hd Hd' Ht Ex Ey.
  set (n := Nat.max f f'). set (i := mkInfo base (parse req)).
  assert (Hone : forall c k z P, nth_error l k = Some c -> wg fs js nm P (call_prog c) ->
    nth_error (fst (run_sched fs sched (after h seeds) (map call_prog l))) k = Some z -> wg fs js nm P z).
  { intros c k z P Lk HP Ez.
    destruct (sched_inv fs js nm sched (map call_prog l) (map (fun j => if Nat.eqb j k then P else fun _ => True) (seq 0 (length l))) (after h seeds)) as [H _].
    - assert (Hg : forall s l0, Forall (fun c => client js nm (call_resolver c)) l0 -> (forall j c0, nth_error l0 j = Some c0 -> s + j = k -> c0 = c) ->
        Forall2 (fun Q p => wg fs js nm Q p) (map (fun j => if Nat.eqb j k then P else fun _ => True) (seq s (length l0))) (map call_prog l0)).
      { intros s l0 H0. revert s. induction H0 as [|c0 l0 Hc H0 IH]; intros s Hk; cbn [length seq map]; constructor.
        - destruct (Nat.eqb_spec s k) as [E|E]; [|apply client_call; try assumption; exact (fin_inj fs js Hjs nm)].
          rewrite (Hk 0 c0 eq_refl) by (rewrite Nat.add_0_r; exact E). exact HP.
        - apply IH. intros j c1 Hj E. apply (Hk (S j) c1 Hj). rewrite <- E. rewrite Nat.add_succ_r. reflexivity. }
      apply Hg; [exact Hl|]. intros j c0 Hj E. cbn in E. subst j. congruence.
    - apply fin_history; assumption.
    - assert (Hn2 : forall (Qs : list (outcome answer -> Prop)) ps j z0, Forall2 (fun Q p => wg fs js nm Q p) Qs ps -> nth_error ps j = Some z0 -> exists Q, nth_error Qs j = Some Q /\ wg fs js nm Q z0).
      { clear. intros Qs ps j z0 H. revert j. induction H as [|Q p0 Qs ps H0 H IH]; intros [|j] E; try discriminate; cbn [nth_error] in *.
        - injection E as <-. exists Q. auto.
        - apply IH, E. }
      destruct (Hn2 _ _ k z H Ez) as (Q & EQ & HQ).
      rewrite nth_error_map in EQ. assert (Lt : k < length l) by (apply nth_error_Some; congruence).
      rewrite (nth_error_nth' _ 0) in EQ by (rewrite seq_length; exact Lt). rewrite seq_nth in EQ by exact Lt. cbn in EQ. rewrite Nat.eqb_refl in EQ.
      injection EQ as <-. exact HQ. }
  assert (HR : client js nm R) by exact (proj1 (Forall_forall _ _) Hl _ (nth_error_In _ _ La)).
  assert (Hx : wg fs js nm (fits R n p q fr base req) x).
  { apply (Hone _ _ _ _ La); [|exact Ex]. apply (call_fits R n f base req p p q fr HR Hb); [unfold n; lia|exact Hn|exact Hd|left; reflexivity]. }
  assert (Hy : wg fs js nm (fits R n p q fr base' req') y).
  { apply (Hone _ _ _ _ Lb); [|exact Ey]. apply (call_fits R n f' base' req' p p' q fr HR Hb); [unfold n; lia|exact Hn'|exact Hd'|exact Ht]. }
  apply (fits_agree R n p q fr).
  - destruct x; cbn [settled wgx] in *; try exact Hx. left. reflexivity.
  - destruct y; cbn [settled wgx] in *; try exact Hy. left. reflexivity.
Qed.
End Final.

(** ** Witnesses *)
Definition Pm : outcome answer := Done (AResolve (Ok (RInfo (mkInfo (lit "/r/node_modules/p/b.js") (mkReq [] (lit "?x") [] Relative))))).
Lemma ex69 :
  (denotes (lit "/r/node_modules/p") (lit "./m?x") (lit "/r/node_modules/p/./m") (lit "?x") [] /\
   denotes (lit "/r/./node_modules") (lit "./p/m?x") (lit "/r/./node_modules/./p/m") (lit "?x") [] /\
   denotes (lit "/q") (lit "/r/node_modules/p/m?x") (lit "/r/node_modules/p/m") (lit "?x") [] /\
   same_tail (lit "/r/node_modules/p/./m") (lit "/r/./node_modules/./p/m") /\
   same_tail (lit "/r/node_modules/p/./m") (lit "/r/node_modules/p/m") /\
   Forall (fun br => no_remap Rc_b (fst br) (r_target (parse (snd br))))
     [(lit "/r/node_modules/p", lit "./m?x"); (lit "/r/./node_modules", lit "./p/m?x"); (lit "/q", lit "/r/node_modules/p/m?x")]) /\
  (out wc warm (call_prog (CResolve Rc_b 40 (lit "/r/node_modules/p") (lit "./m?x"))) = Pm /\
   out wc st0 (call_prog (CResolve Rc_b 40 (lit "/r/./node_modules") (lit "./p/m?x"))) = Pm /\
   out wc warm (call_prog (CResolve Rc_b 40 (lit "/q") (lit "/r/node_modules/p/m?x"))) = Pm /\
   out wc warm (call_prog (CResolve Rc_b 40 (lit "/r") (lit "./z"))) = Done (AResolve (Err (lit "Resolve './z' failed in '/r'"))) /\
   out wc warm (call_prog (CResolve Rc_b 40 (lit "/q") (lit "/r/z"))) = Done (AResolve (Err (lit "Resolve '/r/z' failed in '/q'")))).
Proof.
  split; [|split; [|split; [|split; [|split]]]; vm_compute; reflexivity].
  split; [|split; [|split; [|split; [|split]]]].
  - split; [left; vm_compute; reflexivity|]. split; [|split]; vm_compute; reflexivity.
  - split; [left; vm_compute; reflexivity|]. split; [|split]; vm_compute; reflexivity.
  - split; [right; left; vm_compute; reflexivity|]. split; [|split]; vm_compute; reflexivity.
  - right. exists (lit "/r/node_modules/p/./"), (lit "/r/./node_modules/./p/"), (lit "m"). split; [|split; [|split; [|split]]]; vm_compute; reflexivity.
  - right. exists (lit "/r/node_modules/p/./"), (lit "/r/node_modules/p/"), (lit "m"). split; [|split; [|split; [|split]]]; vm_compute; reflexivity.
  - repeat constructor; left; reflexivity.
Qed.
(** Paths that are equal as paths, but one ends in a slash. *)
Lemma slash69 : exists fs js R base req req' p p' q f x e, sane_fs fs /\ R = new_resolver default_options 0 0 false js (jsc_of []) /\
  denotes base req p q f /\ denotes base req' p' q f /\ same_path p p' /\
  out fs (empty_state (fun _ => [])) (call_prog (CResolve R 40 base req)) = Done (AResolve (Ok x)) /\
  out fs (empty_state (fun _ => [])) (call_prog (CResolve R 40 base req')) = Done (AResolve (Err e)).
Proof.
  exists (W (D [("r", D [("x.js", F)])]))%string, (js_of []), (new_resolver default_options 0 0 false (js_of []) (jsc_of [])),
    (lit "/r"), (lit "./x"), (lit "./x/"), (lit "/r/./x"), (lit "/r/./x/"), [], [], (RInfo (mkInfo (lit "/r/x.js") (mkReq [] [] [] Relative))),
    (lit "Resolve './x/' failed in '/r'").
  split; [apply posix_sane|]. split; [reflexivity|]. split; [|split; [|split; [|split]]]; try (vm_compute; reflexivity).
  - split; [left; vm_compute; reflexivity|]. split; [|split]; vm_compute; reflexivity.
  - split; [left; vm_compute; reflexivity|]. split; [|split]; vm_compute; reflexivity.
Qed.
(** ".." after a symbolic link to a directory. *)
Lemma dotdot69 : exists fs R x y, sane_fs fs /\ R = new_resolver default_options 0 0 false (js_of []) (jsc_of []) /\ f_dir fs (lit "/s/l") = true /\
  out fs (empty_state (fun _ => [])) (call_prog (CResolve R 40 (lit "/s/l") (lit "../x"))) = Done (AResolve (Ok x)) /\
  out fs (empty_state (fun _ => [])) (call_prog (CResolve R 40 (lit "/s") (lit "./x"))) = Done (AResolve (Ok y)) /\ x <> y.
Proof.
  exists (W (D [("s", D [("l", NLink (lit "/r/d")); ("x.js", F)]); ("r", D [("d", D []); ("x.js", F)])]))%string,
    (new_resolver default_options 0 0 false (js_of []) (jsc_of [])),
    (RInfo (mkInfo (lit "/r/x.js") (mkReq [] [] [] Relative))), (RInfo (mkInfo (lit "/s/x.js") (mkReq [] [] [] Relative))).
  split; [apply posix_sane|]. split; [reflexivity|]. split; [|split; [|split]]; try (vm_compute; reflexivity). discriminate.
Qed.
Definition l69 : list call := [CResolve Rc_b 40 (lit "/r/node_modules/p") (lit "./m?x"); CResolve Rc_b 40 (lit "/r/./node_modules") (lit "./p/m?x");
  CResolve Rc_b 40 (lit "/r") (lit "./z"); CResolve Rc_b 40 (lit "/q") (lit "/r/z")].
Definition rounds69 (n : nat) : list nat := concat (repeat [0; 1; 2; 3; 1] n).
Lemma ex69t : map settled (fst (run_sched wc (rounds69 80) st0 (map call_prog l69))) =
  [Pm; Pm; Done (AResolve (Err (lit "Resolve './z' failed in '/r'"))); Done (AResolve (Err (lit "Resolve '/r/z' failed in '/q'")))].
Proof. vm_compute. reflexivity. Qed.
