(** * How much a call does: proofs for PropWork.v *)
From Coq Require Import String.
From Coq Require Import List Arith NArith Bool Lia.
From Verif Require Import Str StrP Path PathP Json Types Parse Map Prog Desc Resolve Top Run RunP Exec ExecP Posix PosixP Demo SpecRun SpecLoad SpecJson SpellP SpecCache SimP LoadP GuarP LookupP CacheP TotalP ColdP PropCacheP SpecWork.
Import ListNotations.

Lemma work_bind {A B} : forall fs (p : prog A) (f : A -> prog B) st,
  work fs (bind p f) st = work fs p st + match run fs p st with (Done a, st') => work fs (f a) st' | _ => 0 end.
Proof.
  intros fs p f. induction p as [a|m| |o k IH]; intros st; cbn [bind work run]; try reflexivity.
  rewrite IH. destruct (step fs st o) as [x st']. cbn [fst snd]. lia.
Qed.

(** ** Nested main fields *)
Section Deep.
Variable n : nat.
Notation root := (deep n).
Notation fs := (W (deep n)).
Notation dn := (lit "d").
Notation js := (js_of texts70).
Definition nm70 : nat -> str := fun _ => lit "package.json".
Lemma js70 : forall s j, js s = Some j -> wf_json j.
Proof. intros s j H. apply js_of_in in H. cbn [texts70 map snd] in H. destruct H as [<-|[<-|[]]]; cbn; repeat split; auto. Qed.
Lemma clash70 : no_clash fs js nm70.
Proof.
  intros c v v' (d & s & j & _ & _ & Hj & Hv) _. apply js_of_in in Hj. cbn [texts70 map snd] in Hj.
  destruct Hj as [<-|[<-|[]]]; discriminate.
Qed.
Lemma client70 : client js nm70 R70.
Proof. split; [right; reflexivity|split; reflexivity]. Qed.

Lemma lookup_nest : forall j k, j <= k -> lookup (nest k) (repeat dn j) = Some (nest (k - j)).
Proof.
  induction j as [|j IH]; intros k Hk; [rewrite Nat.sub_0_r; reflexivity|]. destruct k as [|k]; [lia|].
  cbn [nest repeat lookup D map fst snd]. change (imap_get _ dn) with (Some (nest k)). cbv iota. rewrite IH by lia. reflexivity.
Qed.
Lemma rev_repeat {A} : forall (x : A) m, rev (repeat x m) = repeat x m.
Proof. intros x m. induction m as [|m IH]; [reflexivity|]. cbn [repeat rev]. rewrite IH. symmetry. apply repeat_cons. Qed.
Definition top : node := D [("package.json", PJ "P"); ("index.js", F); ("d", nest n)]%string.
Lemma lookup_top : lookup root (rev (repeat dn 1)) = Some top.
Proof. reflexivity. Qed.
Lemma lookup_deep : forall m, 2 <= m <= S (S n) -> lookup root (rev (repeat dn m)) = Some (nest (S (S n) - m)).
Proof.
  intros m Hm. rewrite rev_repeat. destruct m as [|[|m]]; [lia|lia|]. cbn [repeat lookup deep D map fst snd].
  change (imap_get _ dn) with (Some top) at 1. cbv iota. unfold top. cbn [lookup D map fst snd].
  change (imap_get _ dn) with (Some (nest n)). cbv iota. rewrite lookup_nest by lia. f_equal.
Qed.

Definition lev (m : nat) (p : path) : Prop :=
  is_abs p = true /\ ends_with_char p c_slash = false /\ posix_resolve 60 root [] p = Some (repeat dn m).
Lemma lev_join : forall m p t, lev m p -> is_abs t = false ->
  join p t = p ++ c_slash :: t /\ posix_resolve 60 root [] (join p t) = walk_path 60 root (repeat dn m) (split_on c_slash t).
Proof.
  intros m p t (Ha & He & Hr) Ht. assert (Ej : join p t = p ++ c_slash :: t).
  { unfold join. rewrite Ht. destruct p; [discriminate|]. rewrite He. reflexivity. }
  split; [exact Ej|]. rewrite Ej. assert (Hp : p <> []) by (intros ->; discriminate).
  rewrite resolve_walk by (destruct p; discriminate). rewrite resolve_walk in Hr by exact Hp.
  replace (is_abs (p ++ c_slash :: t)) with true by (destruct p; [contradiction|symmetry; exact Ha]). rewrite Ha in Hr.
  rewrite split_on_sep_app, walk_app, Hr. reflexivity.
Qed.

(** What is in the directory at level [m], in terms of its entries. *)
Definition has (m : nat) (l : list (str * node)) : Prop := lookup root (rev (repeat dn m)) = Some (NDir l).
Definition ents (m : nat) : list (str * node) :=
  match m with 1 => map (fun kv => (lit (fst kv), snd kv)) [("package.json", PJ "P"); ("index.js", F); ("d", nest n)]%string
             | _ => match nest (S (S n) - m) with NDir l => l | _ => [] end end.
Lemma has_ents : forall m, 1 <= m <= S (S n) -> has m (ents m).
Proof.
  intros m Hm. unfold has. destruct m as [|[|m]]; [lia|reflexivity|]. rewrite lookup_deep by lia. unfold ents.
  destruct (S (S n) - S (S m)); reflexivity.
Qed.
Lemma ent_d : forall m, 1 <= m <= S n -> imap_get (ents m) dn = Some (nest (S n - m)).
Proof.
  intros m Hm. destruct m as [|[|m]]; [lia|cbn; f_equal; f_equal; lia|]. unfold ents. replace (S (S n) - S (S m)) with (S (S n - S (S m))) by lia. reflexivity.
Qed.
Lemma ent_p : forall m, 1 <= m <= S (S n) -> imap_get (ents m) (lit "package.json") = Some (PJ (if Nat.eqb m (S (S n)) then "Q"%string else "P"%string)).
Proof.
  intros m Hm. destruct (Nat.eqb_spec m (S (S n))) as [->|E].
  - unfold ents. rewrite Nat.sub_diag. reflexivity.
  - destruct m as [|[|m]]; [lia|reflexivity|]. unfold ents. replace (S (S n) - S (S m)) with (S (S n - S (S m))) by lia. reflexivity.
Qed.
Lemma ent_none : forall m s, 2 <= m <= S (S n) -> str_eqb (lit "package.json") s = false -> str_eqb dn s = false -> imap_get (ents m) s = None.
Proof.
  intros m s Hm H1 H2. destruct m as [|[|m]]; [lia|lia|]. unfold ents. destruct (S (S n) - S (S m)); cbn [nest D map fst snd imap_get]; rewrite ?H1, ?H2; reflexivity.
Qed.
Lemma ent_other : forall m s, 1 <= m <= S (S n) -> str_eqb (lit "package.json") s = false -> str_eqb dn s = false -> str_eqb (lit "index.js") s = false -> imap_get (ents m) s = None.
Proof.
  intros m s Hm H1 H2 H3. destruct m as [|[|m]]; [lia| |].
  - cbn [ents map fst snd imap_get]. rewrite H1, H3, H2. reflexivity.
  - apply ent_none; [lia|assumption|assumption].
Qed.

Notation go := (walk_path 60 root).
Lemma walk_dot : forall m r, 1 <= m <= S (S n) -> go (repeat dn m) (s_dot :: r) = go (repeat dn m) r.
Proof. intros m r Hm. rewrite walk_cons, (has_ents m Hm). reflexivity. Qed.
Lemma walk_up : forall m r, 1 <= m <= S n -> go (repeat dn (S m)) (s_dotdot :: r) = go (repeat dn m) r.
Proof. intros m r Hm. rewrite walk_cons, (has_ents (S m)) by lia. reflexivity. Qed.
Lemma walk_d : forall m, 1 <= m <= S n -> go (repeat dn m) [dn] = Some (repeat dn (S m)).
Proof.
  intros m Hm. rewrite walk_cons, (has_ents m) by lia. change (str_eqb dn [] || str_eqb dn s_dot) with false. change (str_eqb dn s_dotdot) with false. cbv iota.
  rewrite (ent_d m Hm). destruct (S n - m); cbn [nest D]; apply walk_nil.
Qed.
Lemma walk_other : forall m s, 1 <= m <= S (S n) -> imap_get (ents m) s = None -> str_eqb s [] || str_eqb s s_dot = false -> str_eqb s s_dotdot = false -> go (repeat dn m) [s] = None.
Proof. intros m s Hm He H1 H2. rewrite walk_cons, (has_ents m Hm), H1, H2, He. reflexivity. Qed.
Lemma walk_p : forall m, 1 <= m <= S (S n) -> go (repeat dn m) [lit "package.json"] = Some (lit "package.json" :: repeat dn m).
Proof.
  intros m Hm. rewrite walk_cons, (has_ents m Hm). change (str_eqb (lit "package.json") [] || str_eqb (lit "package.json") s_dot) with false.
  change (str_eqb (lit "package.json") s_dotdot) with false. cbv iota. rewrite (ent_p m Hm). apply walk_nil.
Qed.
Lemma lookup_in : forall r cur x l, lookup r cur = Some (NDir l) -> lookup r (cur ++ [x]) = imap_get l x.
Proof.
  intros r cur. revert r. induction cur as [|c cur IH]; intros r x l H; cbn [lookup app] in *.
  - injection H as ->. cbn. destruct (imap_get l x); reflexivity.
  - destruct r as [| m |]; try discriminate. destruct (imap_get m c); [|discriminate]. apply IH, H.
Qed.
Lemma lev_dir : forall m p, 1 <= m <= S (S n) -> lev m p -> f_dir fs p = true.
Proof. intros m p Hm (_ & _ & Hr). cbn [f_dir W posix_fs]. unfold posix_node. rewrite Hr, (has_ents m Hm). reflexivity. Qed.
Lemma lev_desc : forall m p, 1 <= m <= S (S n) -> lev m p ->
  posix_node 60 root [] (join p (lit "package.json")) = Some (PJ (if Nat.eqb m (S (S n)) then "Q"%string else "P"%string)).
Proof.
  intros m p Hm Hl. destruct (lev_join m p (lit "package.json") Hl eq_refl) as [_ E]. unfold posix_node. rewrite E.
  change (split_on c_slash (lit "package.json")) with [lit "package.json"]. rewrite walk_p by exact Hm.
  cbn [rev]. rewrite (lookup_in _ _ _ _ (has_ents m Hm)). apply ent_p, Hm.
Qed.
Definition nofile (p : path) : Prop := f_file fs p = false /\ Forall (fun e => f_file fs (p ++ e) = false) [lit ".js"; lit ".json"; lit ".node"].
Lemma app_slash : forall p t, ends_with_char (p ++ c_slash :: t) c_slash = match t with [] => true | _ => ends_with_char t c_slash end.
Proof.
  intros p t. induction p as [|c p IH]; [destruct t; reflexivity|]. cbn [app ends_with_char]. destruct (p ++ c_slash :: t) eqn:E; [destruct p; discriminate|]. exact IH.
Qed.
Lemma lev_next : forall m p, 1 <= m <= S n -> lev m p -> lev (S m) (join p (lit "./d")) /\ nofile (join p (lit "./d")).
Proof.
  intros m p Hm Hl. pose proof Hl as (Ha & He & Hr). destruct (lev_join m p (lit "./d") Hl eq_refl) as [Ej E].
  assert (Hlev : lev (S m) (join p (lit "./d"))).
  { split; [rewrite Ej; destruct p; [discriminate|exact Ha]|]. split; [rewrite Ej, app_slash; reflexivity|]. rewrite E.
    change (split_on c_slash (lit "./d")) with [s_dot; dn]. rewrite walk_dot by lia. apply walk_d, Hm. }
  split; [exact Hlev|]. split.
  - destruct (f_file fs (join p (lit "./d"))) eqn:Ef; [|reflexivity]. pose proof (lev_dir (S m) _ ltac:(lia) Hlev) as Hd.
    pose proof (sf_kind _ (posix_sane 60 root []) _ Hd) as H. unfold W in Ef. congruence.
  - assert (H : forall e s, lit "./d" ++ e = s_dot ++ c_slash :: s -> ~ In c_slash s -> is_abs (lit "./d" ++ e) = false -> imap_get (ents m) s = None ->
      str_eqb s [] || str_eqb s s_dot = false -> str_eqb s s_dotdot = false -> f_file fs (join p (lit "./d") ++ e) = false).
    { intros e s Es Hs Hab Hi H1 H2. rewrite Ej, <- app_assoc. cbn [app]. destruct (lev_join m p (lit "./d" ++ e) Hl Hab) as [Ej' E'].
      change (c_slash :: lit "./d" ++ e) with (c_slash :: (lit "./d" ++ e)). rewrite <- Ej'. cbn [f_file W posix_fs]. unfold posix_node. rewrite E', Es.
      rewrite split_on_app by (intros [H|[]]; discriminate). rewrite (split_on_nosep _ _ Hs). rewrite walk_dot by lia. rewrite walk_other; auto. lia. }
    assert (Hin : forall s, existsb (N.eqb c_slash) s = false -> ~ In c_slash s).
    { intros s Hs Hi. assert (existsb (N.eqb c_slash) s = true) by (apply existsb_exists; exists c_slash; split; [exact Hi|apply N.eqb_refl]). congruence. }
    repeat constructor; (eapply H; [reflexivity|apply Hin; reflexivity|reflexivity|apply ent_other; [lia|reflexivity|reflexivity|reflexivity]|reflexivity|reflexivity]).
Qed.

Lemma gone : forall m p t, lev m p -> is_abs t = false -> go (repeat dn m) (split_on c_slash t) = None -> f_file fs (join p t) = false.
Proof. intros m p t Hl Ht Hg. destruct (lev_join m p t Hl Ht) as [_ E]. cbn [f_file W posix_fs]. unfold posix_node. rewrite E, Hg. reflexivity. Qed.
Lemma join_ext : forall m p t e, lev m p -> is_abs t = false -> is_abs (t ++ e) = false -> join p t ++ e = join p (t ++ e).
Proof.
  intros m p t e Hl Ht He. destruct (lev_join m p t Hl Ht) as [-> _]. destruct (lev_join m p (t ++ e) Hl He) as [-> _].
  rewrite <- app_assoc. reflexivity.
Qed.
Lemma lev_again : forall m p, 1 <= m <= S n -> lev (S m) p -> lev (S m) (join p (lit "./../d")) /\ nofile (join p (lit "./../d")).
Proof.
  intros m p Hm Hl. pose proof Hl as (Ha & He & Hr). destruct (lev_join _ p (lit "./../d") Hl eq_refl) as [Ej E].
  assert (Hlev : lev (S m) (join p (lit "./../d"))).
  { split; [rewrite Ej; destruct p; [discriminate|exact Ha]|]. split; [rewrite Ej, app_slash; reflexivity|]. rewrite E.
    change (split_on c_slash (lit "./../d")) with [s_dot; s_dotdot; dn]. rewrite walk_dot by lia. rewrite walk_up by exact Hm. apply walk_d, Hm. }
  split; [exact Hlev|]. split.
  - destruct (f_file fs (join p (lit "./../d"))) eqn:Ef; [|reflexivity]. pose proof (lev_dir (S m) _ ltac:(lia) Hlev) as Hd.
    pose proof (sf_kind _ (posix_sane 60 root []) _ Hd) as H. unfold W in Ef. congruence.
  - assert (H : forall e s, split_on c_slash (lit "./../d" ++ e) = [s_dot; s_dotdot; s] -> is_abs (lit "./../d" ++ e) = false -> imap_get (ents m) s = None ->
      str_eqb s [] || str_eqb s s_dot = false -> str_eqb s s_dotdot = false -> f_file fs (join p (lit "./../d") ++ e) = false).
    { intros e s Es Hab Hi H1 H2. rewrite (join_ext _ _ (lit "./../d") e Hl eq_refl Hab). apply (gone _ _ _ Hl Hab). rewrite Es, walk_dot, walk_up by lia.
      apply walk_other; auto. lia. }
    repeat constructor; (eapply H; [reflexivity|reflexivity|apply ent_other; [lia|reflexivity|reflexivity|reflexivity]|reflexivity|reflexivity]).
Qed.
Lemma lev_index : forall m p, 2 <= m <= S (S n) -> lev m p -> nofile (join p (lit "./index")).
Proof.
  intros m p Hm Hl.
  assert (H : forall t s, split_on c_slash t = [s_dot; s] -> is_abs t = false -> imap_get (ents m) s = None ->
    str_eqb s [] || str_eqb s s_dot = false -> str_eqb s s_dotdot = false -> f_file fs (join p t) = false).
  { intros t s Es Hab Hi H1 H2. apply (gone _ _ _ Hl Hab). rewrite Es, walk_dot by lia. apply walk_other; auto. lia. }
  split; [|repeat constructor; rewrite (join_ext _ _ _ _ Hl) by reflexivity];
  (eapply H; [reflexivity|reflexivity|apply ent_none; [lia|reflexivity|reflexivity]|reflexivity|reflexivity]).
Qed.
Lemma top_index : forall p, lev 1 p -> f_file fs (join p (lit "./index")) = false /\ f_file fs (join p (lit "./index") ++ lit ".js") = true /\
  f_canon fs (join p (lit "./index") ++ lit ".js") = Some (lit "/d/index.js").
Proof.
  intros p Hl. split; [|rewrite (join_ext _ _ _ _ Hl) by reflexivity].
  - apply (gone _ _ (lit "./index") Hl eq_refl). change (split_on c_slash (lit "./index")) with [s_dot; lit "index"]. rewrite walk_dot by lia.
    apply walk_other; try reflexivity. lia.
  - destruct (lev_join _ p (lit "./index" ++ lit ".js") Hl eq_refl) as [_ E].
    change (split_on c_slash (lit "./index" ++ lit ".js")) with [s_dot; lit "index.js"] in E. rewrite walk_dot in E by lia.
    rewrite walk_cons, (has_ents 1) in E by lia. cbn in E. cbn [f_file f_canon W posix_fs]. unfold posix_node.
    change (posix_resolve 60 root [] (join p (lit "./index" ++ lit ".js")) = Some (lit "index.js" :: repeat dn 1)) in E.
    rewrite E. split; reflexivity.
Qed.

(** Runs from good tables that end in a value as described, with at least [w] operations. *)
Definition goes {A} (p : prog A) (Q : A -> Prop) (w : nat) : Prop :=
  forall st, Inv fs js nm70 st -> exists a st', run fs p st = (Done a, st') /\ Q a /\ Inv fs js nm70 st' /\ w <= work fs p st.
Lemma goes_ret {A} : forall (a : A) (Q : A -> Prop), Q a -> goes (Ret a) Q 0.
Proof. intros a Q H st Hi. exists a, st. cbn. auto. Qed.
Lemma goes_bind {A B} : forall (p : prog A) (f : A -> prog B) Q Q' w v, goes p Q w -> (forall a, Q a -> goes (f a) Q' v) -> goes (bind p f) Q' (w + v).
Proof.
  intros p f Q Q' w v Hp Hf st Hi. destruct (Hp st Hi) as (a & st1 & E & Ha & Hi1 & Hw). destruct (Hf a Ha st1 Hi1) as (b & st2 & E' & Hb & Hi2 & Hv).
  exists b, st2. rewrite run_bind, work_bind, E. cbv iota beta. split; [exact E'|]. split; [exact Hb|]. split; [exact Hi2|lia].
Qed.
Lemma goes_le {A} : forall (p : prog A) Q w w', w' <= w -> goes p Q w -> goes p Q w'.
Proof. intros p Q w w' H Hp st Hi. destruct (Hp st Hi) as (a & st1 & E & Ha & Hi1 & Hw). exists a, st1. split; [exact E|]. split; [exact Ha|]. split; [exact Hi1|lia]. Qed.
Lemma goes_act {B} : forall o (f : ans o -> prog B) x Q w, reads o -> (forall st, step fs st o = (x, st)) -> goes (f x) Q w -> goes (bind (act o) f) Q w.
Proof.
  intros o f x Q w Hr Hs Hf st Hi. cbn [act bind run work]. rewrite Hs. cbn [fst snd]. destruct (Hf st Hi) as (a & st1 & E & Ha & Hi1 & Hw).
  exists a, st1. split; [exact E|]. split; [exact Ha|]. split; [exact Hi1|lia].
Qed.

Definition raw (m : nat) : json := if Nat.eqb m (S (S n)) then O [] else O [("module", S_ "./d"); ("main", S_ "../d")]%string.
Lemma goes_load : forall F m p, 1 <= m <= S (S n) -> lev m p ->
  goes (load_pkg_file R70 (S F) p) (fun r => exists pk, r = Ok (Some pk) /\ same_path p (p_dir pk) /\ p_raw pk = raw m) 0.
Proof.
  intros F m p Hm Hl. pose proof (lev_dir m p Hm Hl) as Hd. pose proof (lev_desc m p Hm Hl) as Hn.
  assert (Hf : f_file fs (join p (lit "package.json")) = true) by (cbn [f_file W posix_fs]; rewrite Hn; reflexivity).
  assert (Hlk : exists pk, lookup_desc fs js (Some (lit "package.json")) p = PRet (Ok (Some pk)) /\ p_dir pk = p /\ p_raw pk = raw m).
  { unfold lookup_desc, nearest, from_dir, lineage. cbn [drop_while]. rewrite Hd. cbn [negb find]. rewrite Hf, Hd. unfold described.
    cbn [f_read f_mtime W posix_fs]. rewrite Hn. unfold PJ, raw. destruct (Nat.eqb m (S (S n))); (eexists; split; [vm_compute; reflexivity|split; reflexivity]). }
  destruct Hlk as (pk0 & Hlk & Hp0 & Hr0).
  assert (Hend : wx (okx fs js nm70 True) TotalP.ended (load_pkg_file R70 (S F) p)).
  { cbn [load_pkg_file]. change (o_desc (rv_opts R70)) with (Some (lit "package.json")). cbv iota. cbn [act bind wx].
    intros x Hx. assert (x = true) as -> by (rewrite <- Hd; apply Hx; left; exact I). cbn [negb]. cbn [act bind wx]. intros [v|] _.
    - apply wx_any, wx_ended_try; [apply check_end|]. intros [|]; cbn [negb]; [apply store_end|intros H; discriminate H].
    - cbn [act bind wx]. intros y Hy. assert (y = true) as -> by (rewrite <- Hf; apply Hy; left; exact I). apply wx_any, store_end. }
  intros st Hi.
  assert (Hw : wg fs js nm70 (fun r => orel (leq eq) (oc (lookup_desc fs js (o_desc (rv_opts R70)) p)) r /\ TotalP.ended r) (load_pkg_file R70 (S F) p)).
  { apply wg_and; [apply wx_and; [|exact Hend]|].
    - apply load_leq; [apply posix_sane|exact (fin_inj fs js js70 nm70)|exact clash70|exact client70].
    - apply client_load; [apply posix_sane|exact (fin_inj fs js js70 nm70)|exact clash70|exact client70]. }
  destruct (run_inv fs js nm70 _ _ _ Hw Hi) as [[Hq He] Hi']. unfold out in *. destruct (run fs (load_pkg_file R70 (S F) p) st) as [o st'].
  cbn [fst snd] in *. change (o_desc (rv_opts R70)) with (Some (lit "package.json")) in Hq. rewrite Hlk in Hq. cbn [oc] in Hq.
  destruct o as [r|e|]; cbn [orel] in Hq; [|destruct Hq as (? & ? & ?); discriminate|contradiction He; reflexivity].
  destruct Hq as (a & Ea & Ha). injection Ea as <-. destruct r as [[pk|]|e]; cbn [leq okeq] in Ha; try contradiction.
  exists (Ok (Some pk)), st'. split; [reflexivity|]. split; [|split; [exact Hi'|lia]]. exists pk. split; [reflexivity|].
  destruct Ha as (H1 & H2 & H3 & H4 & H5 & H6 & H7 & H8). rewrite <- Hp0, <- Hr0. split; [exact H1|congruence].
Qed.

Notation load F := (load_pkg_file R70 (S F)).
Lemma goes_file : forall i, nofile (get_path i) -> goes (resolve_as_file R70 i) (eq (Resolving i)) 1.
Proof.
  intros i [H0 H]. unfold resolve_as_file. change (enforce R70) with false. cbn [negb]. intros st Hi. exists (Resolving i), st.
  cbn [act bind run step fst snd work]. rewrite H0. unfold extensions_apply. change (o_extensions (rv_opts R70)) with [lit ".js"; lit ".json"; lit ".node"].
  apply Forall_cons_iff in H. destruct H as [H1 H]. apply Forall_cons_iff in H. destruct H as [H2 H]. apply Forall_cons_iff in H. destruct H as [H3 _].
  cbn [extensions_loop act bind run step fst snd work]. unfold append_ext. rewrite H1. cbn [act bind run step fst snd work]. rewrite H2.
  cbn [act bind run step fst snd work]. rewrite H3. cbn [run work]. split; [reflexivity|]. split; [reflexivity|]. split; [exact Hi|lia].
Qed.
Lemma goes_and_then : forall p f (s : stats) i Q w v, goes p (eq (Resolving i)) w -> goes (f i) Q v -> goes (and_then p f) Q (w + v).
Proof. intros p f s i Q w v Hp Hf. unfold and_then. eapply goes_bind; [exact Hp|]. intros a <-. exact Hf. Qed.
Lemma goes_alias : forall F pk i, goes (alias_field_apply R70 F (Some pk) i) (eq (Resolving i)) 0.
Proof. intros. apply goes_ret. reflexivity. Qed.
(** The two main fields at level [m], where their directories take [w] operations each. *)
Lemma goes_fields : forall (rad : info -> prog stats) F pk i w m, 1 <= m <= S n -> p_raw pk = raw m -> lev m (i_path i) ->
  (forall j, lev (S m) (get_path j) -> goes (rad j) (eq (Resolving (with_target (with_path j (get_path j)) []))) w) ->
  goes (main_field_loop R70 rad F pk i [lit "module"; lit "main"] (mkInfo (i_path i) (i_req i))) (eq (Resolving i)) (w + w).
Proof.
  intros rad F pk i w m Hm Hr Hl Hrad. cbn [main_field_loop]. rewrite Hr. unfold raw.
  replace (Nat.eqb m (S (S n))) with false by (symmetry; apply Nat.eqb_neq; lia).
  change (opt_str (jget (O [("module", S_ "./d"); ("main", S_ "../d")]%string) (lit "module"))) with (Some (lit "./d")).
  change (opt_str (jget (O [("module", S_ "./d"); ("main", S_ "../d")]%string) (lit "main"))) with (Some (lit "../d")).
  change (str_eqb (lit "./d") s_dot || str_eqb (lit "./d") (lit "./")) with false. change (starts_with (lit "./d") (lit "./")) with true.
  change (str_eqb (lit "../d") s_dot || str_eqb (lit "../d") (lit "./")) with false. change (starts_with (lit "../d") (lit "./")) with false.
  cbv iota. change (lit "./" ++ lit "../d") with (lit "./../d").
  destruct (lev_next m _ Hm Hl) as [L1 N1].
  set (i1 := with_target (mkInfo (i_path i) (i_req i)) (lit "./d")).
  assert (E1 : get_path i1 = join (i_path i) (lit "./d")) by reflexivity. rewrite <- E1 in L1, N1.
  eapply goes_bind with (Q := eq (Resolving (with_target (with_path i1 (get_path i1)) []))).
  { apply goes_le with (w := 0 + 1 + w); [lia|]. eapply goes_and_then; [exact (Resolving i)| |apply Hrad, L1].
    eapply goes_and_then; [exact (Resolving i)|apply goes_alias|apply goes_file, N1]. }
  intros s <-. cbn [is_success extract_info bind].
  set (i2 := with_target (with_target (with_path i1 (get_path i1)) []) (lit "./../d")).
  destruct (lev_again m _ Hm L1) as [L2 N2].
  assert (E2 : get_path i2 = join (get_path i1) (lit "./../d")) by reflexivity. rewrite <- E2 in L2, N2.
  apply goes_le with (w := w + 0); [lia|]. eapply goes_bind with (Q := eq (Resolving (with_target (with_path i2 (get_path i2)) []))).
  { apply goes_le with (w := 0 + 1 + w); [lia|]. eapply goes_and_then; [exact (Resolving i)| |apply Hrad, L2].
    eapply goes_and_then; [exact (Resolving i)|apply goes_alias|apply goes_file, N2]. }
  intros s <-. cbn [is_success extract_info bind main_field_loop]. apply goes_ret. reflexivity.
Qed.
Lemma goes_files : forall F G pk i m, 2 <= m <= S (S n) -> lev m (i_path i) -> goes (main_file_apply R70 (load F) (S G) (Some pk) i) (eq (Resolving i)) 0.
Proof.
  intros F G pk i m Hm Hl. unfold main_file_apply. change (o_main_files (rv_opts R70)) with [lit "index"]. cbn [main_file_loop].
  set (i1 := with_target (mkInfo (i_path i) (i_req i)) (lit "./" ++ lit "index")).
  pose proof (lev_index m _ Hm Hl) as N. change (join (i_path i) (lit "./index")) with (get_path i1) in N.
  eapply goes_bind with (w := 0) (v := 0) (Q := eq (Resolving i1)).
  { apply goes_le with (w := 0 + 0 + 0 + 1); [lia|]. eapply goes_and_then; [exact (Resolving i)| |apply goes_file, N].
    eapply goes_and_then; [exact (Resolving i)| |apply goes_alias]. eapply goes_and_then with (i := i1); [exact (Resolving i)| |]; apply goes_ret; reflexivity. }
  intros s <-. cbn [is_success extract_info bind main_file_loop]. apply goes_ret. reflexivity.
Qed.
Lemma goes_isdir : forall m p, 1 <= m <= S (S n) -> lev m p -> goes (act (OIsDir p)) (eq true) 1.
Proof. intros m p Hm Hl st Hi. exists true, st. cbn [act run step work fst snd]. rewrite (lev_dir m p Hm Hl). split; [reflexivity|]. split; [reflexivity|]. split; [exact Hi|lia]. Qed.
Lemma goes_dir : forall k m G F i, m + k = S (S n) -> 2 <= m -> k < G -> lev m (get_path i) ->
  goes (resolve_as_dir R70 (load F) G i) (eq (Resolving (with_target (with_path i (get_path i)) []))) (2 ^ k).
Proof.
  induction k as [|k IH]; intros m G F i Hk Hm HG Hl; (destruct G as [|G]; [lia|]); cbn [resolve_as_dir];
    set (i' := with_target (with_path i (get_path i)) []).
  - apply goes_le with (w := 1 + 0); [cbn; lia|]. eapply goes_bind with (Q := eq true); [apply (goes_isdir m); [lia|exact Hl]|]. intros a <-. cbn [negb].
    eapply goes_bind with (w := 0) (v := 0); [apply (goes_load F m); [lia|exact Hl]|]. intros r (pk & -> & Hp & Hr).
    eapply goes_and_then with (w := 0) (v := 0) (i := i'); [exact (Resolving i)| |apply (goes_files F G pk i' m); [lia|exact Hl]].
    unfold main_field_apply. rewrite (proj2 (path_eqb_eq _ _)) by exact Hp. cbn [negb]. change (o_main_fields (rv_opts R70)) with [lit "module"; lit "main"].
    cbn [main_field_loop]. rewrite Hr. unfold raw. replace (Nat.eqb m (S (S n))) with true by (symmetry; apply Nat.eqb_eq; lia). apply goes_ret. reflexivity.
  - apply goes_le with (w := 1 + (0 + (2 ^ k + 2 ^ k + 0))); [cbn; lia|]. eapply goes_bind with (Q := eq true); [apply (goes_isdir m); [lia|exact Hl]|]. intros a <-. cbn [negb].
    eapply goes_bind; [apply (goes_load F m); [lia|exact Hl]|]. intros r (pk & -> & Hp & Hr).
    eapply goes_and_then with (i := i'); [exact (Resolving i)| |apply (goes_files F G pk i' m); [lia|exact Hl]].
    unfold main_field_apply. rewrite (proj2 (path_eqb_eq _ _)) by exact Hp. cbn [negb]. change (o_main_fields (rv_opts R70)) with [lit "module"; lit "main"].
    apply (goes_fields _ (S G) pk i' _ m); [lia|exact Hr|exact Hl|]. intros j Hj. apply (IH (S m)); [lia|lia|lia|exact Hj].
Qed.
Lemma lev_top : lev 1 (lit "/./d").
Proof. split; [reflexivity|]. split; reflexivity. Qed.
Lemma goes_all : forall F, n < F -> goes (resolve R70 (S F) (lit "/") (lit "./d")) (eq (Ok (RInfo (mkInfo (lit "/d/index.js") (mkReq [] [] [] Relative))))) (2 ^ n).
Proof.
  intros F HF. unfold resolve, resolve_with. change (o_tsconfig (rv_opts R70)) with (@None path). cbv iota.
  set (i0 := mkInfo (lit "/") (parse (lit "./d"))). change (mkInfo (lit "/") (parse (lit "./d"))) with i0.
  assert (Ei : get_path i0 = lit "/./d") by reflexivity. pose proof lev_top as Hl. rewrite <- Ei in Hl.
  set (i' := with_target (with_path i0 (get_path i0)) []).
  set (ix := with_target (with_path (with_target i' (lit "./index")) (get_path (with_target i' (lit "./index")) ++ lit ".js")) []).
  apply goes_le with (w := 2 ^ n + 0); [lia|].
  eapply goes_bind with (Q := eq (Success (RInfo ix))).
  - cbn [resolve_]. apply goes_le with (w := 0 + 0 + 0 + (0 + 1 + 2 ^ n) + 0); [lia|].
    eapply goes_bind with (Q := eq (Success (RInfo ix))).
    + eapply goes_and_then with (i := i0); [exact (Resolving i0)| |].
      * eapply goes_and_then with (i := i0) (w := 0 + 0) (v := 0); [exact (Resolving i0)| |].
        -- eapply goes_and_then with (i := i0) (w := 0) (v := 0); [exact (Resolving i0)| |]; apply goes_ret; reflexivity.
        -- unfold pkg_step. change (r_kind (i_req i0)) with Relative. cbv iota. eapply goes_bind with (w := 0) (v := 0); [apply (goes_load F 1); [lia|exact Hl]|].
           intros r (pk & -> & _). eapply goes_and_then with (i := i0) (w := 0) (v := 0); [exact (Resolving i0)| |]; apply goes_ret; reflexivity.
      * unfold final_step. change (r_kind (i_req i0)) with Relative. cbv iota.
        eapply goes_and_then with (i := i0); [exact (Resolving i0)|apply goes_le with (w := 1); [lia|]; apply goes_file|].
        { split; [|repeat constructor]; reflexivity. }
        cbn [resolve_as_dir]. fold i'. apply goes_le with (w := 1 + (0 + (2 ^ n + 2 ^ n + 0))); [lia|].
        eapply goes_bind with (Q := eq true); [apply (goes_isdir 1); [lia|exact Hl]|]. intros a <-. cbn [negb].
        eapply goes_bind; [apply (goes_load F 1); [lia|exact Hl]|]. intros r (pk & -> & Hp & Hr).
        eapply goes_and_then with (i := i'); [exact (Resolving i0)| |].
        -- unfold main_field_apply. rewrite (proj2 (path_eqb_eq _ _)) by exact Hp. cbn [negb]. change (o_main_fields (rv_opts R70)) with [lit "module"; lit "main"].
           apply (goes_fields _ (S F) pk i' _ 1); [lia|exact Hr|exact Hl|]. intros j Hj. apply (goes_dir n 2); [lia|lia|lia|exact Hj].
        -- unfold main_file_apply. change (o_main_files (rv_opts R70)) with [lit "index"]. cbn [main_file_loop].
           eapply goes_bind with (w := 0) (v := 0) (Q := eq (Success (RInfo ix))); [|intros s <-; apply goes_ret; reflexivity].
           eapply goes_and_then with (w := 0) (v := 0) (i := with_target i' (lit "./index")); [exact (Resolving i0)| |].
           ++ eapply goes_and_then with (w := 0) (v := 0) (i := with_target i' (lit "./index")); [exact (Resolving i0)| |apply goes_alias].
              eapply goes_and_then with (w := 0) (v := 0) (i := with_target i' (lit "./index")); [exact (Resolving i0)| |]; apply goes_ret; reflexivity.
           ++ destruct (top_index _ Hl) as (T1 & T2 & _). intros st Hi. exists (Success (RInfo ix)), st. unfold resolve_as_file. change (enforce R70) with false.
              cbn [negb act bind run step fst snd work]. change (get_path (with_target i' (lit "./index"))) with (join (get_path i0) (lit "./index")). rewrite T1.
              unfold extensions_apply. change (o_extensions (rv_opts R70)) with [lit ".js"; lit ".json"; lit ".node"]. cbn [extensions_loop act bind run step fst snd work].
              unfold append_ext. rewrite T2. split; [reflexivity|]. split; [reflexivity|]. split; [exact Hi|lia].
    + intros s <-. apply goes_ret. reflexivity.
  - intros s <-. destruct (top_index _ Hl) as (_ & _ & T3). intros st Hi. eexists; exists st. unfold normalize_result. change (rv_debug R70) with false. cbn [andb].
    unfold normalize_path. change (o_symlinks (rv_opts R70)) with true. cbv iota. unfold try_. cbn [act bind run step fst snd work].
    change (f_canon fs (i_path ix)) with (f_canon fs (join (get_path i0) (lit "./index") ++ lit ".js")). rewrite T3. cbn [bind run].
    split; [reflexivity|]. split; [reflexivity|]. split; [exact Hi|lia].
Qed.
End Deep.

Lemma nest_entries : forall m, entries (nest m) = 2 * m + 2.
Proof. induction m as [|m IH]; [reflexivity|]. cbn [nest D map fst snd entries fold_right PJ]. rewrite IH. lia. Qed.
Lemma deep_entries : forall n, entries (deep n) = 2 * n + 6.
Proof. intros n. cbn [deep D map fst snd entries fold_right PJ F]. rewrite nest_entries. lia. Qed.
Lemma fin_70_deep : forall n, exists f,
  out (W (deep n)) st0 (call_prog (CResolve R70 f (lit "/") (lit "./d"))) = Done (AResolve (Ok (RInfo (mkInfo (lit "/d/index.js") (mkReq [] [] [] Relative))))) /\
  2 ^ n <= work (W (deep n)) (call_prog (CResolve R70 f (lit "/") (lit "./d"))) st0 /\ entries (deep n) = 2 * n + 6.
Proof.
  intros n. exists (S (S n)). destruct (goes_all n (S n) ltac:(lia) st0 (inv_empty _ _ _ _)) as (a & st' & E & <- & _ & Hw).
  unfold out. cbn [call_prog]. rewrite run_bind, work_bind, E. cbn [run fst work]. split; [reflexivity|]. split; [lia|apply deep_entries].
Qed.
Lemma exp_beats : forall d c M, exists n, M <= n /\ c * (2 * n + 6) ^ d < 2 ^ n.
Proof.
  induction d as [|d IH]; intros c M.
  - exists (M + c). split; [lia|]. rewrite Nat.pow_0_r, Nat.mul_1_r. apply Nat.le_lt_trans with (m := M + c); [lia|]. apply Nat.pow_gt_lin_r. lia.
  - destruct (IH (c * 2 ^ S d) (M + 5)) as (k & Hk & H). exists (2 * k). split; [lia|].
    assert (Hx : 2 * (2 * k) + 6 <= 2 * (2 * k + 6)) by lia.
    assert (Hs : forall j, 5 <= j -> 2 * j + 6 <= 2 ^ j).
    { induction j as [|j IHj]; intros Hj; [lia|]. destruct (Nat.eq_dec j 4) as [->|]; [cbn; lia|]. cbn [Nat.pow]. specialize (IHj ltac:(lia)). lia. }
    specialize (Hs k ltac:(lia)). replace (2 ^ (2 * k)) with (2 ^ k * 2 ^ k) by (rewrite <- Nat.pow_add_r; f_equal; lia).
    apply Nat.le_lt_trans with (m := c * 2 ^ S d * (2 * k + 6) ^ d * (2 * k + 6)).
    + pose proof (Nat.pow_le_mono_l _ _ (S d) Hx) as Hp. rewrite Nat.pow_mul_l in Hp.
      replace (c * 2 ^ S d * (2 * k + 6) ^ d * (2 * k + 6)) with (c * (2 ^ S d * (2 * k + 6) ^ S d)) by (cbn [Nat.pow]; ring).
      apply Nat.mul_le_mono_l. exact Hp.
    + apply Nat.le_lt_trans with (m := c * 2 ^ S d * (2 * k + 6) ^ d * 2 ^ k); [apply Nat.mul_le_mono_l; exact Hs|].
      apply Nat.mul_lt_mono_pos_r; [|exact H]. pose proof (Nat.pow_nonzero 2 k). lia.
Qed.
Lemma fin_70_poly : forall c d, exists t R f base req i, R = mkR (with_fields dflt [lit "module"; lit "main"]) texts70 /\
  out (W t) st0 (call_prog (CResolve R f base req)) = Done (AResolve (Ok (RInfo i))) /\
  c * entries t ^ d < work (W t) (call_prog (CResolve R f base req)) st0.
Proof.
  intros c d. destruct (exp_beats d c 0) as (n & _ & H). destruct (fin_70_deep n) as (f & E & Hw & He).
  exists (deep n), R70, f, (lit "/"), (lit "./d"). eexists. split; [reflexivity|]. split; [exact E|]. rewrite He. lia.
Qed.

(** ** Bounds on all executions *)
Definition atmost {A} (w : nat) (p : prog A) : Prop := forall tr r, exec p tr r -> length tr <= w.
Lemma inv_do {A} : forall o (k : ans o -> prog A) tr r, exec (Do o k) tr r -> exists x tr', tr = mkev o x :: tr' /\ exec (k x) tr' r.
Proof.
  intros o k tr r H. exact (match H in exec p tr r return match p with Do o k => exists x tr', tr = mkev o x :: tr' /\ exec (k x) tr' r | _ => True end with
    | ExDo o k x tr r H => ex_intro _ x (ex_intro _ tr (conj eq_refl H)) | _ => I end).
Qed.
Lemma am_ret {A} : forall w (a : A), atmost w (Ret a).
Proof. intros w a tr r H. inversion H; subst. cbn. lia. Qed.
Lemma am_panic {A} : forall w m, @atmost A w (Panic m).
Proof. intros w m tr r H. inversion H; subst. cbn. lia. Qed.
Lemma am_fuel {A} : forall w, @atmost A w OutOfFuel.
Proof. intros w tr r H. inversion H; subst. cbn. lia. Qed.
Lemma am_le {A} : forall w w' (p : prog A), w <= w' -> atmost w p -> atmost w' p.
Proof. intros w w' p Hw H tr r He. specialize (H tr r He). lia. Qed.
Lemma am_bind {A B} : forall w v (p : prog A) (f : A -> prog B), atmost w p -> (forall a, atmost v (f a)) -> atmost (w + v) (bind p f).
Proof.
  intros w v p f Hp Hf. revert w Hp. induction p as [a|m| |o k IH]; intros w Hp; cbn [bind].
  - eapply am_le; [|apply Hf]. lia.
  - apply am_panic.
  - apply am_fuel.
  - intros tr r H. apply inv_do in H. destruct H as (x & tr' & -> & H). cbn [length].
    assert (Hk : atmost (w - 1) (k x)). { intros tr1 r1 H1. specialize (Hp _ _ (ExDo o k x tr1 r1 H1)). cbn [length] in Hp. lia. }
    specialize (IH x (w - 1) Hk tr' r H). assert (1 <= w); [|lia].
    destruct (run_exec (k x) (W (deep 0)) st0) as (tr1 & H1 & _). specialize (Hp _ _ (ExDo o k x tr1 _ H1)). cbn [length] in Hp. lia.
Qed.
Lemma am_act : forall o, atmost 1 (act o).
Proof. intros o tr r H. apply inv_do in H. destruct H as (x & tr' & -> & H). inversion H; subst. cbn. lia. Qed.
Lemma am_act_bind {B} : forall w o (f : ans o -> prog B), (forall x, atmost w (f x)) -> atmost (S w) (bind (act o) f).
Proof. intros w o f Hf. change (S w) with (1 + w). apply am_bind; [apply am_act|exact Hf]. Qed.
Lemma am_lift {A} : forall w (c : pcomp A), atmost w (lift c).
Proof. intros w [a|m|]; cbn [lift]; [apply am_ret|apply am_panic|apply am_fuel]. Qed.
Lemma am_and_then : forall w v p f, atmost w p -> (forall i, atmost v (f i)) -> atmost (w + v) (and_then p f).
Proof. intros w v p f Hp Hf. apply am_bind; [exact Hp|]. intros [r|i|e i]; try apply am_ret. apply Hf. Qed.

Section Plain.
Variable R : resolver.
Hypothesis Hdesc : o_desc (rv_opts R) = None.
Variable F : nat.
Notation load := (load_pkg_file R F).
Notation E := (length (o_extensions (rv_opts R))).
Notation M := (length (o_main_files (rv_opts R))).
Lemma am_load {B} : forall w p (f : result (option pkg) -> prog B), atmost w (f (Ok None)) -> atmost w (bind (load p) f).
Proof. intros w p f H. destruct F as [|G]; cbn [load_pkg_file]; [apply am_fuel|]. rewrite Hdesc. exact H. Qed.
Lemma am_file : forall i, atmost (1 + E) (resolve_as_file R i).
Proof.
  intros i. assert (H : forall p j l, atmost (length l) (extensions_loop p j l)).
  { intros p j l. induction l as [|e l IH]; cbn [extensions_loop length]; [apply am_ret|]. apply am_act_bind. intros [|]; [apply am_ret|exact IH]. }
  unfold resolve_as_file, extensions_apply. destruct (enforce R); cbn [negb].
  - eapply am_le; [|apply H]. lia.
  - apply am_act_bind. intros [|]; [apply am_ret|apply H].
Qed.
Lemma am_alias : forall w fuel i, atmost w (alias_field_apply R fuel None i).
Proof. intros w fuel i. unfold alias_field_apply. destruct (o_browser (rv_opts R)); apply am_ret. Qed.
Lemma am_imports : forall w fuel i, atmost w (imports_apply R load fuel None i).
Proof. intros w [|fuel] i; [apply am_fuel|apply am_ret]. Qed.
Lemma am_exports : forall w i, atmost w (exports_apply R None i).
Proof. intros. apply am_ret. Qed.
Lemma am_dir : forall fuel i, atmost (1 + M * (1 + E)) (resolve_as_dir R load fuel i).
Proof.
  intros [|fuel] i; [apply am_fuel|]. cbn [resolve_as_dir]. apply am_act_bind. intros [|]; cbn [negb]; [|apply am_ret].
  apply am_load. apply (am_and_then 0 (M * (1 + E))); [apply am_ret|]. intros j. unfold main_file_apply.
  generalize (mkInfo (i_path j) (i_req j)). induction (o_main_files (rv_opts R)) as [|f l IH]; intros mi; cbn [main_file_loop length]; [apply am_ret|].
  cbn [Nat.mul]. apply am_bind.
  - change (1 + E) with (0 + 0 + 0 + (1 + E)). repeat (apply am_and_then; [|intros]); [apply am_exports|apply am_imports|apply am_alias|apply am_file].
  - intros s. destruct (is_success s); [apply am_ret|]. apply (am_bind 0); [destruct s; cbn [extract_info]; [apply am_panic|apply am_ret|apply am_ret]|]. intros mi'. apply IH.
Qed.
Definition level_bound : nat := 2 + (1 + E) + (1 + M * (1 + E)).
Lemma am_level : forall fuel i, atmost level_bound (modules_level R load fuel i).
Proof.
  intros fuel i. unfold modules_level, level_bound. change (2 + (1 + E) + (1 + M * (1 + E))) with (S (S ((1 + E) + (1 + M * (1 + E))))).
  apply am_act_bind. intros [|]; cbn [negb]; [|apply am_ret].
  destruct (module_name _); [|apply am_panic]. apply am_load. apply am_act_bind. intros [|]; cbn [negb andb].
  - apply (am_le ((1 + E) + (1 + M * (1 + E)) + 0)); [lia|]. apply am_bind.
    + change (1 + E) with (0 + 0 + 0 + (1 + E)) at 1. repeat (apply am_and_then; [|intros]); [apply am_exports|apply am_imports|apply am_alias|apply am_file|apply am_dir].
    + intros [r|j|e j]; try apply am_ret. destruct (str_eqb e TAG); apply am_ret.
  - apply am_bind; [apply am_file|]. intros st. destruct (is_success st); apply am_ret.
Qed.
Lemma am_modules : forall fuel i, atmost ((length (components (i_path i)) + 1) * level_bound) (resolve_as_modules R load fuel i).
Proof.
  induction fuel as [|fuel IH]; intros i; cbn [resolve_as_modules]; [apply am_fuel|].
  remember (length (components (i_path i))) as k eqn:Ek. replace ((k + 1) * level_bound) with (level_bound + (k * level_bound)) by lia.
  apply am_bind; [apply am_level|]. intros [s|s]; [apply am_ret|].
  apply (am_le (k * level_bound + 0)); [lia|]. apply am_bind; [|intros [r|j|e j]; apply am_ret].
  apply (am_le (0 + k * level_bound)); [lia|]. apply am_and_then; [apply am_ret|]. intros j. destruct (parent (i_path i)) as [q|] eqn:Ep; [|apply am_ret].
  pose proof (parent_shorter _ _ Ep). eapply am_le; [|apply IH]. cbn [with_path i_path]. replace (length (components q) + 1) with k by lia. lia.
Qed.
Lemma am_final : forall fuel i, atmost ((length (components (i_path i)) + 1) * level_bound) (final_step R load fuel i).
Proof.
  intros fuel i. assert (H : atmost (1 + E + (1 + M * (1 + E))) (and_then (resolve_as_file R i) (resolve_as_dir R load fuel))).
  { apply am_and_then; [apply am_file|apply am_dir]. }
  unfold final_step. destruct (r_kind (i_req i)); try apply am_modules; (eapply am_le; [|exact H]); unfold level_bound; nia.
Qed.
End Plain.
Lemma fin_70 : forall R f base req tr o, o_desc (rv_opts R) = None -> no_remap R base (r_target (parse req)) ->
  exec (call_prog (CResolve R f base req)) tr o ->
  length tr <= (length (components base) + 1) * (4 + length (o_extensions (rv_opts R)) + length (o_main_files (rv_opts R)) * (1 + length (o_extensions (rv_opts R)))) + 1.
Proof.
  intros R f base req tr o Hd Hn. revert tr o. fold (atmost ((length (components base) + 1) * (4 + length (o_extensions (rv_opts R)) + length (o_main_files (rv_opts R)) * (1 + length (o_extensions (rv_opts R)))) + 1) (call_prog (CResolve R f base req))).
  cbn [call_prog]. set (L := (length (components base) + 1) * (4 + length (o_extensions (rv_opts R)) + length (o_main_files (rv_opts R)) * (1 + length (o_extensions (rv_opts R))))).
  apply (am_le (L + 1 + 0)); [lia|]. apply am_bind; [|intros; apply am_ret].
  unfold resolve, resolve_with. pose proof Hn as (_ & _ & ->). cbv zeta. apply am_bind.
  - destruct f as [|f]; cbn [resolve_]; [apply am_fuel|]. destruct (no_remap_steps R (mkInfo base (parse req)) Hn) as [H1 H2].
    unfold and_then at 2 3. rewrite H1. cbn [bind]. rewrite H2. cbn [bind]. apply (am_le (L + 0)); [lia|].
    apply am_bind; [|intros [r|j|e j]; try apply am_ret; apply am_panic].
    assert (Hp : pkg_step R (load_pkg_file R (S f)) (S f) (mkInfo base (parse req)) = Ret (Resolving (mkInfo base (parse req)))).
    { unfold pkg_step. cbn [load_pkg_file]. rewrite Hd. cbn [bind]. unfold and_then. cbn [imports_apply bind]. unfold alias_field_apply.
      destruct (o_browser (rv_opts R)); reflexivity. }
    rewrite Hp. unfold and_then. cbn [bind]. eapply am_le; [|apply am_final; exact Hd]. cbn [i_path]. unfold L, level_bound. nia.
  - intros [r|j|e j]; try apply am_ret; try apply am_panic. unfold normalize_result. destruct r as [j|]; [|apply am_ret].
    destruct (_ && _); [apply am_panic|]. unfold try_, normalize_path. destruct (o_symlinks (rv_opts R)); [|apply am_ret].
    cbn [act bind]. change (atmost (S 0) (bind (act (OCanon (i_path j))) (fun c => bind (match c with None => Ret (Err (lit "Path normalized failed")) | Some q => Ret (Ok q) end) (fun r => match r with Ok p => Ret (Ok (RInfo (with_path j p))) | Err e => Ret (Err e) end)))).
    apply am_act_bind. intros [q|]; apply am_ret.
Qed.

(** ** The search for a description on one disk *)
Section Disk.
Variable fs : fsys.
Hypothesis Hsane : sane_fs fs.
Definition ad {A} (w : nat) (Q : A -> Prop) (p : prog A) : Prop :=
  forall tr r, exec p tr r -> Forall (from_disk fs) tr -> length tr <= w /\ forall a, r = Done a -> Q a.
Lemma ad_ret {A} : forall w (Q : A -> Prop) a, Q a -> ad w Q (Ret a).
Proof. intros w Q a HQ tr r H _. inversion H; subst. split; [cbn; lia|]. intros b E. inversion E; subst. exact HQ. Qed.
Lemma ad_fuel {A} : forall w (Q : A -> Prop), ad w Q OutOfFuel.
Proof. intros w Q tr r H _. inversion H; subst. split; [cbn; lia|discriminate]. Qed.
Lemma ad_of {A} : forall w (p : prog A), atmost w p -> ad w (fun _ => True) p.
Proof. intros w p H tr r He _. split; [exact (H _ _ He)|auto]. Qed.
Lemma ad_le {A} : forall w w' (Q : A -> Prop) p, w <= w' -> ad w Q p -> ad w' Q p.
Proof. intros w w' Q p Hw H tr r He Hf. destruct (H tr r He Hf). split; [lia|assumption]. Qed.
Lemma ad_act {B} : forall w o (Q : B -> Prop) f, (forall x, from_disk fs (mkev o x) -> ad w Q (f x)) -> ad (S w) Q (bind (act o) f).
Proof.
  intros w o Q f Hf tr r H Ht. cbn [act bind] in H. apply inv_do in H. destruct H as (x & tr' & -> & H). inversion Ht; subst.
  destruct (Hf x H2 tr' r H H3) as [Hl HQ]. cbn [length]. split; [lia|exact HQ].
Qed.
Lemma ad_bind {A B} : forall w v (P : A -> Prop) (Q : B -> Prop) p f, ad w P p -> (forall a, P a -> ad v Q (f a)) -> ad (w + v) Q (bind p f).
Proof.
  intros w v P Q p f Hp Hf. assert (G : forall k, k <= w -> (forall tr r, exec p tr r -> Forall (from_disk fs) tr -> length tr <= k /\ forall a, r = Done a -> P a) ->
    forall tr r, exec (bind p f) tr r -> Forall (from_disk fs) tr -> length tr <= k + v /\ forall b, r = Done b -> Q b).
  { clear Hp. induction p as [a|m| |o k IH]; intros n Hn Hp; cbn [bind].
    - intros tr r H Ht. destruct (Hp [] (Done a) (ExRet a) ltac:(constructor)) as [_ HP]. destruct (Hf a (HP a eq_refl) tr r H Ht). split; [lia|assumption].
    - intros tr r H _. inversion H; subst. split; [cbn; lia|discriminate].
    - intros tr r H _. inversion H; subst. split; [cbn; lia|discriminate].
    - intros tr r H Ht. apply inv_do in H. destruct H as (x & tr' & -> & H). inversion Ht; subst.
      assert (Hk : forall tr1 r1, exec (k x) tr1 r1 -> Forall (from_disk fs) tr1 -> length tr1 <= n - 1 /\ forall a, r1 = Done a -> P a).
      { intros tr1 r1 H1 Ht1. destruct (Hp _ _ (ExDo o k x tr1 r1 H1) ltac:(constructor; assumption)) as [Hl HP]. cbn [length] in Hl. split; [lia|exact HP]. }
      assert (1 <= n).
      { destruct (run_exec (k x) fs st0) as (tr1 & H1 & Ht1). assert (Ht1' : Forall (from_disk fs) tr1).
        { eapply Forall_impl; [|exact Ht1]. intros [o' x'] He. destruct o'; cbn in *; auto. }
        destruct (Hp _ _ (ExDo o k x tr1 _ H1) ltac:(constructor; assumption)) as [Hl _]. cbn [length] in Hl. lia. }
      destruct (IH x (n - 1) ltac:(lia) Hk tr' r H H3) as [Hl HQ]. cbn [length]. split; [lia|exact HQ]. }
  intros tr r. apply (G w (le_n _) Hp).
Qed.
Lemma am_try {A B} : forall w v (p : prog (result A)) (f : A -> prog (result B)), atmost w p -> (forall a, atmost v (f a)) -> atmost (w + v) (try_ p f).
Proof. intros w v p f Hp Hf. apply am_bind; [exact Hp|]. intros [a|e]; [apply Hf|apply am_ret]. Qed.
Lemma am_modified : forall p, atmost 1 (get_last_modified p).
Proof. intros p. apply am_act_bind. intros [| |t]; apply am_ret. Qed.
Lemma am_parse : forall R p dfp, atmost 11 (parse_and_store R p dfp).
Proof.
  intros R p dfp. unfold parse_and_store. apply (am_try 10 1); [|intros pk; apply am_act_bind; intros; apply am_ret].
  unfold parse_description_file. apply (am_bind 2 8).
  { unfold dbg_check. destruct (rv_debug R); [|apply am_ret]. apply am_act_bind. intros [|]; [apply am_panic|exact (am_act (ODbgAdd (rv_id R) dfp))]. }
  intros _. apply (am_bind 3 5).
  { unfold read_to_string. apply am_act_bind. intros [s|]; [|apply am_ret]. apply (am_try 1 1); [apply am_modified|]. intros t. apply am_act_bind. intros; apply am_ret. }
  intros [s|]; [|apply am_ret]. destruct (rv_json R s) as [j|]; [|apply am_ret]. apply (am_bind 0 5); [apply am_lift|]. intros af. apply am_act_bind. intros seed.
  apply (am_try 2 2).
  { unfold load_exports. destruct (jget j _); [|apply am_ret]. apply am_act_bind. intros [t|]; [apply am_ret|]. apply (am_try 0 1); [apply am_lift|]. intros t. apply am_act_bind. intros; apply am_ret. }
  intros ex. apply (am_try 2 0).
  { unfold load_imports. destruct (jget j _); [|apply am_ret]. apply am_act_bind. intros [t|]; [apply am_ret|]. apply (am_try 0 1); [apply am_lift|]. intros t. apply am_act_bind. intros; apply am_ret. }
  intros im. cbv zeta. destruct (side_effects_of dfp j); apply am_ret.
Qed.
Lemma am_check : forall R p dfp, atmost 5 (check_entry R p dfp).
Proof.
  intros R p dfp. unfold check_entry. apply (am_bind 3 2).
  { unfold need_update. apply am_act_bind. intros [|]; cbn [negb]; [|apply am_ret]. apply am_act_bind. intros [[x t]|]; [|apply am_ret].
    apply (am_try 1 0); [apply am_modified|]. intros now. destruct (N.ltb now t); apply am_ret. }
  intros u. apply (am_bind 1 1); [|intros _; apply am_act_bind; intros; apply am_ret].
  destruct u as [[|]|]; try apply am_ret. destruct (rv_debug R); [exact (am_act (ODbgDel (rv_id R) dfp))|apply am_ret].
Qed.
Lemma ad_none : forall R f p, is_abs p = true -> f_dir fs p = true -> ad (2 * length (components p) + 2) (fun _ => True) (none_loop R f p).
Proof.
  induction f as [|f IH]; intros p Ha Hd; cbn [none_loop]; [apply ad_fuel|].
  replace (2 * length (components p) + 2) with (S (S (2 * length (components p)))) by lia.
  apply ad_act. intros x Hx; cbn [from_disk mkev projT1 projT2] in Hx; subst x. rewrite Hd. apply ad_act. intros _ _. destruct (parent p) as [q|] eqn:Ep; [|apply ad_ret; exact I].
  pose proof (parent_shorter _ _ Ep). pose proof (parent_abs _ _ Ep Ha) as Hq. eapply ad_le; [|apply IH; [exact Hq|]]; [lia|].
  apply (sf_parent fs Hsane p q Hd Ep). intros ->. discriminate.
Qed.
Lemma ad_find : forall name f p, is_abs p = true -> f_dir fs p = true ->
  ad (length (components p) + 1) (fun o => forall d, o = Some d -> f_dir fs d = true /\ f_file fs (join d name) = true) (find_up f p name).
Proof.
  induction f as [|f IH]; intros p Ha Hd; cbn [find_up]; [apply ad_fuel|].
  replace (length (components p) + 1) with (S (length (components p))) by lia. apply ad_act. intros x Hx; cbn [from_disk mkev projT1 projT2] in Hx; subst x.
  destruct (f_file fs (join p name)) eqn:Ef. { apply ad_ret. intros d E. inversion E; subst. auto. }
  destruct (parent p) as [q|] eqn:Ep; [|apply ad_ret; discriminate].
  pose proof (parent_shorter _ _ Ep). pose proof (parent_abs _ _ Ep Ha) as Hq. eapply ad_le; [|apply IH; [exact Hq|]]; [lia|].
  apply (sf_parent fs Hsane p q Hd Ep). intros ->. discriminate.
Qed.
Lemma ad_found : forall R name f p, o_desc (rv_opts R) = Some name -> f_dir fs p = true -> f_file fs (join p name) = true ->
  ad 18 (fun _ => True) (load_pkg_file R f p).
Proof.
  intros R name [|f] p En Hd Hf; cbn [load_pkg_file]; [apply ad_fuel|]. rewrite En. apply ad_act. intros x Hx; cbn [from_disk mkev projT1 projT2] in Hx; subst x. rewrite Hd. cbn [negb].
  apply ad_act. intros [v|] _.
  - apply ad_of. apply (am_try 5 11); [apply am_check|]. intros [|]; cbn [negb]; [apply am_parse|apply am_ret].
  - apply (ad_le 12); [lia|]. apply ad_act. intros x Hx; cbn [from_disk mkev projT1 projT2] in Hx; subst x. rewrite Hf. apply ad_of. apply am_parse.
Qed.
Lemma ad_load : forall R f p, is_abs p = true -> ad (3 * length (components p) + 22) (fun _ => True) (load_pkg_file R f p).
Proof.
  intros R f. assert (H : forall g p, g <= f -> is_abs p = true -> ad (3 * length (components p) + 22) (fun _ => True) (load_pkg_file R g p)).
  2:{ intros p. apply (H f p). lia. }
  induction g as [|g IH]; intros p Hg Ha; cbn [load_pkg_file]; [apply ad_fuel|]. destruct (o_desc (rv_opts R)) as [name|] eqn:En; [|apply ad_ret; exact I].
  replace (3 * length (components p) + 22) with (S (3 * length (components p) + 21)) by lia. apply ad_act. intros x Hx; cbn [from_disk mkev projT1 projT2] in Hx; subst x.
  destruct (f_dir fs p) eqn:Hd; cbn [negb].
  - replace (3 * length (components p) + 21) with (S (3 * length (components p) + 20)) by lia. apply ad_act. intros [v|] _.
    + apply (ad_le 16); [lia|]. apply ad_of. apply (am_try 5 11); [apply am_check|]. intros [|]; cbn [negb]; [apply am_parse|apply am_ret].
    + replace (3 * length (components p) + 20) with (S (3 * length (components p) + 19)) by lia. apply ad_act. intros x Hx; cbn [from_disk mkev projT1 projT2] in Hx; subst x.
      destruct (f_file fs (join p name)). { apply (ad_le 11); [lia|]. apply ad_of, am_parse. }
      replace (3 * length (components p) + 19) with ((length (components p) + 1) + (2 * length (components p) + 18)) by lia.
      eapply ad_bind; [apply ad_find; [exact Ha|exact Hd]|]. intros [d|] Hs.
      * destruct (Hs d eq_refl). eapply ad_le; [|eapply ad_found; eassumption]. lia.
      * eapply ad_le; [|apply ad_none; [exact Ha|exact Hd]]. lia.
  - destruct (parent p) as [q|] eqn:Ep; [|apply ad_ret; exact I]. pose proof (parent_shorter _ _ Ep). eapply ad_le; [|apply IH; [lia|eapply parent_abs; eassumption]]. lia.
Qed.
End Disk.
Lemma fin_70_side : forall fs, sane_fs fs -> forall R f p tr r, is_abs p = true -> exec (call_prog (CSide R f p)) tr r -> Forall (from_disk fs) tr ->
  length tr <= 3 * length (components p) + 22.
Proof.
  intros fs Hs R f p tr r Ha He Ht. assert (H : ad fs (3 * length (components p) + 22 + 0 + 0) (fun _ => True) (call_prog (CSide R f p))).
  - cbn [call_prog]. unfold load_side_effects, try_. eapply ad_bind; [eapply ad_bind; [apply ad_load; assumption|]|].
    + intros [[pk|]|e] _; [|apply ad_of, am_ret|apply ad_of, am_ret]. destruct (o_desc (rv_opts R)); apply ad_of; [apply am_ret|apply am_panic].
    + intros a _. apply ad_of, am_ret.
  - destruct (H tr r He Ht) as [Hl _]. lia.
Qed.
Lemma ex70 : (o_desc (rv_opts R70n) = None /\ no_remap R70n (lit "a") (lit "x") /\
    length (components (lit "a")) = 1 /\ length (o_extensions (rv_opts R70n)) = 3 /\ length (o_main_files (rv_opts R70n)) = 1) /\
  (out (W t70) st0 (call_prog (CResolve R70n 40 (lit "a") (lit "x"))) = Done (AResolve (Ok (RInfo (mkInfo (lit "/node_modules/index.node") (mkReq [] [] [] Relative))))) /\
   work (W t70) (call_prog (CResolve R70n 40 (lit "a") (lit "x"))) st0 = (1 + 1) * (4 + 3 + 1 * (1 + 3)) + 1).
Proof.
  split; [|split; vm_compute; reflexivity]. split; [reflexivity|]. split; [|vm_compute; repeat split; reflexivity].
  split; [left; reflexivity|]. split; [left; reflexivity|reflexivity].
Qed.
Lemma ex70s : map (fun p => (length (components (lit p)), work (W t70s) (call_prog (CSide R70 40 (lit p))) st0)) ["/"; "/a"; "/a/b"; "/a/b/c"; "/a/b/./c/d"]%string =
    [(1, 6); (2, 9); (3, 12); (4, 13); (5, 14)] /\
  sane_fs (W t70s).
Proof. split; [vm_compute; reflexivity|apply posix_sane]. Qed.
Lemma ex70d : map (fun n => (entries (deep n), work (W (deep n)) (call_prog (CResolve R70 40 (lit "/") (lit "./d"))) st0)) [0; 1; 2; 3; 4; 5] =
  [(6, 56); (8, 124); (10, 260); (12, 532); (14, 1076); (16, 2164)].
Proof. vm_compute. reflexivity. Qed.
