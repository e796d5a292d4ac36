(** * Lemmas and the example world behind PropNode.v *)
From Coq Require Import String.
From Coq Require Import List Arith NArith Bool Lia.
From Verif Require Import Str StrP Path PathP Json Types Parse ParseP Map Prog Desc Resolve Top Run RunP Exec Posix Demo WitnessP FuelP SpecRun SpecLoad SpecExports SpecCache SpecJson SpecNode SpecTerm PosixP SpellP SimP LoadP GuarP LookupP CacheP PropCacheP PropTermP ReachP PropReachP NodeP.
Import ListNotations.

Section Final.
Variable fs : fsys.
Hypothesis Hfs : sane_fs fs.
Variable js : str -> option json.
Hypothesis Hjs : forall s j, js s = Some j -> wf_json j.
Variable nm : nat -> str.
Hypothesis Hclash : no_clash fs js nm.
Notation Clients h := (Forall (fun c => client js nm (call_resolver c)) h).
Notation after h seeds := (snd (run_history fs (empty_state seeds) (map ECall h))).

Lemma arel_agrees : forall d x, arel d x -> agrees d x.
Proof. intros [a|e] [b|e']; cbn; try contradiction; [auto|]. intros [H _]. exact H. Qed.
Lemma referred_steady : forall c, call_referred c -> steady fs js c.
Proof.
  intros [R f base req|R f p] H; [|destruct H]. destruct H as (Hb & (_ & _ & Ht) & _). split; [left; exact Hb|].
  intros loc c t m Hl. rewrite Ht in Hl. discriminate.
Qed.
Lemma ref_outcome : forall c o, client js nm (call_resolver c) -> call_referred c -> orel ansrel (ev_fs fs (call_fresh fs js c)) o -> as_reference fs c o.
Proof.
  intros [R f base req|R f p] o (_ & Hj & Hd) Hr H; [|destruct Hr]. cbn [call_resolver call_referred as_reference call_fresh] in *. subst js.
  change (fresh_load fs (rv_json R) R) with (L fs R) in H. rewrite ev_bind in H.
  pose proof Hr as (Hb & _). split.
  - intros y -> Hna. cbn [orel] in H. destruct H as (z & Ez & Hz).
    destruct (ev_fs fs (resolve_with R (L fs R) f base req)) as [x|m|] eqn:E; try discriminate. cbn in Ez. injection Ez as <-.
    destruct (reference_sound fs R Hb Hfs Hd base req Hr f x E) as [(a & Ha & ->)|Has]; [|contradiction].
    destruct y as [x'|x']; cbn [ansrel] in Hz; [|contradiction]. exists a, x'. split; [exact Ha|]. split; [reflexivity|]. apply arel_agrees, Hz.
  - intros a Ha. destruct (reference_complete fs R Hb Hfs Hd base req Hr a Ha) as [N HN].
    assert (E : ev_fs fs (resolve_with R (L fs R) f base req) <> NoFuel -> ev_fs fs (resolve_with R (L fs R) f base req) = Done (delivered fs R base (parse req) a)).
    { intros Hn. rewrite <- (HN (Nat.max f N) (Nat.le_max_r _ _)). symmetry. apply fle_ev; [|exact Hn].
      apply resolve_with_fle; [intros; apply fle_refl|apply Nat.le_max_l]. }
    destruct o as [y|m|]; cbn [orel] in H; [| |left; reflexivity]; right.
    + destruct H as (z & Ez & Hz). destruct (ev_fs fs (resolve_with R (L fs R) f base req)) as [x|m|] eqn:Ex; try discriminate.
      specialize (E ltac:(discriminate)). injection E as ->. cbn in Ez. injection Ez as <-. destruct y as [x'|x']; cbn [ansrel] in Hz; [|contradiction].
      exists x'. split; [reflexivity|apply arel_agrees, Hz].
    + exfalso. destruct H as (z & Ez & Hz). destruct (ev_fs fs (resolve_with R (L fs R) f base req)) as [x|m'|] eqn:Ex; try discriminate.
      specialize (E ltac:(discriminate)). discriminate.
Qed.
Lemma fin_54 : forall h seeds c, Clients h -> client js nm (call_resolver c) -> call_referred c ->
  as_reference fs c (out fs (after h seeds) (call_prog c)).
Proof.
  intros h seeds c Hh Hc Hr. apply ref_outcome; [exact Hc|exact Hr|].
  apply (run_inv fs js nm); [apply (call_wg fs Hfs js nm (fin_inj fs js Hjs nm) Hclash); [exact Hc|apply referred_steady, Hr]|apply fin_history; assumption].
Qed.
Lemma ref_nofuel : forall c, call_referred c -> as_reference fs c NoFuel.
Proof. intros [R f base req|R f p] H; [|destruct H]. split; [discriminate|]. intros a _. left. reflexivity. Qed.
Lemma fin_54_sched : forall l h sched seeds, Clients h -> Forall (fun c => client js nm (call_resolver c) /\ call_referred c) l ->
  Forall2 (fun c p => as_reference fs c (settled p)) l (fst (run_sched fs sched (after h seeds) (map call_prog l))).
Proof.
  intros l h sched seeds Hh Hl.
  destruct (sched_inv fs js nm sched (map call_prog l) (map (fun c => orel ansrel (ev_fs fs (call_fresh fs js c))) l) (after h seeds)) as [H _].
  - clear sched. induction Hl as [|c l [H1 H2] Hl IH]; cbn [map]; constructor; [|exact IH].
    apply (call_wg fs Hfs js nm (fin_inj fs js Hjs nm) Hclash); [exact H1|apply referred_steady, H2].
  - apply fin_history; assumption.
  - revert H. generalize (fst (run_sched fs sched (after h seeds) (map call_prog l))). induction Hl as [|c l [H1 H2] Hl IH]; intros ps H; inversion H as [|? p ? ps' Hp Hps]; subst; constructor; [|apply IH, Hps].
    destruct p as [a|m| |o k]; cbn [settled]; try (apply ref_nofuel, H2); cbn [wg] in Hp; (apply ref_outcome; [exact H1|exact H2|exact Hp]).
Qed.
Lemma fin_54_ends : forall R base req a, client js nm R -> referred R base (parse req) -> is_abs base = true ->
  reference fs R base (parse req) a ->
  exists N, forall f h seeds, N <= f -> Clients h ->
  exists x, out fs (after h seeds) (call_prog (CResolve R f base req)) = Done (AResolve x) /\ agrees (delivered fs R base (parse req) a) x.
Proof.
  intros R base req a Hc Hr Hb Ha. pose proof Hr as (Hbr & (_ & _ & Hts) & _). pose proof Hc as (_ & Hj & Hd).
  assert (H : exists f, ev_fs fs (call_fresh fs js (CResolve R f base req)) <> NoFuel).
  { destruct (reference_complete fs R Hbr Hfs Hd base req Hr a Ha) as [N HN]. exists N. cbn [call_fresh]. rewrite ev_bind, <- Hj.
    change (fresh_load fs (rv_json R) R) with (L fs R). rewrite (HN N (le_n N)). discriminate. }
  destruct H as [f0 He].
  destruct (fresh_ends fs Hfs js Hjs nm Hclash (CResolve R f0 base req) Hc (referred_steady (CResolve R f0 base req) Hr)) as [N HN]; [|exact He|].
  { split; [exact Hb|]. intros loc Hl. rewrite Hts in Hl. discriminate. }
  exists N. intros f h seeds Hf Hh. destruct (fin_54 h seeds (CResolve R f base req) Hh Hc Hr) as [_ H].
  destruct (H a Ha) as [H1|H1]; [|exact H1]. exfalso. exact (HN f h seeds Hf Hh H1).
Qed.
(** C11: the first directory with a verdict, whatever lies above it. *)
Lemma climb_at : forall R r near d far a, Forall (fun e => level fs R r e None) near -> level fs R r d (Some a) -> climb fs R r (near ++ d :: far) a.
Proof. intros R r near d far a H Hd. induction H as [|e l He _ IH]; cbn [app]; [apply CbHere, Hd|apply CbUp; assumption]. Qed.
Lemma climb_top : forall R r l, Forall (fun e => level fs R r e None) l -> climb fs R r l (Fail TAG).
Proof. intros R r l H. induction H as [|e l He _ IH]; [apply CbTop|apply CbUp; assumption]. Qed.
Lemma fin_11_decides : forall h seeds R f base req opk near d far a, Clients h -> client js nm R -> referred R base (parse req) ->
  r_kind (parse req) = Normal -> has_desc fs R (join (join base MODULE) (r_target (parse req))) opk -> up_chain base (near ++ d :: far) ->
  Forall (fun e => level fs R (parse req) e None) near -> level fs R (parse req) d (Some a) ->
  let o := out fs (after h seeds) (call_prog (CResolve R f base req)) in
  o = NoFuel \/ exists x, o = Done (AResolve x) /\ agrees (delivered fs R base (parse req) a) x.
Proof.
  intros h seeds R f base req opk near d far a Hh Hc Hr Hk Ho Hu Hn Hd. apply (proj2 (fin_54 h seeds (CResolve R f base req) Hh Hc Hr)).
  eapply RfBare; [unfold first_place; rewrite Hk; exact Ho|exact Hk|exact Hu|apply climb_at; assumption].
Qed.
Lemma fin_11_none : forall h seeds R f base req opk l, Clients h -> client js nm R -> referred R base (parse req) ->
  r_kind (parse req) = Normal -> has_desc fs R (join (join base MODULE) (r_target (parse req))) opk -> up_chain base l ->
  Forall (fun e => level fs R (parse req) e None) l ->
  let o := out fs (after h seeds) (call_prog (CResolve R f base req)) in
  o = NoFuel \/ exists e, o = Done (AResolve (Err e)) /\ respelled (lit "Resolve '" ++ request_display (parse req) ++ lit "' failed in '" ++ base ++ lit "'") e.
Proof.
  intros h seeds R f base req opk l Hh Hc Hr Hk Ho Hu Hn.
  destruct (proj2 (fin_54 h seeds (CResolve R f base req) Hh Hc Hr) (Fail TAG)) as [H|(x & E & H)].
  - eapply RfBare; [unfold first_place; rewrite Hk; exact Ho|exact Hk|exact Hu|apply climb_top; assumption].
  - left. exact H.
  - right. change (delivered fs R base (parse req) (Fail TAG)) with (@Err rresult (lit "Resolve '" ++ request_display (parse req) ++ lit "' failed in '" ++ base ++ lit "'")) in H.
    destruct x as [y|e]; cbn [agrees] in H; [contradiction|]. exists e. split; assumption.
Qed.
(** C34: what is not exported is an error, whatever else there is. *)
Lemma fin_34_closed : forall h seeds R f base req opk near d far pk tree n s l, Clients h -> client js nm R -> referred R base (parse req) ->
  r_kind (parse req) = Normal -> has_desc fs R (join (join base MODULE) (r_target (parse req))) opk -> up_chain base (near ++ d :: far) ->
  Forall (fun e => level fs R (parse req) e None) near ->
  f_dir fs (join d MODULE) = true -> has_desc fs R (join (join d MODULE) (r_target (parse req))) (Some pk) -> f_dir fs (join (join d MODULE) n) = true ->
  bare_parts (r_target (parse req)) n s -> f_exists fs (join (join d MODULE) n) = true -> contains (p_dir pk) MODULE = true -> p_exports pk = Some tree ->
  field_process FExports tree (exports_request s (r_query (parse req)) (r_fragment (parse req))) (o_conditions (rv_opts R)) = PRet (Ok l) ->
  Forall (fun c => ~ usable fs pk c) l ->
  let o := out fs (after h seeds) (call_prog (CResolve R f base req)) in
  o = NoFuel \/ exists e, o = Done (AResolve (Err e)) /\ respelled (lit "Package path " ++ r_target (parse req) ++ lit " is not exported") e.
Proof.
  intros h seeds R f base req opk near d far pk tree n s l Hh Hc Hr Hk Ho Hu Hn Hd Hp Hdir Hb He Hm Hx Hf Hl.
  destruct (fin_11_decides h seeds R f base req opk near d far _ Hh Hc Hr Hk Ho Hu Hn
    (LvExpNone fs R (parse req) d (Some pk) pk tree s l ltac:(split; [exact Hd|split; [exact Hp|exists n; split; [left; exists s; exact Hb|left; exact Hdir]]])
      ltac:(split; [reflexivity|split; [exact Hx|left; exact Hm]]) ltac:(exists n; split; [exact Hb|intros _; left; exact He]) Hf Hl)) as [H|(x & E & H)].
  - left. exact H.
  - right. cbn [delivered] in H. destruct (str_eqb _ TAG) eqn:Et; [vm_compute in Et; discriminate Et|]. destruct x as [y|e]; cbn [agrees] in H; [contradiction|]. exists e. split; assumption.
Qed.
End Final.
Lemma fin_54_unique : forall fs R base req a a', sane_fs fs -> referred R base (parse req) ->
  reference fs R base (parse req) a -> reference fs R base (parse req) a' -> a = a'.
Proof. intros fs R base req a a' Hfs Hr. pose proof Hr as (Hb & _). apply reference_unique; assumption. Qed.
(** ** A package with an exports field, one whose main field is a directory, a relative file. *)
Definition tree54 : node := (D [("r", D [("src", D [("x.js", F)]);
  ("node_modules", D [("p", D [("package.json", PJ "P"); ("lib", D [("index.js", F)])]);
                      ("e", D [("package.json", PJ "E"); ("index.js", F); ("lib", D [("sub.js", F)])])])])])%string.
Definition w54 : fsys := W tree54.
Definition T54 : list (string * json) :=
  ([("P", O [("main", S_ "lib")]);
   ("E", O [("exports", O [("./sub", JArr [S_ "./gone.js"; S_ "./lib/sub.js"])])])])%string.
Definition R54 : resolver := mkR dflt T54.
Lemma wf54 : forall s j, js_of T54 s = Some j -> wf_json j.
Proof. intros s j H. apply js_of_in in H. destruct H as [<-|[<-|[]]]; cbn; repeat split; auto. Qed.
Lemma clash54 : no_clash w54 (js_of T54) nmc.
Proof. intros c v v' _ (d & s & j & _ & _ & Hj & Hv). apply js_of_in in Hj. destruct Hj as [<-|[<-|[]]]; discriminate Hv. Qed.
Lemma client54 : client (js_of T54) nmc R54.
Proof. split; [right; reflexivity|split; reflexivity]. Qed.
Lemma referred54 : forall base r, path_kind (r_kind r) \/ r_kind r = Normal /\ ascii_str (r_target r) -> referred R54 base r.
Proof. intros base r H. split; [reflexivity|]. split; [|destruct H as [H|[H Ha]]; [left; exact H|right; split; [exact H|intros n Hp _; exact (package_ascii _ _ Ha Hp)]]]. split; [left; reflexivity|]. split; [left; reflexivity|reflexivity]. Qed.
Lemma noslash : forall s, existsb (N.eqb c_slash) s = false -> ~ In c_slash s.
Proof. intros s H Hin. assert (existsb (N.eqb c_slash) s = true) as E by (apply existsb_exists; exists c_slash; split; [exact Hin|apply N.eqb_refl]). congruence. Qed.
Ltac up54 := repeat (eapply UCStep; [vm_compute; reflexivity|]); apply UCRoot; vm_compute; reflexivity.
Ltac misses54 := repeat (constructor; try (vm_compute; reflexivity)).
Lemma ref54_rel : reference w54 R54 (lit "/r/src") (parse (lit "./x?q")) (Found (lit "/r/src/./x.js") (lit "?q") []).
Proof.
  eapply RfPath; [vm_compute; reflexivity|left; reflexivity|]. apply NFile. exists [lit "/r/src/./x"], [lit "/r/src/./x.json"; lit "/r/src/./x.node"].
  split; [vm_compute; reflexivity|]. split; [misses54|vm_compute; reflexivity].
Qed.
Lemma ref54_main : reference w54 R54 (lit "/r/src") (parse (lit "p")) (Found (lit "/r/node_modules/./p/./lib/./index.js") [] []).
Proof.
  eapply RfBare; [vm_compute; reflexivity|reflexivity|up54|]. eapply CbUp; [apply LvAbsent; vm_compute; reflexivity|].
  eapply CbHere.
  change (Some (Found (lit "/r/node_modules/./p/./lib/./index.js") [] [])) with (Some (Found (lit "/r/node_modules/./p/./lib/./index.js") (r_query (parse (lit "p"))) (r_fragment (parse (lit "p"))))).
  eapply LvPath.
  - split; [vm_compute; reflexivity|]. split; [vm_compute; reflexivity|]. exists (lit "p"). split; [|left; vm_compute; reflexivity].
    left. exists (lit "."). apply BPBare; [apply noslash|]; vm_compute; reflexivity.
  - intros pk tree (E & Ex & _). injection E as <-. discriminate Ex.
  - apply NDir; [misses54|vm_compute; reflexivity|]. eapply MoDir with (ms1 := []) (m := lit "./lib") (ms2 := []).
    + eapply MnOwn; [vm_compute; reflexivity|vm_compute; reflexivity|]. eapply (MPMain _ _ _ (lit "lib") []); [vm_compute; reflexivity|discriminate|discriminate|apply MPNil].
    + constructor.
    + misses54.
    + vm_compute; reflexivity.
    + eapply MoIndex with (ms := []); [eapply MnOther; [vm_compute; reflexivity|intros H; vm_compute in H; discriminate H]|constructor|].
      exists [lit "/r/node_modules/./p/./lib/./index"], [lit "/r/node_modules/./p/./lib/./index.json"; lit "/r/node_modules/./p/./lib/./index.node"].
      split; [vm_compute; reflexivity|]. split; [misses54|vm_compute; reflexivity].
Qed.
Lemma level54_sub : level w54 R54 (parse (lit "e/sub")) (lit "/r") (Some (Found (lit "/r/node_modules/e/./lib/sub.js") [] [])).
Proof.
  change (Some (Found (lit "/r/node_modules/e/./lib/sub.js") [] [])) with (Some (Found (lit "/r/node_modules/e/./lib/sub.js") (r_query (parse (lit "./lib/sub.js"))) (r_fragment (parse (lit "./lib/sub.js"))))).
  assert (Hb : bare_parts (r_target (parse (lit "e/sub"))) (lit "e") (lit "./sub")) by (exact (BPSub (lit "e") (lit "sub") (noslash (lit "e") eq_refl) eq_refl)).
  eapply LvExpHit with (s := lit "./sub") (l := [lit "./gone.js"; lit "./lib/sub.js"]).
  - split; [vm_compute; reflexivity|]. split; [vm_compute; reflexivity|]. exists (lit "e"). split; [|left; vm_compute; reflexivity]. left. exists (lit "./sub"). exact Hb.
  - split; [reflexivity|]. split; [reflexivity|]. left. vm_compute. reflexivity.
  - exists (lit "e"). split; [exact Hb|]. intros E. discriminate E.
  - vm_compute. reflexivity.
  - exists [lit "./gone.js"], []. split; [reflexivity|]. split; [|split; vm_compute; reflexivity]. constructor; [|constructor]. intros [H _]. vm_compute in H. discriminate H.
  - left. split; [left; reflexivity|reflexivity].
  - exists [], (map (fun ext => lit "/r/node_modules/e/./lib/sub.js" ++ ext) (o_extensions dflt)). split; [vm_compute; reflexivity|]. split; [constructor|vm_compute; reflexivity].
Qed.
Lemma ref54_exports : reference w54 R54 (lit "/r/src") (parse (lit "e/sub")) (Found (lit "/r/node_modules/e/./lib/sub.js") [] []).
Proof.
  eapply RfBare; [vm_compute; reflexivity|reflexivity|up54|]. eapply CbUp; [apply LvAbsent; vm_compute; reflexivity|].
  eapply CbHere.
  exact level54_sub.
Qed.
Lemma level54_lib : level w54 R54 (parse (lit "e/lib/sub.js")) (lit "/r") (Some (Fail (lit "Package path e/lib/sub.js is not exported"))).
Proof.
  assert (Hb : bare_parts (r_target (parse (lit "e/lib/sub.js"))) (lit "e") (lit "./lib/sub.js")) by (exact (BPSub (lit "e") (lit "lib/sub.js") (noslash (lit "e") eq_refl) eq_refl)).
  change (lit "Package path e/lib/sub.js is not exported") with (lit "Package path " ++ r_target (parse (lit "e/lib/sub.js")) ++ lit " is not exported").
  eapply LvExpNone with (s := lit "./lib/sub.js") (l := []).
  - split; [vm_compute; reflexivity|]. split; [vm_compute; reflexivity|]. exists (lit "e"). split; [|left; vm_compute; reflexivity]. left. exists (lit "./lib/sub.js"). exact Hb.
  - split; [reflexivity|]. split; [reflexivity|]. left. vm_compute. reflexivity.
  - exists (lit "e"). split; [exact Hb|]. intros E. discriminate E.
  - vm_compute. reflexivity.
  - constructor.
Qed.
Lemma ref54_error : reference w54 R54 (lit "/r/src") (parse (lit "e/lib/sub.js")) (Fail (lit "Package path e/lib/sub.js is not exported")).
Proof.
  eapply RfBare; [vm_compute; reflexivity|reflexivity|up54|]. eapply CbUp; [apply LvAbsent; vm_compute; reflexivity|].
  eapply CbHere.
  exact level54_lib.
Qed.
Lemma read54 : forall p, f_read w54 (join p (lit "package.json")) = Some (lit "P") -> p <> [] ->
  posix_resolve 60 tree54 [] p = Some [lit "p"; lit "node_modules"; lit "r"].
Proof.
  intros p H Hp. cbn [f_read w54 W posix_fs] in H. unfold posix_node in H. rewrite posix_join in H; [|exact Hp|discriminate|reflexivity].
  destruct (posix_resolve 60 tree54 [] p) as [cur|]; [|discriminate].
  change (split_on c_slash (lit "package.json")) with [lit "package.json"] in H. rewrite walk_cons in H.
  destruct (lookup tree54 (rev cur)) as [[|l|]|] eqn:El; try discriminate. apply lookup_nodes in El.
  change (str_eqb (lit "package.json") [] || str_eqb (lit "package.json") s_dot)%bool with false in H.
  change (str_eqb (lit "package.json") s_dotdot) with false in H. cbv iota in H.
  assert (Hn : nodes tree54 = nodes tree54) by reflexivity. revert El. vm_compute (nodes tree54).
  intros El. repeat (destruct El as [El|El]; [|]); try contradiction; try discriminate; injection El as Er <-;
    apply (f_equal (@rev str)) in Er; rewrite rev_involutive in Er; cbn [rev app] in Er; subst cur; vm_compute in H |- *; try discriminate; reflexivity.
Qed.

Lemma main54 : forall p m, main_at w54 R54 p m -> m = lit "./lib" /\ p <> [] /\ posix_resolve 60 tree54 [] p = Some [lit "p"; lit "node_modules"; lit "r"].
Proof.
  intros p m (pk & fld & v & Hd & Hsame & Hfld & Hv & _ & _ & ->).
  destruct (lookup_facts _ _ _ _ _ Hd) as (n & s & j & En & Hdir & Hs & Hj & _ & Hraw). injection En as <-. subst j.
  assert (Hpd : p_dir pk <> []) by (intros E; rewrite E in Hdir; discriminate).
  assert (Hp : p <> []) by (intros ->; rewrite <- (sf_dir w54 (posix_sane 60 tree54 []) _ _ Hsame) in Hdir; discriminate).
  rewrite <- (sf_read w54 (posix_sane 60 tree54 []) _ _ (same_tail_join _ _ _ Hsame)) in Hs.
  change (rv_json R54) with (js_of T54) in Hj. unfold js_of in Hj. apply imap_get_In in Hj. cbn [T54 map fst snd] in Hj.
  destruct Hfld as [<-|[]]. destruct Hj as [E|[E|[]]]; injection E as <- E; rewrite <- E in Hv; [|discriminate].
  vm_compute in Hv. injection Hv as <-. split; [reflexivity|]. split; [exact Hp|]. apply read54; [exact Hs|exact Hp].
Qed.
Lemma dir54 : forall p, p <> [] -> posix_resolve 60 tree54 [] p = Some [lit "p"; lit "node_modules"; lit "r"] -> forall t, t <> [] -> is_abs t = false ->
  posix_resolve 60 tree54 [] (join p t) = walk_path 60 tree54 [lit "p"; lit "node_modules"; lit "r"] (split_on c_slash t).
Proof. intros p Hp H t Ht Ha. rewrite posix_join by assumption. rewrite H. reflexivity. Qed.
Lemma main_dir54 : forall p q, main_dir w54 R54 p q -> posix_resolve 60 tree54 [] q = Some [lit "lib"; lit "p"; lit "node_modules"; lit "r"] /\ q <> [].
Proof.
  intros p q H. induction H as [m Hm Hd|d m Hdir [IH Hne] Hm Hd|m c q Hm Hb -> Hd]; destruct (main54 _ _ Hm) as (-> & Hp & Hr).
  - split; [rewrite dir54; [reflexivity|exact Hp|exact Hr|discriminate|reflexivity]|apply join_ne; discriminate].
  - exfalso. cbn [f_dir w54 W posix_fs] in Hd. unfold posix_node in Hd. rewrite posix_join in Hd; [|exact Hne|discriminate|reflexivity]. rewrite IH in Hd. discriminate Hd.
  - exfalso. destruct Hb as (Hb & _). discriminate Hb.
Qed.
Lemma modest54 : modest w54 R54.
Proof.
  split.
  - intros d j v t (name & s & _ & _ & _ & Hj) Hv Ht. apply js_of_in in Hj. cbn [T54 map snd] in Hj. destruct Hj as [<-|[<-|[]]]; vm_compute in Hv; discriminate.
  - intros d j af k t v Hb. discriminate Hb.
  - intros name p q En Hq. injection En as <-. destruct (main_dir54 _ _ Hq) as [Hr Hne]. cbn [f_read w54 W posix_fs]. unfold posix_node.
    rewrite posix_join; [|exact Hne|discriminate|reflexivity]. rewrite Hr. reflexivity.
Qed.
Lemma plain54 : forall f base req, is_abs base = true -> call_plain w54 (CResolve R54 f base req).
Proof.
  intros f base req Ha. apply modest_plain; [apply posix_sane|exact Ha|exact modest54| |discriminate].
  split; [intros from to from' to' []|intros H; discriminate H].
Qed.
Lemma C54_ex_p : (sane_fs w54 /\ (forall s j, js_of T54 s = Some j -> wf_json j) /\ no_clash w54 (js_of T54) nmc /\ client (js_of T54) nmc R54 /\
   forall req, call_plain w54 (CResolve R54 0 (lit "/r/src") req)) /\
  (Forall (fun q => referred R54 (lit "/r/src") (parse (lit q))) ["./x?q"; "p"; "e/sub"; "e/lib/sub.js"]%string) /\
  (reference w54 R54 (lit "/r/src") (parse (lit "./x?q")) (Found (lit "/r/src/./x.js") (lit "?q") []) /\
   reference w54 R54 (lit "/r/src") (parse (lit "p")) (Found (lit "/r/node_modules/./p/./lib/./index.js") [] []) /\
   reference w54 R54 (lit "/r/src") (parse (lit "e/sub")) (Found (lit "/r/node_modules/e/./lib/sub.js") [] []) /\
   reference w54 R54 (lit "/r/src") (parse (lit "e/lib/sub.js")) (Fail (lit "Package path e/lib/sub.js is not exported"))) /\
  (res w54 R54 "/r/src" "./x?q" = Demo.found "/r/src/x.js" "?q" "" /\ res w54 R54 "/r/src" "p" = Demo.found "/r/node_modules/p/lib/index.js" "" "" /\
   res w54 R54 "/r/src" "e/sub" = Demo.found "/r/node_modules/e/lib/sub.js" "" "" /\
   res w54 R54 "/r/src" "e/lib/sub.js" = Demo.failed "Package path e/lib/sub.js is not exported")%string.
Proof.
  split; [|split; [|split]].
  - split; [apply posix_sane|]. split; [exact wf54|]. split; [exact clash54|]. split; [exact client54|]. intros req. apply plain54. reflexivity.
  - repeat apply Forall_cons; try apply Forall_nil; apply referred54; [left; left; reflexivity|right|right|right]; (split; [reflexivity|repeat constructor]).
  - split; [exact ref54_rel|]. split; [exact ref54_main|]. split; [exact ref54_exports|exact ref54_error].
  - vm_compute. repeat split.
Qed.
Lemma C11_levels_ex_p : (up_chain (lit "/r/src") ([lit "/r/src"] ++ lit "/r" :: [lit "/"]) /\
  Forall (fun q => level w54 R54 (parse (lit q)) (lit "/r/src") None) ["e/sub"; "e/lib/sub.js"; "z"] /\
  level w54 R54 (parse (lit "e/sub")) (lit "/r") (Some (Found (lit "/r/node_modules/e/./lib/sub.js") [] [])) /\
  level w54 R54 (parse (lit "e/lib/sub.js")) (lit "/r") (Some (Fail (lit "Package path e/lib/sub.js is not exported"))) /\
  level w54 R54 (parse (lit "z")) (lit "/r") None /\ level w54 R54 (parse (lit "z")) (lit "/") None /\
  res w54 R54 "/r/src" "z" = Demo.failed "Resolve 'z' failed in '/r/src'")%string.
Proof.
  split; [up54|]. split; [repeat apply Forall_cons; try apply Forall_nil; apply LvAbsent; vm_compute; reflexivity|].
  split; [exact level54_sub|]. split; [exact level54_lib|]. split.
  - eapply LvNoFile with (opk := None) (n := lit "z"); [vm_compute; reflexivity|vm_compute; reflexivity|left; exists (lit "."); apply BPBare; [apply noslash|]; vm_compute; reflexivity|vm_compute; reflexivity| |misses54].
    intros (pk & n & E & _). discriminate E.
  - split; [apply LvAbsent; vm_compute; reflexivity|vm_compute; reflexivity].
Qed.
