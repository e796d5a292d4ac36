(** * Lemmas and example worlds behind PropAgain.v *)
From Coq Require Import String.
From Coq Require Import List Arith NArith Bool Lia.
From Verif Require Import Str StrP Path PathP Json Types Parse SpecParse ParseP Map Prog Desc Resolve Top Run RunP Exec ExecP Posix PosixP Demo WitnessP SpecRun SpecLoad SpecCarry SpecCache SpecJson SpecNode SpecAgain SpellP LookupP LookupTopP CarryP PropApiP PropCacheP PropNodeP.
Import ListNotations.

Lemma tail_canonical : forall s, (r_query (parse s) = [] \/ exists r, r_query (parse s) = 63%N :: r /\ ~ In 35%N r) /\
  (r_fragment (parse s) = [] \/ exists r, r_fragment (parse s) = 35%N :: r).
Proof.
  intros s. unfold parse. destruct (parse_identifier s) as [[t q] f] eqn:E. destruct (parse_identifier_canonical _ _ _ _ E) as (_ & H1 & H2 & _). split; assumption.
Qed.
Lemma answer_tail : forall R fuel base req tr i, exec (resolve R fuel base req) tr (Done (Ok (RInfo i))) ->
  (r_query (i_req i) = [] \/ exists r, r_query (i_req i) = 63%N :: r /\ ~ In 35%N r) /\
  (r_fragment (i_req i) = [] \/ exists r, r_fragment (i_req i) = 35%N :: r).
Proof.
  intros R fuel base req tr i H. destruct (fin_48_sources _ _ _ _ _ _ H) as [[-> ->]|[(_ & -> & ->)|(c & _ & -> & ->)]]; [apply tail_canonical|auto|apply tail_canonical].
Qed.
Lemma abs_kind : forall p, is_abs p = true -> get_target_kind p = AbsolutePosix.
Proof.
  intros [|c p] H; [discriminate|]. unfold get_target_kind. cbn in H. apply N.eqb_eq in H. subst c. reflexivity.
Qed.
Lemma parse_join : forall i, is_abs (i_path i) = true -> no_marks (i_path i) ->
  (r_query (i_req i) = [] \/ exists r, r_query (i_req i) = 63%N :: r /\ ~ In 35%N r) ->
  (r_fragment (i_req i) = [] \/ exists r, r_fragment (i_req i) = 35%N :: r) ->
  parse (info_join i) = mkReq (i_path i) (r_query (i_req i)) (r_fragment (i_req i)) AbsolutePosix.
Proof.
  intros i Ha [H1 H2] Hq Hf. unfold parse, info_join. rewrite (parse_identifier_unique _ (i_path i) (r_query (i_req i)) (r_fragment (i_req i))); [|split; [|split; [|split]]|reflexivity].
  - rewrite abs_kind by exact Ha. reflexivity.
  - intros c r E. rewrite E in H1, H2. cbn [In] in H1, H2. repeat split; intuition.
  - exact Hq.
  - exact Hf.
  - intros _ E. destruct (i_path i); discriminate.
Qed.
Lemma join_absolute : forall base r, is_abs (r_target r) = true -> get_path (mkInfo base r) = r_target r.
Proof.
  intros base r H. unfold get_path. cbn [i_req i_path]. destruct (r_target r) as [|c t] eqn:E; [discriminate|].
  assert (Hd : str_eqb (c :: t) s_dot = false) by (cbn in H; apply N.eqb_eq in H; subst c; reflexivity).
  rewrite Hd. cbn [str_eqb orb]. unfold join. rewrite H. reflexivity.
Qed.
Lemma exact_first : forall o p, o_enforce o <> Some true -> exists l, file_candidates o p = [] ++ p :: l.
Proof. intros o p H. unfold file_candidates. destruct (o_enforce o) as [[]|]; [congruence| |]; eexists; reflexivity. Qed.

(** The path is a file, and what [resolve] makes of it at the end. *)
Lemma again_file : forall fs R0 f0 base0 req0 st0 i R, out fs st0 (resolve R0 f0 base0 req0) = Done (Ok (RInfo i)) -> o_symlinks (rv_opts R0) = o_symlinks (rv_opts R) ->
  (o_symlinks (rv_opts R) = true -> canonical fs) -> (o_symlinks (rv_opts R) = false -> is_abs (i_path i) = true /\ f_file fs (i_path i) = true) ->
  is_abs (i_path i) = true /\ f_file fs (i_path i) = true /\ (o_symlinks (rv_opts R) = true -> f_canon fs (i_path i) = Some (i_path i)) /\
  (o_symlinks (rv_opts R) = false -> normalize_path_without_link (i_path i) = i_path i).
Proof.
  intros fs R0 f0 base0 req0 st0 i R H Hs Hon Hoff. destruct (C08_run_p _ _ _ _ _ _ _ H) as (p & Hp & _ & H1 & H2). rewrite Hs in H1, H2.
  destruct (o_symlinks (rv_opts R)).
  - destruct (Hon eq_refl p (i_path i) Hp (H1 eq_refl)) as (Ha & Hf & Hc). split; [exact Ha|]. split; [exact Hf|]. split; [intros _; exact Hc|discriminate].
  - destruct (Hoff eq_refl) as [Ha Hf]. split; [exact Ha|]. split; [exact Hf|]. split; [discriminate|]. intros _. rewrite (H2 eq_refl). apply normalize_idem.
Qed.
Lemma again_parse : forall fs R0 f0 base0 req0 st0 i, out fs st0 (resolve R0 f0 base0 req0) = Done (Ok (RInfo i)) -> is_abs (i_path i) = true -> no_marks (i_path i) ->
  parse (info_join i) = mkReq (i_path i) (r_query (i_req i)) (r_fragment (i_req i)) AbsolutePosix.
Proof.
  intros fs R0 f0 base0 req0 st0 i H Ha Hm. destruct (run_exec (resolve R0 f0 base0 req0) fs st0) as [tr [H1 _]]. rewrite H in H1.
  destruct (answer_tail _ _ _ _ _ _ H1) as [Hq Hf]. apply parse_join; assumption.
Qed.
Lemma fin_67 : forall fs R0 f0 base0 req0 st0 i R f base st opk st1,
  out fs st0 (resolve R0 f0 base0 req0) = Done (Ok (RInfo i)) -> o_symlinks (rv_opts R0) = o_symlinks (rv_opts R) ->
  (o_symlinks (rv_opts R) = true -> canonical fs) -> (o_symlinks (rv_opts R) = false -> is_abs (i_path i) = true /\ f_file fs (i_path i) = true) ->
  no_marks (i_path i) -> rv_debug R = false -> no_remap R base (i_path i) -> o_enforce (rv_opts R) <> Some true ->
  run fs (load_pkg_file R (S f) (i_path i)) st = (Done (Ok opk), st1) -> browser_silent (rv_opts R) opk (mkInfo base (parse (info_join i))) ->
  out fs st (resolve R (S f) base (info_join i)) = Done (Ok (RInfo (mkInfo (i_path i) (mkReq [] (r_query (i_req i)) (r_fragment (i_req i)) Relative)))).
Proof.
  intros fs R0 f0 base0 req0 st0 i R f base st opk st1 H Hs Hon Hoff Hm Hdb Hr He Hl Hb.
  destruct (again_file fs R0 f0 base0 req0 st0 i R H Hs Hon Hoff) as (Ha & Hf & Hc & Hn). pose proof (again_parse _ _ _ _ _ _ _ H Ha Hm) as Hp.
  destruct (exact_first (rv_opts R) (i_path i) He) as [l El].
  assert (Hg : get_path (mkInfo base (parse (info_join i))) = i_path i) by (rewrite Hp; apply join_absolute; exact Ha).
  pose proof (path_file_top fs R f base (info_join i) st opk st1 [] (i_path i) l Hdb) as T. rewrite Hg in T. rewrite Hp in T, Hb. cbn [r_target r_kind] in T.
  destruct (T Hr (or_intror (or_introl eq_refl)) Hl Hb El (Forall_nil _) Hf) as [E _]. unfold out. rewrite E. cbn [fst final_answer i_path i_req r_query r_fragment].
  destruct (o_symlinks (rv_opts R)); [rewrite (Hc eq_refl); reflexivity|rewrite (Hn eq_refl); reflexivity].
Qed.
Lemma fin_67_disk : forall fs, sane_fs fs -> forall js, (forall s j, js s = Some j -> wf_json j) -> forall nm, no_clash fs js nm ->
  forall R0 f0 base0 req0 st0 i h seeds R f base opk,
  out fs st0 (resolve R0 f0 base0 req0) = Done (Ok (RInfo i)) -> o_symlinks (rv_opts R0) = o_symlinks (rv_opts R) ->
  (o_symlinks (rv_opts R) = true -> canonical fs) -> (o_symlinks (rv_opts R) = false -> is_abs (i_path i) = true /\ f_file fs (i_path i) = true) ->
  no_marks (i_path i) -> Forall (fun c => client js nm (call_resolver c)) h -> client js nm R -> o_browser (rv_opts R) = false ->
  no_remap R base (i_path i) -> o_enforce (rv_opts R) <> Some true -> has_desc fs R (i_path i) opk ->
  let o := out fs (snd (run_history fs (empty_state seeds) (map ECall h))) (call_prog (CResolve R f base (info_join i))) in
  o = NoFuel \/ o = Done (AResolve (Ok (RInfo (mkInfo (i_path i) (mkReq [] (r_query (i_req i)) (r_fragment (i_req i)) Relative))))).
Proof.
  intros fs Hfs js Hjs nm Hclash R0 f0 base0 req0 st0 i h seeds R f base opk H Hs Hon Hoff Hm Hh Hcl Hbr Hr He Ho.
  destruct (again_file fs R0 f0 base0 req0 st0 i R H Hs Hon Hoff) as (Ha & Hf & Hc & Hn). pose proof (again_parse _ _ _ _ _ _ _ H Ha Hm) as Hp.
  destruct (exact_first (rv_opts R) (i_path i) He) as [l El].
  assert (Hg : get_path (mkInfo base (parse (info_join i))) = i_path i) by (rewrite Hp; apply join_absolute; exact Ha).
  assert (Hk : path_kind (r_kind (parse (info_join i)))) by (rewrite Hp; right; left; reflexivity).
  assert (Href : referred R base (parse (info_join i))) by (split; [exact Hbr|split; [rewrite Hp; exact Hr|left; exact Hk]]).
  destruct (proj2 (fin_54 fs Hfs js Hjs nm Hclash h seeds (CResolve R f base (info_join i)) Hh Hcl Href)
    (Found (i_path i) (r_query (parse (info_join i))) (r_fragment (parse (info_join i))))) as [E|(x & E & Hx)].
  - eapply RfPath; [unfold first_place; rewrite Hp at 1; cbn [r_kind]; rewrite Hg; exact Ho|exact Hk|]. rewrite Hg. apply NFile. exists [], l.
    split; [exact El|]. split; [constructor|exact Hf].
  - left. exact E.
  - right. cbn zeta. rewrite E. do 2 f_equal. rewrite Hp in Hx. cbn [delivered r_query r_fragment] in Hx.
    destruct (o_symlinks (rv_opts R)); [rewrite (Hc eq_refl) in Hx|rewrite (Hn eq_refl) in Hx]; destruct x; cbn [agrees] in Hx; try contradiction; rewrite Hx; reflexivity.
Qed.

(** ** The concrete file systems are canonical. *)
Fixpoint real (root : node) (cur : list str) : Prop :=
  match cur with
  | [] => True
  | s :: c => plain_name s /\ real root c /\ exists l n, lookup root (rev c) = Some (Posix.NDir l) /\ imap_get l s = Some n /\ forall t, n <> NLink t
  end.
Lemma real_tl : forall root cur, real root cur -> real root (tl cur).
Proof. intros root [|s c] H; [exact I|apply H]. Qed.
Lemma split_free : forall p s, In s (split_on c_slash p) -> ~ In c_slash s.
Proof. intros p s H. exact (split_on_no_in c_slash p s H). Qed.
Lemma walk_real : forall root fuel segs cur cur', real root cur -> (forall s, In s segs -> ~ In c_slash s) -> walk_path fuel root cur segs = Some cur' -> real root cur'.
Proof.
  intros root. induction fuel as [|fuel IHf]; (induction segs as [|s r IH]; intros cur cur' Hc Hs H; [rewrite walk_nil in H; injection H as <-; exact Hc|]);
    rewrite walk_cons in H; destruct (lookup root (rev cur)) as [[|l|]|] eqn:El; try discriminate;
    (assert (Hr : forall x, In x r -> ~ In c_slash x) by (intros x Hx; apply Hs; right; exact Hx));
    (destruct (str_eqb_spec s []) as [_|H1]; [eapply IH; eassumption|]);
    (destruct (str_eqb_spec s s_dot) as [_|H2]; [eapply IH; eassumption|]); cbn [orb] in H;
    (destruct (str_eqb_spec s s_dotdot) as [_|H3]; [eapply IH; [apply real_tl| |]; eassumption|]);
    (assert (Hp : plain_name s) by (repeat split; try assumption; apply Hs; left; reflexivity));
    destruct (imap_get l s) as [[c m|l'|t]|] eqn:Eg; try discriminate.
  - eapply IH; [|exact Hr|exact H]. split; [exact Hp|]. split; [exact Hc|]. eexists _, _. split; [exact El|]. split; [exact Eg|discriminate].
  - eapply IH; [|exact Hr|exact H]. split; [exact Hp|]. split; [exact Hc|]. eexists _, _. split; [exact El|]. split; [exact Eg|discriminate].
  - eapply IH; [|exact Hr|exact H]. split; [exact Hp|]. split; [exact Hc|]. eexists _, _. split; [exact El|]. split; [exact Eg|discriminate].
  - eapply IH; [|exact Hr|exact H]. split; [exact Hp|]. split; [exact Hc|]. eexists _, _. split; [exact El|]. split; [exact Eg|discriminate].
  - destruct (walk_path fuel root (if is_abs t then [] else cur) (split_on c_slash t)) as [c2|] eqn:E2; [|discriminate].
    eapply IH; [|exact Hr|exact H]. eapply IHf; [|apply split_free|exact E2]. destruct (is_abs t); [exact I|exact Hc].
Qed.
Lemma real_walk : forall root fuel cur r, real root cur -> walk_path fuel root [] (rev cur ++ r) = walk_path fuel root cur r.
Proof.
  intros root fuel. induction cur as [|s c IH]; intros r H; [reflexivity|]. destruct H as ((H1 & H2 & H3 & _) & Hc & l & n & El & Eg & Hn).
  cbn [rev]. rewrite <- app_assoc. cbn [app]. rewrite IH by exact Hc. rewrite walk_cons, El.
  change s_dot with (lit "."). change s_dotdot with (lit "..").
  destruct (str_eqb_spec s []); [contradiction|]. destruct (str_eqb_spec s (lit ".")); [contradiction|]. destruct (str_eqb_spec s (lit "..")); [contradiction|]. cbn [orb].
  rewrite Eg. destruct n as [?|?|t]; [reflexivity|reflexivity|]. contradiction (Hn t eq_refl).
Qed.
Lemma real_plain : forall root cur, real root cur -> Forall plain_name (rev cur).
Proof. intros root. induction cur as [|s c IH]; intros H; [constructor|]. destruct H as (H1 & H2 & _). cbn [rev]. apply Forall_app. split; [apply IH, H2|repeat constructor; apply H1]. Qed.
Lemma real_root : forall root s c, real root (s :: c) -> exists l, root = Posix.NDir l.
Proof.
  intros root s c (_ & _ & l & _ & El & _). destruct (rev c) as [|x r]; cbn [lookup] in El; [injection El as ->; eauto|]. destruct root; try discriminate. eauto.
Qed.
Lemma posix_canonical : forall fuel root, canonical (posix_fs fuel root []).
Proof.
  intros fuel root p q Hf Hc. cbn [f_file f_canon posix_fs] in *. unfold posix_node in Hf. destruct (posix_resolve fuel root [] p) as [cur|] eqn:Er; [|discriminate]. injection Hc as <-.
  assert (Hr : real root cur).
  { unfold posix_resolve in Er. destruct p as [|x p]; [discriminate|]. eapply walk_real; [| |exact Er]; [destruct (is_abs _); exact I|apply split_free]. }
  assert (Hd : exists l, root = Posix.NDir l).
  { unfold posix_resolve in Er. destruct p as [|x p]; [discriminate|]. assert (Er' : walk_path fuel root [] (split_on c_slash (x :: p)) = Some cur) by (destruct (is_abs (x :: p)); exact Er).
    destruct (split_on_cons_ne c_slash (x :: p)) as (y & r & Es). rewrite Es in Er'. rewrite walk_cons in Er'. cbn [rev lookup] in Er'. destruct root; try discriminate. eauto. }
  destruct Hd as [l Hd]. destruct cur as [|s c]; [rewrite Hd in Hf; discriminate Hf|].
  assert (E : posix_resolve fuel root [] (c_slash :: join_on c_slash (rev (s :: c))) = Some (s :: c)).
  { unfold posix_resolve. change (is_abs (c_slash :: join_on c_slash (rev (s :: c)))) with true. cbv iota.
    change (split_on c_slash (c_slash :: join_on c_slash (rev (s :: c)))) with ([] :: split_on c_slash (join_on c_slash (rev (s :: c)))).
    rewrite split_join; [|cbn [rev]; destruct (rev c); discriminate|eapply Forall_impl; [|apply (real_plain root), Hr]; intros x (_ & _ & _ & Hx); exact Hx]. rewrite walk_cons. change (lookup root (rev [])) with (Some root). rewrite Hd. cbv beta iota. rewrite <- Hd. change (str_eqb [] [] || str_eqb [] s_dot)%bool with true. cbv iota.
    rewrite <- (app_nil_r (rev (s :: c))), real_walk by exact Hr. apply walk_nil. }
  split; [reflexivity|]. unfold posix_node. rewrite E. split; [exact Hf|reflexivity].
Qed.

(** ** Where it fails. *)
(** A directory with '#' in its name. *)
Definition w67a : fsys := W (D [("r#x", D [("a.js", F)])])%string.
(** prefer_relative: the absolute path is first taken to be a relative one. *)
Definition w67b : fsys := W (D [("r", D [("a.js", F); ("r", D [("a.js", F)])])])%string.
(** enforce_extension. *)
Definition w67c : fsys := W (D [("r", D [("a.js", F)])])%string.
(** A link to a directory, and ".." behind it; symlinks off. *)
Definition w67d : fsys := W (D [("r", D [("l", NLink (lit "/e/d"))]); ("e", D [("d", D []); ("a.js", F)])])%string.
Lemma marks_free : forall p, existsb (fun c => N.eqb c 63 || N.eqb c 35)%bool p = false -> no_marks p.
Proof. intros p H. split; intros Hi; (assert (E : existsb (fun c => N.eqb c 63 || N.eqb c 35)%bool p = true) by (apply existsb_exists; eexists; split; [exact Hi|reflexivity]); congruence). Qed.
Lemma C67_marks_p : exists fs R base req i e, canonical fs /\ (exists o js jc, R = new_resolver o 0 0 false js jc) /\ is_abs base = true /\ o_alias (rv_opts R) = [] /\
  o_prefer_relative (rv_opts R) = false /\ o_enforce (rv_opts R) = Some false /\
  out fs st0 (resolve R 40 base req) = Done (Ok (RInfo i)) /\ out fs st0 (resolve R 40 base (info_join i)) = Done (Err e).
Proof.
  exists w67a, (mkR dflt []), (lit "/r#x"), (lit "./a"). eexists _, _. split; [apply posix_canonical|]. split; [eexists _, _, _; reflexivity|]. split; [reflexivity|]. split; [reflexivity|].
  do 2 (split; [reflexivity|]). split; [vm_compute; reflexivity|vm_compute; reflexivity].
Qed.
Lemma C67_prefer_p : exists fs R base req i i', canonical fs /\ (exists o js jc, R = new_resolver o 0 0 false js jc) /\ is_abs base = true /\ o_alias (rv_opts R) = [] /\
  no_marks (i_path i) /\ o_enforce (rv_opts R) = Some false /\
  out fs st0 (resolve R 40 base req) = Done (Ok (RInfo i)) /\ out fs st0 (resolve R 40 base (info_join i)) = Done (Ok (RInfo i')) /\ i_path i' <> i_path i.
Proof.
  exists w67b, (mkR (with_prefer dflt true) []), (lit "/r"), (lit "./a"). eexists _, _. split; [apply posix_canonical|]. split; [eexists _, _, _; reflexivity|]. split; [reflexivity|]. split; [reflexivity|].
  split; [|split; [reflexivity|split; [vm_compute; reflexivity|split; [vm_compute; reflexivity|]]]]; [apply marks_free; reflexivity|discriminate].
Qed.
Lemma C67_enforce_p : exists fs R base req i e, canonical fs /\ (exists o js jc, R = new_resolver o 0 0 false js jc) /\ is_abs base = true /\ o_alias (rv_opts R) = [] /\
  no_marks (i_path i) /\ o_prefer_relative (rv_opts R) = false /\
  out fs st0 (resolve R 40 base req) = Done (Ok (RInfo i)) /\ out fs st0 (resolve R 40 base (info_join i)) = Done (Err e).
Proof.
  exists w67c, (mkR (with_enforce dflt (Some true)) []), (lit "/r"), (lit "./a"). eexists _, _. split; [apply posix_canonical|]. split; [eexists _, _, _; reflexivity|]. split; [reflexivity|]. split; [reflexivity|].
  split; [|split; [reflexivity|split; [vm_compute; reflexivity|vm_compute; reflexivity]]]. apply marks_free. reflexivity.
Qed.
Lemma C67_links_p : exists fs R base req i e, sane_fs fs /\ (exists o js jc, R = new_resolver o 0 0 false js jc) /\ is_abs base = true /\ o_alias (rv_opts R) = [] /\
  no_marks (i_path i) /\ o_prefer_relative (rv_opts R) = false /\ o_enforce (rv_opts R) = Some false /\ o_symlinks (rv_opts R) = false /\
  out fs st0 (resolve R 40 base req) = Done (Ok (RInfo i)) /\ out fs st0 (resolve R 40 base (info_join i)) = Done (Err e).
Proof.
  exists w67d, (mkR (with_symlinks dflt false) []), (lit "/r"), (lit "./l/../a"). eexists _, _. split; [apply posix_sane|]. split; [eexists _, _, _; reflexivity|]. split; [reflexivity|]. split; [reflexivity|].
  split; [|do 3 (split; [reflexivity|]); split; [vm_compute; reflexivity|vm_compute; reflexivity]]. apply marks_free. reflexivity.
Qed.
Lemma C67_ex_p : (canonical w1 /\ res w1 R1 "/r" "./l?q#f" = found "/r/d/b.js" "?q" "#f" /\
  info_join (mkInfo (lit "/r/d/b.js") (mkReq [] (lit "?q") (lit "#f") Relative)) = lit "/r/d/b.js?q#f" /\
  no_marks (lit "/r/d/b.js") /\ no_remap R1 (lit "/elsewhere") (lit "/r/d/b.js") /\ o_enforce (rv_opts R1) <> Some true /\
  (exists opk st1, run w1 (load_pkg_file R1 40 (lit "/r/d/b.js")) st0 = (Done (Ok opk), st1)) /\ o_browser (rv_opts R1) = false /\
  res w1 R1 "/elsewhere" "/r/d/b.js?q#f" = found "/r/d/b.js" "?q" "#f")%string.
Proof.
  split; [apply posix_canonical|]. split; [vm_compute; reflexivity|]. split; [reflexivity|]. split; [apply marks_free; reflexivity|].
  split; [split; [left; reflexivity|split; [left; reflexivity|reflexivity]]|]. split; [discriminate|]. split; [eexists _, _; vm_compute; reflexivity|]. split; [reflexivity|vm_compute; reflexivity].
Qed.
