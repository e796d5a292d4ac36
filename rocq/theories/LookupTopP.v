(** * The steps of [LookupP] for whole calls of [resolve]. *)
From Coq Require Import String.
From Coq Require Import List Arith NArith Bool Lia.
From Verif Require Import Str StrP Path PathP Json Types Parse ParseP Map FieldP Prog Desc Resolve Top Run Exec ExecP ApiP FuelP RunP SpecRun TsP LookupP.
Import ListNotations.

(** ** Errors of the field rules are never the internal marker *)
Lemma cond_loop_err : forall f names lk e, cond_loop f names lk = PRet (Err e) -> 3 <= length e.
Proof.
  induction f as [|f IH]; intros names lk e H; [discriminate|]. cbn [cond_loop] in H. destruct lk as [|[[m cs] j] b]; [discriminate|].
  destruct (cond_for _ _ _ _ _); try discriminate; eauto. inversion H. cbn. lia.
Qed.
Lemma target_mapping_err : forall fk rm sp t e, target_mapping fk rm sp t = Err e -> 3 <= length e.
Proof.
  intros fk rm sp t e H. unfold target_mapping in H.
  destruct (assert_target fk t true) as [b|e0] eqn:Ea.
  - destruct rm as [q|]; [destruct sp, b|destruct b]; try discriminate; inversion H; rewrite ?app_length; cbn; lia.
  - inversion H; subst. destruct fk; cbn [assert_target] in Ea; [destruct (_ || _)|]; try (destruct (negb _)); try discriminate.
    inversion Ea. cbn. lia.
Qed.
Lemma mapping_err : forall f fk rm sp v names e, mapping f fk rm sp v names = PRet (Err e) -> 3 <= length e.
Proof.
  induction f as [|f IH]; intros fk rm sp v names e H; [discriminate|]. destruct v as [t|m|a].
  - cbn [mapping] in H. destruct (target_mapping fk rm sp t) eqn:Et; inversion H; subst. eapply target_mapping_err, Et.
  - cbn [mapping] in H. unfold conditional_mapping in H. destruct (cond_loop _ names _) as [[[v|]|e0]|?|] eqn:Ec; cbn [pbind] in H; try discriminate; eauto.
    inversion H; subst. eapply cond_loop_err, Ec.
  - rewrite mapping_array in H. revert H. generalize (@nil str). induction a as [|x a IHa]; intros acc H; cbn [map_array] in H; [discriminate|].
    destruct x as [t|m].
    + destruct (target_mapping fk rm sp t) eqn:Et; [eauto|inversion H; subst; eapply target_mapping_err, Et].
    + unfold conditional_mapping in H. destruct (cond_loop _ names _) as [[[v|]|e0]|?|] eqn:Ec; cbn [pbind] in H; try discriminate; eauto.
      * destruct (mapping f fk rm sp v names) as [[l|e0]|?|] eqn:Em; cbn [pbind] in H; try discriminate; eauto.
        inversion H; subst. eauto.
      * inversion H; subst. eapply cond_loop_err, Ec.
Qed.
Lemma field_err_not_tag : forall fk root t names e, field_process fk root t names = PRet (Err e) -> str_eqb e TAG = false.
Proof.
  intros fk root t names e H. destruct (str_eqb_spec e TAG) as [-> |]; [|reflexivity]. exfalso.
  assert (3 <= length TAG); [|cbn in *; lia]. unfold field_process in H.
  destruct (assert_request fk t) as [q|e0] eqn:Ea.
  - destruct (find_match root q) as [[[v k]|]|?|]; cbn [pbind] in H; try discriminate. eapply mapping_err, H.
  - inversion H; subst. destruct fk; cbn [assert_request] in Ea;
      repeat match type of Ea with context[if ?b then _ else _] => destruct b end; inversion Ea; cbn; try lia.
Qed.

(** ** From [resolve_] to [resolve] *)
Lemma top_run : forall fs R fuel base req st, rv_debug R = false -> o_tsconfig (rv_opts R) = None ->
  run fs (resolve R fuel base req) st =
  let (r, st') := run fs (resolve_ R (load_pkg_file R fuel) fuel (mkInfo base (parse req))) st in (final_answer fs R r, st').
Proof. intros fs R fuel base req st Hd Ht. unfold resolve. rewrite resolve_final, Ht by exact Hd. reflexivity. Qed.
Lemma top_tr : forall fs R fuel base req st, rv_debug R = false -> o_tsconfig (rv_opts R) = None ->
  run_tr fs (resolve R fuel base req) st =
  run_tr fs (resolve_ R (load_pkg_file R fuel) fuel (mkInfo base (parse req))) st ++
  final_ops fs R (fst (run fs (resolve_ R (load_pkg_file R fuel) fuel (mkInfo base (parse req))) st)).
Proof.
  intros fs R fuel base req st Hd Ht. unfold resolve, resolve_with. rewrite Ht, run_tr_bind.
  destruct (run fs _ st) as [[[[i|]|i|e i]|?|] st']; try reflexivity. f_equal. cbn [fst final_ops].
  unfold normalize_result. rewrite Hd. cbn [andb]. unfold normalize_path.
  destruct (o_symlinks (rv_opts R)); [|reflexivity]. unfold try_. cbn [act bind run_tr step].
  destruct (f_canon fs (i_path i)); reflexivity.
Qed.

(** ** C09 *)
Lemma path_file_top : forall fs R f base req st opk st1 l1 q l2, rv_debug R = false ->
  no_remap R base (r_target (parse req)) -> path_kind (r_kind (parse req)) ->
  run fs (load_pkg_file R (S f) (get_path (mkInfo base (parse req)))) st = (Done (Ok opk), st1) ->
  browser_silent (rv_opts R) opk (mkInfo base (parse req)) ->
  file_candidates (rv_opts R) (get_path (mkInfo base (parse req))) = l1 ++ q :: l2 -> no_file fs l1 -> f_file fs q = true ->
  let found := Done (Success (RInfo (mkInfo q (mkReq [] (r_query (parse req)) (r_fragment (parse req)) Relative)))) in
  run fs (resolve R (S f) base req) st = (final_answer fs R found, st1) /\
  run_tr fs (resolve R (S f) base req) st =
    run_tr fs (load_pkg_file R (S f) (get_path (mkInfo base (parse req)))) st ++
    map (fun p => mkev (OIsFile p) false) l1 ++ [mkev (OIsFile q) true] ++ final_ops fs R found.
Proof.
  intros fs R f base req st opk st1 l1 q l2 Hd Hn Hk Hl Hb Hc Hl1 Hq fnd.
  destruct (path_request_tail R (load_pkg_file R (S f)) fs f (mkInfo base (parse req)) st Hn (parse_kind req) Hk opk st1 Hl Hb) as [E1 E2].
  assert (Ht : o_tsconfig (rv_opts R) = None) by apply Hn.
  assert (Ep : pick fs (file_candidates (rv_opts R) (get_path (mkInfo base (parse req)))) = Some q) by (apply pick_some; exists l1, l2; auto).
  assert (Er : run fs (s <- and_then (resolve_as_file R (mkInfo base (parse req))) (resolve_as_dir R (load_pkg_file R (S f)) (S f)) ;;
     finish_ (mkInfo base (parse req)) s) st1 = (fnd, st1)).
  { rewrite run_bind, run_and_then, as_file_run, Ep. reflexivity. }
  rewrite top_run, top_tr, E1, E2, Er by assumption. split; [reflexivity|]. cbn [fst]. rewrite <- !app_assoc. f_equal.
  rewrite run_tr_bind. unfold and_then at 1. rewrite run_tr_bind, as_file_run, Ep, as_file_tr, Hc, checks_first by assumption.
  rewrite run_and_then, as_file_run, Ep. cbn [run_tr finish_ picked]. rewrite app_nil_r, app_nil_r, <- app_assoc. reflexivity.
Qed.
Lemma path_dir_top : forall fs R f base req st opk st1, rv_debug R = false ->
  no_remap R base (r_target (parse req)) -> path_kind (r_kind (parse req)) ->
  run fs (load_pkg_file R (S f) (get_path (mkInfo base (parse req)))) st = (Done (Ok opk), st1) ->
  browser_silent (rv_opts R) opk (mkInfo base (parse req)) ->
  no_file fs (file_candidates (rv_opts R) (get_path (mkInfo base (parse req)))) ->
  run fs (resolve R (S f) base req) st =
    let (r, st') := run fs (resolve_as_dir R (load_pkg_file R (S f)) (S f) (mkInfo base (parse req))) st1 in
    (final_answer fs R (settled (mkInfo base (parse req)) r), st').
Proof.
  intros fs R f base req st opk st1 Hd Hn Hk Hl Hb Hc.
  destruct (path_request_tail R (load_pkg_file R (S f)) fs f (mkInfo base (parse req)) st Hn (parse_kind req) Hk opk st1 Hl Hb) as [E1 _].
  rewrite top_run, E1, settled_run, run_and_then, as_file_run by (assumption || apply Hn).
  apply pick_none in Hc. rewrite Hc. destruct (run fs (resolve_as_dir _ _ _ _) st1). reflexivity.
Qed.

(** ** C17, C18, C20 *)
Lemma attempts_top : forall fs R f base req cs b st r st', rv_debug R = false -> o_tsconfig (rv_opts R) = None ->
  contains base MODULE = false -> alias_plan (r_target (parse req)) (o_alias (rv_opts R)) cs b ->
  run fs (resolve R (S f) base req) st = (r, st') ->
  let i := mkInfo base (parse req) in
  exists r0, r = final_answer fs R r0 /\
  first_of (map (fun t => run fs (resolve_ R (load_pkg_file R (S f)) f (retarget i t))) (cs ++ if b then [] else prefer_list R i))
    (if b then (fun st => (Done (Success RIgnored), st)) else run fs (resolve_ (plain R) (load_pkg_file R (S f)) (S f) i)) st r0 st'.
Proof.
  intros fs R f base req cs b st r st' Hd Ht Hc Hp H i. rewrite top_run in H by assumption.
  destruct (run fs (resolve_ R (load_pkg_file R (S f)) (S f) (mkInfo base (parse req))) st) as [r0 st2] eqn:E. inversion H; subst.
  exists r0. split; [reflexivity|]. exact (resolve__attempts R _ fs f i cs b st r0 st' Hc Hp E).
Qed.
Lemma no_alias_load : forall R f p, load_pkg_file (no_alias R) f p = load_pkg_file R f p.
Proof. intros [[] ? ? ? ? ? ?] f p. reflexivity. Qed.
Lemma no_alias_tail : forall R load f i, tail_ (no_alias R) load f i = tail_ R load f i.
Proof. intros [[] ? ? ? ? ? ?] load f i. reflexivity. Qed.
Lemma run_bind_ext {A B} : forall fs (p q : prog A) (f g : A -> prog B) st, run fs p st = run fs q st ->
  (forall a st, run fs (f a) st = run fs (g a) st) -> run fs (bind p f) st = run fs (bind q g) st.
Proof. intros fs p q f g st H1 H2. rewrite !run_bind, H1. destruct (run fs q st) as [[a|?|] st']; auto. Qed.
Lemma run_and_then_ext : forall fs p q f g st, run fs p st = run fs q st ->
  (forall a st, run fs (f a) st = run fs (g a) st) -> run fs (and_then p f) st = run fs (and_then q g) st.
Proof. intros fs p q f g st H1 H2. apply run_bind_ext; [exact H1|]. intros [] st'; [reflexivity|apply H2|reflexivity]. Qed.
Lemma tail_parts : forall R load fs f i st, run fs (tail_ R load f i) st =
  run fs (s <- and_then (and_then (Ret (Resolving i)) (pkg_step R load (S f))) (final_step R load (S f)) ;; finish_ i s) st.
Proof. reflexivity. Qed.
(** When no alias concerns the request (nor the relative spelling prefer_relative asks for) the
    list plays no role. *)
Lemma alias_none_apply : forall R rec i, alias_none R (i_path i) (r_target (i_req i)) -> alias_apply R rec i = Ret (Resolving i).
Proof.
  intros R rec i H. unfold alias_apply. destruct (contains (i_path i) MODULE) eqn:E; [reflexivity|].
  destruct H as [H|H]; [congruence|]. apply alias_loop_none, H.
Qed.
Lemma no_alias_apply : forall R rec i, alias_apply (no_alias R) rec i = Ret (Resolving i).
Proof. intros R rec i. unfold alias_apply. destruct (contains _ _); reflexivity. Qed.
Lemma no_alias_step : forall R load fs f i st, alias_none R (i_path i) (r_target (i_req i)) ->
  (forall st, run fs (prefer_relative_apply R (resolve_ R load f) i) st = run fs (prefer_relative_apply (no_alias R) (resolve_ (no_alias R) load f) i) st) ->
  run fs (resolve_ R load (S f) i) st = run fs (resolve_ (no_alias R) load (S f) i) st.
Proof.
  intros R load fs f i st Hn Hp. cbn [resolve_].
  apply run_bind_ext; [|intros [] st9; reflexivity].
  assert (Ep : pkg_step (no_alias R) load (S f) = pkg_step R load (S f)) by (destruct R as [[] ? ? ? ? ? ?]; reflexivity).
  assert (Ef : final_step (no_alias R) load (S f) = final_step R load (S f)) by (destruct R as [[] ? ? ? ? ? ?]; reflexivity).
  rewrite Ep, Ef. apply run_and_then_ext; [|reflexivity]. apply run_and_then_ext; [|reflexivity].
  rewrite alias_none_apply, no_alias_apply, !and_then_ret by exact Hn. apply Hp.
Qed.
Lemma no_alias_same : forall R load fs n i st, alias_none R (i_path i) (r_target (i_req i)) ->
  o_prefer_relative (rv_opts R) = false \/ alias_none R (i_path i) (lit "./" ++ r_target (i_req i)) ->
  run fs (resolve_ R load n i) st = run fs (resolve_ (no_alias R) load n i) st.
Proof.
  intros R load fs [|f] i st Hn Hp; [reflexivity|]. apply no_alias_step; [exact Hn|]. intros st2.
  unfold prefer_relative_apply. change (o_prefer_relative (rv_opts (no_alias R))) with (o_prefer_relative (rv_opts R)).
  destruct (_ || _); [reflexivity|]. destruct (o_prefer_relative (rv_opts R)); [|reflexivity]. destruct Hp as [Hp|Hp]; [discriminate|].
  apply run_bind_ext; [|reflexivity]. destruct f as [|f]; [reflexivity|]. apply no_alias_step; [exact Hp|].
  intros st3. unfold prefer_relative_apply. cbn [i_req req_with_target r_target].
  assert (Ed : starts_with (lit "./" ++ r_target (i_req i)) (lit "./") = true) by (apply starts_with_spec; exists (r_target (i_req i)); reflexivity).
  rewrite Ed, orb_true_r. reflexivity.
Qed.
Lemma no_alias_top : forall fs R fuel base req st, rv_debug R = false -> o_tsconfig (rv_opts R) = None ->
  alias_none R base (r_target (parse req)) -> o_prefer_relative (rv_opts R) = false \/ alias_none R base (lit "./" ++ r_target (parse req)) ->
  run fs (resolve R fuel base req) st = run fs (resolve (no_alias R) fuel base req) st.
Proof.
  intros fs R fuel base req st Hd Ht H1 H2. rewrite (top_run _ R), (top_run _ (no_alias R)) by assumption.
  assert (E : load_pkg_file (no_alias R) fuel = load_pkg_file R fuel) by (destruct R as [[] ? ? ? ? ? ?]; reflexivity).
  rewrite E, (no_alias_same R (load_pkg_file R fuel) fs fuel (mkInfo base (parse req)) st H1 H2). reflexivity.
Qed.

(** ** C20 *)
Lemma alias_plan_none : forall t l, Forall (fun a => ~ prefix (fst a) t) l -> alias_plan t l [] false.
Proof. intros t l H. induction H as [|[from to] l Hx _ IH]; [constructor|apply APOther; assumption]. Qed.
Lemma prefer_off_tail : forall R load fs f i st, alias_none R (i_path i) (r_target (i_req i)) ->
  run fs (resolve_ (prefer_off R) load (S f) i) st = run fs (tail_ R load f i) st.
Proof.
  intros R load fs f i st Hn. rewrite resolve__plain.
  - destruct R as [[] ? ? ? ? ? ?]. reflexivity.
  - intros rec. apply (alias_none_apply (prefer_off R)). exact Hn.
  - intros rec. unfold prefer_relative_apply. destruct (_ || _); reflexivity.
Qed.
Lemma prefer_steps : forall R load fs f i st r st', alias_none R (i_path i) (r_target (i_req i)) ->
  run fs (resolve_ R load (S f) i) st = (r, st') ->
  first_of (map (fun t => run fs (resolve_ R load f (retarget i t))) (prefer_list R i))
    (run fs (resolve_ (prefer_off R) load (S f) i)) st r st'.
Proof.
  intros R load fs f i st r st' Hn H.
  apply (first_of_default (run fs (resolve_ (plain R) load (S f) i))).
  { intros st9 r9 st9' H9. rewrite prefer_off_tail by exact Hn. rewrite plain_run in H9. exact H9. }
  destruct (contains (i_path i) MODULE) eqn:Ec; [apply resolve__in_modules; assumption|].
  destruct Hn as [Hn|Hn]; [congruence|].
  exact (resolve__attempts R load fs f i [] false st r st' Ec (alias_plan_none _ _ Hn) H).
Qed.
Lemma prefer_top : forall fs R f base req st r st', rv_debug R = false -> o_tsconfig (rv_opts R) = None ->
  alias_none R base (r_target (parse req)) -> run fs (resolve R (S f) base req) st = (r, st') ->
  let i := mkInfo base (parse req) in
  exists r0, r = final_answer fs R r0 /\
  first_of (map (fun t => run fs (resolve_ R (load_pkg_file R (S f)) f (retarget i t))) (prefer_list R i))
    (run fs (resolve_ (prefer_off R) (load_pkg_file R (S f)) (S f) i)) st r0 st'.
Proof.
  intros fs R f base req st r st' Hd Ht Hn H i. rewrite top_run in H by assumption.
  destruct (run fs (resolve_ R (load_pkg_file R (S f)) (S f) (mkInfo base (parse req))) st) as [r0 st2] eqn:E. inversion H; subst.
  exists r0. split; [reflexivity|]. apply prefer_steps; assumption.
Qed.

(** ** C11, C34 *)
Lemma bare_top : forall fs R f base req st opk st1 l x st', rv_debug R = false ->
  no_remap R base (r_target (parse req)) -> r_kind (parse req) = Normal ->
  run fs (load_pkg_file R (S f) (join (join base MODULE) (r_target (parse req)))) st = (Done (Ok opk), st1) ->
  browser_silent (rv_opts R) opk (mkInfo base (parse req)) -> up_chain base l ->
  run fs (resolve R (S f) base req) st = (Done x, st') ->
  exists s, walk (fun i => run fs (modules_level R (load_pkg_file R (S f)) (S f) i)) l (mkInfo base (parse req)) st1 s st' /\
    Done x = final_answer fs R (settled (mkInfo base (parse req)) (Done s)).
Proof.
  intros fs R f base req st opk st1 l x st' Hd Hn Hk Hl Hb Hu H.
  rewrite top_run in H by (assumption || apply Hn).
  destruct (run fs (resolve_ R (load_pkg_file R (S f)) (S f) (mkInfo base (parse req))) st) as [r0 st2] eqn:E. inversion H; subst.
  destruct r0 as [s0|?|]; try discriminate.
  assert (Hh : starts_with_char (r_target (parse req)) c_hash = false).
  { destruct (starts_with_char (r_target (parse req)) c_hash) eqn:E9; [|reflexivity].
    rewrite parse_kind, (hash_kind _ E9) in Hk. discriminate. }
  destruct (bare_walk R _ fs f (mkInfo base (parse req)) st opk st1 l s0 st' Hn Hk Hh Hl Hb Hu E) as [s1 [W1 E1]].
  exists s1. split; [exact W1|]. rewrite <- E1. reflexivity.
Qed.
Lemma walk_all_pass : forall level l r st st1, all_pass level l r st st1 -> forall i s st', i_req i = r ->
  walk level l i st s st' -> exists i', s = SError TAG i' /\ st' = st1.
Proof.
  intros level l r st st1 H. induction H as [r st|d l r st i1 st1 st2 Hl Hr _ IH]; intros i s st' Hi W.
  - inversion W; subst. eauto.
  - inversion W as [|? ? ? ? ? ? H1|? ? ? ? ? ? H1 H2|? ? ? ? j1 ? ? ? H1 H2]; rewrite Hi, Hl in H1; inversion H1; subst.
    + exfalso. eapply H2. reflexivity.
    + eapply IH; [|exact H2]. reflexivity.
Qed.
Lemma bare_nothing : forall fs R f base req st opk st1 l st2 x st', rv_debug R = false ->
  no_remap R base (r_target (parse req)) -> r_kind (parse req) = Normal ->
  run fs (load_pkg_file R (S f) (join (join base MODULE) (r_target (parse req)))) st = (Done (Ok opk), st1) ->
  browser_silent (rv_opts R) opk (mkInfo base (parse req)) -> up_chain base l ->
  all_pass (fun i => run fs (modules_level R (load_pkg_file R (S f)) (S f) i)) l (parse req) st1 st2 ->
  run fs (resolve R (S f) base req) st = (Done x, st') ->
  x = Err (lit "Resolve '" ++ request_display (parse req) ++ lit "' failed in '" ++ base ++ lit "'") /\ st' = st2.
Proof.
  intros fs R f base req st opk st1 l st2 x st' Hd Hn Hk Hl Hb Hu Hp H.
  destruct (bare_top fs R f base req st opk st1 l x st' Hd Hn Hk Hl Hb Hu H) as [s [W E]].
  destruct (walk_all_pass _ _ _ _ _ Hp (mkInfo base (parse req)) _ _ eq_refl W) as [i' [-> ->]].
  split; [|reflexivity]. cbn [settled final_answer] in E. change (str_eqb TAG TAG) with true in E. cbn [i_req i_path] in E. inversion E. reflexivity.
Qed.
Lemma not_exported_top : forall fs R f base req n sub st opk st1 pre d post st2 pk st3 tree y x st', rv_debug R = false ->
  no_remap R base (r_target (parse req)) -> r_kind (parse req) = Normal -> (r_target (parse req) <> n -> ascii_str n) ->
  run fs (load_pkg_file R (S f) (join (join base MODULE) (r_target (parse req)))) st = (Done (Ok opk), st1) ->
  browser_silent (rv_opts R) opk (mkInfo base (parse req)) -> up_chain base (pre ++ d :: post) ->
  all_pass (fun i => run fs (modules_level R (load_pkg_file R (S f)) (S f) i)) pre (parse req) st1 st2 ->
  bare_parts (r_target (parse req)) n sub ->
  f_dir fs (join d MODULE) = true -> f_dir fs (join (join d MODULE) n) = true -> f_exists fs (join (join d MODULE) n) = true ->
  run fs (load_pkg_file R (S f) (join (join d MODULE) (r_target (parse req)))) st2 = (Done (Ok (Some pk)), st3) ->
  contains (p_dir pk) MODULE = true -> p_exports pk = Some tree ->
  field_process FExports tree (exports_request sub (r_query (parse req)) (r_fragment (parse req))) (o_conditions (rv_opts R)) = PRet y ->
  (forall l c, y = Ok l -> In c l ->
     f_file fs (get_path (mkInfo (p_dir pk) (parse c))) = false \/ check_target (r_target (parse c)) = PRet false) ->
  run fs (resolve R (S f) base req) st = (Done x, st') ->
  x = Err (match y with Ok _ => lit "Package path " ++ r_target (parse req) ++ lit " is not exported" | Err e => e end) /\ st' = st3.
Proof.
  intros fs R f base req n sub st opk st1 pre d post st2 pk st3 tree y x st' Hd Hn Hk Ha Hl Hb Hu Hp Hbp Hd1 Hd2 Hex Hl2 Hm Htr Hf Hy H.
  destruct (bare_top fs R f base req st opk st1 _ x st' Hd Hn Hk Hl Hb Hu H) as [s [W E]].
  destruct (walk_pass _ _ _ _ _ Hp (d :: post) (mkInfo base (parse req)) s st' eq_refl ltac:(discriminate) W) as [i' [Hi' W']].
  destruct (level_not_exported R (load_pkg_file R (S f)) fs (S f) d (parse req) n sub st2 pk st3 tree Hk Ha Hbp Hd1 Hd2 (fun _ => Hex) Hl2 Hm Htr y Hf
    (fun l El c Hc => Hy l c El Hc)) as [j Ej].
  assert (Ej' : run fs (modules_level R (load_pkg_file R (S f)) (S f) (mkInfo d (i_req i'))) st2 =
    (Done (inr (SError (match y with Ok _ => not_exported (r_target (parse req)) | Err e => e end) j)), st3)).
  { rewrite Hi', Ej. destruct y as [l0|e]; [reflexivity|]. rewrite (field_err_not_tag _ _ _ _ _ Hf). reflexivity. }
  assert (Hs : s = SError (match y with Ok _ => not_exported (r_target (parse req)) | Err e => e end) j /\ st' = st3).
  { inversion W' as [|? ? ? ? ? ? H1|? ? ? ? ? ? H1 H2|? ? ? ? j1 ? ? ? H1 H2]; subst; rewrite H1 in Ej'; inversion Ej'; subst; auto. }
  destruct Hs as [-> ->]. split; [|reflexivity]. cbn [settled final_answer] in E.
  destruct y as [l0|e].
  - assert (Et : str_eqb (not_exported (r_target (parse req))) TAG = false).
    { destruct (str_eqb_spec (not_exported (r_target (parse req))) TAG) as [E9|]; [|reflexivity].
      exfalso. revert E9. apply long_not_tag. unfold not_exported. rewrite !app_length. cbn. lia. }
    rewrite Et in E. inversion E. reflexivity.
  - rewrite (field_err_not_tag _ _ _ _ _ Hf) in E. inversion E. reflexivity.
Qed.

(** ** C50 *)
Lemma internal_top : forall fs R f base req st pk root st1, rv_debug R = false ->
  no_remap R base (r_target (parse req)) -> starts_with_char (r_target (parse req)) c_hash = true ->
  run fs (load_pkg_file R (S f) (get_path (mkInfo base (parse req)))) st = (Done (Ok (Some pk)), st1) -> p_imports pk = Some root ->
  forall y, field_process FImports root (r_target (parse req)) (o_conditions (rv_opts R)) = PRet y ->
  (forall a l, y <> Ok (a :: l)) ->
  run fs (resolve R (S f) base req) st = (Done (Err (match y with Ok _ => lit "Package path " ++ r_target (parse req) ++ lit " is not exported" | Err e => e end)), st1) /\
  run_tr fs (resolve R (S f) base req) st = run_tr fs (load_pkg_file R (S f) (get_path (mkInfo base (parse req)))) st.
Proof.
  intros fs R f base req st pk root st1 Hd Hn Hh Hl Hi y Hf Hy.
  destruct (internal_request R (load_pkg_file R (S f)) fs f (mkInfo base (parse req)) st pk root st1 Hn (parse_kind req) Hh Hl Hi) as [H1 _].
  assert (Ht : o_tsconfig (rv_opts R) = None) by apply Hn.
  assert (Hx : exists e, (field_process FImports root (r_target (parse req)) (o_conditions (rv_opts R)) = PRet (Err e) \/
     (field_process FImports root (r_target (parse req)) (o_conditions (rv_opts R)) = PRet (Ok []) /\ e = not_exported (r_target (parse req)))) /\
     e = match y with Ok _ => not_exported (r_target (parse req)) | Err e => e end /\ str_eqb e TAG = false).
  { destruct y as [[|a l]|e].
    - eexists. split; [right; split; [exact Hf|reflexivity]|]. split; [reflexivity|].
      destruct (str_eqb_spec (not_exported (r_target (parse req))) TAG) as [E9|]; [|reflexivity].
      exfalso. revert E9. apply long_not_tag. unfold not_exported. rewrite !app_length. cbn. lia.
    - exfalso. eapply Hy. reflexivity.
    - exists e. split; [left; exact Hf|]. split; [reflexivity|]. eapply field_err_not_tag, Hf. }
  destruct Hx as [e [He [Ee Et]]]. specialize (H1 e He). destruct H1 as [E1 E2].
  rewrite top_run, top_tr, E1, E2 by assumption. cbn [settled]. rewrite Et. cbn [final_answer fst final_ops]. rewrite app_nil_r.
  subst e. split; reflexivity.
Qed.
