(** * Packages with an exports field: what is selected decides. *)
From Coq Require Import String.
From Coq Require Import List Arith NArith Bool Lia.
From Verif Require Import Str StrP Path PathP Json Types Parse ParseP Map FieldP Prog Desc Resolve Top Run Exec ExecP ApiP FuelP RunP SpecRun SpecMap SpecParse SpecExports TsP LookupP LookupTopP CheckP PropMapP.
Import ListNotations.

Lemma usable_dec : forall fs pk c, {usable fs pk c} + {f_file fs (target_file pk c) = false \/ check_target (r_target (parse c)) = PRet false}.
Proof.
  intros fs pk c. unfold usable. destruct (f_file fs (target_file pk c)); [|right; left; reflexivity].
  destruct (check_target (r_target (parse c))) as [[]|m|] eqn:E; [left; auto|right; right; reflexivity| |];
    exfalso; destruct (check_total (r_target (parse c))) as [b Hb]; rewrite E in Hb; discriminate.
Qed.
Lemma not_usable : forall fs pk c, ~ usable fs pk c -> f_file fs (target_file pk c) = false \/ check_target (r_target (parse c)) = PRet false.
Proof. intros fs pk c H. destruct (usable_dec fs pk c) as [|]; [contradiction|assumption]. Qed.
Lemma first_usable_dec : forall fs pk l, (exists c, first_usable fs pk l c) \/ Forall (fun x => ~ usable fs pk x) l.
Proof.
  intros fs pk l. induction l as [|c l IH]; [right; constructor|]. destruct (usable_dec fs pk c) as [H|H].
  - left. exists c, [], l. auto.
  - assert (Hn : ~ usable fs pk c) by (intros [H1 H2]; destruct H as [H|H]; congruence).
    destruct IH as [(c' & l1 & l2 & -> & H1 & H2)|IH]; [left; exists c', (c :: l1), l2; auto|right; auto].
Qed.
Lemma exports_loop_first : forall fs pk i l c st, first_usable fs pk l c ->
  run fs (exports_loop pk i l) st = (Done (Resolving (mkInfo (p_dir pk) (parse c))), st).
Proof.
  intros fs pk i l c st (l1 & l2 & -> & H1 & H2 & H3). induction H1 as [|x l1 Hx _ IH]; cbn [app exports_loop act bind run step].
  - unfold target_file in H2. rewrite H2. cbn [i_req]. rewrite H3. reflexivity.
  - apply not_usable in Hx. unfold target_file in Hx. destruct (f_file fs (get_path (mkInfo (p_dir pk) (parse x)))) eqn:E; [|exact IH].
    destruct Hx as [Hx|Hx]; [congruence|]. cbn [i_req]. rewrite Hx. exact IH.
Qed.
(** What is found for the name decides, at the level that is reached. *)
Definition self_named (pk : pkg) (t : str) : Prop := exists m, p_name pk = Some m /\ prefix m t.
Lemma self_spec : forall pk i, self_named pk (r_target (i_req i)) -> is_resolve_self pk i = true.
Proof. intros pk i (m & H1 & H2). unfold is_resolve_self. rewrite H1. apply prefix_dec, H2. Qed.
Definition entered (fs : fsys) (d : path) (n s t : str) (pk : pkg) : Prop :=
  (f_dir fs (join (join d MODULE) n) = true \/ self_named pk t) /\ (contains (p_dir pk) MODULE = true \/ self_named pk t) /\
  (s = lit "." -> f_exists fs (join (join d MODULE) n) = true \/ p_name pk = Some n).
Lemma exports_apply_run : forall R fs m r n s pk tree x st,
  r_kind r = Normal -> bare_parts (r_target r) n s -> (contains (p_dir pk) MODULE = true \/ self_named pk (r_target r)) ->
  (s = lit "." -> f_exists fs (join m n) = true \/ p_name pk = Some n) -> p_exports pk = Some tree ->
  field_process FExports tree (exports_request s (r_query r) (r_fragment r)) (o_conditions (rv_opts R)) = PRet x ->
  run fs (exports_apply R (Some pk) (mkInfo m r)) st =
    match x with
    | Ok l => run fs (exports_loop pk (mkInfo m r) l) st
    | Err e => (Done (SError e (mkInfo m r)), st)
    end.
Proof.
  intros R fs m r n s pk tree x st Hk Hp He2 He3 Hx Hf. unfold exports_apply. cbn [i_req]. rewrite Hk. cbn [kind_eqb negb].
  assert (Hs2 : (negb (is_in_module pk) && negb (is_resolve_self pk (mkInfo m r)))%bool = false).
  { unfold is_in_module. destruct He2 as [-> |He2]; [reflexivity|]. rewrite (self_spec pk (mkInfo m r) He2), andb_false_r. reflexivity. }
  rewrite Hs2, Hx. rewrite run_bind, (exports_subpath_run fs pk (mkInfo m r) n s) by auto.
  rewrite exports_remaining_spec. cbn [i_req]. rewrite Hf. cbn [lift bind]. destruct x as [l|e]; reflexivity.
Qed.
Lemma not_exported_tag : forall t, str_eqb (not_exported t) TAG = false.
Proof.
  intros t. destruct (str_eqb_spec (not_exported t) TAG) as [E9|]; [|reflexivity].
  exfalso. revert E9. apply long_not_tag. unfold not_exported. rewrite !app_length. cbn. lia.
Qed.
Lemma level_exports : forall R load fs f d r n s st pk st1 tree,
  r_kind r = Normal -> (r_target r <> n -> ascii_str n) -> bare_parts (r_target r) n s ->
  f_dir fs (join d MODULE) = true -> entered fs d n s (r_target r) pk ->
  run fs (load (join (join d MODULE) (r_target r))) st = (Done (Ok (Some pk)), st1) -> p_exports pk = Some tree ->
  forall x, field_process FExports tree (exports_request s (r_query r) (r_fragment r)) (o_conditions (rv_opts R)) = PRet x ->
  let i0 := mkInfo (join d MODULE) r in
  (forall e, x = Err e -> run fs (modules_level R load f (mkInfo d r)) st = (Done (inr (if str_eqb e TAG then Resolving (mkInfo d r) else SError e i0)), st1)) /\
  (forall l, x = Ok l -> Forall (fun c => ~ usable fs pk c) l ->
     run fs (modules_level R load f (mkInfo d r)) st = (Done (inr (SError (not_exported (r_target r)) i0)), st1)) /\
  (forall l c q, x = Ok l -> first_usable fs pk l c -> path_kind (r_kind (parse c)) -> 0 < f ->
     browser_silent (rv_opts R) (Some pk) (mkInfo (p_dir pk) (parse c)) ->
     first_file fs (file_candidates (rv_opts R) (target_file pk c)) q ->
     run fs (modules_level R load f (mkInfo d r)) st = (Done (inr (picked (mkInfo (p_dir pk) (parse c)) q)), st1)).
Proof.
  intros R load fs f d r n s st pk st1 tree Hk Ha Hp Hd (He1 & He2 & He3) Hl Hx x Hf i0. unfold modules_level.
  cbn [i_path i_req act bind run step]. rewrite Hd. cbn [negb]. rewrite (module_name_parts _ _ _ Hp Ha), run_bind, Hl.
  cbn [act bind run step].
  assert (Hs1 : (negb (f_dir fs (join (join d MODULE) n)) && negb (is_resolve_self pk (mkInfo (join d MODULE) r)))%bool = false).
  { destruct He1 as [-> |He1]; [reflexivity|]. rewrite (self_spec pk (mkInfo (join d MODULE) r) He1), andb_false_r. reflexivity. }
  rewrite Hs1. rewrite run_bind, !run_and_then.
  assert (E : run fs (exports_apply R (Some pk) (mkInfo (join d MODULE) r)) st1 =
    match x with
    | Ok l => run fs (exports_loop pk i0 l) st1
    | Err e => (Done (SError e i0), st1)
    end).
  { apply (exports_apply_run R fs (join d MODULE) r n s pk tree x st1); assumption. }
  rewrite E. split; [|split].
  - intros e ->. cbn [run]. destruct (str_eqb e TAG); reflexivity.
  - intros l -> Hn. rewrite exports_loop_none. 2:{ intros c Hc. apply (not_usable fs pk c). rewrite Forall_forall in Hn. auto. }
    cbn [run]. cbn [i0 i_req]. rewrite not_exported_tag. reflexivity.
  - intros l c q -> Hc Hpk Hfu Hb Hq. rewrite (exports_loop_first _ _ _ _ _ _ Hc).
    assert (Hh : starts_with_char (r_target (parse c)) c_hash = false) by (apply path_not_hash; rewrite <- parse_kind; exact Hpk).
    destruct f as [|f]; [lia|].
    rewrite imports_not_hash by exact Hh. cbn [run].
    assert (Em : forall {X} (a b : X), match r_kind (i_req (mkInfo (p_dir pk) (parse c))) with Normal => a | _ => b end = b).
    { intros X a b. cbn [i_req]. destruct Hpk as [-> |[-> | ->]]; reflexivity. }
    rewrite Em, alias_field_silent by exact Hb. cbn [run]. rewrite as_file_run.
    change (get_path (mkInfo (p_dir pk) (parse c))) with (target_file pk c). apply pick_some in Hq. rewrite Hq. reflexivity.
Qed.

Lemma comes_decided : forall fs R f base req n sub st d pk st' x st'' s,
  comes_to fs R f base req n sub st d pk st' ->
  (forall st2, run fs (load_pkg_file R (S f) (join (join d MODULE) (r_target (parse req)))) st2 = (Done (Ok (Some pk)), st') ->
     run fs (modules_level R (load_pkg_file R (S f)) (S f) (mkInfo d (parse req))) st2 = (Done (inr s), st')) ->
  (forall j, s <> Resolving j) ->
  run fs (resolve R (S f) base req) st = (Done x, st'') ->
  Done x = final_answer fs R (settled (mkInfo base (parse req)) (Done s)) /\ st'' = st'.
Proof.
  intros fs R f base req n sub st d pk st' x st'' s (Hd & Hn & Hk & Ha & Hbp & opk & st1 & pre & post & st2 & Hl & Hb & Hu & Hp & Hd1 & Hl2) Hlev Hs H.
  destruct (bare_top fs R f base req st opk st1 _ x st'' Hd Hn Hk Hl Hb Hu H) as [s' [W E]].
  destruct (walk_pass _ _ _ _ _ Hp (d :: post) (mkInfo base (parse req)) s' st'' eq_refl ltac:(discriminate) W) as [i' [Hi' W']].
  specialize (Hlev st2 Hl2). rewrite <- Hi' in Hlev.
  assert (Hs' : s' = s /\ st'' = st').
  { inversion W' as [|? ? ? ? ? ? H1|? ? ? ? ? ? H1 H2|? ? ? ? j1 ? ? ? H1 H2]; subst; rewrite H1 in Hlev; inversion Hlev; subst; auto.
    exfalso. eapply Hs. reflexivity. }
  destruct Hs' as [-> ->]. split; [exact E|reflexivity].
Qed.
(** The three outcomes. *)
Lemma exports_decide : forall fs R f base req n sub st d pk st' tree x st'',
  comes_to fs R f base req n sub st d pk st' -> entered fs d n sub (r_target (parse req)) pk -> p_exports pk = Some tree ->
  run fs (resolve R (S f) base req) st = (Done x, st'') ->
  (forall l c q, selects R tree req sub l -> first_usable fs pk l c -> path_kind (r_kind (parse c)) ->
     browser_silent (rv_opts R) (Some pk) (mkInfo (p_dir pk) (parse c)) ->
     first_file fs (file_candidates (rv_opts R) (target_file pk c)) q ->
     Done x = final_answer fs R (Done (picked (mkInfo (p_dir pk) (parse c)) q)) /\ st'' = st') /\
  (forall l, selects R tree req sub l -> Forall (fun c => ~ usable fs pk c) l ->
     x = Err (lit "Package path " ++ r_target (parse req) ++ lit " is not exported") /\ st'' = st').
Proof.
  intros fs R f base req n sub st d pk st' tree x st'' Hc He Htr H.
  pose proof Hc as (Hd & Hn & Hk & Ha & Hbp & opk & st1 & pre & post & st2 & Hl & Hb & Hu & Hp & Hd1 & Hl2).
  split.
  - intros l c q Hs Hfu Hpk Hbs Hq. apply (comes_decided fs R f base req n sub st d pk st' x st'' (picked (mkInfo (p_dir pk) (parse c)) q) Hc) in H; [exact H| |intros j; discriminate].
    intros st3 Hl3. destruct (level_exports R (load_pkg_file R (S f)) fs (S f) d (parse req) n sub st3 pk st' tree Hk Ha Hbp Hd1 He Hl3 Htr _ Hs) as (_ & _ & G).
    apply (G l c q eq_refl Hfu Hpk ltac:(lia) Hbs Hq).
  - intros l Hs Hnu. apply (comes_decided fs R f base req n sub st d pk st' x st'' (SError (not_exported (r_target (parse req))) (mkInfo (join d MODULE) (parse req))) Hc) in H; [| |intros j; discriminate].
    + destruct H as [H ->]. split; [|reflexivity]. cbn [settled final_answer] in H.
      rewrite not_exported_tag in H. inversion H. reflexivity.
    + intros st3 Hl3. destruct (level_exports R (load_pkg_file R (S f)) fs (S f) d (parse req) n sub st3 pk st' tree Hk Ha Hbp Hd1 He Hl3 Htr _ Hs) as (_ & G & _).
      apply (G l eq_refl Hnu).
Qed.
Lemma installed_entered : forall fs d n s t pk, installed fs d n pk -> entered fs d n s t pk.
Proof. intros fs d n s t pk (H1 & H2 & H3). split; [auto|]. split; [auto|]. auto. Qed.
(** A package that names itself. *)
Lemma own_entered : forall fs d n s t pk, bare_parts t n s -> p_name pk = Some n -> entered fs d n s t pk.
Proof.
  intros fs d n s t pk Hb Hn. assert (Hs : self_named pk t).
  { exists n. split; [exact Hn|]. destruct Hb; [exists []; rewrite app_nil_r; reflexivity|eexists; reflexivity|exists []; rewrite app_nil_r; reflexivity|].
    eexists. rewrite <- app_assoc. reflexivity. }
  split; [auto|]. split; [auto|]. auto.
Qed.

(** ** Staying inside *)
Lemma move_none : forall l, fold_left seg_move l None = None.
Proof. induction l as [|x l IH]; [reflexivity|exact IH]. Qed.
Lemma eval_app : forall a b up st, eval_segs (a ++ b) up st = let (u, s) := eval_segs a up st in eval_segs b u s.
Proof.
  induction a as [|x a IH]; intros b up st; [reflexivity|]. cbn [app eval_segs].
  destruct (str_eqb x [] || str_eqb x (lit "."))%bool; [apply IH|]. destruct (str_eqb x (lit "..")); [destruct st; apply IH|apply IH].
Qed.
Lemma eval_inside : forall segs up base extra, fold_left seg_move segs (Some (length extra)) <> None ->
  exists more, eval_segs segs up (extra ++ base) = (up, more ++ base).
Proof.
  induction segs as [|x segs IH]; intros up base extra H; [exists extra; reflexivity|]. cbn [eval_segs fold_left] in *. unfold seg_move at 2 in H.
  destruct x as [|c x]; [apply IH, H|]. change (str_eqb (c :: x) []) with false. cbn [orb]. destruct (str_eqb (c :: x) (lit ".")).
  { apply IH. exact H. }
  destruct (str_eqb (c :: x) (lit "..")).
  - destruct extra as [|y extra]; cbn [length] in H; [rewrite move_none in H; contradiction|]. cbn [app]. apply IH, H.
  - change ((c :: x) :: extra ++ base) with (((c :: x) :: extra) ++ base). apply IH. exact H.
Qed.
Lemma eval_join : forall d t up st, d <> [] -> is_abs t = false ->
  eval_segs (split_on c_slash (join d t)) up st = let (u, s) := eval_segs (split_on c_slash d) up st in eval_segs (split_on c_slash t) u s.
Proof.
  intros d t up st Hd Ht. unfold join. rewrite Ht. destruct d as [|c d']; [contradiction|]. destruct (ends_with_char (c :: d') c_slash) eqn:E.
  - apply ends_with_char_spec in E. destruct E as [r E]. rewrite E. clear. rewrite <- app_assoc. cbn [app].
    rewrite !split_on_sep_app, !eval_app. destruct (eval_segs (split_on c_slash r) up st) as [u s]. reflexivity.
  - rewrite split_on_sep_app, eval_app. reflexivity.
Qed.
Lemma inside_within : forall d t, is_abs d = true -> is_abs t = false -> stays_inside t -> within d (join d t).
Proof.
  intros d t Hd Ht Hs. assert (Hne : d <> []) by (intros ->; discriminate).
  unfold within, denote. change (starts_with_char d 47%N) with (is_abs d). rewrite Hd.
  assert (Ha : starts_with_char (join d t) 47%N = true).
  { unfold join. rewrite Ht. destruct d as [|c d']; [contradiction|]. destruct (ends_with_char (c :: d') c_slash); exact Hd. }
  rewrite Ha. change 47%N with c_slash. rewrite eval_join by assumption.
  destruct (eval_segs (split_on c_slash d) 0 []) as [u s] eqn:Ed.
  destruct (eval_inside (split_on c_slash t) u s [] Hs) as [more Em]. cbn [app] in Em. rewrite Em.
  exists true, 0, (rev s), (rev more). split; [reflexivity|]. rewrite rev_app_distr. reflexivity.
Qed.
Lemma within_norm : forall d q, is_abs q = true -> within d q -> within d (normalize_path_without_link q).
Proof.
  intros d q Ha (abs & up & names & more & H1 & H2). exists abs, up, names, more. split; [exact H1|].
  destruct (normalize_denote q) as (l & u & E1 & E2 & E3). rewrite E1 in H2. inversion H2; subst. rewrite E3, denote_spell by exact E2.
  rewrite Ha. f_equal. f_equal.
  unfold denote in E1. change (starts_with_char q 47%N) with (is_abs q) in E1. rewrite Ha in E1. destruct (eval_segs (split_on 47%N q) 0 []). inversion E1. reflexivity.
Qed.

(** The answer lies in the package. *)
Lemma unenforced_first : forall fs R p, ~ enforced (rv_opts R) -> f_file fs p = true -> first_file fs (file_candidates (rv_opts R) p) p.
Proof.
  intros fs R p He Hp. unfold file_candidates. exists [], (map (fun ext => p ++ ext) (o_extensions (rv_opts R))).
  split; [|auto]. unfold enforced in He. destruct (o_enforce (rv_opts R)) as [[]|]; [contradiction|reflexivity|reflexivity].
Qed.
Lemma target_within : forall pk c, is_abs (p_dir pk) = true -> well_formed_target c -> check_target (r_target (parse c)) = PRet true ->
  within (p_dir pk) (normalize_path_without_link (target_file pk c)).
Proof.
  intros pk c Ha (Hk & H1 & H2) Hc. unfold target_file, get_path. cbn [i_req i_path].
  assert (Habs : is_abs (r_target (parse c)) = false).
  { destruct (r_target (parse c)) as [|x t] eqn:E; [reflexivity|]. destruct (is_abs (x :: t)) eqn:Eb; [|reflexivity]. exfalso.
    rewrite parse_kind, E in Hk. unfold is_abs in Eb. apply starts_with_char_spec in Eb. destruct Eb as [r Eb]. rewrite Eb in Hk. clear - Hk.
    unfold get_target_kind in Hk. cbn in Hk. discriminate. }
  assert (Hself : within (p_dir pk) (normalize_path_without_link (p_dir pk))).
  { apply within_norm; [exact Ha|]. destruct (denote (p_dir pk)) as [[abs up] names] eqn:Ed. exists abs, up, names, []. rewrite app_nil_r. auto. }
  destruct (str_eqb (r_target (parse c)) [] || str_eqb (r_target (parse c)) s_dot)%bool; [exact Hself|].
  apply within_norm.
  - unfold join. rewrite Habs. destruct (p_dir pk) as [|x y]; [discriminate|]. destruct (ends_with_char (x :: y) c_slash); exact Ha.
  - apply inside_within; [exact Ha|exact Habs|]. apply C33_p; auto.
    + intros b E. rewrite E in Habs. discriminate.
    + intros E. apply (H2 []). left. exact E.
    + intros a E. apply (H2 a). right. exact E.
Qed.
Lemma exports_inside : forall fs R f base req n sub st d pk st' tree l r st'',
  comes_to fs R f base req n sub st d pk st' -> installed fs d n pk \/ p_name pk = Some n -> p_exports pk = Some tree ->
  selects R tree req sub l -> Forall well_formed_target l ->
  (forall c, In c l -> browser_silent (rv_opts R) (Some pk) (mkInfo (p_dir pk) (parse c))) ->
  ~ enforced (rv_opts R) -> o_symlinks (rv_opts R) = false -> is_abs (p_dir pk) = true ->
  run fs (resolve R (S f) base req) st = (Done (Ok r), st'') ->
  exists i, r = RInfo i /\ within (p_dir pk) (i_path i).
Proof.
  intros fs R f base req n sub st d pk st' tree l r st'' Hc He Htr Hs Hw Hb Hen Hsy Ha H.
  assert (He' : entered fs d n sub (r_target (parse req)) pk).
  { destruct He as [He|He]; [apply installed_entered, He|]. apply own_entered; [|exact He]. apply Hc. }
  destruct (exports_decide fs R f base req n sub st d pk st' tree (Ok r) st'' Hc He' Htr H) as [G1 G2].
  destruct (first_usable_dec fs pk l) as [(c & Hfu)|Hn].
  - pose proof Hfu as (l1 & l2 & El & _ & Hu1 & Hu2). assert (Hin : In c l) by (subst l; apply in_or_app; right; left; reflexivity).
    rewrite Forall_forall in Hw. pose proof (Hw c Hin) as Hwc.
    destruct (G1 l c (target_file pk c) Hs Hfu (or_introl (proj1 Hwc)) (Hb c Hin) (unenforced_first fs R _ Hen Hu1)) as [E _].
    cbn [final_answer picked] in E. rewrite Hsy in E. inversion E. eexists. split; [reflexivity|]. cbn [i_path]. apply target_within; assumption.
  - destruct (G2 l Hs Hn) as [E _]. discriminate.
Qed.

(** ** Imports *)
Lemma chain_last : forall root names t last item, imports_chain root names t last item -> starts_with_char t c_hash = true ->
  starts_with_char last c_hash = true /\ exists rest, field_process FImports root last names = PRet (Ok (item :: rest)).
Proof. intros root names t last item H. induction H; eauto. Qed.
Lemma imports_end_path : forall R load fs g pk root last item rest i st, p_imports pk = Some root -> r_target (i_req i) = last ->
  starts_with_char last c_hash = true -> field_process FImports root last (o_conditions (rv_opts R)) = PRet (Ok (item :: rest)) ->
  path_kind (r_kind (parse item)) ->
  (usable fs pk item -> run fs (imports_apply R load (S g) (Some pk) i) st = (Done (Resolving (mkInfo (p_dir pk) (parse item))), st)) /\
  (~ usable fs pk item -> run fs (imports_apply R load (S g) (Some pk) i) st = (Done (SError (not_exported last) (mkInfo (p_dir pk) (parse item))), st)).
Proof.
  intros R load fs g pk root last item rest i st Hp Hi Hh Hf Hk. cbn [imports_apply]. rewrite Hi, Hh, Hp, Hf. cbn [negb lift bind].
  assert (E : forall {X} (a b c : X), match r_kind (parse item) with Normal => a | Internal => b | _ => c end = c).
  { intros X a b c. destruct Hk as [-> |[-> | ->]]; reflexivity. }
  rewrite E. unfold imports_check. cbn [act bind run step]. fold (target_file pk item). cbn [i_req]. split.
  - intros [H1 H2]. rewrite H1, H2. reflexivity.
  - intros H. apply not_usable in H. destruct (f_file fs (target_file pk item)); [|reflexivity].
    destruct H as [H|H]; [discriminate|]. rewrite H. reflexivity.
Qed.
Lemma imports_end_package : forall R load fs g pk root last item rest i st pk' st' n sub tree l c,
  p_imports pk = Some root -> r_target (i_req i) = last ->
  starts_with_char last c_hash = true -> field_process FImports root last (o_conditions (rv_opts R)) = PRet (Ok (item :: rest)) ->
  r_kind (parse item) = Normal -> bare_parts (r_target (parse item)) n sub ->
  run fs (load (join (join (p_dir pk) MODULE) (r_target (parse item)))) st = (Done (Ok (Some pk')), st') ->
  f_exists fs (join (join (p_dir pk) MODULE) n) = true -> contains (p_dir pk') MODULE = true -> p_exports pk' = Some tree ->
  selects R tree item sub l -> first_usable fs pk' l c -> path_kind (r_kind (parse c)) ->
  browser_silent (rv_opts R) (Some pk') (mkInfo (p_dir pk') (parse c)) ->
  run fs (imports_apply R load (S (S g)) (Some pk) i) st = (Done (Resolving (mkInfo (p_dir pk') (parse c))), st').
Proof.
  intros R load fs g pk root last item rest i st pk' st' n sub tree l c Hp Hi Hh Hf Hk Hbp Hl Hex Hm Htr Hs Hfu Hck Hb.
  change (imports_apply R load (S (S g)) (Some pk) i) with
    (if negb (starts_with_char (r_target (i_req i)) c_hash) then Ret (Resolving i)
          else match p_imports pk with
               | None => Ret (Resolving i)
               | Some root =>
                   l <- lift (field_process FImports root (r_target (i_req i)) (o_conditions (rv_opts R))) ;;
                   match l with
                   | Err e => Ret (SError e i)
                   | Ok [] => Ret (SError (not_exported (r_target (i_req i))) i)
                   | Ok (item :: _) =>
                       let rq := parse item in
                       match r_kind rq with
                       | Normal =>
                           let i' := mkInfo (join (p_dir pk) MODULE) rq in
                           lp <- load (get_path i') ;;
                           match lp with
                           | Err e => Ret (SError e i')
                           | Ok opk' =>
                               let cont :=
                                 and_then (and_then (and_then
                                   (exports_apply R opk' i')
                                   (imports_apply R load (S g) opk'))
                                   (alias_field_apply R (S (S g)) opk'))
                                   (fun i2 => imports_check i2 (r_target (i_req i))) in
                               match opk' with
                               | Some pk' => if negb (contains (p_dir pk') MODULE)
                                             then Ret (Resolving i') else cont
                               | None => cont
                               end
                           end
                       | Internal => imports_apply R load (S g) (Some pk) (mkInfo (p_dir pk) rq)
                       | _ => imports_check (mkInfo (p_dir pk) rq) (r_target (i_req i))
                       end
                   end
               end).
  rewrite Hi, Hh, Hp, Hf. cbn [negb lift bind]. cbv zeta. rewrite Hk.
  assert (Hg : get_path (mkInfo (join (p_dir pk) MODULE) (parse item)) = join (join (p_dir pk) MODULE) (r_target (parse item))).
  { unfold get_path. cbn [i_req i_path]. destruct (str_eqb (r_target (parse item)) [] || str_eqb (r_target (parse item)) s_dot)%bool eqn:E; [|reflexivity].
    exfalso. rewrite parse_kind in Hk. apply orb_prop in E.
    destruct E as [E|E]; [destruct (str_eqb_spec (r_target (parse item)) []) as [E1|]|destruct (str_eqb_spec (r_target (parse item)) s_dot) as [E1|]];
      try discriminate; rewrite E1 in Hk; discriminate. }
  rewrite Hg, run_bind, Hl. rewrite Hm. cbn [negb].
  rewrite !run_and_then, (exports_apply_run R fs (join (p_dir pk) MODULE) (parse item) n sub pk' tree (Ok l) st') by (auto).
  rewrite (exports_loop_first _ _ _ _ _ _ Hfu).
  assert (Hnh : starts_with_char (r_target (parse c)) c_hash = false) by (apply path_not_hash; rewrite <- parse_kind; exact Hck).
  rewrite imports_not_hash by exact Hnh. cbn [run]. rewrite alias_field_silent by exact Hb. cbn [run].
  destruct Hfu as (l1 & l2 & _ & _ & H1 & H2). unfold imports_check. cbn [act bind run step]. fold (target_file pk' c). rewrite H1.
  cbn [i_req]. rewrite H2. reflexivity.
Qed.
Lemma internal_steps : forall fs R f base req st pk root st1 i' st2,
  internal_of fs R f base req st pk root st1 ->
  run fs (imports_apply R (load_pkg_file R (S f)) (S f) (Some pk) (mkInfo base (parse req))) st1 = (Done (Resolving i'), st2) ->
  path_kind (r_kind (i_req i')) -> browser_silent (rv_opts R) (Some pk) i' ->
  run fs (resolve R (S f) base req) st =
    let (r, st') := run fs (and_then (resolve_as_file R i') (resolve_as_dir R (load_pkg_file R (S f)) (S f))) st2 in
    (final_answer fs R (settled (mkInfo base (parse req)) r), st').
Proof.
  intros fs R f base req st pk root st1 i' st2 (Hd & Hn & Hh & Hl & Hp) Hi Hk Hb.
  rewrite top_run by (assumption || apply Hn). destruct (no_remap_steps R (mkInfo base (parse req)) Hn) as [H1 H2].
  rewrite resolve__plain by assumption. unfold tail_. rewrite settled_run, run_and_then. unfold pkg_step. cbn [i_req].
  rewrite parse_kind, (hash_kind _ Hh), run_bind, Hl, run_and_then, Hi, alias_field_silent by exact Hb. cbn [run]. unfold final_step.
  destruct Hk as [-> |[-> | ->]];
    (destruct (run fs (and_then (resolve_as_file R i') (resolve_as_dir R (load_pkg_file R (S f)) (S f))) st2) as [r0 st0]; reflexivity).
Qed.
Lemma internal_error : forall fs R f base req st pk root st1 e i' st2,
  internal_of fs R f base req st pk root st1 ->
  run fs (imports_apply R (load_pkg_file R (S f)) (S f) (Some pk) (mkInfo base (parse req))) st1 = (Done (SError e i'), st2) ->
  str_eqb e TAG = false -> run fs (resolve R (S f) base req) st = (Done (Err e), st2).
Proof.
  intros fs R f base req st pk root st1 e i' st2 (Hd & Hn & Hh & Hl & Hp) Hi He.
  rewrite top_run by (assumption || apply Hn). destruct (no_remap_steps R (mkInfo base (parse req)) Hn) as [H1 H2].
  rewrite resolve__plain by assumption. unfold tail_. rewrite settled_run, run_and_then. unfold pkg_step. cbn [i_req].
  rewrite parse_kind, (hash_kind _ Hh), run_bind, Hl, run_and_then, Hi. cbn [settled]. rewrite He. reflexivity.
Qed.
Lemma picked_file : forall fs R load f i q st, first_file fs (file_candidates (rv_opts R) (get_path i)) q ->
  run fs (and_then (resolve_as_file R i) (resolve_as_dir R load f)) st = (Done (picked i q), st).
Proof. intros fs R load f i q st Hq. apply pick_some in Hq. rewrite run_and_then, as_file_run, Hq. reflexivity. Qed.
(** Through any number of names that refer to each other. *)
Lemma internal_chain : forall R pk root t last item, p_imports pk = Some root ->
  imports_chain root (o_conditions (rv_opts R)) t last item -> starts_with_char t c_hash = true ->
  exists n, forall fs f base req st st1, n <= f -> r_target (parse req) = t -> internal_of fs R f base req st pk root st1 ->
    (path_kind (r_kind (parse item)) ->
       (forall q, usable fs pk item -> browser_silent (rv_opts R) (Some pk) (mkInfo (p_dir pk) (parse item)) ->
          first_file fs (file_candidates (rv_opts R) (target_file pk item)) q ->
          run fs (resolve R (S f) base req) st = (final_answer fs R (Done (picked (mkInfo (p_dir pk) (parse item)) q)), st1)) /\
       (~ usable fs pk item ->
          run fs (resolve R (S f) base req) st = (Done (Err (lit "Package path " ++ last ++ lit " is not exported")), st1))) /\
    (r_kind (parse item) = Normal -> forall m sub pk' st2 tree l c q, bare_parts (r_target (parse item)) m sub ->
       run fs (load_pkg_file R (S f) (join (join (p_dir pk) MODULE) (r_target (parse item)))) st1 = (Done (Ok (Some pk')), st2) ->
       f_exists fs (join (join (p_dir pk) MODULE) m) = true -> contains (p_dir pk') MODULE = true -> p_exports pk' = Some tree ->
       selects R tree item sub l -> first_usable fs pk' l c -> path_kind (r_kind (parse c)) ->
       browser_silent (rv_opts R) (Some pk') (mkInfo (p_dir pk') (parse c)) ->
       browser_silent (rv_opts R) (Some pk) (mkInfo (p_dir pk') (parse c)) ->
       first_file fs (file_candidates (rv_opts R) (target_file pk' c)) q ->
       run fs (resolve R (S f) base req) st = (final_answer fs R (Done (picked (mkInfo (p_dir pk') (parse c)) q)), st2)).
Proof.
  intros R pk root t last item Hp Hc Ht. destruct (chain_last _ _ _ _ _ Hc Ht) as (Hlast & rest & Hf).
  assert (HL : exists n, forall load g i, r_target (i_req i) = t ->
    exists i', r_target (i_req i') = last /\ imports_apply R load (n + S g) (Some pk) i = imports_apply R load (S g) (Some pk) i').
  { clear Hf. revert Ht. induction Hc as [t item rest' Hf Hh|t item rest' last e Hf Hh _ IH]; intros Ht.
    - exists 0. intros load g i Hi. exists i. auto.
    - destruct (IH Hlast Hh) as [n Hn]. exists (S n). intros load g i Hi.
      destruct (Hn load g (mkInfo (p_dir pk) (parse item)) eq_refl) as (i' & E1 & E2). exists i'. split; [exact E1|]. rewrite <- E2.
      cbn [plus imports_apply]. rewrite Hi, Ht, Hp, Hf. cbn [negb lift bind]. rewrite parse_kind, (hash_kind _ Hh). reflexivity. }
  destruct HL as [n HL]. exists (S n). intros fs f base req st st1 Hfu Hreq Hin.
  destruct (HL (load_pkg_file R (S f)) (f - n) (mkInfo base (parse req)) Hreq) as (i' & Hi' & E).
  replace (n + S (f - n)) with (S f) in E by lia.
  split.
  - intros Hk. destruct (imports_end_path R (load_pkg_file R (S f)) fs (f - n) pk root last item rest i' st1 Hp Hi' Hlast Hf Hk) as [G1 G2].
    split.
    + intros q Hu Hb Hq. specialize (G1 Hu). rewrite <- E in G1. rewrite (internal_steps fs R f base req st pk root st1 _ _ Hin G1 Hk Hb).
      rewrite (picked_file fs R _ _ _ q _ Hq). reflexivity.
    + intros Hu. specialize (G2 Hu). rewrite <- E in G2. rewrite (internal_error fs R f base req st pk root st1 _ _ _ Hin G2 (not_exported_tag _)). reflexivity.
  - intros Hk m sub pk' st2 tree l c q Hbp Hl Hex Hm Htr Hs Hfu' Hck Hb1 Hb2 Hq.
    destruct (f - n) as [|g] eqn:Eg; [lia|].
    pose proof (imports_end_package R (load_pkg_file R (S f)) fs g pk root last item rest i' st1 pk' st2 m sub tree l c Hp Hi' Hlast Hf Hk Hbp Hl Hex Hm Htr Hs Hfu' Hck Hb1) as G.
    rewrite <- E in G. rewrite (internal_steps fs R f base req st pk root st1 _ _ Hin G Hck Hb2).
    rewrite (picked_file fs R _ _ _ q _ Hq). reflexivity.
Qed.
