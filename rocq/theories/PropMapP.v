(** * Proofs for [PropMap.v]. *)
From Coq Require Import String.
From Coq Require Import List Arith NArith ZArith Bool Lia Permutation.
From Verif Require Import Str StrP Json Types Map SpecMap SpecField MapP TrieP FindP SelectP FieldP NamesP CheckP Demo.
Import ListNotations.

Lemma C28_p : forall j m names, from_json j = PRet (MCond m) ->
  exists r, conditional_mapping m names = PRet r /\ choose names m r /\ (forall r', choose names m r' -> r' = r).
Proof.
  intros j m names Hj. apply from_json_distinct in Hj. destruct (conditional_mapping_ok m names Hj) as [r [H1 H2]].
  exists r. split; [exact H1|]. split; [exact H2|]. intros r' H'. eapply choose_det; eassumption.
Qed.
Lemma C28_nested_p : forall m names, distinct (MCond m) ->
  exists r, conditional_mapping m names = PRet r /\ choose names m r /\ (forall r', choose names m r' -> r' = r).
Proof.
  intros m names Hj. destruct (conditional_mapping_ok m names Hj) as [r [H1 H2]].
  exists r. split; [exact H1|]. split; [exact H2|]. intros r' H'. eapply choose_det; eassumption.
Qed.

Lemma C29_p : forall fk j root req names names', build_field fk j = PRet (Ok root) ->
  (forall c, json_key c j -> (In c names <-> In c names')) ->
  field_process fk root req names = field_process fk root req names'.
Proof. intros fk j root req names names' Hb H. eapply field_process_agree; [|exact Hb]. intros c Hc. apply mem_same, H, Hc. Qed.

(** ** The tree of a field *)
Lemma is_direct_spec : forall k, is_direct_key k = true <-> subpath_key k.
Proof.
  intros k. unfold is_direct_key, subpath_key. rewrite Bool.orb_true_iff, !starts_with_char_spec. reflexivity.
Qed.
Lemma all_cond_false : forall m : cmap, (exists k v, In (k, v) m /\ subpath_key k) ->
  forallb (fun kv => negb (is_direct_key (fst kv))) m = false.
Proof.
  intros m [k [v [Hin Hk]]]. apply is_direct_spec in Hk.
  destruct (forallb _ m) eqn:E; [|reflexivity]. rewrite forallb_forall in E. apply E in Hin. cbn in Hin. rewrite Hk in Hin. discriminate.
Qed.
Lemma all_cond_true : forall m : cmap, (forall k v, In (k, v) m -> ~ subpath_key k) ->
  forallb (fun kv => negb (is_direct_key (fst kv))) m = true.
Proof.
  intros m H. apply forallb_forall. intros [k v] Hin. cbn. apply H in Hin. rewrite <- is_direct_spec in Hin.
  destruct (is_direct_key k); [exfalso; auto|reflexivity].
Qed.
Lemma build_subpaths : forall fk j m root, from_json j = PRet (MCond m) -> build_field fk j = PRet (Ok root) -> subpaths fk m ->
  trie_ok distinct root /\ NoDup (map fst m) /\
  (forall k v, In (k, v) (sub_entries (pre_of fk) m) <-> stored root k = Some v) /\
  NoDup (map fst (sub_entries (pre_of fk) m)).
Proof.
  intros fk j m root Hj Hb Hs. pose proof (from_json_distinct _ _ Hj) as Hd. destruct (distinct_cond _ Hd) as [Hnd Hin].
  assert (Hdef : forall s, stored ptn_default s = None) by (intros s; apply tget_default).
  assert (G : trie_ok distinct root /\ forall s, stored root s = imap_get m (pre_of fk ++ s)).
  { destruct fk; cbn [build_field] in Hb; unfold build_exports, build_imports in Hb; rewrite Hj in Hb; cbn [pbind] in Hb.
    - cbn in Hs. rewrite (all_cond_false m Hs) in Hb. destruct (_ && _); [discriminate|].
      destruct (exports_keys_spec distinct m _ _ Hnd (trie_default _) Hin Hb) as [A1 [A2 _]]. split; [exact A1|].
      intros s. rewrite A2, Hdef. cbn [pre_of]. destruct (imap_get m (lit "./" ++ s)); reflexivity.
    - destruct (imports_keys_spec distinct m _ _ Hnd (trie_default _) Hin Hb) as [A1 [A2 _]]. split; [exact A1|].
      intros s. rewrite A2, Hdef. cbn [pre_of]. destruct (imap_get m (lit "#" ++ s)); reflexivity. }
  destruct G as [G1 G2]. split; [exact G1|]. split; [exact Hnd|]. split; [|apply sub_entries_nodup, Hnd].
  intros k v. rewrite sub_entries_in, G2. split.
  - intros H. apply imap_In_get; assumption.
  - intros H. apply imap_get_In, H.
Qed.

(** ** Requests *)
Lemma good_sub_ends : forall fk sub, good_sub fk sub -> ends_with_char sub c_slash = false /\ (fk = FImports -> ~ exists r, sub = lit "/" ++ r).
Proof.
  intros fk sub [_ [_ [H1 H2]]]. split.
  - destruct (ends_with_char sub c_slash) eqn:E; [|reflexivity]. apply ends_with_char_spec in E. destruct E as [r E]. exfalso. exact (H1 r E).
  - intros E [r Hr]. exact (H2 E r Hr).
Qed.
Lemma selects_exists : forall fk root entries sub, trie_ok distinct root ->
  (forall k v, In (k, v) entries <-> stored root k = Some v) -> good_sub fk sub -> exists o, selects entries sub o.
Proof.
  intros fk root entries sub Hok Hen Hg. destruct (good_sub_ends _ _ Hg) as [He _]. destruct Hg as [Ha [Hn _]].
  destruct (find_match_selects root sub entries (trie_weaken distinct _ root (fun _ _ => I) Hok) Ha Hn He Hen) as [o [m [H _]]]. eauto.
Qed.
Lemma assert_target_spec : forall fk t b, assert_target fk t true = Ok b ->
  (fk = FExports -> relative_target t) /\ b = ends_with_char t c_slash.
Proof.
  intros fk t b H. destruct fk; cbn [assert_target] in H.
  - destruct (Nat.ltb_spec (blen t) 2) as [|Hl]; [discriminate|]. cbn [orb] in H.
    destruct (starts_with_char t c_slash) eqn:E1; [discriminate|]. cbn [orb] in H.
    assert (Hrel : relative_target t).
    { split; [exact Hl|]. split.
      - intros [r ->]. cbn in E1. discriminate.
      - intros [r Hr]. destruct (starts_with_char t c_dot) eqn:E2.
        + cbn [andb] in H. destruct (starts_with t (lit "./")) eqn:E3; [apply starts_with_spec, E3|discriminate].
        + rewrite Hr in E2. cbn in E2. discriminate. }
    destruct (_ && _); [discriminate|]. split; [intros _; exact Hrel|].
    destruct (ends_with_char t c_slash); cbn in H; inversion H; reflexivity.
  - split; [discriminate|]. destruct (ends_with_char t c_slash); cbn in H; inversion H; reflexivity.
Qed.
Lemma assert_target_valid : forall fk t, (fk = FExports -> relative_target t) -> assert_target fk t true = Ok (ends_with_char t c_slash).
Proof.
  intros fk t H. destruct fk; cbn [assert_target].
  - destruct (H eq_refl) as [H1 [H2 H3]]. destruct (Nat.ltb_spec (blen t) 2); [lia|]. cbn [orb].
    destruct (starts_with_char t c_slash) eqn:E1; [exfalso; apply H2; apply starts_with_char_spec in E1; exact E1|]. cbn [orb].
    assert (E : starts_with_char t c_dot && negb (starts_with t (lit "./")) = false).
    { destruct (starts_with_char t c_dot) eqn:E2; [|reflexivity]. apply starts_with_char_spec in E2. apply H3 in E2.
      apply starts_with_spec in E2. rewrite E2. reflexivity. }
    rewrite E. destruct (ends_with_char t c_slash); reflexivity.
  - destruct (ends_with_char t c_slash); reflexivity.
Qed.
Lemma ends_slash_spec : forall t, (exists r, t = r ++ lit "/") <-> ends_with_char t c_slash = true.
Proof. intros t. rewrite ends_with_char_spec. reflexivity. Qed.
Lemma fill_eq : forall t x, replace_char t c_star x = fill t x.
Proof. reflexivity. Qed.
Lemma doubled_eq : forall x, replace_char x c_dollar (lit "$$") = doubled x.
Proof. reflexivity. Qed.
Lemma seg_of_split : forall sub, In c_slash sub -> exists d, sub = d ++ lit "/" ++ seg_of sub /\ ~ In 47%N (seg_of sub).
Proof.
  intros sub Hin. unfold seg_of. destruct (exists_last (split_ne sub)) as [l [x E]].
  assert (Hx : ~ In c_slash x) by (eapply split_on_no_in; rewrite E; apply in_or_app; right; left; reflexivity).
  rewrite E, last_last. rewrite <- (join_split c_slash sub), E in Hin |- *.
  destruct l as [|y l]; [contradiction|]. clear E Hin.
  assert (G : forall l y, exists d, join_on c_slash ((y :: l) ++ [x]) = d ++ lit "/" ++ x).
  { clear. induction l as [|z l IH]; intros y; [exists y; reflexivity|]. destruct (IH z) as [d Hd].
    exists (y ++ c_slash :: d). change (join_on c_slash ((y :: z :: l) ++ [x])) with (y ++ c_slash :: join_on c_slash ((z :: l) ++ [x])).
    rewrite Hd, <- app_assoc. reflexivity. }
  destruct (G l y) as [d Hd]. exists d. split; [exact Hd|exact Hx].
Qed.
Lemma target_fn_ok : forall fk sub p x t s, target_fn fk sub p x t = Ok s -> target_valid fk p t /\ rewritten sub p x t s.
Proof.
  intros fk sub p x t s H. unfold target_valid. rewrite ends_slash_spec.
  destruct p as [e|p|p]; cbn [target_fn] in H; unfold target_mapping in H;
    destruct (assert_target fk t true) as [b|er] eqn:E; try discriminate; apply assert_target_spec in E; destruct E as [E1 E2]; subst b.
  - unfold remaining_of in H. destruct (Z.eqb_spec (Z.of_nat (length (seg_of sub)) + 1) (Z.of_nat (length sub) + 1)) as [Eq|Ne].
    + destruct (ends_with_char t c_slash); [discriminate|]. cbn [negb] in H. inversion H; subst.
      split; [|constructor]. split; [exact E1|]. split; [discriminate|contradiction].
    + destruct (Z.ltb_spec (Z.of_nat (length (seg_of sub)) + 1) 0); [lia|].
      destruct (ends_with_char t c_slash); [discriminate|]. inversion H; subst.
      split; [split; [exact E1|split; [discriminate|contradiction]]|].
      rewrite doubled_eq, fill_eq. replace (Z.to_nat (Z.of_nat (length (seg_of sub)) + 1)) with (length (seg_of sub) + 1) by lia.
      destruct (In_dec N.eq_dec c_slash sub) as [Hin|Hni].
      * destruct (seg_of_split sub Hin) as [d [Hd Hf]]. eapply RwExactDeep; [exact Hd|exact Hf].
      * exfalso. apply Ne. unfold seg_of. rewrite split_on_nosep by exact Hni. reflexivity.
  - destruct (ends_with_char t c_slash); [discriminate|]. inversion H; subst. split; [|constructor].
    split; [exact E1|]. split; [discriminate|contradiction].
  - destruct (ends_with_char t c_slash); [|discriminate]. inversion H; subst. split; [|constructor].
    split; [exact E1|]. split; [intros _; exact I|reflexivity].
Qed.
Lemma target_fn_valid : forall fk sub p x t, target_valid fk p t -> exists s, target_fn fk sub p x t = Ok s.
Proof.
  intros fk sub p x t [H1 H2]. rewrite ends_slash_spec in H2. destruct p as [e|p|p]; cbn [target_fn]; unfold target_mapping;
    rewrite (assert_target_valid _ _ H1); destruct (ends_with_char t c_slash); cbn [is_folder] in H2;
    try (exfalso; apply H2; reflexivity); try (exfalso; assert (false = true) by (apply H2; exact I); discriminate); eauto.
  unfold remaining_of. destruct (_ =? _)%Z; [cbn; eauto|]. destruct (_ <? 0)%Z; eauto.
Qed.
Lemma seq_results_ok {A B} : forall (f : A -> result B) l out, seq_results (map f l) = Ok out -> Forall2 (fun t s => f t = Ok s) l out.
Proof.
  induction l as [|t l IH]; intros out H; cbn in H; [inversion H; constructor|].
  destruct (f t) as [s|e] eqn:E; [|discriminate]. destruct (seq_results (map f l)) as [o|e]; [|discriminate].
  inversion H; subst. constructor; auto.
Qed.
Lemma seq_results_err {A B} : forall (f : A -> result B) l e, seq_results (map f l) = Err e -> exists t, In t l /\ f t = Err e.
Proof.
  induction l as [|t l IH]; intros e H; cbn in H; [discriminate|].
  destruct (f t) as [s|e'] eqn:E; [|inversion H; subst; exists t; split; [left; reflexivity|exact E]].
  destruct (seq_results (map f l)) as [o|e'']; [discriminate|]. destruct (IH _ H) as [u [H1 H2]]. exists u. split; [right; exact H1|exact H2].
Qed.
Lemma seq_results_all {A B} : forall (f : A -> result B) l, (forall t, In t l -> exists s, f t = Ok s) -> exists out, seq_results (map f l) = Ok out.
Proof.
  intros f l H. destruct (seq_results (map f l)) as [o|e] eqn:E; [eauto|]. apply seq_results_err in E. destruct E as [t [H1 H2]].
  apply H in H1. destruct H1 as [s Hs]. congruence.
Qed.

(** ** Selection and candidates, end to end *)
Lemma Forall2_impl {A B} : forall (P Q : A -> B -> Prop) l l', (forall a b, P a b -> Q a b) -> Forall2 P l l' -> Forall2 Q l l'.
Proof. intros P Q l l' H. induction 1; constructor; auto. Qed.
Lemma C30_serves_p : forall fk j m root sub names, from_json j = PRet (MCond m) -> build_field fk j = PRet (Ok root) ->
  subpaths fk m -> good_sub fk sub ->
  exists o, selects (sub_entries (pre_of fk) m) sub o /\ (forall o', selects (sub_entries (pre_of fk) m) sub o' -> o' = o) /\
    serves fk names sub o (field_process fk root (pre_of fk ++ sub) names).
Proof.
  intros fk j m root sub names Hj Hb Hs Hg. destruct (build_subpaths fk j m root Hj Hb Hs) as [H1 [H2 [H3 H4]]].
  destruct (selects_exists fk root _ sub H1 H3 Hg) as [o Ho]. exists o. split; [exact Ho|]. split.
  - intros o' Ho'. eapply selects_det; eassumption.
  - destruct (good_sub_ends _ _ Hg) as [He Hi]. destruct Hg as [Ha [Hn _]].
    pose proof (field_process_selects fk root _ sub o names H1 H3 H4 Ha Hn He Hi Ho) as G.
    destruct o as [[[v p] x]|]; [|exact G]. cbn [serves]. destruct G as [t [r [G1 [G2 G3]]]]. rewrite G2.
    destruct t as [l|e].
    + right. exists l. split; [exact G1|]. cbn [mapped] in G3. subst r.
      destruct (seq_results (map (target_fn fk sub p x) l)) as [out|e] eqn:E.
      * right. apply seq_results_ok in E. split.
        -- intros t Ht. clear - E Ht. induction E as [|a b l out H E IH]; [destruct Ht|]. destruct Ht as [->|Ht]; [|auto].
           apply target_fn_ok in H. apply H.
        -- exists out. split; [reflexivity|]. eapply Forall2_impl; [|exact E]. intros a b H. apply target_fn_ok in H. apply H.
      * left. apply seq_results_err in E. destruct E as [t [Ht E]]. split; [|eauto]. exists t. split; [exact Ht|].
        intros Hv. destruct (target_fn_valid fk sub p x t Hv) as [s Hv']. congruence.
    + left. exists e. split; [exact G1|]. destruct G3 as [e' ->]. eauto.
Qed.
Lemma in_perm_sub : forall pre m m', Permutation m m' -> forall k v, In (k, v) (sub_entries pre m) <-> In (k, v) (sub_entries pre m').
Proof.
  intros pre m m' H k v. rewrite !sub_entries_in. split; apply Permutation_in; [exact H|apply Permutation_sym, H].
Qed.
Lemma selects_same : forall e e' sub o, (forall k v, In (k, v) e <-> In (k, v) e') -> selects e sub o -> selects e' sub o.
Proof.
  intros e e' sub o H Hs. inversion Hs as [v Hin Hc|k v p x Hno Hin Hc Hl Hbest|Hno]; subst.
  - apply SelExact; [apply H, Hin|exact Hc].
  - eapply SelPattern with (k := k); auto.
    + intros v' Hv. apply (Hno v'), H, Hv.
    + apply H, Hin.
    + intros k' v' p' x' Hin'. apply H in Hin'. eapply Hbest, Hin'.
  - apply SelNone. intros k v p x Hin. apply H in Hin. eapply Hno, Hin.
Qed.
Lemma C30_order_p : forall fk j j' m m' root root' sub names,
  from_json j = PRet (MCond m) -> from_json j' = PRet (MCond m') -> Permutation m m' ->
  build_field fk j = PRet (Ok root) -> build_field fk j' = PRet (Ok root') -> subpaths fk m -> good_sub fk sub ->
  field_process fk root (pre_of fk ++ sub) names = field_process fk root' (pre_of fk ++ sub) names.
Proof.
  intros fk j j' m m' root root' sub names Hj Hj' Hp Hb Hb' Hs Hg.
  assert (Hs' : subpaths fk m').
  { destruct fk; [|exact I]. destruct Hs as [k [v [H1 H2]]]. exists k, v. split; [eapply Permutation_in; eassumption|exact H2]. }
  destruct (build_subpaths fk j m root Hj Hb Hs) as [H1 [_ [H3 H4]]].
  destruct (build_subpaths fk j' m' root' Hj' Hb' Hs') as [H1' [_ [H3' H4']]].
  destruct (good_sub_ends _ _ Hg) as [He Hi]. destruct Hg as [Ha [Hn _]].
  destruct (find_match_selects root sub _ (trie_weaken distinct _ root (fun _ _ => I) H1) Ha Hn He H3) as [o [fm [Ho [Hf Hen]]]].
  destruct (find_match_selects root' sub _ (trie_weaken distinct _ root' (fun _ _ => I) H1') Ha Hn He H3') as [o' [fm' [Ho' [Hf' Hen']]]].
  assert (o' = o).
  { eapply (selects_det _ sub); [exact H4'|exact Ho'|]. eapply selects_same; [|exact Ho]. apply in_perm_sub, Hp. }
  subst o'. assert (fm' = fm).
  { destruct o as [[[v [s|p|p]] x]|]; cbn in Hen, Hen'; congruence. }
  subst fm'. unfold field_process. rewrite assert_request_sub by assumption. rewrite Hf, Hf'. reflexivity.
Qed.

(** The package itself: request ".". *)
Lemma find_root : forall root, find_match root [] = PRet (match tdot root with Some v => Some (v, 1%Z) | None => None end).
Proof. reflexivity. Qed.
Lemma root_mapping : forall root names, field_process FExports root (lit ".") names =
  match tdot root with
  | None => PRet (Ok [])
  | Some v => mapping (S (mv_size v)) FExports None false v names
  end.
Proof.
  intros root names. unfold field_process. change (assert_request FExports (lit ".")) with (@Ok str []).
  cbv iota. rewrite find_root. cbn [pbind]. destruct (tdot root); reflexivity.
Qed.
Lemma root_target : forall t, target_mapping FExports None false t = target_fn FExports [] (PExact []) [] t.
Proof. reflexivity. Qed.
Lemma one_byte_dot : forall (m : cmap) k, (forall k v, In (k, v) m -> is_direct_key k = true) -> dot_only m ->
  In k (map fst m) -> one_byte k = true -> k = lit ".".
Proof.
  intros m k Hd Hs Hin Ho. apply in_map_iff in Hin. destruct Hin as [[k' v] [E Hin]]. cbn in E. subst k'.
  pose proof (Hd _ _ Hin) as Hk. apply is_direct_spec in Hk. unfold one_byte in Ho. apply Nat.eqb_eq in Ho.
  assert (Hb : forall r, blen (lit "." ++ r) = 1 -> r = []) by (intros r H; rewrite blen_app in H; apply blen_0; cbn in H; lia).
  destruct Hk as [[r ->]|[r ->]].
  - apply Hb in Ho. subst. reflexivity.
  - assert (r = []) by (rewrite blen_app in Ho; apply blen_0; cbn in Ho; lia). subst. exfalso. apply Hs.
    apply in_map_iff. exists (lit "/" ++ [], v). split; [reflexivity|exact Hin].
Qed.
Lemma root_served : forall j v root, from_json j = PRet v -> build_field FExports j = PRet (Ok root) ->
  (forall m, v = MCond m -> dot_only m) ->
  (forall w, root_value v w <-> tdot root = Some w).
Proof.
  intros j v root Hj Hb Hdot. pose proof (from_json_distinct _ _ Hj) as Hd.
  cbn [build_field] in Hb. unfold build_exports in Hb. rewrite Hj in Hb. cbn [pbind] in Hb.
  assert (Hplain : forall v0, tdot (set_files ptn_default [([], v0)]) = Some v0) by reflexivity.
  assert (Hnc : forall w, (forall m, v <> MCond m) -> (root_value v w <-> w = v)).
  { intros w Hv. split.
    - intros H. inversion H; subst; [reflexivity|]. exfalso. eapply Hv. reflexivity.
    - intros ->. constructor. intros m E. exfalso. eapply Hv, E. }
  destruct v as [s|m|a].
  - inversion Hb; subst. intros w. rewrite Hplain, (Hnc w) by discriminate. split; congruence.
  - destruct (distinct_cond _ Hd) as [Hnd Hin].
    destruct (forallb (fun kv => negb (is_direct_key (fst kv))) m) eqn:Ec; cbn [negb andb] in Hb.
    + inversion Hb; subst. intros w. rewrite Hplain. rewrite forallb_forall in Ec.
      assert (Hno : forall k w, In (k, w) m -> ~ subpath_key k).
      { intros k w' Hk Hsub. apply Ec in Hk. cbn in Hk. apply is_direct_spec in Hsub. rewrite Hsub in Hk. discriminate. }
      split; intros H.
      * inversion H as [|? ? [k [w' [H1 H2]]]]; subst; [reflexivity|]. exfalso. exact (Hno _ _ H1 H2).
      * inversion H; subst. constructor. intros m' E k w. inversion E; subst. apply Hno.
    + destruct (forallb (fun kv => is_direct_key (fst kv)) m) eqn:Ed; cbn [negb] in Hb; [|discriminate].
      rewrite forallb_forall in Ed.
      destruct (exports_keys_spec distinct m _ _ Hnd (trie_default _) Hin Hb) as [_ [_ [_ A4]]].
      rewrite A4; cycle 1.
      { intros k Hk Ho. eapply one_byte_dot; eauto. intros k' v' Hk'. apply (Ed _ Hk'). }
      change (tdot ptn_default) with (@None mv).
      assert (Hex : exists k v, In (k, v) m /\ subpath_key k).
      { destruct m as [|[k v] m]; [discriminate|]. exists k, v. split; [left; reflexivity|]. apply is_direct_spec.
        apply (Ed (k, v)). left. reflexivity. }
      intros w. split; intros H.
      * inversion H as [? Hno|? ? _ Hin']; subst.
        -- exfalso. destruct Hex as [k [v [H1 H2]]]. eapply Hno; [reflexivity|exact H1|exact H2].
        -- rewrite (imap_In_get m _ _ Hnd Hin'). reflexivity.
      * destruct (imap_get m (lit ".")) as [w'|] eqn:Eg; [|discriminate]. inversion H; subst.
        constructor; [exact Hex|]. apply imap_get_In, Eg.
  - inversion Hb; subst. intros w. rewrite Hplain, (Hnc w) by discriminate. split; congruence.
Qed.
Lemma tdot_distinct : forall root v, trie_ok distinct root -> tdot root = Some v -> distinct v.
Proof. intros root v H E. unfold tdot in E. apply imap_get_In in E. inversion H; eauto. Qed.
Lemma C30_root_p : forall j v root names, from_json j = PRet v -> build_field FExports j = PRet (Ok root) ->
  (forall m, v = MCond m -> dot_only m) ->
  (forall w, root_value v w -> serves FExports names [] (Some (w, PExact [], [])) (field_process FExports root (lit ".") names)) /\
  ((forall w, ~ root_value v w) -> field_process FExports root (lit ".") names = PRet (Ok [])).
Proof.
  intros j v root names Hj Hb Hdot. pose proof (root_served j v root Hj Hb Hdot) as Hr. rewrite root_mapping.
  assert (Hok : trie_ok distinct root).
  { pose proof (from_json_distinct _ _ Hj) as Hd. eapply build_ok; [exact Hj|exact Hd| |exact Hb].
    intros m k w -> Hin. destruct (distinct_cond _ Hd) as [_ H]. eapply H, Hin. }
  split.
  - intros w Hw. apply Hr in Hw. rewrite Hw. pose proof (tdot_distinct _ _ Hok Hw) as Hd.
    destruct (mapping_targets (S (mv_size w)) w FExports None false names ltac:(lia) Hd) as [t [r [G1 [G2 G3]]]]. rewrite G2.
    cbn [serves]. destruct t as [l|e].
    + right. exists l. split; [exact G1|]. cbn [mapped] in G3. subst r.
      rewrite (seq_results_eq _ _ l root_target).
      destruct (seq_results (map (target_fn FExports [] (PExact []) []) l)) as [out|e] eqn:E.
      * right. apply seq_results_ok in E. split.
        -- intros t Ht. clear - E Ht. induction E as [|a b l out H E IH]; [destruct Ht|]. destruct Ht as [->|Ht]; [|auto].
           apply target_fn_ok in H. apply H.
        -- exists out. split; [reflexivity|]. eapply Forall2_impl; [|exact E]. intros a b H. apply target_fn_ok in H. apply H.
      * left. apply seq_results_err in E. destruct E as [t [Ht E]]. split; [|eauto]. exists t. split; [exact Ht|].
        intros Hv. destruct (target_fn_valid FExports [] (PExact []) [] t Hv) as [s Hv']. congruence.
    + left. exists e. split; [exact G1|]. destruct G3 as [e' ->]. eauto.
  - intros Hno. destruct (tdot root) as [w|] eqn:E; [|reflexivity]. exfalso. apply (Hno w), Hr. reflexivity.
Qed.

(** ** C31 *)
Lemma doubled_none : forall x, ~ In 36%N x -> doubled x = x.
Proof. intros x H. rewrite <- doubled_eq. apply replace_char_none, H. Qed.
Lemma fill_none : forall t x, ~ In 42%N t -> fill t x = t.
Proof. intros t x H. rewrite <- fill_eq. apply replace_char_none, H. Qed.
Lemma rewritten_substituted : forall sub p x t s, rewritten sub p x t s -> ~ In 36%N sub -> leaves p sub x ->
  (forall e, p = PExact e -> ~ In 42%N t) -> substituted p x t s.
Proof.
  intros sub p x t s H Hd Hl He. destruct H.
  - constructor.
  - rewrite doubled_none; [constructor|]. intros Hin. apply Hd. inversion Hl; subst. apply in_or_app. right. exact Hin.
  - constructor.
  - rewrite fill_none; [constructor|]. eapply He. reflexivity.
Qed.

(** ** C32 *)
(** Every target below [v] satisfies [P]. *)
Inductive offers (t : str) : mv -> Prop :=
| OfDirect : offers t (MDirect t)
| OfCond : forall m k v, In (k, v) m -> offers t v -> offers t (MCond m)
| OfArrD : forall a, In (ADirect t) a -> offers t (MArray a)
| OfArrC : forall a m, In (ACond m) a -> offers t (MCond m) -> offers t (MArray a).
Lemma cond_below : forall f names lookup v, cond_loop f names lookup = PRet (Ok (Some v)) ->
  exists e, In e lookup /\ forall t, offers t v -> offers t (MCond (fst (fst e))).
Proof.
  induction f as [|f IH]; intros names lookup v H; [discriminate|].
  destruct lookup as [|[[m conds] j] below]; [discriminate|]. cbn [cond_loop] in H.
  pose proof (cond_for_below names m (length conds) (skipn j conds) j) as Hb.
  destruct (cond_for names m (length conds) j (skipn j conds)) as [|w|i inner|].
  - discriminate.
  - inversion H; subst. destruct Hb as [c Hin]. exists (m, conds, j). split; [left; reflexivity|]. intros t Ht. eapply OfCond; eassumption.
  - apply IH in H. destruct H as [e [[<-|[<-|Hin]] He]].
    + destruct Hb as [c Hin]. exists (m, conds, j). split; [left; reflexivity|]. intros t Ht. eapply OfCond; [exact Hin|]. apply He, Ht.
    + exists (m, conds, j). split; [left; reflexivity|]. exact He.
    + exists e. split; [right; exact Hin|exact He].
  - apply IH in H. destruct H as [e [Hin He]]. exists e. split; [right; exact Hin|exact He].
Qed.
Lemma conditional_below : forall m names v t, conditional_mapping m names = PRet (Ok (Some v)) -> offers t v -> offers t (MCond m).
Proof.
  intros m names v t H Ht. apply cond_below in H. destruct H as [e [[<-|[]] He]]. apply He, Ht.
Qed.
Lemma mapping_from : forall f fk rm sp v names out, mapping f fk rm sp v names = PRet (Ok out) ->
  Forall (fun s => exists t, offers t v /\ target_mapping fk rm sp t = Ok s) out.
Proof.
  induction f as [|f IH]; intros fk rm sp v names out H; [discriminate|]. destruct v as [s|m|a].
  - cbn [mapping] in H. destruct (target_mapping fk rm sp s) eqn:E; [|discriminate]. inversion H; subst.
    constructor; [|constructor]. exists s. split; [constructor|exact E].
  - cbn [mapping] in H. apply pbind_ret in H. destruct H as [x [Hx H]]. destruct x as [[v|]|e]; [| |discriminate].
    + apply IH in H. eapply Forall_impl; [|exact H]. intros s [t [H1 H2]]. exists t. split; [|exact H2].
      eapply conditional_below; eassumption.
    + inversion H; subst. constructor.
  - rewrite mapping_array in H.
    assert (G : forall b acc out, (forall x, In x b -> In x a) -> map_array f fk rm sp names b acc = PRet (Ok out) ->
       Forall (fun s => exists t, offers t (MArray a) /\ target_mapping fk rm sp t = Ok s) acc ->
       Forall (fun s => exists t, offers t (MArray a) /\ target_mapping fk rm sp t = Ok s) out).
    { clear out H. induction b as [|[s|m] b IHa]; intros acc out Hsub H Hacc; cbn [map_array] in H.
      - inversion H; subst. exact Hacc.
      - destruct (target_mapping fk rm sp s) eqn:E; [|discriminate]. eapply IHa; [|exact H|].
        + intros x Hx. apply Hsub. right. exact Hx.
        + apply Forall_app. split; [exact Hacc|]. constructor; [|constructor]. exists s. split; [|exact E].
          apply OfArrD, Hsub. left. reflexivity.
      - fold (map_array f fk rm sp names) in H. apply pbind_ret in H. destruct H as [x [Hx H]]. destruct x as [[v|]|e]; [| |discriminate].
        + apply pbind_ret in H. destruct H as [y [Hy H]]. destruct y as [inner|e]; [|discriminate]. eapply IHa; [|exact H|].
          * intros z Hz. apply Hsub. right. exact Hz.
          * apply Forall_app. split; [exact Hacc|]. apply IH in Hy. eapply Forall_impl; [|exact Hy].
            intros s [t [H1 H2]]. exists t. split; [|exact H2]. eapply OfArrC; [apply Hsub; left; reflexivity|].
            eapply conditional_below; eassumption.
        + eapply IHa; [|exact H|exact Hacc]. intros z Hz. apply Hsub. right. exact Hz. }
    eapply G; [intros x Hx; exact Hx|exact H|constructor].
Qed.
Definition all_offered (P : str -> Prop) (v : mv) : Prop := forall t, offers t v -> P t.
Lemma from_json_offers : forall (P : str -> Prop) j v, (forall t, json_string t j -> P t) -> from_json j = PRet v -> all_offered P v.
Proof.
  intros P. induction j as [|b|s|s|l IH|l IH] using json_ind2; intros v Hok H; try discriminate.
  - inversion H; subst. intros t Ht. inversion Ht; subst. apply Hok. constructor.
  - rewrite from_json_arr in H. apply pbind_ret in H. destruct H as [a [H E]]. inversion E; subst v. clear E.
    assert (Hall : forall x, In x l -> forall t, json_string t x -> P t) by (intros x Hx t Ht; apply Hok; eapply JsArr; eassumption).
    clear Hok. assert (G : (forall t, In (ADirect t) a -> P t) /\ forall m, In (ACond m) a -> all_offered P (MCond m)).
    { revert a H. induction l as [|x l IHl]; intros a H; cbn [from_arr] in H.
      - inversion H; subst. split; intros ? [].
      - apply pbind_ret in H. destruct H as [v [Hv H]]. inversion IH as [|? ? Hx Hl]; subst.
        assert (Hxv := Hx v (Hall x (or_introl eq_refl)) Hv).
        assert (Hall' : forall y, In y l -> forall t, json_string t y -> P t) by (intros y Hy; apply Hall; right; exact Hy).
        destruct v as [s|m|a']; [| |discriminate]; apply pbind_ret in H; destruct H as [t [Ht H]]; inversion H; subst;
          destruct (IHl Hl Hall' t Ht) as [G1 G2]; split.
        + intros u [E|Hu]; [|apply G1, Hu]. inversion E; subst. apply Hxv. constructor.
        + intros m [E|Hm]; [discriminate|apply G2, Hm].
        + intros u [E|Hu]; [discriminate|apply G1, Hu].
        + intros m' [E|Hm]; [inversion E; subst; exact Hxv|apply G2, Hm]. }
    destruct G as [G1 G2]. intros t Ht. inversion Ht; subst; [apply G1; assumption|]. eapply G2; eassumption.
  - rewrite from_json_obj in H. apply pbind_ret in H. destruct H as [m [H E]]. inversion E; subst v. clear E.
    assert (Hall : Forall (fun kv => forall v, from_json (snd kv) = PRet v -> all_offered P v) l).
    { rewrite Forall_forall in *. intros [k x] Hin v Hv. apply (IH (k, x) Hin v); [|exact Hv].
      intros t Ht. apply Hok. eapply JsObj; eassumption. }
    clear IH Hok. assert (G : forall l acc m, Forall (fun kv : str * json => forall v, from_json (snd kv) = PRet v -> all_offered P v) l ->
        (forall k v, In (k, v) acc -> all_offered P v) -> from_obj l acc = PRet m -> forall k v, In (k, v) m -> all_offered P v).
    { clear. induction l as [|[k x] l IHl]; intros acc m Hl Hacc H; cbn [from_obj] in H; [inversion H; subst; exact Hacc|].
      apply pbind_ret in H. destruct H as [v [Hv H]]. inversion Hl; subst. eapply IHl; [eassumption| |exact H].
      intros k' v' Hin. apply imap_insert_in in Hin. destruct Hin as [[-> ->]|Hin]; [|eapply Hacc, Hin]. cbn [snd] in *. auto. }
    intros t Ht. inversion Ht; subst. eapply (G l [] m Hall); [intros ? ? []|exact H|eassumption|eassumption].
Qed.
Lemma field_process_from : forall (P : str -> Prop) fk j root req names out, (forall t, json_string t j -> P t) -> build_field fk j = PRet (Ok root) ->
  field_process fk root req names = PRet (Ok out) ->
  Forall (fun s => exists rm sp t, P t /\ target_mapping fk rm sp t = Ok s) out.
Proof.
  intros P fk j root req names out HP Hb H.
  assert (Hj : exists v, from_json j = PRet v).
  { destruct fk; cbn [build_field] in Hb; unfold build_exports, build_imports in Hb; apply pbind_ret in Hb; destruct Hb as [v [Hv _]]; eauto. }
  destruct Hj as [v Hj]. pose proof (from_json_offers _ _ _ HP Hj) as Ha.
  assert (Hok : trie_ok (all_offered P) root).
  { eapply build_ok; [exact Hj|exact Ha| |exact Hb]. intros m k w -> Hin t Ho. apply Ha. eapply OfCond; eassumption. }
  unfold field_process in H. destruct (assert_request fk req) as [r|e]; [|discriminate].
  apply pbind_ret in H. destruct H as [m [Hf H]]. destruct m as [[w i]|]; [|inversion H; constructor].
  pose proof (find_match_good _ _ _ _ Hok Hf w i eq_refl) as Hw.
  apply mapping_from in H. eapply Forall_impl; [|exact H]. intros s [t [Ho Ht]]. exists (remaining_of r i), (i <? 0)%Z, t. split; [apply Hw, Ho|exact Ht].
Qed.
Lemma target_shape : forall rm sp t s, target_mapping FExports rm sp t = Ok s ->
  relative_target t /\ ((exists x, s = t ++ x) \/ exists x, s = fill t x).
Proof.
  intros rm sp t s H. unfold target_mapping in H. destruct (assert_target FExports t true) as [b|e] eqn:E; [|discriminate].
  apply assert_target_spec in E. destruct E as [E _]. split; [apply E; reflexivity|].
  destruct rm as [r|]; [destruct sp, b; try discriminate|destruct b; try discriminate]; inversion H; subst.
  - left. eauto.
  - right. rewrite fill_eq. eauto.
  - left. exists []. rewrite app_nil_r. reflexivity.
Qed.
Lemma relative_safe : forall t, relative_target t -> ~ leaves_package t.
Proof.
  intros t [_ [H1 H2]] [H|[->|[r ->]]].
  - auto.
  - destruct H2 as [r Hr]; [exists (lit "."); reflexivity|]. change ([46%N; 46%N] = 46%N :: 47%N :: r) in Hr. discriminate.
  - destruct H2 as [r' Hr]; [exists (lit "./" ++ r); reflexivity|]. change (46%N :: 46%N :: 47%N :: r = 46%N :: 47%N :: r') in Hr. discriminate.
Qed.
Lemma relative_fill : forall t x, relative_target t -> (forall r, t <> lit "*" ++ r) -> ~ leaves_package (fill t x).
Proof.
  intros t x [Hl [H1 H2]] Hs.
  destruct t as [|c t]; [cbn in Hl; lia|]. unfold fill. cbn [flat_map]. fold (fill t x).
  destruct (N.eqb_spec c 42) as [->|Hc]; [exfalso; apply (Hs t); reflexivity|]. cbn [app].
  destruct (N.eq_dec c 46) as [->|Hd].
  - destruct (H2 (ex_intro _ t eq_refl)) as [r Hr]. change (lit "./" ++ r) with (46%N :: 47%N :: r) in Hr. inversion Hr; subst t.
    unfold fill. cbn [flat_map]. fold (fill r x). intros [[q E]|[E|[q E]]]; discriminate.
  - intros [[q E]|[E|[q E]]].
    + change (lit "/" ++ q) with (47%N :: q) in E. inversion E; subst. apply H1. exists t. reflexivity.
    + change (lit "..") with [46%N; 46%N] in E. inversion E; subst. contradiction.
    + change (lit "../" ++ q) with (46%N :: 46%N :: 47%N :: q) in E. inversion E; subst. contradiction.
Qed.
Lemma relative_app : forall t x, relative_target t -> ~ leaves_package (t ++ x).
Proof.
  intros t x [Hl [H1 H2]]. destruct t as [|c t]; [cbn in Hl; lia|]. cbn [app].
  destruct (N.eq_dec c 46) as [->|Hd].
  - destruct (H2 (ex_intro _ t eq_refl)) as [r Hr]. change (lit "./" ++ r) with (46%N :: 47%N :: r) in Hr. inversion Hr; subst t.
    intros [[q E]|[E|[q E]]]; discriminate.
  - intros [[q E]|[E|[q E]]].
    + change (lit "/" ++ q) with (47%N :: q) in E. inversion E; subst. apply H1. exists t. reflexivity.
    + change (lit "..") with [46%N; 46%N] in E. inversion E; subst. contradiction.
    + change (lit "../" ++ q) with (46%N :: 46%N :: 47%N :: q) in E. inversion E; subst. contradiction.
Qed.
Lemma C32_p : forall j root req names out s, build_field FExports j = PRet (Ok root) ->
  (forall t, json_string t j -> forall r, t <> lit "*" ++ r) ->
  field_process FExports root req names = PRet (Ok out) -> In s out -> ~ leaves_package s.
Proof.
  intros j root req names out s Hb Hns H Hin.
  apply (field_process_from (fun t => forall r, t <> lit "*" ++ r) FExports j) in H; [|exact Hns|exact Hb]. rewrite Forall_forall in H.
  destruct (H _ Hin) as [rm [sp [t [Hst Ht]]]]. apply target_shape in Ht. destruct Ht as [Hr [[x ->]|[x ->]]].
  - apply relative_app, Hr.
  - apply relative_fill; assumption.
Qed.
Lemma C32_only_star_p : forall j root req names out s, build_field FExports j = PRet (Ok root) ->
  field_process FExports root req names = PRet (Ok out) -> In s out -> leaves_package s ->
  exists r x, json_string (lit "*" ++ r) j /\ s = fill (lit "*" ++ r) x.
Proof.
  intros j root req names out s Hb H Hin Hl.
  apply (field_process_from (fun t => json_string t j) FExports j) in H; [|auto|exact Hb]. rewrite Forall_forall in H.
  destruct (H _ Hin) as [rm [sp [t [Hst Ht]]]]. apply target_shape in Ht. destruct Ht as [Hr [[x ->]|[x ->]]].
  - contradiction (relative_app t x Hr Hl).
  - destruct t as [|c t]; [exfalso; apply (relative_fill [] x Hr); [intros r [=]|exact Hl]|].
    destruct (N.eq_dec c 42) as [->|Hc]; [exists t, x; split; [exact Hst|reflexivity]|].
    exfalso. apply (relative_fill (c :: t) x Hr); [|exact Hl]. intros r E. injection E as E _. contradiction.
Qed.

(** ** C33 *)
Lemma split_tl_empty : forall p, In [] (tl (removelast (split_on c_slash p))) -> exists a b, p = a ++ lit "//" ++ b.
Proof.
  induction p as [|c p IH]; [intros []|]. cbn [split_on]. destruct (split_on_cons_ne c_slash p) as [h [t E]].
  destruct (N.eqb_spec c c_slash) as [->|Hn]; rewrite E in *; intros Hin.
  - cbn [removelast tl] in Hin. destruct t as [|y t]; [destruct Hin|]. cbn [removelast] in Hin. destruct Hin as [->|Hin].
    + destruct p as [|c p]; [cbn in E; inversion E|]. cbn [split_on] in E. destruct (N.eqb_spec c c_slash) as [->|Hn].
      * exists [], p. reflexivity.
      * destruct (split_on c_slash p); inversion E.
    + destruct (IH Hin) as [a [b ->]]. exists (c_slash :: a), b. reflexivity.
  - destruct t as [|y t]; [destruct Hin|]. destruct (IH Hin) as [a [b ->]]. exists (c :: a), b. reflexivity.
Qed.
Lemma removelast_split : forall (p : str), (forall a b, p <> a ++ lit "//" ++ b) -> (forall b, p <> lit "/" ++ b) ->
  forall s, In s (removelast (split_on c_slash p)) -> s <> [].
Proof.
  intros p H1 H2 s Hin ->. destruct (split_on_cons_ne c_slash p) as [h [t E]].
  assert (G := split_tl_empty p). rewrite E in *. destruct t as [|y t]; [destruct Hin|].
  cbn [removelast] in Hin. destruct Hin as [->|Hin].
  - destruct p as [|c p]; [cbn in E; inversion E|]. cbn [split_on] in E. destruct (N.eqb_spec c c_slash) as [->|Hn].
    + apply (H2 p). reflexivity.
    + destruct (split_on c_slash p); inversion E.
  - destruct (G Hin) as [a [b Hab]]. exact (H1 a b Hab).
Qed.
Lemma last_split_dd : forall p, last (split_on c_slash p) [] = lit ".." -> p = lit ".." \/ exists a, p = a ++ lit "/..".
Proof.
  intros p H. rewrite <- (join_split c_slash p). destruct (exists_last (split_ne p)) as [l [x E]]. rewrite E in *.
  rewrite last_last in H. subst x. destruct l as [|y l]; [left; reflexivity|]. right.
  clear E. revert y. induction l as [|z l IH]; intros y.
  - exists y. reflexivity.
  - destruct (IH z) as [a Ha]. exists (y ++ c_slash :: a). change (join_on c_slash ((y :: z :: l) ++ [lit ".."])) with (y ++ c_slash :: join_on c_slash ((z :: l) ++ [lit ".."])).
    rewrite Ha. rewrite <- app_assoc. reflexivity.
Qed.
Lemma C33_p : forall p, (forall a b, p <> a ++ lit "//" ++ b) -> (forall b, p <> lit "/" ++ b) ->
  p <> lit ".." -> (forall a, p <> a ++ lit "/..") -> check_target p = PRet true -> stays_inside p.
Proof.
  intros p H1 H2 H3 H4 H. rewrite check_target_segs in H. inversion H as [E]. unfold stays_inside.
  eapply (check_segs_inside _ 0%Z 0); [lia|apply split_ne|apply removelast_split; assumption| |exact E].
  intros Hl. apply last_split_dd in Hl. destruct Hl as [Hl|[a Ha]]; [contradiction|]. exact (H4 a Ha).
Qed.
Lemma C33_exact_p : forall p, check_target p = PRet true <->
  forall n, n < length (split_on 47%N p) -> (0 <= count (firstn n (split_on 47%N p)))%Z.
Proof.
  intros p. rewrite check_target_segs. rewrite <- (check_segs_exact (split_on c_slash p) 0%Z) by lia.
  split; [intros [= E]; exact E|intros ->; reflexivity].
Qed.
Lemma C33_accepts_p : forall p, (forall s, In s (removelast (split_on 47%N p)) -> plain_segment s) -> stays_inside p -> check_target p = PRet true.
Proof. intros p Hp H. rewrite check_target_segs. f_equal. eapply (check_segs_accepts _ 0%Z 0); [lia|exact Hp|exact H]. Qed.
Lemma C33_too_strict_p : exists p, stays_inside p /\ check_target p = PRet false.
Proof. exists (lit "./.cache/../x.js"). split; [intros H; discriminate|reflexivity]. Qed.
Lemma check_total : forall p, exists b, check_target p = PRet b.
Proof. intros p. rewrite check_target_segs. eauto. Qed.

(** ** C35 *)
Lemma C35_request_p : forall fk root req names, (exists r, req = r ++ lit "/") ->
  exists e, field_process fk root req names = PRet (Err e).
Proof.
  intros fk root req names H. apply ends_slash_spec in H. unfold field_process.
  assert (G : exists e, assert_request fk req = Err e).
  { destruct fk; cbn [assert_request].
    - destruct (starts_with_char req c_dot) eqn:E1; cbn [negb]; [|eauto]. destruct (Nat.eqb_spec (blen req) 1) as [E2|E2].
      + apply starts_with_char_spec in E1. destruct E1 as [r ->].
        assert (r = []) by (apply blen_0; change (c_dot :: r) with (lit "." ++ r) in E2; rewrite blen_app in E2; cbn in E2; lia).
        subst. discriminate.
      + destruct (starts_with req (lit "./")); cbn [negb]; [|eauto]. rewrite H. eauto.
    - destruct (starts_with_char req c_hash) eqn:E1; cbn [negb]; [|eauto]. destruct (Nat.eqb (blen req) 1); [eauto|].
      destruct (starts_with req (lit "#/")); [eauto|]. rewrite H. eauto. }
  destruct G as [e ->]. eauto.
Qed.
Lemma blen_one_direct : forall k, is_direct_key k = true -> blen k = 1 -> k = lit "." \/ k = lit "/".
Proof.
  intros k Hk Ho. apply is_direct_spec in Hk. destruct Hk as [[r ->]|[r ->]]; rewrite blen_app in Ho; cbn in Ho;
    (assert (r = []) by (apply blen_0; lia)); subst; auto.
Qed.
Lemma exports_keys_total : forall m root, (forall k v, In (k, v) m -> is_direct_key k = true) ->
  ((forall k v, In (k, v) m -> exports_key_ok k) /\ exists root', exports_keys m root = PRet (Ok root')) \/
  ((exists k v, In (k, v) m /\ ~ exports_key_ok k) /\ exists e, exports_keys m root = PRet (Err e)).
Proof.
  induction m as [|[k v] m IH]; intros root Hd; cbn [exports_keys].
  - left. split; [intros k v []|eauto].
  - assert (Hd' : forall k v, In (k, v) m -> is_direct_key k = true) by (intros k' v' Hk; apply (Hd k' v'); right; exact Hk).
    assert (Hk : is_direct_key k = true) by (apply (Hd k v); left; reflexivity).
    assert (Hgo : exports_key_ok k -> forall root, 
      ((forall k' v', In (k', v') ((k, v) :: m) -> exports_key_ok k') /\ exists root', exports_keys m root = PRet (Ok root')) \/
      ((exists k' v', In (k', v') ((k, v) :: m) /\ ~ exports_key_ok k') /\ exists e, exports_keys m root = PRet (Err e))).
    { intros Hok root0. destruct (IH root0 Hd') as [[H1 H2]|[[k' [v' [H1 H1']]] H2]].
      - left. split; [|exact H2]. intros k' v' [E|Hin]; [inversion E; subst; exact Hok|]. eapply H1, Hin.
      - right. split; [|exact H2]. exists k', v'. split; [right; exact H1|exact H1']. }
    destruct (Nat.eqb_spec (blen k) 1) as [E|E].
    + apply Hgo. destruct (blen_one_direct k Hk E) as [-> | ->]; [left|right; left]; reflexivity.
    + destruct (starts_with k (lit "./")) eqn:Es; cbn [negb].
      * rewrite walk_segs_eq. cbn [pbind]. apply Hgo. right. right. apply starts_with_spec, Es.
      * right. split; [|eauto]. exists k, v. split; [left; reflexivity|].
        intros [-> | [-> |[s ->]]]; [apply E; reflexivity|apply E; reflexivity|]. rewrite starts_with_app in Es. discriminate.
Qed.
Lemma C35_exports_p : forall j m, from_json j = PRet (MCond m) ->
  ((forall k v, In (k, v) m -> ~ subpath_key k) \/ (forall k v, In (k, v) m -> exports_key_ok k)) /\
    (exists root, build_field FExports j = PRet (Ok root)) \/
  ~ ((forall k v, In (k, v) m -> ~ subpath_key k) \/ (forall k v, In (k, v) m -> exports_key_ok k)) /\
    (exists e, build_field FExports j = PRet (Err e)).
Proof.
  intros j m Hj. cbn [build_field]. unfold build_exports. rewrite Hj. cbn [pbind].
  assert (Hok_sub : forall k, exports_key_ok k -> subpath_key k).
  { intros k [-> | [-> |[s ->]]]; [left; exists []; reflexivity|right; exists []; reflexivity|left; exists (lit "/" ++ s); reflexivity]. }
  destruct (forallb (fun kv => negb (is_direct_key (fst kv))) m) eqn:Ec; cbn [negb andb].
  - left. split; [|eauto]. left. intros k v Hin Hs. rewrite forallb_forall in Ec. apply Ec in Hin. cbn in Hin.
    apply is_direct_spec in Hs. rewrite Hs in Hin. discriminate.
  - destruct (forallb (fun kv => is_direct_key (fst kv)) m) eqn:Ed; cbn [negb].
    + rewrite forallb_forall in Ed. assert (Hd : forall k v, In (k, v) m -> is_direct_key k = true) by (intros k v Hin; apply (Ed _ Hin)).
      destruct (exports_keys_total m ptn_default Hd) as [[H1 H2]|[[k [v [H1 H1']]] H2]]; [left; auto|]. right. split; [|exact H2].
      intros [H|H]; [|exact (H1' (H _ _ H1))]. apply (H _ _ H1). apply is_direct_spec. eapply Hd, H1.
    + right. split; [|eauto]. intros [H|H].
      * rewrite all_cond_true in Ec by exact H. discriminate.
      * assert (forallb (fun kv : str * mv => is_direct_key (fst kv)) m = true); [|congruence].
        apply forallb_forall. intros [k v] Hin. apply is_direct_spec, Hok_sub. eapply H, Hin.
Qed.
Lemma imports_keys_total : forall m root,
  ((forall k v, In (k, v) m -> imports_key_ok k) /\ exists root', imports_keys m root = PRet (Ok root')) \/
  ((exists k v, In (k, v) m /\ ~ imports_key_ok k) /\ exists e, imports_keys m root = PRet (Err e)).
Proof.
  induction m as [|[k v] m IH]; intros root; cbn [imports_keys].
  - left. split; [intros k v []|eauto].
  - assert (Hbad : ~ imports_key_ok k -> forall e, 
      ((forall k' v', In (k', v') ((k, v) :: m) -> imports_key_ok k') /\ exists root', @PRet (result ptn) (Err e) = PRet (Ok root')) \/
      ((exists k' v', In (k', v') ((k, v) :: m) /\ ~ imports_key_ok k') /\ exists e', @PRet (result ptn) (Err e) = PRet (Err e'))).
    { intros H e. right. split; [|eauto]. exists k, v. split; [left; reflexivity|exact H]. }
    destruct (starts_with_char k c_hash) eqn:E1; cbn [negb].
    + destruct (Nat.eqb_spec (blen k) 1) as [E2|E2].
      * apply Hbad. intros [_ [H _]]. apply starts_with_char_spec in E1. destruct E1 as [r ->]. apply H.
        change (c_hash :: r) with (lit "#" ++ r) in E2. rewrite blen_app in E2. cbn in E2.
        assert (r = []) by (apply blen_0; lia). subst. reflexivity.
      * destruct (starts_with k (lit "#/")) eqn:E3.
        -- apply Hbad. intros [_ [_ H]]. apply starts_with_spec in E3. destruct E3 as [r Hr]. exact (H r Hr).
        -- rewrite walk_segs_eq. cbn [pbind].
           assert (Hok : imports_key_ok k).
           { split; [apply starts_with_char_spec in E1; exact E1|]. split.
             - intros ->. apply E2. reflexivity.
             - intros s ->. rewrite starts_with_app in E3. discriminate. }
           destruct (IH (walk_segs (split_on c_slash (skipn 1 k)) root v)) as [[H1 H2]|[[k' [v' [H1 H1']]] H2]].
           ++ left. split; [|exact H2]. intros k' v' [E|Hin]; [inversion E; subst; exact Hok|]. eapply H1, Hin.
           ++ right. split; [|exact H2]. exists k', v'. split; [right; exact H1|exact H1'].
    + apply Hbad. intros [H _]. change (exists s, k = c_hash :: s) in H. apply starts_with_char_spec in H. rewrite H in E1. discriminate.
Qed.
Lemma C35_imports_p : forall j m, from_json j = PRet (MCond m) ->
  (forall k v, In (k, v) m -> imports_key_ok k) /\ (exists root, build_field FImports j = PRet (Ok root)) \/
  ~ (forall k v, In (k, v) m -> imports_key_ok k) /\ (exists e, build_field FImports j = PRet (Err e)).
Proof.
  intros j m Hj. cbn [build_field]. unfold build_imports. rewrite Hj. cbn [pbind].
  destruct (imports_keys_total m ptn_default) as [H|[[k [v [H1 H1']]] H2]]; [left; exact H|]. right. split; [|exact H2].
  intros H. exact (H1' (H _ _ H1)).
Qed.

(** ** Determinism of [targets] *)
Scheme targets_mind := Induction for targets Sort Prop
  with array_targets_mind := Induction for array_targets Sort Prop.
Combined Scheme targets_both from targets_mind, array_targets_mind.
Lemma targets_det : forall names,
  (forall v t, targets names v t -> distinct v -> forall t', targets names v t' -> forall l, t = Ok l -> t' = Ok l) /\
  (forall a t, array_targets names a t -> (forall m, In (ACond m) a -> distinct (MCond m)) -> forall t', array_targets names a t' -> forall l, t = Ok l -> t' = Ok l).
Proof.
  intros names. apply targets_both.
  - intros t _ t' H l E. inversion H; subst. exact E.
  - intros m Hc Hd t' H l E. inversion E; subst. inversion H as [|? H1|? ? H1|? ? ? H1 _|]; subst; [reflexivity| |].
    + pose proof (choose_det _ _ _ Hc _ H1). discriminate.
    + pose proof (choose_det _ _ _ Hc _ H1). discriminate.
  - intros m e Hc Hd t' H l E. discriminate.
  - intros m v r Hc Ht IH Hd t' H l E. subst r. inversion H as [|? H1|? ? H1|? ? ? H1 H2|]; subst.
    + pose proof (choose_det _ _ _ Hc _ H1). discriminate.
    + pose proof (choose_det _ _ _ Hc _ H1). discriminate.
    + pose proof (choose_det _ _ _ Hc _ H1) as E. inversion E; subst. eapply IH; [|exact H2|reflexivity].
      eapply choose_some; [exact Hc|reflexivity|exact Hd].
  - intros a r Ha IH Hd t' H l E. inversion H; subst. inversion Hd; subst. eapply IH; eauto.
  - intros _ t' H l E. inversion H; subst. exact E.
  - intros t a l Ha IH Hd t' H l0 E. inversion E; subst.
    assert (Hd' : forall m, In (ACond m) a -> distinct (MCond m)) by (intros m Hm; apply Hd; right; exact Hm).
    inversion H; subst.
    + match goal with A : array_targets _ _ (Ok _) |- _ => specialize (IH Hd' _ A _ eq_refl) end. inversion IH; subst. reflexivity.
    + match goal with A : array_targets _ _ (Err _) |- _ => specialize (IH Hd' _ A _ eq_refl) end. discriminate.
  - intros m a l l' Ht IHt Ha IHa Hd t' H l0 E. inversion E; subst.
    assert (Hd' : forall m, In (ACond m) a -> distinct (MCond m)) by (intros m' Hm; apply Hd; right; exact Hm).
    assert (Hdm : distinct (MCond m)) by (apply Hd; left; reflexivity).
    inversion H; subst.
    + match goal with A : targets _ _ (Ok _), B : array_targets _ _ (Ok _) |- _ =>
        pose proof (IHt Hdm _ A _ eq_refl) as E1; pose proof (IHa Hd' _ B _ eq_refl) as E2 end.
      inversion E1; inversion E2; subst. reflexivity.
    + match goal with A : targets _ _ (Err _) |- _ => specialize (IHt Hdm _ A _ eq_refl) end. discriminate.
    + match goal with A : array_targets _ _ (Err _) |- _ => specialize (IHa Hd' _ A _ eq_refl) end. discriminate.
  - intros m a e Ht IHt Hd t' H l E. discriminate.
  - intros x a e Ha IH Hd t' H l E. discriminate.
Qed.
Lemma selected_distinct : forall pre m sub v p x, distinct (MCond m) -> selects (sub_entries pre m) sub (Some (v, p, x)) -> distinct v.
Proof.
  intros pre m sub v p x Hd H. destruct (distinct_cond _ Hd) as [_ Hin].
  inversion H; subst; match goal with K : In _ (sub_entries _ _) |- _ => apply sub_entries_in in K; eapply Hin, K end.
Qed.
Lemma C36_p : forall fk j m root sub names v p x out,
  from_json j = PRet (MCond m) -> build_field fk j = PRet (Ok root) -> subpaths fk m -> good_sub fk sub ->
  selects (sub_entries (pre_of fk) m) sub (Some (v, p, x)) ->
  field_process fk root (pre_of fk ++ sub) names = PRet (Ok out) ->
  exists l, targets names v (Ok l) /\ (forall l', targets names v l' -> l' = Ok l) /\
    (forall t, In t l -> target_valid fk p t) /\ Forall2 (rewritten sub p x) l out.
Proof.
  intros fk j m root sub names v p x out Hj Hb Hs Hg Hsel H.
  destruct (C30_serves_p fk j m root sub names Hj Hb Hs Hg) as [o [H1 [H2 H3]]]. rewrite H in H3.
  pose proof (H2 _ Hsel) as E. subst o. cbn [serves] in H3.
  destruct H3 as [[e [_ [e' E]]]|[l [H4 [[_ [e E]]|[H5 [out' [E H6]]]]]]]; try discriminate. inversion E; subst out'.
  exists l. split; [exact H4|]. split; [|split; assumption]. intros l' Hl'.
  eapply (proj1 (targets_det names)); [exact H4| |exact Hl'|reflexivity].
  eapply selected_distinct; [|exact Hsel]. eapply from_json_distinct, Hj.
Qed.
Lemma C31_partial_p : forall fk j m root sub names v p x out,
  from_json j = PRet (MCond m) -> build_field fk j = PRet (Ok root) -> subpaths fk m -> good_sub fk sub ->
  selects (sub_entries (pre_of fk) m) sub (Some (v, p, x)) ->
  field_process fk root (pre_of fk ++ sub) names = PRet (Ok out) -> ~ In 36%N sub ->
  exists l, targets names v (Ok l) /\
    ((forall s t, p = PExact s -> In t l -> ~ In 42%N t) -> Forall2 (substituted p x) l out).
Proof.
  intros fk j m root sub names v p x out Hj Hb Hs Hg Hsel H Hd.
  destruct (C36_p _ _ _ _ _ _ _ _ _ _ Hj Hb Hs Hg Hsel H) as [l [H1 [_ [_ H2]]]]. exists l. split; [exact H1|]. intros Hst.
  assert (Hl : leaves p sub x) by (inversion Hsel; subst; [constructor|assumption]).
  clear H1 H. induction H2 as [|t s l out H H2 IH]; constructor.
  - eapply rewritten_substituted; eauto. intros e E. eapply Hst; [exact E|left; reflexivity].
  - apply IH. intros e u E Hu. eapply Hst; [exact E|right; exact Hu].
Qed.
Lemma C32_bad_p : forall j m root sub names v p x l t,
  from_json j = PRet (MCond m) -> build_field FExports j = PRet (Ok root) -> subpaths FExports m -> good_sub FExports sub ->
  selects (sub_entries (pre_of FExports) m) sub (Some (v, p, x)) -> targets names v (Ok l) -> In t l -> leaves_package t ->
  exists e, field_process FExports root (pre_of FExports ++ sub) names = PRet (Err e).
Proof.
  intros j m root sub names v p x l t Hj Hb Hs Hg Hsel Ht Hin Hbad.
  destruct (C30_serves_p FExports j m root sub names Hj Hb Hs Hg) as [o [H1 [H2 H3]]].
  pose proof (H2 _ Hsel) as E. subst o. cbn [serves] in H3.
  assert (Hdv : distinct v) by (eapply selected_distinct; [eapply from_json_distinct, Hj|exact Hsel]).
  destruct H3 as [[e [_ H3]]|[l' [H4 [[_ H3]|[H5 _]]]]]; [exact H3|exact H3|].
  pose proof (proj1 (targets_det names) _ _ Ht Hdv _ H4 _ eq_refl) as E. inversion E; subst l'.
  exfalso. destruct (H5 t Hin) as [Hr _]. eapply relative_safe; [apply Hr; reflexivity|exact Hbad].
Qed.

(** ** Examples and corollaries *)
Definition A_ (l : list json) : json := JArr l.
Definition field_answer (fk : field) (j : json) (req : string) (names : list string) : pcomp (result (list str)) :=
  plet r := build_field fk j in
  match r with Ok root => field_process fk root (lit req) (map lit names) | Err e => PRet (Err e) end.
Definition strs (l : list string) : pcomp (result (list str)) := PRet (Ok (map lit l)).
Definition j1 : json :=
  O [("./a", S_ "./a.js"); ("./f/", S_ "./src/"); ("./f/*", S_ "./star/*.js"); ("./f/x*", A_ [S_ "./x/*"; O [("node", S_ "./n/*"); ("default", S_ "./d/*")]]);
     (".", O [("import", O [("node", S_ "./in.mjs")]); ("default", S_ "./main.js")])]%string.
Lemma p_C28_ex :
  let m := [(lit "node", MCond [(lit "deno", MDirect (lit "x")); (lit "browser", MDirect (lit "y"))]); (lit "import", MDirect (lit "z")); (lit "default", MDirect (lit "w"))] in
  conditional_mapping m [lit "import"; lit "node"] = PRet (Ok (Some (MDirect (lit "z")))) /\
  conditional_mapping m [lit "node"; lit "browser"] = PRet (Ok (Some (MDirect (lit "y")))) /\
  conditional_mapping m [] = PRet (Ok (Some (MDirect (lit "w")))) /\
  conditional_mapping (rev m) [] = PRet (Err (lit "Default condition should be last one")).
Proof. repeat split. Qed.
Lemma p_C29_permuted : forall fk j root req names names', build_field fk j = PRet (Ok root) -> Permutation names names' ->
  field_process fk root req names = field_process fk root req names'.
Proof.
  intros fk j root req names names' Hb Hp. eapply C29_p; [exact Hb|]. intros c _.
  split; apply Permutation_in; [exact Hp|apply Permutation_sym, Hp].
Qed.
Lemma p_C29_unused_or_repeated : forall fk j root req names c, build_field fk j = PRet (Ok root) ->
  In c names \/ ~ json_key c j -> field_process fk root req (c :: names) = field_process fk root req names.
Proof.
  intros fk j root req names c Hb Hc. eapply C29_p; [exact Hb|]. intros d Hd. cbn [In].
  split; [intros [->|H]; [tauto|exact H]|auto].
Qed.
Lemma p_C29_ex : (field_answer FExports j1 "." ["node"; "import"; "node"; "zzz"] = strs ["./in.mjs"] /\
  field_answer FExports j1 "." ["import"; "node"] = strs ["./in.mjs"] /\ field_answer FExports j1 "." ["import"] = strs ["./main.js"])%string.
Proof. repeat split. Qed.
Lemma p_C30_ex : (field_answer FExports j1 "./a" [] = strs ["./a.js"] /\ field_answer FExports j1 "./f/q/r" [] = strs ["./star/q/r.js"] /\
  field_answer FExports j1 "./f/xy" ["node"] = strs ["./x/y"; "./n/y"] /\ field_answer FExports j1 "./b" [] = strs [] /\
  field_answer FImports (O [("#a/*", S_ "x/*"); ("#a/", S_ "y/")]) "#a/b" [] = strs ["x/b"])%string.
Proof. repeat split. Qed.
Lemma p_C30_ex_hyp : good_sub FExports (lit "f/q/r") /\ exists m root, from_json j1 = PRet (MCond m) /\
  build_field FExports j1 = PRet (Ok root) /\ subpaths FExports m /\ dot_only m.
Proof.
  split.
  - split; [repeat constructor|]. split; [discriminate|]. split; [|discriminate].
    intros r E. apply (f_equal (fun s => last s 0%N)) in E. change (lit "/") with [47%N] in E. rewrite last_last in E. discriminate.
  - eexists. eexists. split; [reflexivity|]. split; [reflexivity|]. split.
    + eexists. eexists. split; [left; reflexivity|]. left. exists (lit "/a"). reflexivity.
    + intros H. cbn in H. repeat (destruct H as [H|H]; [discriminate|]). destruct H.
Qed.
Lemma p_C31_substitution_refuted : exists j m root v p x l out sub,
  from_json j = PRet (MCond m) /\ build_field FExports j = PRet (Ok root) /\ good_sub FExports sub /\
  selects (sub_entries (pre_of FExports) m) sub (Some (v, p, x)) /\ targets [] v (Ok l) /\
  field_process FExports root (pre_of FExports ++ sub) [] = PRet (Ok out) /\ ~ Forall2 (substituted p x) l out.
Proof.
  exists (O [("./*", S_ "./s/*.js")])%string. eexists. eexists.
  exists (MDirect (lit "./s/*.js")), (PStar []), (lit "a$b"), [lit "./s/*.js"], [lit "./s/a$$b.js"], (lit "a$b").
  split; [reflexivity|]. split; [reflexivity|]. split.
  { split; [repeat constructor|]. split; [discriminate|]. split; [|discriminate].
    intros r E. apply (f_equal (fun s => last s 0%N)) in E. change (lit "/") with [47%N] in E. rewrite last_last in E. discriminate. }
  split.
  { eapply SelPattern with (k := lit "*").
    - intros v [E|[]]. discriminate.
    - left. reflexivity.
    - exact (ClStar []).
    - exact (LvStar [] (lit "a$b")).
    - intros k' v' p' x' [E|[]] _ _. left. inversion E. reflexivity. }
  split; [constructor|]. split; [reflexivity|]. intros H. inversion H as [|? ? ? ? H1]; subst.
  inversion H1.
Qed.
Lemma p_C31_exact_ex : (field_answer FExports (O [("./a/b", S_ "./s/*.js")]) "./a/b" [] = strs ["./s/b.js"])%string.
Proof. reflexivity. Qed.
Lemma p_C31_ex : (field_answer FExports j1 "./f/xy/z" ["node"] = strs ["./x/y/z"; "./n/y/z"] /\
  field_answer FExports (O [("./f/", S_ "./src/")]) "./f/a*b" [] = strs ["./src/a*b"])%string.
Proof. repeat split. Qed.
Lemma p_C32_relative_refuted : exists j root req out s, build_field FExports j = PRet (Ok root) /\
  field_process FExports root req [] = PRet (Ok out) /\ In s out /\ leaves_package s.
Proof.
  exists (O [("./*", S_ "*x")])%string. eexists. exists (lit "./../etc"), [lit "../etcx"], (lit "../etcx").
  split; [reflexivity|]. split; [reflexivity|]. split; [left; reflexivity|]. right. right. exists (lit "etcx"). reflexivity.
Qed.
Lemma p_C32_ex_hyp : let j := JObj [(lit "./f/*", JStr (lit "./star/*.js"))] in
  (forall t, json_string t j -> forall r, t <> lit "*" ++ r) /\ field_answer FExports j "./f/../../x" [] = PRet (Ok [lit "./star/../../x.js"]).
Proof.
  split; [|reflexivity]. intros t H r ->. inversion H as [|? ? H1 H2|? ? ? H1 H2]; subst. destruct H1 as [E|[]].
  apply (f_equal snd) in E. cbn [snd] in E. subst. inversion H2.
Qed.
Lemma p_C32_ex : (exists e, field_answer FExports (O [("./*", A_ [S_ "./ok/*"; S_ "../*"])]) "./a" [] = PRet (Err e))%string.
Proof. eexists. reflexivity. Qed.
Lemma p_C33_check_target_refuted : exists p, check_target p = PRet true /\ ~ stays_inside p.
Proof. exists (lit ".//../x"). split; [reflexivity|]. intros H. apply H. reflexivity. Qed.
Lemma p_C33_ex_last : check_target (lit "./a/../..") = PRet true /\ ~ stays_inside (lit "./a/../..").
Proof. split; [reflexivity|]. intros H. apply H. reflexivity. Qed.
Lemma p_C33_ex : check_target (lit "./a/../b.js") = PRet true /\ stays_inside (lit "./a/../b.js") /\
  check_target (lit "./a/../../b.js") = PRet false.
Proof. split; [reflexivity|]. split; [|reflexivity]. intros H. discriminate. Qed.
Lemma p_C35_slash_key_refuted : exists j root, j = O [("/", S_ "./a")]%string /\ build_field FExports j = PRet (Ok root) /\
  field_process FExports root (lit ".") [] = PRet (Ok [lit "./a"]).
Proof. eexists. eexists. split; [reflexivity|]. split; reflexivity. Qed.
Lemma p_C35_ex : ((exists e, build_field FExports (O [("./a", S_ "x"); ("node", S_ "y")]) = PRet (Err e)) /\
  (exists e, build_field FExports (O [(".a", S_ "x")]) = PRet (Err e)) /\
  (exists e, build_field FImports (O [("#/a", S_ "x")]) = PRet (Err e)) /\
  (exists r, build_field FImports (O [("#a", S_ "x")]) = PRet (Ok r)) /\
  (exists e, field_answer FExports j1 "./f/" [] = PRet (Err e)))%string.
Proof. repeat split; eexists; reflexivity. Qed.
Lemma p_C36_ex : (field_answer FExports j1 "./f/xy" ["deno"] = strs ["./x/y"; "./d/y"])%string.
Proof. reflexivity. Qed.
