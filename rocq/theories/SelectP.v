(** * From the trie to the specification of selection and substitution. *)
From Coq Require Import String.
From Coq Require Import List Arith NArith ZArith Bool Lia.
From Verif Require Import Str StrP Json Types Map SpecMap MapP TrieP FindP.
Import ListNotations.

(** ** [find_match] *)
Definition seg_of (s : str) : str := last (split_on c_slash s) [].
Lemma last_split : forall p seg, is_dir_key p -> ~ In c_slash seg -> seg_of (p ++ seg) = seg.
Proof.
  intros p seg Hp Hs. unfold seg_of. destruct Hp as [->|[q ->]].
  - cbn [app]. rewrite split_on_nosep by exact Hs. reflexivity.
  - rewrite <- app_assoc. cbn [app]. induction q as [|c q IH]; cbn [app split_on].
    + rewrite N.eqb_refl. rewrite split_on_nosep by exact Hs. reflexivity.
    + destruct (N.eqb c c_slash).
      * destruct (split_on_cons_ne c_slash (q ++ c_slash :: seg)) as [h [t E]]. rewrite E in *. exact IH.
      * destruct (split_on_cons_ne c_slash (q ++ c_slash :: seg)) as [h [t E]]. rewrite E in *.
        destruct t; [|exact IH]. cbn in IH. subst h. exfalso.
        assert (Hl : length (split_on c_slash (q ++ c_slash :: seg)) >= 2).
        { clear. induction q as [|c q IH]; cbn [app split_on].
          - rewrite N.eqb_refl. destruct (split_on_cons_ne c_slash seg) as [h [t E]]. rewrite E. cbn. lia.
          - destruct (N.eqb c c_slash); [cbn; lia|].
            destruct (split_on c_slash (q ++ c_slash :: seg)) as [|h t]; cbn in *; lia. }
        rewrite E in Hl. cbn in Hl. lia.
Qed.
Lemma dir_key_nil_end : forall s, s <> [] -> ends_with_char s c_slash = false -> ~ is_dir_key s.
Proof.
  intros s Hn He [H|[q H]]; [contradiction|].
  assert (ends_with_char s c_slash = true) by (apply ends_with_char_spec; eauto). congruence.
Qed.
Lemma find_match_best : forall root req, trie_ok (fun _ => True) root -> ascii_str req -> req <> [] ->
  ends_with_char req c_slash = false ->
  exists m, find_match root req = PRet m /\
   ((exists v, stored root req = Some v /\ ends_with_char req c_star = false /\
       m = Some (v, (Z.of_nat (length (seg_of req)) + 1)%Z)) \/
    ((stored root req = None \/ ends_with_char req c_star = true) /\ best (cand root req) m)).
Proof.
  intros root req Hok Ha Hne He. unfold find_match. destruct req as [|c0 req0] eqn:Er; [contradiction|].
  rewrite <- Er in *. clear Hne. assert (Hne : req <> []) by congruence.
  destruct (is_none (t_children root) && is_none (t_folder root) && is_none (t_wildcards root)) eqn:Eq.
  - apply andb_true_iff in Eq. destruct Eq as [Eq E3]. apply andb_true_iff in Eq. destruct Eq as [E1 E2].
    assert (Hk : kids root = []) by (unfold kids; destruct (t_children root); [discriminate|reflexivity]).
    assert (Hw : wilds root = []) by (unfold wilds; destruct (t_wildcards root); [discriminate|reflexivity]).
    assert (Hf : t_folder root = None) by (destruct (t_folder root); [discriminate|reflexivity]).
    assert (Hst : forall k v, stored root k = Some v -> ~ In c_slash k /\ k <> [] /\ ends_with_char k c_star = false /\ imap_get (t_files root) k = Some v).
    { intros k v H. unfold stored in H. destruct (find_char k c_slash) as [[a b]|] eqn:E.
      - apply find_char_some in E. destruct E as [-> Hn]. rewrite split_on_app in H by exact Hn.
        destruct (split_on_cons_ne c_slash b) as [h [t Es]]. rewrite Es, tget_cons, Hk in H. discriminate.
      - apply find_char_none in E. rewrite split_on_nosep in H by exact E. cbn [tget] in H. unfold leaf_get in H.
        destruct k as [|c k]; [congruence|]. destruct (ends_with_char (c :: k) c_star) eqn:Ee.
        + rewrite Hw in H. discriminate.
        + repeat split; auto. discriminate. }
    assert (Hbn : best (cand root req) None).
    { intros v i r [p [x [_ [[H _]|[Hp [H _]]]]]]; apply Hst in H; destruct H as [H1 [H2 [H3 H4]]].
      - assert (ends_with_char (p ++ [c_star]) c_star = true) by (apply ends_with_char_spec; eauto). congruence.
      - destruct Hp as [->|[q ->]]; [contradiction|]. apply H1, in_app_iff. right. left. reflexivity. }
    inversion Hok as [? _ Hfk _ _ _ _]; subst.
    destruct (imap_get (t_files root) (c0 :: req0)) as [v|] eqn:Eg.
    + pose proof (imap_get_In _ _ _ Eg) as Hin. apply Hfk in Hin. destruct Hin as [Hs1 Hs2].
      eexists. split; [reflexivity|]. left. exists v. split; [|split; [exact Hs1|]].
      * unfold stored. rewrite split_on_nosep by exact Hs2. cbn [tget]. unfold leaf_get. rewrite Hs1. exact Eg.
      * rewrite <- (last_split [] (c0 :: req0) (or_introl eq_refl) Hs2) at 1. reflexivity.
    + eexists. split; [reflexivity|]. right. split; [|exact Hbn].
      destruct (stored root (c0 :: req0)) as [v|] eqn:Es; [|auto]. apply Hst in Es. destruct Es as [_ [_ [_ Es]]]. congruence.
  - rewrite find_loop_segs by (cbn; lia). cbn [skipn]. eexists. split; [reflexivity|].
    pose proof (find_segs_best root req Ha (S (length req)) [] root req None ltac:(lia) (at_root root Hok) eq_refl) as H.
    destruct H as [[p [seg [v [H1 [H2 [H3 [H4 [H5 [H6 H7]]]]]]]]]|[H1 H2]].
    + intros v i r [_ H]. cbn in H. lia.
    + left. exists v. split; [exact H4|]. split.
      * destruct (ends_with_char req c_star) eqn:E; [|reflexivity]. exfalso.
        apply ends_with_char_spec in E. destruct E as [q E]. rewrite H1 in E.
        destruct (exists_last H5) as [w [y Ew]]. rewrite Ew, app_assoc in E. apply app_inj_tail in E. destruct E as [_ ->].
        assert (ends_with_char seg c_star = true) by (apply ends_with_char_spec; eauto). congruence.
      * cbn [length] in H7. rewrite H7. rewrite H1, last_split by assumption. reflexivity.
    + right. pose proof (dir_key_nil_end req Hne He) as Hnd. split.
      * destruct H1 as [H1|[H1|H1]]; auto; contradiction.
      * destruct H2 as [H2|H2]; [contradiction|exact H2].
Qed.

(** ** [selects] *)
Definition encodes (sub : str) (o : option (mv * pattern * str)) (m : fmatch) : Prop :=
  match o with
  | None => m = None
  | Some (v, PStar p, _) => m = Some (v, Z.of_nat (length p))
  | Some (v, PFolder p, _) => m = Some (v, (- Z.of_nat (length p) - 1)%Z)
  | Some (v, PExact _, _) => m = Some (v, (Z.of_nat (length (seg_of sub)) + 1)%Z)
  end.
Lemma lit_slash : lit "/" = [c_slash]. Proof. reflexivity. Qed.
Lemma lit_star : lit "*" = [c_star]. Proof. reflexivity. Qed.
Lemma classify_exact : forall s, s <> [] -> ends_with_char s c_slash = false -> ends_with_char s c_star = false -> classify s (PExact s).
Proof.
  intros s Hn H1 H2. constructor; [exact Hn| |]; intros p ->.
  - assert (ends_with_char (p ++ lit "/") c_slash = true) by (apply ends_with_char_spec; exists p; reflexivity). congruence.
  - assert (ends_with_char (p ++ lit "*") c_star = true) by (apply ends_with_char_spec; exists p; reflexivity). congruence.
Qed.
Lemma classify_cases : forall k p, classify k p ->
  (p = PFolder k /\ is_dir_key k) \/ (exists q, p = PStar q /\ k = q ++ [c_star]) \/
  (p = PExact k /\ k <> [] /\ ends_with_char k c_slash = false /\ ends_with_char k c_star = false).
Proof.
  intros k p H. inversion H as [E1 E2|q E1 E2|q E1 E2|s Hn Hs Hst E1 E2]; subst.
  - left. split; [reflexivity|left; reflexivity].
  - left. split; [reflexivity|right; exists q; reflexivity].
  - right. left. exists q. split; reflexivity.
  - right. right. repeat split; auto.
    + destruct (ends_with_char k c_slash) eqn:E; [|reflexivity]. apply ends_with_char_spec in E. destruct E as [r E].
      exfalso. apply (Hs r). exact E.
    + destruct (ends_with_char k c_star) eqn:E; [|reflexivity]. apply ends_with_char_spec in E. destruct E as [r E].
      exfalso. apply (Hst r). exact E.
Qed.
Lemma classify_dir : forall p, is_dir_key p -> classify p (PFolder p).
Proof. intros p [->|[q ->]]; constructor. Qed.
Lemma find_match_selects : forall root sub entries, trie_ok (fun _ => True) root -> ascii_str sub -> sub <> [] ->
  ends_with_char sub c_slash = false ->
  (forall k v, In (k, v) entries <-> stored root k = Some v) ->
  exists o m, selects entries sub o /\ find_match root sub = PRet m /\ encodes sub o m.
Proof.
  intros root sub entries Hok Ha Hne He Hen.
  destruct (find_match_best root sub Hok Ha Hne He) as [m [Hm [[v [H1 [H2 H3]]]|[H1 H2]]]].
  - exists (Some (v, PExact sub, [])), m. split; [|split; [exact Hm|exact H3]].
    apply SelExact; [apply Hen, H1|]. apply classify_exact; assumption.
  - assert (Hnx : forall v, In (sub, v) entries -> ~ classify sub (PExact sub)).
    { intros v Hin Hc. apply Hen in Hin. destruct H1 as [H1|H1]; [congruence|].
      apply classify_cases in Hc. destruct Hc as [[Hc _]|[[q [Hc _]]|[_ [_ [_ Hc]]]]]; congruence. }
    assert (Hcand : forall k v p x, In (k, v) entries -> classify k p -> leaves p sub x ->
       exists i r, cand root sub v i r /\ ((exists q, p = PStar q /\ k = q ++ [c_star] /\ r = 2 * length q + 1) \/
                                           (p = PFolder k /\ r = 2 * length k)) /\ encodes sub (Some (v, p, x)) (Some (v, i))).
    { intros k v p x Hin Hc Hl. destruct (classify_cases k p Hc) as [[-> Hd]|[[q [-> ->]]|[-> [Hk1 Hk2]]]].
      - inversion Hl; subst. do 2 eexists. split; [|split; [right; split; reflexivity|reflexivity]].
        exists k, x. split; [reflexivity|]. right. split; [exact Hd|]. split; [apply Hen, Hin|]. split; reflexivity.
      - inversion Hl; subst. do 2 eexists. split; [|split; [left; exists q; split; [reflexivity|split; reflexivity]|reflexivity]].
        exists q, x. split; [reflexivity|]. left. split; [apply Hen, Hin|]. split; reflexivity.
      - inversion Hl; subst. exfalso. eapply Hnx; eassumption. }
    destruct m as [[v i]|].
    + cbn in H2. destruct H2 as [r [Hc Hmax]]. destruct Hc as [p [x [Hp Hc]]].
      assert (G : forall k pt, In (k, v) entries -> classify k pt -> leaves pt sub x ->
         ((exists q, pt = PStar q /\ k = q ++ [c_star] /\ r = 2 * length q + 1) \/ (pt = PFolder k /\ r = 2 * length k)) ->
         selects entries sub (Some (v, pt, x))).
      { intros k pt Hin Hcl Hl Hr. eapply SelPattern; try eassumption.
        intros k' v' p' x' Hin' Hcl' Hl'. destruct (Hcand k' v' p' x' Hin' Hcl' Hl') as [i' [r' [Hc' [Hr' _]]]].
        apply Hmax in Hc'. unfold preferred.
        destruct Hr as [[q [-> [-> ->]]]|[-> ->]]; destruct Hr' as [[q' [-> [-> ->]]]|[-> ->]]; cbn [prefix_of].
        - destruct (Nat.eq_dec (length q') (length q)) as [E|E]; [|right; left; lia]. left. f_equal.
          inversion Hl as [| |]; subst. inversion Hl'; subst.
          destruct (prefix_cmp q' q x' x) as [z [-> _]]; [congruence|lia|]. rewrite app_length in E.
          destruct z; [rewrite app_nil_r; reflexivity|cbn in E; lia].
        - right. destruct (Nat.eq_dec (length k') (length q)) as [E|E]; [right|left; lia]. split; [exact E|]. eauto.
        - right. left. lia.
        - destruct (Nat.eq_dec (length k') (length k)) as [E|E]; [|right; left; lia]. left.
          inversion Hl; subst. inversion Hl'; subst.
          destruct (prefix_cmp k' k x' x) as [z [-> _]]; [congruence|lia|]. rewrite app_length in E.
          destruct z; [rewrite app_nil_r; reflexivity|cbn in E; lia]. }
      destruct Hc as [[Hc1 [Hc2 Hc3]]|[Hc0 [Hc1 [Hc2 Hc3]]]].
      * exists (Some (v, PStar p, x)), (Some (v, i)). split; [|split; [exact Hm|cbn; rewrite Hc2; reflexivity]].
        apply (G (p ++ [c_star])); [apply Hen, Hc1|exact (ClStar p)|rewrite Hp; constructor|left; eauto].
      * exists (Some (v, PFolder p, x)), (Some (v, i)). split; [|split; [exact Hm|cbn; rewrite Hc2; reflexivity]].
        apply (G p); [apply Hen, Hc1|apply classify_dir, Hc0|rewrite Hp; constructor|right; auto].
    + exists None, None. split; [|split; [exact Hm|reflexivity]]. apply SelNone. intros k v p x Hin Hcl Hl.
      destruct (Hcand k v p x Hin Hcl Hl) as [i [r [Hc _]]]. eapply H2, Hc.
Qed.
Lemma preferred_asym : forall p q, preferred p q -> ~ preferred q p.
Proof.
  intros p q [H|[H [a [b [-> ->]]]]] [H'|[H' [a' [b' [E1 E2]]]]]; try lia. discriminate.
Qed.
Lemma classify_det : forall k p q, classify k p -> classify k q -> p = q.
Proof.
  intros k p q Hp Hq. apply classify_cases in Hp. apply classify_cases in Hq.
  assert (He : forall x c, ends_with_char (x ++ [c]) c = true) by (intros; apply ends_with_char_spec; eauto).
  assert (Hds : forall x, ~ is_dir_key (x ++ [c_star])).
  { intros x [H|[y H]]; [destruct x; discriminate|]. apply app_inj_tail in H. destruct H. discriminate. }
  destruct Hp as [[-> Hp]|[[p' [-> ->]]|[-> [Hp1 [Hp2 Hp3]]]]]; destruct Hq as [[-> Hq]|[[q' [-> Hq]]|[-> [Hq1 [Hq2 Hq3]]]]]; auto.
  - subst k. exfalso. eapply Hds, Hp.
  - exfalso. eapply dir_key_nil_end; eassumption.
  - exfalso. eapply Hds, Hq.
  - apply app_inj_tail in Hq. destruct Hq. congruence.
  - rewrite He in Hq3. discriminate.
  - exfalso. eapply dir_key_nil_end; eassumption.
  - subst k. rewrite He in Hp3. discriminate.
Qed.
Lemma leaves_det : forall p s x y, leaves p s x -> leaves p s y -> x = y.
Proof.
  intros p s x y H1 H2. inversion H1; subst; inversion H2; subst; auto; apply app_inv_head in H; congruence.
Qed.
Lemma selects_det : forall entries sub o o', NoDup (map fst entries) ->
  selects entries sub o -> selects entries sub o' -> o = o'.
Proof.
  intros entries sub o o' Hnd H H'.
  assert (Hf : forall k v v', In (k, v) entries -> In (k, v') entries -> v = v').
  { intros k v v' H1 H2. apply (imap_In_get entries) in H1; [|exact Hnd]. apply (imap_In_get entries) in H2; [|exact Hnd]. congruence. }
  destruct H as [v Hin Hc|k v p x Hnx Hin Hc Hl Hb|Hno]; destruct H' as [v' Hin' Hc'|k' v' p' x' Hnx' Hin' Hc' Hl' Hb'|Hno'].
  - f_equal. f_equal. f_equal. eapply Hf; eassumption.
  - exfalso. eapply Hnx'; eassumption.
  - exfalso. eapply (Hno' sub v); [exact Hin|exact Hc|constructor].
  - exfalso. eapply Hnx; eassumption.
  - assert (k = k').
    { destruct (Hb _ _ _ _ Hin' Hc' Hl') as [E|E]; [auto|]. destruct (Hb' _ _ _ _ Hin Hc Hl) as [E'|E']; [auto|].
      exfalso. eapply preferred_asym; eassumption. }
    subst k'. assert (p = p') by (eapply classify_det; eassumption). subst p'.
    assert (x = x') by (eapply leaves_det; eassumption). subst x'. rewrite (Hf _ _ _ Hin Hin'). reflexivity.
  - exfalso. eapply Hno'; eassumption.
  - exfalso. eapply (Hno sub v'); [exact Hin'|exact Hc'|constructor].
  - exfalso. eapply Hno; eassumption.
  - reflexivity.
Qed.
