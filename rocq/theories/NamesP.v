(** * The exports/imports field sees condition names only through membership (C29). *)
From Coq Require Import String.
From Coq Require Import List Arith NArith ZArith Bool Lia.
From Verif Require Import Str StrP Json Types Map SpecMap SpecField MapP TrieP FieldP.
Import ListNotations.

Section Names.
Variables names names' : list str.
Definition agrees (v : mv) : Prop := forall c, occurs c v -> mem c names = mem c names'.

Lemma cond_for_agree : forall m len rest i, (forall c, In c rest -> mem c names = mem c names') ->
  cond_for names m len i rest = cond_for names' m len i rest.
Proof.
  intros m len. induction rest as [|c rest IH]; intros i H; [reflexivity|]. cbn [cond_for].
  rewrite (H c (or_introl eq_refl)). rewrite IH by (intros x Hx; apply H; right; exact Hx). reflexivity.
Qed.
Lemma cond_for_below : forall nm m len rest i,
  match cond_for nm m len i rest with
  | ScanPush _ inner => exists c, In (c, MCond inner) m
  | ScanRet v => exists c, In (c, v) m
  | _ => True
  end.
Proof.
  intros nm m len. induction rest as [|c rest IH]; intros i; [exact I|]. cbn [cond_for].
  destruct (_ && _); [exact I|].
  assert (G : match (if mem c nm then match imap_get m c with
            | Some (MCond inner) => ScanPush i inner | Some v => ScanRet v | None => cond_for nm m len (S i) rest end
          else cond_for nm m len (S i) rest) with
  | ScanPush _ inner => exists c, In (c, MCond inner) m
  | ScanRet v => exists c, In (c, v) m
  | _ => True end).
  { destruct (mem c nm); [|apply IH]. destruct (imap_get m c) as [[s|inner|a]|] eqn:E; try apply IH;
      apply imap_get_In in E; eauto. }
  destruct (str_eqb c s_default); [|exact G].
  destruct (imap_get m s_default) as [[s|inner|a]|] eqn:E; try exact G; apply imap_get_In in E; eauto.
Qed.
Lemma cond_loop_agree : forall f lookup,
  Forall (fun e : cmap * list str * nat => agrees (MCond (fst (fst e))) /\ snd (fst e) = map fst (fst (fst e))) lookup ->
  cond_loop f names lookup = cond_loop f names' lookup /\
  (forall v, cond_loop f names lookup = PRet (Ok (Some v)) -> agrees v).
Proof.
  induction f as [|f IH]; intros lookup H; [split; [reflexivity|discriminate]|].
  destruct lookup as [|[[m conds] j] below]; [split; [reflexivity|discriminate]|].
  inversion H as [|? ? [Ha Hc] Hb]; subst. cbn [fst snd] in Ha, Hc. subst conds. cbn [cond_loop].
  assert (Hk : forall c, In c (skipn j (map fst m)) -> mem c names = mem c names').
  { intros c Hc. apply Ha. assert (Hin : In c (map fst m)).
    { rewrite <- (firstn_skipn j (map fst m)). apply in_or_app. right. exact Hc. }
    apply in_map_iff in Hin. destruct Hin as [[k v] [Ek Hin]]. cbn in Ek. subst k. eapply OccHere, Hin. }
  rewrite <- (cond_for_agree m _ _ j Hk).
  pose proof (cond_for_below names m (length (map fst m)) (skipn j (map fst m)) j) as Hbl.
  destruct (cond_for names m (length (map fst m)) j (skipn j (map fst m))) as [|v|i inner|].
  - split; [reflexivity|discriminate].
  - split; [reflexivity|]. intros w E. inversion E; subst w. destruct Hbl as [c Hin].
    intros c' Ho. apply Ha. eapply OccBelow; eassumption.
  - apply IH. destruct Hbl as [c Hin]. constructor; [|constructor; [split; [exact Ha|reflexivity]|exact Hb]].
    cbn [fst snd]. split; [|reflexivity]. intros c' Ho. apply Ha. eapply OccBelow; eassumption.
  - apply IH, Hb.
Qed.
Lemma conditional_agree : forall m, agrees (MCond m) ->
  conditional_mapping m names = conditional_mapping m names' /\
  (forall v, conditional_mapping m names = PRet (Ok (Some v)) -> agrees v).
Proof. intros m H. apply cond_loop_agree. constructor; [|constructor]. split; [exact H|reflexivity]. Qed.
Lemma mapping_agree : forall f fk rm sp v, agrees v -> mapping f fk rm sp v names = mapping f fk rm sp v names'.
Proof.
  induction f as [|f IH]; intros fk rm sp v H; [reflexivity|]. destruct v as [s|m|a].
  - reflexivity.
  - cbn [mapping]. destruct (conditional_agree m H) as [E Hv]. rewrite <- E.
    destruct (conditional_mapping m names) as [[[v|]|e]|p|]; try reflexivity. cbn [pbind]. apply IH, Hv. reflexivity.
  - rewrite !mapping_array.
    assert (Ha : forall m, In (ACond m) a -> agrees (MCond m)) by (intros m Hm c Ho; apply H; eapply OccArray; eassumption).
    clear H. generalize (@nil str). induction a as [|[s|m] a IHa]; intros acc; cbn [map_array]; [reflexivity| |].
    + destruct (target_mapping fk rm sp s); [|reflexivity]. apply IHa. intros m Hm. apply Ha. right. exact Hm.
    + fold (map_array f fk rm sp names) (map_array f fk rm sp names').
      destruct (conditional_agree m (Ha m (or_introl eq_refl))) as [E Hv]. rewrite <- E.
      assert (Ha' : forall m, In (ACond m) a -> agrees (MCond m)) by (intros m' Hm; apply Ha; right; exact Hm).
      destruct (conditional_mapping m names) as [[[v|]|e]|p|]; try reflexivity; cbn [pbind].
      * rewrite <- (IH fk rm sp v (Hv v eq_refl)).
        destruct (mapping f fk rm sp v names) as [[l|e]|p|]; try reflexivity. apply IHa, Ha'.
      * apply IHa, Ha'.
Qed.
End Names.

(** Everything [find_match] returns is stored in the tree. *)
Section Found.
Variable P : mv -> Prop.
Definition good (m : fmatch) : Prop := forall v i, m = Some (v, i) -> P v.
Lemma folder_good : forall node m last, trie_ok P node -> good m -> good (apply_folder_mapping m node last).
Proof.
  intros node m last H Hm. unfold apply_folder_mapping. destruct (t_folder node) as [v|] eqn:E; [|exact Hm].
  intros w i Ew. inversion Ew; subst. inversion H; auto.
Qed.
Lemma wild_good : forall node m rm last, trie_ok P node -> good m -> good (apply_wildcard_mappings m node rm last).
Proof.
  intros node m rm last H Hm. unfold apply_wildcard_mappings. inversion H as [n H1 H2 H3 H4 H5 H6]; subst. unfold wilds in H5.
  destruct (t_wildcards node) as [w|]; [|exact Hm]. clear - H5 Hm. revert m Hm. induction w as [|[k t] w IH]; intros m Hm; [exact Hm|].
  cbn [apply_wildcards]. apply IH; [intros k' v' Hin; apply (H5 k'); right; exact Hin|].
  assert (Ht : P t) by (apply (H5 k); left; reflexivity).
  destruct (starts_with rm k); [|exact Hm]. destruct m as [[v i]|].
  - destruct (i <? _)%Z; [|exact Hm]. intros w' i' E. inversion E; subst. exact Ht.
  - intros w' i' E. inversion E; subst. exact Ht.
Qed.
Lemma loop_good : forall f req lst node last m m', trie_ok P node -> good m ->
  find_match_loop f req lst node last m = PRet m' -> good m'.
Proof.
  induction f as [|f IH]; intros req lst node last m m' H Hm E; [discriminate|]. cbn [find_match_loop] in E.
  pose proof (folder_good node m last H Hm) as Hf.
  destruct (next_slash lst last) as [i|].
  - destruct (_ && _); [inversion E; subst; exact Hf|].
    pose proof (wild_good node _ (char_slice req last i) last H Hf) as Hw.
    destruct (t_children node) as [ch|] eqn:Ec; [|inversion E; subst; exact Hw].
    destruct (imap_get ch (char_slice req last i)) as [n|] eqn:En; [|inversion E; subst; exact Hw].
    eapply IH; [|exact Hw|exact E]. inversion H as [? _ _ H3 _ _ _]; subst. apply imap_get_In in En.
    eapply H3. unfold kids. rewrite Ec. exact En.
  - destruct (imap_get (t_files node) (skipn last req)) as [v|] eqn:Ev.
    + inversion E; subst. intros w i Ew. inversion Ew; subst. apply imap_get_In in Ev. inversion H; eauto.
    + inversion E; subst. apply wild_good; assumption.
Qed.
Lemma find_match_good : forall root req m, trie_ok P root -> find_match root req = PRet m -> good m.
Proof.
  intros root req m H E. unfold find_match in E.
  assert (G : forall k (i : Z) (o : fmatch), o = match imap_get (t_files root) k with Some v => Some (v, i) | None => None end -> good o).
  { intros k i o -> v j Ev. destruct (imap_get (t_files root) k) eqn:Ek; [|discriminate]. inversion Ev; subst.
    apply imap_get_In in Ek. inversion H; eauto. }
  destruct req as [|c req].
  - inversion E; subst. eapply G. reflexivity.
  - destruct (_ && _).
    + inversion E; subst. eapply G. reflexivity.
    + eapply loop_good; [exact H| |exact E]. intros v i Ev. discriminate.
Qed.
End Found.

Lemma build_ok : forall (P : mv -> Prop) fk j v root, from_json j = PRet v -> P v ->
  (forall m k w, v = MCond m -> In (k, w) m -> P w) -> build_field fk j = PRet (Ok root) -> trie_ok P root.
Proof.
  intros P fk j v root Hj HP Hm H. pose proof (from_json_distinct j v Hj) as Hd.
  assert (Hsingle : forall w, P w -> trie_ok P (set_files ptn_default [([], w)])).
  { intros w Hw. exact (trie_setdot P ptn_default w (trie_default P) Hw). }
  assert (Hmm : forall m, v = MCond m -> NoDup (map fst m) /\ forall k w, In (k, w) m -> P w).
  { intros m ->. inversion Hd; subst. split; [assumption|]. eauto. }
  destruct fk; cbn [build_field] in H; unfold build_exports, build_imports in H; rewrite Hj in H; cbn [pbind] in H.
  - destruct v as [s|m|a]; [inversion H; subst; auto| |inversion H; subst; auto].
    destruct (Hmm m eq_refl) as [Hnd Hmp].
    destruct (_ && _); [discriminate|]. destruct (forallb _ m); [inversion H; subst; auto|].
    eapply exports_keys_spec in H; eauto using trie_default. apply H.
  - destruct v as [s|m|a]; [discriminate| |discriminate]. destruct (Hmm m eq_refl) as [Hnd Hmp].
    eapply imports_keys_spec in H; eauto using trie_default. apply H.
Qed.

Lemma mem_same : forall names names' c, (In c names <-> In c names') -> mem c names = mem c names'.
Proof.
  intros names names' c H. destruct (mem c names) eqn:E1; destruct (mem c names') eqn:E2; try reflexivity.
  - apply mem_In in E1. apply H in E1. apply mem_In in E1. congruence.
  - apply mem_In in E2. apply H in E2. apply mem_In in E2. congruence.
Qed.
Lemma from_json_agrees : forall names names' j v, (forall c, json_key c j -> mem c names = mem c names') ->
  from_json j = PRet v -> agrees names names' v.
Proof.
  intros names names'. apply (from_json_all (agrees names names') (fun j => forall c, json_key c j -> mem c names = mem c names')).
  - intros l x H Hin c Hc. apply H. eapply JkArr; eassumption.
  - intros l k x H Hin c Hc. apply H. eapply JkObj; eassumption.
  - intros s c Ho. inversion Ho.
  - intros a H c Ho. inversion Ho; subst. eapply H; eassumption.
  - intros l m H _ Hm c Ho. inversion Ho; subst.
    + destruct (Hm _ _ H1) as [_ Hin]. apply in_map_iff in Hin. destruct Hin as [[k x] [E Hin]]. cbn in E. subst k.
      apply H. eapply JkHere, Hin.
    + destruct (Hm _ _ H1) as [Hv _]. apply Hv, H2.
Qed.
Lemma field_process_agree : forall names names' fk j root req,
  (forall c, json_key c j -> mem c names = mem c names') -> build_field fk j = PRet (Ok root) ->
  field_process fk root req names = field_process fk root req names'.
Proof.
  intros names names' fk j root req H Hb.
  assert (Hj : exists v, from_json j = PRet v).
  { destruct fk; cbn [build_field] in Hb; unfold build_exports, build_imports in Hb; apply pbind_ret in Hb; destruct Hb as [v [Hv _]]; eauto. }
  destruct Hj as [v Hj]. pose proof (from_json_agrees _ _ _ _ H Hj) as Ha.
  assert (Hok : trie_ok (agrees names names') root).
  { eapply build_ok; [exact Hj|exact Ha| |exact Hb]. intros m k w -> Hin c Ho. apply Ha. eapply OccBelow; eassumption. }
  unfold field_process. destruct (assert_request fk req) as [r|e]; [|reflexivity].
  destruct (find_match root r) as [[[w i]|]|p|] eqn:E; try reflexivity. cbn [pbind].
  apply mapping_agree. eapply find_match_good; [exact Hok|exact E|reflexivity].
Qed.
