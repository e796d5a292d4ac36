(** * The pure functions always come to an end (the fuel given to their loops is enough). *)
From Coq Require Import String.
From Coq Require Import List Arith NArith ZArith Bool Lia.
From Verif Require Import Str StrP Path Json Types Parse Map Prog Desc Resolve Run SpecMap TrieP FindP MapP FieldP NamesP CheckP SpecLoad.
Import ListNotations.

Lemma pbind_end {A B} : forall (p : pcomp A) (f : A -> pcomp B), p <> PFuel -> (forall a, p = PRet a -> f a <> PFuel) -> pbind p f <> PFuel.
Proof. intros [a|m|] f H Hf; cbn [pbind]; [apply Hf; reflexivity|discriminate|contradiction]. Qed.

Lemma check_target_end : forall t, check_target t <> PFuel.
Proof. intros t. rewrite check_target_segs. discriminate. Qed.

Lemma find_match_end : forall root req, find_match root req <> PFuel.
Proof.
  intros root [|c req]; cbn [find_match]; [discriminate|]. destruct (_ && _); [discriminate|].
  rewrite find_loop_segs; [discriminate|]. rewrite skipn_O. lia.
Qed.
Lemma field_process_end : forall fk root req names, trie_ok distinct root -> field_process fk root req names <> PFuel.
Proof.
  intros fk root req names Hok. unfold field_process. destruct (assert_request fk req) as [r|e]; [|discriminate].
  apply pbind_end; [apply find_match_end|]. intros [[v i]|] E; [|discriminate].
  pose proof (find_match_good distinct _ _ _ Hok E) as Hg.
  destruct (mapping_targets (S (mv_size v)) v fk (remaining_of r i) (i <? 0)%Z names) as (t & x & _ & E' & _); [lia|eapply Hg; reflexivity|].
  rewrite E'. discriminate.
Qed.

Lemma from_json_end : forall j, from_json j <> PFuel.
Proof.
  fix IH 1. intros [|b|n|s|l|l]; try (cbn; discriminate).
  - rewrite from_json_arr. apply pbind_end; [|discriminate].
    induction l as [|x l IHl]; cbn [from_arr]; [discriminate|]. apply pbind_end; [apply IH|].
    intros [s|m|a] _; try discriminate; (apply pbind_end; [exact IHl|discriminate]).
  - rewrite from_json_obj. apply pbind_end; [|discriminate]. generalize (@nil (str * mv)).
    induction l as [|[k x] l IHl]; intros acc; cbn [from_obj]; [discriminate|]. apply pbind_end; [apply IH|]. intros a _. apply IHl.
Qed.
Lemma exports_keys_end : forall m root, exports_keys m root <> PFuel.
Proof.
  induction m as [|[k v] m IH]; intros root; cbn [exports_keys]; [discriminate|]. destruct (Nat.eqb _ _); [apply IH|].
  destruct (negb _); [discriminate|]. rewrite walk_segs_eq. cbn [pbind]. apply IH.
Qed.
Lemma imports_keys_end : forall m root, imports_keys m root <> PFuel.
Proof.
  induction m as [|[k v] m IH]; intros root; cbn [imports_keys]; [discriminate|].
  repeat match goal with |- (if ?b then _ else _) <> _ => destruct b; try discriminate end.
  all: rewrite walk_segs_eq; cbn [pbind]; apply IH.
Qed.
Lemma build_exports_end : forall j, build_exports j <> PFuel.
Proof.
  intros j. unfold build_exports. apply pbind_end; [apply from_json_end|]. intros [s|m|a] _; try discriminate.
  repeat match goal with |- (if ?b then _ else _) <> _ => destruct b; try discriminate end. apply exports_keys_end.
Qed.
Lemma build_imports_end : forall j, build_imports j <> PFuel.
Proof.
  intros j. unfold build_imports. apply pbind_end; [apply from_json_end|]. intros [s|m|a] _; try discriminate. apply imports_keys_end.
Qed.
Lemma alias_fields_end : forall j, alias_fields_of j <> PFuel.
Proof.
  intros j. unfold alias_fields_of. destruct (jget j (lit "browser")) as [v|]; [|discriminate].
  destruct (as_object v) as [l|]; [|discriminate]. generalize (@nil (str * alias_map)).
  induction l as [|[k w] l IH]; intros acc; cbn [browser_fields]; [discriminate|].
  destruct w as [|[|]| | | |]; try discriminate; apply IH.
Qed.
Lemma described_end : forall fs js name d, described fs js name d <> PFuel.
Proof.
  intros fs js name d. unfold described. destruct (f_read fs _) as [s|]; [|discriminate].
  destruct (f_mtime fs _); try discriminate. destruct (js s) as [j|]; [|discriminate].
  apply pbind_end; [apply alias_fields_end|]. intros af _. apply pbind_end.
  - destruct (jget j (lit "exports")); [|discriminate]. apply pbind_end; [apply build_exports_end|discriminate].
  - intros [ex|e] _; [|discriminate]. apply pbind_end.
    + destruct (jget j (lit "imports")); [|discriminate]. apply pbind_end; [apply build_imports_end|discriminate].
    + intros [im|e] _; discriminate.
Qed.
Lemma lookup_end : forall fs js name p, lookup_desc fs js name p <> PFuel.
Proof.
  intros fs js [name|] p; cbn [lookup_desc]; [|discriminate]. destruct (from_dir fs p); [discriminate|].
  destruct (nearest fs name p) as [d|]; [|discriminate]. destruct (f_dir fs d); [|discriminate].
  apply pbind_end; [apply described_end|discriminate].
Qed.

(** Parsed fields have no object with a repeated key. *)
Lemma build_field_distinct : forall fk j root, build_field fk j = PRet (Ok root) -> trie_ok distinct root.
Proof.
  intros fk j root H.
  assert (Hj : exists v, from_json j = PRet v).
  { destruct fk; cbn [build_field] in H; unfold build_exports, build_imports in H; apply pbind_ret in H; destruct H as [v [Hv _]]; eauto. }
  destruct Hj as [v Hj]. eapply build_ok; [exact Hj|eapply from_json_distinct, Hj| |exact H].
  intros m k w -> Hin. pose proof (from_json_distinct _ _ Hj) as Hd. inversion Hd; subst; eauto.
Qed.
Lemma described_trees : forall fs js name d pk, described fs js name d = PRet (Ok pk) ->
  (forall root, p_exports pk = Some root -> trie_ok distinct root) /\ (forall root, p_imports pk = Some root -> trie_ok distinct root).
Proof.
  intros fs js name d pk. unfold described. destruct (f_read fs _) as [s|]; [|discriminate].
  destruct (f_mtime fs _); try discriminate. destruct (js s) as [j|]; [|discriminate]. intros H.
  apply pbind_ret in H. destruct H as [af [_ H]]. apply pbind_ret in H. destruct H as [ex [Hex H]]. destruct ex as [ex|e]; [|discriminate].
  apply pbind_ret in H. destruct H as [im [Him H]]. destruct im as [im|e]; [|discriminate].
  destruct (side_effects_of _ j); [|discriminate]. injection H as <-. cbn. split; intros root ->.
  - destruct (jget j (lit "exports")) as [v|]; [|discriminate]. destruct (build_exports v) as [[tr|er]| |] eqn:E; try discriminate.
    injection Hex as ->. apply (build_field_distinct FExports v). exact E.
  - destruct (jget j (lit "imports")) as [v|]; [|discriminate]. destruct (build_imports v) as [[tr|er]| |] eqn:E; try discriminate.
    injection Him as ->. apply (build_field_distinct FImports v). exact E.
Qed.
Lemma lookup_trees : forall fs js name p pk, lookup_desc fs js name p = PRet (Ok (Some pk)) ->
  (forall root, p_exports pk = Some root -> trie_ok distinct root) /\ (forall root, p_imports pk = Some root -> trie_ok distinct root).
Proof.
  intros fs js [name|] p pk; cbn [lookup_desc]; [|discriminate]. destruct (from_dir fs p); [discriminate|].
  destruct (nearest fs name p) as [d|]; [|discriminate]. destruct (f_dir fs d); [|discriminate]. intros H.
  apply pbind_ret in H. destruct H as [[q|e] [H1 H2]]; [|discriminate]. injection H2 as ->. eapply described_trees, H1.
Qed.
