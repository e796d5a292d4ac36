(** * Remaining lemmas for [PropParse.v]. *)
From Coq Require Import String.
From Coq Require Import List Arith NArith Bool Lia.
From Verif Require Import Str StrP Path Json Types Parse SpecParse ParseP PathP.
Import ListNotations.

Lemma C02_ex_p : canonical_split (lit "#a") (lit "?b") (lit "#c?d") /\
  parse_identifier (lit "#a?b#c?d") = (lit "#a", lit "?b", lit "#c?d").
Proof.
  split; [|vm_compute; reflexivity].
  apply (parse_identifier_canonical (lit "#a?b#c?d")). vm_compute. reflexivity.
Qed.

Lemma looks_internal_dec : forall t, looks_internal t \/ ~ looks_internal t.
Proof.
  intros t. destruct (starts_with t (lit "#")) eqn:E; [left|right].
  - apply starts_with_spec. exact E.
  - apply starts_with_false in E. exact E.
Qed.
Lemma looks_posix_dec : forall t, looks_posix t \/ ~ looks_posix t.
Proof.
  intros t. destruct (starts_with t (lit "/")) eqn:E; [left|right].
  - apply starts_with_spec. exact E.
  - apply starts_with_false in E. exact E.
Qed.
Lemma looks_relative_dec : forall t, looks_relative t \/ ~ looks_relative t.
Proof.
  intros t. unfold looks_relative.
  destruct (str_eq_dec t []), (str_eq_dec t (lit ".")), (str_eq_dec t (lit "..")); try tauto.
  destruct (starts_with t (lit "./")) eqn:E.
  { left. apply starts_with_spec in E. tauto. }
  destruct (starts_with t (lit "../")) eqn:E2.
  { left. apply starts_with_spec in E2. tauto. }
  apply starts_with_false in E, E2. right. tauto.
Qed.
Lemma ascii_letter_dec : forall c, ascii_letter c \/ ~ ascii_letter c.
Proof. intros c. unfold ascii_letter. lia. Qed.
Lemma looks_win_dec : forall t, looks_win t \/ ~ looks_win t.
Proof.
  intros t. unfold looks_win.
  destruct t as [|d [|c r]].
  - right. intros [d [r [E _]]]. discriminate.
  - right. intros [d' [r [E _]]]. discriminate.
  - destruct (ascii_letter_dec d) as [Hd|Hd].
    2:{ right. intros [d' [r' [E [H _]]]]. inversion E; subst. contradiction. }
    destruct (N.eq_dec c 58) as [->|Hc].
    2:{ right. intros [d' [r' [E [H _]]]]. inversion E; subst. congruence. }
    destruct r as [|x r].
    + left. exists d, []. auto.
    + destruct (N.eq_dec x 47) as [->|H1].
      { left. exists d, (47%N :: r). repeat split; auto. right. exists r. auto. }
      destruct (N.eq_dec x 92) as [->|H2].
      { left. exists d, (92%N :: r). repeat split; auto. right. exists r. auto. }
      right. intros [d' [r' [E [H [H'|[y [H'|H']]]]]]]; inversion E; subst; congruence.
Qed.
Lemma kind_inverse : forall t,
  match get_target_kind t with
  | Internal => looks_internal t
  | AbsolutePosix => looks_posix t
  | Relative => looks_relative t
  | AbsoluteWin => looks_win t
  | Normal => ~ looks_internal t /\ ~ looks_posix t /\ ~ looks_relative t /\ ~ looks_win t
  end.
Proof.
  intros t. destruct (get_target_kind_table t) as [H1 [H2 [H3 [H4 H5]]]].
  destruct (looks_internal_dec t) as [Hi|Hi]; [rewrite (H1 Hi); exact Hi|].
  destruct (looks_posix_dec t) as [Hp|Hp]; [rewrite (H2 Hp); exact Hp|].
  destruct (looks_relative_dec t) as [Hr|Hr]; [rewrite (H3 Hr); exact Hr|].
  destruct (looks_win_dec t) as [Hw|Hw]; [rewrite (H4 Hi Hp Hr Hw); exact Hw|].
  rewrite (H5 Hi Hp Hr Hw). auto.
Qed.
Lemma parse_kind : forall s, r_kind (parse s) = get_target_kind (r_target (parse s)).
Proof. intros s. unfold parse. destruct (parse_identifier s) as [[t q] f]. reflexivity. Qed.
Lemma C03_inverse_p : forall s,
  let t := r_target (parse s) in
  match r_kind (parse s) with
  | Internal => looks_internal t
  | AbsolutePosix => looks_posix t
  | Relative => looks_relative t
  | AbsoluteWin => looks_win t
  | Normal => ~ looks_internal t /\ ~ looks_posix t /\ ~ looks_relative t /\ ~ looks_win t
  end.
Proof. intros s t. rewrite parse_kind. apply kind_inverse. Qed.
Lemma C03_ex_p : looks_win (lit "c:\x") /\ ~ looks_relative (lit ".a") /\
  get_target_kind (lit "c:\x") = AbsoluteWin /\ get_target_kind (lit ".a") = Normal /\
  get_target_kind (lit "ab:/") = Normal.
Proof.
  assert (E : get_target_kind (lit ".a") = Normal) by (vm_compute; reflexivity).
  pose proof (kind_inverse (lit ".a")) as H. rewrite E in H.
  assert (E' : get_target_kind (lit "c:\x") = AbsoluteWin) by (vm_compute; reflexivity).
  pose proof (kind_inverse (lit "c:\x")) as H'. rewrite E' in H'.
  repeat split; try tauto. 
Qed.

Lemma C04_refuted_p : exists t, In t node_core_modules /\ is_build_in_module t = false.
Proof.
  exists (lit "assert/strict"). split; [|vm_compute; reflexivity].
  apply mem_In. vm_compute. reflexivity.
Qed.
Lemma C04_spurious_p : exists t, is_build_in_module t = true /\ ~ In t node_core_modules.
Proof.
  exists (lit "assert/,strict"). split; [vm_compute; reflexivity|].
  rewrite <- mem_In. vm_compute. discriminate.
Qed.

Lemma C05_components_p : forall p c, In c (components (normalize_path_without_link p)) ->
  c = CRoot \/ exists n, c = CNormal n /\ plain_name n.
Proof.
  intros p c H. destruct (normalize_denote p) as [l [up [_ [HP E]]]]. rewrite E in H.
  rewrite spell_components in H by exact HP. apply in_app_iff in H. destruct H as [H|H].
  - destruct (is_abs p); [|destruct H]. destruct H as [<-|[]]. auto.
  - apply in_map_iff in H. destruct H as [n [<- Hn]]. right. exists n. split; auto.
    rewrite Forall_forall in HP. auto.
Qed.
Lemma C05_absolute_p : forall p, is_abs (normalize_path_without_link p) = is_abs p.
Proof.
  intros p. destruct (normalize_denote p) as [l [up [_ [HP ->]]]]. apply spell_is_abs, HP.
Qed.
Lemma C06_refuted_p : exists p, is_abs p = false /\ denote (normalize_path_without_link p) <> denote p.
Proof. exists (lit "../a"). split; [reflexivity|]. vm_compute. discriminate. Qed.
Lemma C06_partial_p : forall p abs up names, denote p = (abs, up, names) ->
  denote (normalize_path_without_link p) = (abs, 0, names).
Proof.
  intros p abs up names H. apply normalize_spec in H. destruct H as [-> HP]. apply denote_spell, HP.
Qed.
Lemma C07_p : forall base r,
  let t := r_target r in let p := get_path (mkInfo base r) in
  (t = [] \/ t = lit "." -> p = base) /\
  (forall x, t = lit "/" ++ x -> p = t) /\
  (t <> [] -> t <> lit "." -> (forall x, t <> lit "/" ++ x) ->
     (base = [] -> p = t) /\
     (forall b, base = b ++ lit "/" -> p = base ++ t) /\
     (base <> [] -> (forall b, base <> b ++ lit "/") -> p = base ++ lit "/" ++ t)).
Proof.
  intros base r t p. subst p. unfold get_path. cbn [i_req i_path]. fold t. clearbody t. split; [|split].
  - intros [->| ->]; reflexivity.
  - intros x ->. reflexivity.
  - intros H1 H2 H3. apply str_eqb_neq in H1. change (lit ".") with s_dot in H2.
    apply str_eqb_neq in H2. rewrite H1, H2. cbn [orb]. unfold join.
    destruct (is_abs t) eqn:Ea.
    { apply starts_with_char_spec in Ea. destruct Ea as [x ->]. exfalso. apply (H3 x). reflexivity. }
    split; [|split].
    + intros ->. reflexivity.
    + intros b ->. change (lit "/") with [c_slash]. rewrite ends_with_snoc.
      destruct (b ++ [c_slash]) eqn:E; [destruct b; discriminate|]. reflexivity.
    + intros Hb Hn. destruct (ends_with_char base c_slash) eqn:Ee.
      { apply ends_with_char_spec in Ee. destruct Ee as [b Eb]. exfalso. apply (Hn b). exact Eb. }
      destruct base; [congruence|reflexivity].
Qed.
Lemma C07_congr_p : forall base base' r,
  components base = components base' ->
  components (get_path (mkInfo base r)) = components (get_path (mkInfo base' r)).
Proof.
  intros base base' r H. unfold get_path. cbn [i_req i_path].
  destruct (_ || _); [exact H|]. apply join_congr, H.
Qed.
