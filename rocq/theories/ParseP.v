(** * Proofs about request parsing and classification. *)
From Coq Require Import String.
From Coq Require Import List Arith NArith Bool Lia.
From Verif Require Import Str StrP Path Json Types Parse SpecParse.
Import ListNotations.

Ltac conj_all := repeat match goal with |- _ /\ _ => split end; try reflexivity.

(** ** C01, C02 *)
Lemma parse_loop_app : forall s st t q f,
  (match st with PStart => t = [] /\ q = [] /\ f = [] | PRequest => q = [] /\ f = []
               | PQuery => f = [] | PFragment => True end) ->
  forall t' q' f', parse_loop st t q f s = (t', q', f') -> t' ++ q' ++ f' = t ++ q ++ f ++ s.
Proof.
  induction s as [|c s IH]; intros st t q f Hst t' q' f' H; cbn [parse_loop] in H.
  - inversion H; subst. rewrite app_nil_r. reflexivity.
  - unfold pstep in H.
    destruct (N.eqb c c_hash), (N.eqb c c_quest), st; cbn beta iota zeta in H;
      (apply IH in H; [rewrite H; intuition subst; cbn; rewrite <- ?app_assoc; reflexivity
                      | intuition; subst; auto]).
Qed.
Lemma parse_identifier_lossless : forall s t q f, parse_identifier s = (t, q, f) -> t ++ q ++ f = s.
Proof.
  intros s t q f H. unfold parse_identifier in H. apply parse_loop_app in H; [exact H|auto].
Qed.
Lemma request_display_parse : forall s, request_display (parse s) = s.
Proof.
  intros s. unfold parse. destruct (parse_identifier s) as [[t q] f] eqn:E.
  unfold request_display. cbn. eapply parse_identifier_lossless; eassumption.
Qed.

Definition clean (r : str) := ~ In 63%N r /\ ~ In 35%N r.
Definition pinv (st : pstate) (t q f : str) : Prop :=
  match st with
  | PStart => t = [] /\ q = [] /\ f = []
  | PRequest => (exists c r, t = c :: r /\ c <> 63%N /\ clean r) /\ q = [] /\ f = []
  | PQuery => (forall c r, t = c :: r -> c <> 63%N /\ clean r) /\
              (exists r, q = 63%N :: r /\ ~ In 35%N r) /\ f = []
  | PFragment => (forall c r, t = c :: r -> c <> 63%N /\ clean r) /\
              (q = [] \/ exists r, q = 63%N :: r /\ ~ In 35%N r) /\
              (exists r, f = 35%N :: r) /\ t ++ q <> []
  end.
Lemma clean_snoc : forall r c, clean r -> c <> 63%N -> c <> 35%N -> clean (r ++ [c]).
Proof.
  intros r c [H1 H2] Hc1 Hc2; split; rewrite in_app_iff; cbn [In]; intuition.
Qed.
Lemma pstep_inv : forall st t q f c, pinv st t q f ->
  match pstep st c with
  | PStart => False
  | PRequest => pinv PRequest (t ++ [c]) q f
  | PQuery => pinv PQuery t (q ++ [c]) f
  | PFragment => pinv PFragment t q (f ++ [c])
  end.
Proof.
  intros st t q f c H. unfold pstep.
  destruct (N.eqb_spec c c_hash) as [Hh|Hh].
  - destruct st; cbn [pinv] in *.
    + destruct H as [[c0 [r0 [-> Ht]]] [-> ->]]. conj_all.
      * intros c1 r1 E; inversion E; subst; tauto.
      * left; reflexivity.
      * exists []. subst c. reflexivity.
      * discriminate.
    + destruct H as [Ht [[r [-> Hr]] ->]]. conj_all.
      * exact Ht.
      * right. eauto.
      * exists []. subst c. reflexivity.
      * destruct t; discriminate.
    + destruct H as [Ht [Hq [[r ->] Hne]]]. conj_all; try assumption.
      exists (r ++ [c]). reflexivity.
    + destruct H as [-> [-> ->]]. conj_all; auto. exists c, []. subst c. unfold clean. conj_all; try discriminate; cbn; auto.
  - destruct (N.eqb_spec c c_quest) as [Hq|Hq].
    + destruct st; cbn [pinv] in *.
      * destruct H as [[c0 [r0 [-> Ht]]] [-> ->]]. conj_all.
        -- intros c1 r1 E; inversion E; subst; tauto.
        -- exists []. subst c. split; [reflexivity|intros []].
      * destruct H as [Ht [[r [-> Hr]] ->]]. conj_all; [exact Ht|].
        exists (r ++ [c]). split; [reflexivity|]. rewrite in_app_iff. cbn [In].
        unfold c_hash in Hh. intuition.
      * destruct H as [Ht [Hq' [[r ->] Hne]]]. conj_all; try assumption.
        exists (r ++ [c]). reflexivity.
      * destruct H as [-> [-> ->]]. conj_all; [discriminate|].
        exists []. subst c. split; [reflexivity|intros []].
    + unfold c_hash, c_quest in *. destruct st; cbn [pinv] in *.
      * destruct H as [[c0 [r0 [-> [Hc0 Ht]]]] [-> ->]]. conj_all.
        exists c0, (r0 ++ [c]). split; [reflexivity|]. split; [exact Hc0|].
        apply clean_snoc; assumption.
      * destruct H as [Ht [[r [-> Hr]] ->]]. conj_all; [exact Ht|].
        exists (r ++ [c]). split; [reflexivity|]. rewrite in_app_iff. cbn [In]. intuition.
      * destruct H as [Ht [Hq' [[r ->] Hne]]]. conj_all; try assumption.
        exists (r ++ [c]). reflexivity.
      * destruct H as [-> [-> ->]]. conj_all; auto. exists c, []. unfold clean. conj_all; try assumption; cbn; auto.
Qed.
Lemma pinv_canonical : forall st t q f, pinv st t q f -> canonical_split t q f.
Proof.
  intros [] t q f H; cbn [pinv] in H; unfold canonical_split, clean in *.
  - destruct H as [[c [r [-> Ht]]] [-> ->]]. conj_all; auto; try congruence;
    intros c' r' E; inversion E; subst; tauto.
  - destruct H as [Ht [[r [-> Hr]] ->]]. conj_all; eauto; congruence.
  - destruct H as [Ht [Hq [Hf Hne]]]. conj_all; eauto.
  - destruct H as [-> [-> ->]]. conj_all; auto; discriminate.
Qed.
Lemma parse_loop_canonical : forall s st t q f, pinv st t q f ->
  forall t' q' f', parse_loop st t q f s = (t', q', f') -> canonical_split t' q' f'.
Proof.
  induction s as [|c s IH]; intros st t q f Hi t' q' f' H; cbn [parse_loop] in H.
  - inversion H; subst. eapply pinv_canonical; eassumption.
  - pose proof (pstep_inv st t q f c Hi) as Hn.
    destruct (pstep st c); [| | |contradiction]; eapply IH; eassumption.
Qed.
Lemma parse_identifier_canonical : forall s t q f, parse_identifier s = (t, q, f) -> canonical_split t q f.
Proof.
  intros s t q f H. eapply parse_loop_canonical; [|exact H]. cbn. auto.
Qed.

(** Uniqueness: two canonical splits of the same string coincide. *)
Lemma frag_unique : forall a f a' f' : str, ~ In 35%N a -> ~ In 35%N a' ->
  (f = [] \/ exists r, f = 35%N :: r) -> (f' = [] \/ exists r, f' = 35%N :: r) ->
  a ++ f = a' ++ f' -> a = a' /\ f = f'.
Proof.
  induction a as [|x a IH]; intros f a' f' Ha Ha' Hf Hf' E; destruct a' as [|y a']; cbn [app] in E.
  - auto.
  - destruct Hf as [->|[r ->]]; [discriminate|]. inversion E; subst. cbn [In] in Ha'. tauto.
  - destruct Hf' as [->|[r ->]]; [discriminate|]. inversion E; subst. cbn [In] in Ha. tauto.
  - inversion E as [[Hxy E']]; subst. cbn [In] in Ha, Ha'.
    destruct (IH f a' f') as [-> ->]; tauto.
Qed.
Lemma query_unique : forall a q a' q' : str, ~ In 63%N a -> ~ In 63%N a' ->
  (q = [] \/ exists r, q = 63%N :: r) -> (q' = [] \/ exists r, q' = 63%N :: r) ->
  a ++ q = a' ++ q' -> a = a' /\ q = q'.
Proof.
  induction a as [|x a IH]; intros q a' q' Ha Ha' Hf Hf' E; destruct a' as [|y a']; cbn [app] in E.
  - auto.
  - destruct Hf as [->|[r ->]]; [discriminate|]. inversion E; subst. cbn [In] in Ha'. tauto.
  - destruct Hf' as [->|[r ->]]; [discriminate|]. inversion E; subst. cbn [In] in Ha. tauto.
  - inversion E as [[Hxy E']]; subst. cbn [In] in Ha, Ha'.
    destruct (IH q a' q') as [-> ->]; tauto.
Qed.
Lemma tq_unique : forall t q t' q', canonical_split t q [] -> canonical_split t' q' [] ->
  t ++ q = t' ++ q' -> t = t' /\ q = q'.
Proof.
  intros t q t' q' [Ht [Hq _]] [Ht' [Hq' _]] E.
  apply query_unique; try exact E.
  - destruct t as [|c r]; [intros []|]. destruct (Ht c r eq_refl) as [Hc [Hr _]]. cbn [In]. tauto.
  - destruct t' as [|c r]; [intros []|]. destruct (Ht' c r eq_refl) as [Hc [Hr _]]. cbn [In]. tauto.
  - destruct Hq as [->|[r [-> _]]]; [left|right]; eauto.
  - destruct Hq' as [->|[r [-> _]]]; [left|right]; eauto.
Qed.
Lemma canonical_tq_nohash : forall t q f, canonical_split t q f ->
  forall c r, t ++ q = c :: r -> ~ In 35%N r.
Proof.
  intros t q f [Ht [Hq _]] c r E.
  assert (Hqn : ~ In 35%N q) by (destruct Hq as [->|[r0 [-> H0]]]; cbn [In]; intuition; discriminate).
  destruct t as [|c0 r0].
  - cbn [app] in E. subst q. cbn [In] in Hqn. tauto.
  - inversion E; subst. destruct (Ht c r0 eq_refl) as [_ [_ Hr]]. rewrite in_app_iff. tauto.
Qed.
Lemma canonical_unique : forall t q f t' q' f', canonical_split t q f -> canonical_split t' q' f' ->
  t ++ q ++ f = t' ++ q' ++ f' -> t = t' /\ q = q' /\ f = f'.
Proof.
  intros t q f t' q' f' H H' E.
  assert (Hs : t ++ q = t' ++ q' /\ f = f').
  { rewrite !app_assoc in E.
    pose proof (canonical_tq_nohash _ _ _ H) as N1. pose proof (canonical_tq_nohash _ _ _ H') as N2.
    destruct H as [Ht [Hq [Hf Hne]]], H' as [Ht' [Hq' [Hf' Hne']]].
    destruct (t ++ q) as [|x u] eqn:Eu, (t' ++ q') as [|y u'] eqn:Eu'.
    - auto.
    - destruct Hf as [->|Hf]; [discriminate|]. exfalso. apply Hne; [|reflexivity].
      destruct Hf as [r ->]. discriminate.
    - destruct Hf' as [->|Hf']; [discriminate|]. exfalso. apply Hne'; [|reflexivity].
      destruct Hf' as [r ->]. discriminate.
    - cbn [app] in E. inversion E as [[Hxy E']]. subst y.
      destruct (frag_unique u f u' f') as [-> ->]; eauto. }
  destruct Hs as [Hs ->].
  destruct (tq_unique t q t' q') as [-> ->]; auto.
  - destruct H as [Ht [Hq _]]. unfold canonical_split. conj_all; auto; congruence.
  - destruct H' as [Ht [Hq _]]. unfold canonical_split. conj_all; auto; congruence.
Qed.
Lemma parse_identifier_unique : forall s t q f,
  canonical_split t q f -> t ++ q ++ f = s -> parse_identifier s = (t, q, f).
Proof.
  intros s t q f Hc E. destruct (parse_identifier s) as [[t' q'] f'] eqn:Ep.
  pose proof (parse_identifier_canonical _ _ _ _ Ep) as Hc'.
  pose proof (parse_identifier_lossless _ _ _ _ Ep) as E'.
  destruct (canonical_unique t' q' f' t q f) as [-> [-> ->]]; auto. congruence.
Qed.

(** ** C03 *)
Lemma in_letters : forall c, In c letters <-> ascii_letter c.
Proof.
  intros c. unfold letters, ascii_letter. rewrite in_app_iff, !in_map_iff. split.
  - intros [[n [<- Hn]]|[n [<- Hn]]]; apply in_seq in Hn; lia.
  - intros [H|H]; [right|left]; exists (N.to_nat c); rewrite N2Nat.id; split; auto; apply in_seq; lia.
Qed.
Lemma in_win_rest : forall p, In p WIN_REST <->
  exists c d, p = [c; 58%N; d] /\ ascii_letter c /\ (d = 47%N \/ d = 92%N).
Proof.
  intros p. unfold WIN_REST. rewrite in_app_iff, !in_map_iff. split.
  - intros [[c [<- Hc]]|[c [<- Hc]]]; apply in_letters in Hc; exists c; eexists; eauto.
  - intros [c [d [-> [Hc [->| ->]]]]]; apply in_letters in Hc; [right|left]; exists c; auto.
Qed.
Lemma in_win_two : forall p, In p WIN_TWO <-> exists c, p = [c; 58%N] /\ ascii_letter c.
Proof.
  intros p. unfold WIN_TWO. rewrite in_map_iff. split.
  - intros [c [<- Hc]]. apply in_letters in Hc. eauto.
  - intros [c [-> Hc]]. apply in_letters in Hc. exists c; auto.
Qed.
Lemma longest_here_some : forall pats s p, longest_here pats s = Some p ->
  In p pats /\ starts_with s p = true.
Proof.
  induction pats as [|x pats IH]; intros s p; cbn [longest_here]; [discriminate|].
  destruct (longest_here pats s) as [q|] eqn:E.
  - destruct (IH _ _ E) as [Hin Hs].
    destruct (starts_with s x && Nat.leb (length q) (length x)) eqn:Eb; intros H; inversion H; subst.
    + apply andb_true_iff in Eb. split; [left; reflexivity|tauto].
    + split; [right; assumption|assumption].
  - destruct (starts_with s x) eqn:Es; [|discriminate]. intros H; inversion H; subst.
    split; [left; reflexivity|assumption].
Qed.
Lemma longest_here_none : forall pats s, longest_here pats s = None <->
  forall p, In p pats -> starts_with s p = false.
Proof.
  induction pats as [|x pats IH]; intros s; cbn [longest_here].
  - split; [intros _ p []|reflexivity].
  - destruct (longest_here pats s) as [q|] eqn:E.
    + split.
      * destruct (starts_with s x && _); discriminate.
      * intros H. destruct (longest_here_some _ _ _ E) as [Hin Hs].
        rewrite H in Hs; [discriminate|right; exact Hin].
    + destruct (starts_with s x) eqn:Es.
      * split; [discriminate|]. intros H. rewrite H in Es; [discriminate|left; reflexivity].
      * split; [|reflexivity]. intros _ p [<-|Hp]; [exact Es|].
        destruct (IH s) as [IH1 _]. apply (IH1 E). exact Hp.
Qed.
Lemma leftmost_find_start : forall pats s n k p, leftmost_find pats n s = Some (k, p) ->
  n <= k /\ (k = n -> longest_here pats s = Some p).
Proof.
  induction s as [|c s IH]; intros n k p; cbn [leftmost_find].
  - destruct (longest_here pats []); [|discriminate]. intros H; inversion H; subst; auto.
  - destruct (longest_here pats (c :: s)) as [q|] eqn:E.
    + intros H; inversion H; subst; auto.
    + intros H. apply IH in H. pose proof (utf8_len_pos c). split; [lia|]. intros; lia.
Qed.
Lemma longest_here_0 : forall pats s, (exists p, leftmost_find pats 0 s = Some (0, p)) <->
  exists p, In p pats /\ starts_with s p = true.
Proof.
  intros pats s. split.
  - intros [p H]. apply leftmost_find_start in H. destruct H as [_ H].
    apply longest_here_some in H; [|reflexivity]. eauto.
  - intros [p [Hin Hs]]. destruct (longest_here pats s) as [q|] eqn:E.
    + exists q. destruct s; cbn [leftmost_find]; rewrite E; reflexivity.
    + apply longest_here_none with (p := p) in E; [congruence|exact Hin].
Qed.
Lemma lit_hash : lit "#" = [35%N]. Proof. reflexivity. Qed.

(** The classification as nested conditionals over the decision table. *)
Lemma get_target_kind_table : forall t,
  (looks_internal t -> get_target_kind t = Internal) /\
  (looks_posix t -> get_target_kind t = AbsolutePosix) /\
  (looks_relative t -> get_target_kind t = Relative) /\
  (~ looks_internal t -> ~ looks_posix t -> ~ looks_relative t -> looks_win t -> get_target_kind t = AbsoluteWin) /\
  (~ looks_internal t -> ~ looks_posix t -> ~ looks_relative t -> ~ looks_win t -> get_target_kind t = Normal).
Proof.
  intros t. conj_all.
  - intros [r ->]. reflexivity.
  - intros [r ->]. reflexivity.
  - intros [->|[->|[->|[[r ->]|[r ->]]]]]; try reflexivity.
    + unfold get_target_kind. rewrite (starts_with_app (lit "./") r). reflexivity.
    + unfold get_target_kind. rewrite (starts_with_app (lit "../") r). reflexivity.
  - intros H1 H2 H3 Hw. destruct Hw as [d [r [-> [Hd Hr]]]].
    unfold get_target_kind.
    destruct (starts_with_char (d :: 58%N :: r) c_hash) eqn:E1.
    { apply starts_with_char_spec in E1. exfalso. apply H1. exact E1. }
    destruct (starts_with_char (d :: 58%N :: r) c_slash) eqn:E2.
    { apply starts_with_char_spec in E2. exfalso. apply H2. exact E2. }
    destruct (_ || _ || _ || _) eqn:E3.
    { exfalso. rewrite !orb_true_iff, !str_eqb_eq, !starts_with_spec in E3.
      apply H3. unfold looks_relative. destruct E3 as [[[E|E]|E]|E]; auto. }
    destruct (Nat.eqb _ 2 && mem _ WIN_TWO) eqn:E4; [reflexivity|].
    destruct Hr as [->|Hr].
    { exfalso. rewrite andb_false_iff in E4. destruct E4 as [E4|E4].
      - cbn [blen] in E4. unfold utf8_len in E4.
        destruct (N.ltb_spec d 128); [discriminate|]. unfold ascii_letter in Hd; lia.
      - assert (Hm : mem [d; 58%N] WIN_TWO = true) by (apply mem_In, in_win_two; eauto).
        congruence. }
    destruct (longest_here_0 WIN_REST (d :: 58%N :: r)) as [_ Hl].
    destruct Hl as [p Hp].
    { destruct Hr as [r' [->| ->]].
      - exists [d; 58%N; 47%N]. split; [apply in_win_rest; eauto 6|].
        apply starts_with_spec. exists r'. reflexivity.
      - exists [d; 58%N; 92%N]. split; [apply in_win_rest; eauto 6|].
        apply starts_with_spec. exists r'. reflexivity. }
    rewrite Hp, !Nat.eqb_refl. reflexivity.
  - intros H1 H2 H3 Hw. unfold get_target_kind. destruct t as [|c t]; [exfalso; apply H3; left; reflexivity|].
    destruct (starts_with_char (c :: t) c_hash) eqn:E1.
    { apply starts_with_char_spec in E1. exfalso. apply H1. exact E1. }
    destruct (starts_with_char (c :: t) c_slash) eqn:E2.
    { apply starts_with_char_spec in E2. exfalso. apply H2. exact E2. }
    destruct (_ || _ || _ || _) eqn:E3.
    { exfalso. rewrite !orb_true_iff, !str_eqb_eq, !starts_with_spec in E3.
      apply H3. unfold looks_relative. destruct E3 as [[[E|E]|E]|E]; auto. }
    destruct (Nat.eqb _ 2 && mem _ WIN_TWO) eqn:E4.
    { exfalso. apply andb_true_iff in E4. destruct E4 as [_ E4]. apply mem_In, in_win_two in E4.
      destruct E4 as [d [E4 Hd]]. apply Hw. exists d, []. inversion E4; subst. auto. }
    destruct (leftmost_find WIN_REST 0 (c :: t)) as [[k p]|] eqn:E5; [|reflexivity].
    destruct (Nat.eqb_spec k 0) as [->|]; [|reflexivity].
    exfalso. destruct (longest_here_0 WIN_REST (c :: t)) as [Hl _].
    destruct Hl as [p' [Hin Hs]]; [eauto|]. apply in_win_rest in Hin.
    destruct Hin as [d [x [-> [Hd Hx]]]]. apply starts_with_spec in Hs. destruct Hs as [r Hs].
    apply Hw. exists d, (x :: r). split; [exact Hs|]. split; [exact Hd|].
    right. exists r. destruct Hx as [->| ->]; auto.
Qed.

(** ** C04 *)
Lemma builtin_iff : forall t, t <> lit "assert/strict" -> t <> lit "assert/,strict" ->
  (is_build_in_module t = true <-> In t node_core_modules).
Proof.
  intros t H1 H2. unfold is_build_in_module. rewrite mem_In.
  change BUILT_IN_MODULE_SET with
    (firstn 15 node_core_modules ++ lit "assert/,strict" :: skipn 16 node_core_modules).
  rewrite <- (firstn_skipn 15 node_core_modules) at 3.
  change (skipn 15 node_core_modules) with (lit "assert/strict" :: skipn 16 node_core_modules).
  rewrite !in_app_iff. cbn [In]. intuition congruence.
Qed.
