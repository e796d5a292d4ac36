(** * [find_match] on a trie selects the best stored key. *)
From Coq Require Import String.
From Coq Require Import List Arith NArith ZArith Bool Lia.
From Verif Require Import Str StrP Json Types Map SpecMap TrieP.
Import ListNotations.

Fixpoint find_segs (segs : list str) (node : ptn) (last : nat) (m : fmatch) : fmatch :=
  match segs with
  | [] => m
  | [seg] => match imap_get (t_files node) seg with
             | Some v => Some (v, (Z.of_nat (blen seg) + 1)%Z)
             | None => apply_wildcards (apply_folder_mapping m node last) (wilds node) seg last
             end
  | seg :: rest =>
      let m2 := apply_wildcards (apply_folder_mapping m node last) (wilds node) seg last in
      match imap_get (kids node) seg with
      | Some n => find_segs rest n (last + length seg + 1) m2
      | None => m2
      end
  end.
Lemma awm_eq : forall m node seg last, apply_wildcard_mappings m node seg last = apply_wildcards m (wilds node) seg last.
Proof. intros. unfold apply_wildcard_mappings, wilds. destruct (t_wildcards node); reflexivity. Qed.
Lemma find_segs_cons : forall seg x r node last m, find_segs (seg :: x :: r) node last m =
      let m2 := apply_wildcards (apply_folder_mapping m node last) (wilds node) seg last in
      match imap_get (kids node) seg with
      | Some n => find_segs (x :: r) n (last + length seg + 1) m2
      | None => m2
      end.
Proof. reflexivity. Qed.
Lemma find_loop_segs : forall fuel p node last m, length (skipn last p) < fuel ->
  find_match_loop fuel p (get_next_list p c_slash) node last m =
  PRet (find_segs (split_on c_slash (skipn last p)) node last m).
Proof.
  induction fuel as [|f IH]; intros p node last m Hf; [lia|].
  cbn [find_match_loop]. rewrite next_slash_eq. destruct (find_char (skipn last p) c_slash) as [[a b]|] eqn:E.
  - apply find_char_some in E. destruct E as [E Hn].
    assert (Hs : char_slice p last (last + length a) = a).
    { unfold char_slice. replace (last + length a - last) with (length a) by lia. rewrite E. apply firstn_app_len. }
    assert (Hsk : skipn (last + length a + 1) p = b).
    { replace (last + length a + 1) with (last + (length a + 1)) by lia. rewrite skipn_add, E.
      rewrite skipn_add, skipn_app_len. reflexivity. }
    assert (Hlen : length b < f).
    { rewrite E in Hf. rewrite app_length in Hf. cbn in Hf. lia. }
    cbv zeta. rewrite Hs. rewrite !awm_eq. rewrite E, split_on_app by exact Hn.
    destruct (split_on_cons_ne c_slash b) as [h [t Es]]. rewrite Es, find_segs_cons, <- Es. cbv zeta.
    unfold kids. destruct (t_children node) as [ch|] eqn:Ec.
    + cbn [is_none]. rewrite andb_false_r. destruct (imap_get ch a) as [n|]; [|reflexivity].
      rewrite IH by (rewrite Hsk; exact Hlen). rewrite Hsk. reflexivity.
    + cbn [imap_get is_none]. rewrite andb_true_r. unfold wilds. destruct (t_wildcards node); reflexivity.
  - apply find_char_none in E. rewrite split_on_nosep by exact E. cbn [find_segs]. cbv zeta. rewrite awm_eq.
    destruct (imap_get _ _); reflexivity.
Qed.

(** ** The best candidate *)
(** A candidate: value, [remain_request_index], rank. *)
Definition cands := mv -> Z -> nat -> Prop.
Definition best (C : cands) (m : fmatch) : Prop :=
  match m with
  | None => forall v i r, ~ C v i r
  | Some (v, i) => exists r, C v i r /\ forall v' i' r', C v' i' r' -> r' <= r
  end.
Definition ranked (C : cands) : Prop := forall v i r, C v i r ->
  ((0 <= i)%Z /\ r = 2 * Z.to_nat i + 1) \/ ((i < 0)%Z /\ r = 2 * Z.to_nat (- i - 1)).
Lemma best_ext : forall (C C' : cands) m, (forall v i r, C v i r <-> C' v i r) -> best C m -> best C' m.
Proof.
  intros C C' m He H. destruct m as [[v i]|]; cbn in *.
  - destruct H as [r [H1 H2]]. exists r. split; [apply He, H1|]. intros v' i' r' H'. eapply H2, He, H'.
  - intros v i r H'. apply (H v i r), He, H'.
Qed.
Lemma best_add : forall (C : cands) m v i r, best C m -> (forall v' i' r', C v' i' r' -> r' < r) ->
  best (fun v' i' r' => C v' i' r' \/ v' = v /\ i' = i /\ r' = r) (Some (v, i)).
Proof.
  intros C m v i r H Hr. cbn. exists r. split; [auto|]. intros v' i' r' [H'|[_ [_ ->]]]; [|lia].
  apply Hr in H'. lia.
Qed.
Lemma wild_best : forall w (C : cands) m last seg, ascii_str seg -> ranked C -> best C m ->
  (forall v i r, C v i r -> (i < 0)%Z -> r <= 2 * last) ->
  best (fun v i r => C v i r \/ exists K, In (K, v) w /\ starts_with seg K = true /\
          i = Z.of_nat (last + length K) /\ r = 2 * (last + length K) + 1)
       (apply_wildcards m w seg last).
Proof.
  induction w as [|[K t] w IH]; intros C m last seg Ha Hrk Hb Hf; cbn [apply_wildcards].
  - eapply best_ext; [|exact Hb]. intros v i r. split; [auto|]. intros [H|[K [[] _]]]. exact H.
  - set (C1 := fun v i r => C v i r \/ (starts_with seg K = true /\ v = t /\
          i = Z.of_nat (last + length K) /\ r = 2 * (last + length K) + 1)).
    eapply best_ext; [|apply (IH C1)].
    + intros v i r. unfold C1. split.
      * intros [[H|[H1 [-> [H2 H3]]]]|[K' [H1 H2]]]; [auto| |].
        -- right. exists K. repeat split; auto. left. reflexivity.
        -- right. exists K'. split; [right; exact H1|exact H2].
      * intros [H|[K' [[E|H1] H2]]]; [auto| |].
        -- inversion E; subst. left. right. tauto.
        -- right. exists K'. auto.
    + exact Ha.
    + intros v i r [H|[_ [_ [-> ->]]]]; [apply (Hrk _ _ _ H)|]. left. split; [lia|]. rewrite Nat2Z.id. reflexivity.
    + destruct (starts_with seg K) eqn:Es.
      * assert (HK : blen K = length K).
        { apply ascii_blen. apply starts_with_spec in Es. destruct Es as [x ->]. unfold ascii_str in Ha.
          apply Forall_app in Ha. apply Ha. }
        rewrite HK. cbv zeta. destruct m as [[v0 i0]|].
        -- cbn in Hb. destruct Hb as [r0 [Hc Hm]]. pose proof (Hrk _ _ _ Hc) as Hr0.
           destruct (Z.ltb_spec i0 (Z.of_nat (last + length K))) as [Hlt|Hge].
           ++ eapply best_ext; [|eapply (best_add C (Some (v0, i0)) t _ (2 * (last + length K) + 1))].
              ** intros v i r. unfold C1. intuition congruence.
              ** cbn. exists r0. auto.
              ** intros v' i' r' H'. apply Hm in H'. destruct Hr0 as [[Hi ->]|[Hi Hr0]]; [lia|].
                 pose proof (Hf _ _ _ Hc Hi). lia.
           ++ cbn. exists r0. split; [left; exact Hc|]. intros v' i' r' [H'|[_ [_ [_ ->]]]]; [eapply Hm, H'|].
              destruct Hr0 as [[Hi ->]|[Hi Hr0]]; lia.
        -- cbn. exists (2 * (last + length K) + 1). split; [right; auto|].
           intros v' i' r' [H'|[_ [_ [_ ->]]]]; [exfalso; eapply Hb, H'|lia].
      * eapply best_ext; [|exact Hb]. intros v i r. unfold C1. intuition congruence.
    + intros v i r [H|[_ [_ [-> _]]]] Hi; [eapply Hf; eassumption|lia].
Qed.

(** ** Candidates of a request *)
Section Find.
Variable root : ptn.
Variable req : str.
Hypothesis Hasc : ascii_str req.
Hypothesis Hok : trie_ok (fun _ => True) root.

Definition is_dir_key (p : str) : Prop := p = [] \/ exists q, p = q ++ [c_slash].
Definition cand : cands := fun v i r => exists p x, req = p ++ x /\
  (stored root (p ++ [c_star]) = Some v /\ i = Z.of_nat (length p) /\ r = 2 * length p + 1 \/
   is_dir_key p /\ stored root p = Some v /\ i = (- Z.of_nat (length p) - 1)%Z /\ r = 2 * length p).
Definition below (n : nat) : cands := fun v i r => cand v i r /\ r < n.
Lemma cand_ranked : ranked cand.
Proof.
  intros v i r [p [x [_ [[_ [-> ->]]|[_ [_ [-> ->]]]]]]].
  - left. split; [lia|]. rewrite Nat2Z.id. reflexivity.
  - right. split; [lia|]. f_equal. lia.
Qed.
Lemma prefix_cmp : forall (a b x y : str), a ++ x = b ++ y -> length a <= length b -> exists z, b = a ++ z /\ x = z ++ y.
Proof.
  induction a as [|c a IH]; intros b x y H Hl; cbn in *; [eauto|].
  destruct b as [|c' b]; cbn in *; [lia|]. inversion H; subst. destruct (IH b x y) as [z [-> ->]]; [assumption|lia|].
  exists z. auto.
Qed.
Lemma app_last_slash : forall (d : str), is_dir_key d -> forall z, is_dir_key (d ++ z) -> ~ In c_slash z -> z = [].
Proof.
  intros d Hd z Hz Hn. destruct z as [|c z]; [reflexivity|]. exfalso.
  destruct Hz as [Hz|[q Hz]]; [destruct d; discriminate|].
  destruct (exists_last (l := c :: z)) as [w [y E]]; [discriminate|]. rewrite E in *.
  rewrite app_assoc in Hz. apply app_inj_tail in Hz. destruct Hz as [_ ->]. apply Hn, in_app_iff. right. left. reflexivity.
Qed.
Lemma stored_split : forall d z, stored root (d ++ z) = tget root (split_on c_slash (d ++ z)).
Proof. reflexivity. Qed.

(** [at_node d node]: [node] is what the trie holds below the directory [d]. *)
Definition at_node (d : str) (node : ptn) : Prop := is_dir_key d /\ trie_ok (fun _ => True) node /\
  forall s, stored root (d ++ s) = stored node s.
Lemma at_root : at_node [] root.
Proof. split; [left; reflexivity|]. split; [exact Hok|]. intros s. reflexivity. Qed.
Lemma stored_dir : forall node seg s, ~ In c_slash seg -> stored node (seg ++ c_slash :: s) =
  match imap_get (kids node) seg with Some n => stored n s | None => None end.
Proof.
  intros node seg s Hn. unfold stored. rewrite split_on_app by exact Hn.
  destruct (split_on_cons_ne c_slash s) as [h [t E]]. rewrite E. reflexivity.
Qed.
Lemma at_kid : forall d node seg n, at_node d node -> ~ In c_slash seg -> imap_get (kids node) seg = Some n ->
  at_node (d ++ seg ++ [c_slash]) n.
Proof.
  intros d node seg n [H1 [H2 H3]] Hs Hn. split; [|split].
  - right. exists (d ++ seg). rewrite app_assoc. reflexivity.
  - inversion H2 as [? _ _ Hk _ _ _]; subst. apply imap_get_In in Hn. eapply Hk, Hn.
  - intros s. rewrite <- !app_assoc. cbn [app]. rewrite H3, stored_dir by exact Hs. rewrite Hn. reflexivity.
Qed.
Lemma no_kid : forall d node seg s, at_node d node -> ~ In c_slash seg -> imap_get (kids node) seg = None ->
  stored root (d ++ seg ++ c_slash :: s) = None.
Proof. intros d node seg s [H1 [H2 H3]] Hs Hn. rewrite H3, stored_dir by exact Hs. rewrite Hn. reflexivity. Qed.

(** Candidates at one node. *)
Lemma level_best : forall d node seg tl m, at_node d node -> req = d ++ seg ++ tl -> ~ In c_slash seg ->
  (tl = [] \/ exists t, tl = c_slash :: t) ->
  best (below (2 * length d)) m ->
  best (below (2 * (length d + length seg + 1)))
    (apply_wildcards (apply_folder_mapping m node (length d)) (wilds node) seg (length d)).
Proof.
  intros d node seg tl m Hat Hreq Hs Htl Hb. destruct Hat as [Hd [Hnok Hst]].
  inversion Hnok as [? Hnd Hfiles _ _ _ _]; subst.
  assert (Hfold : stored root d = t_folder node).
  { specialize (Hst []). rewrite app_nil_r in Hst. exact Hst. }
  assert (Hwild : forall K, ~ In c_slash K -> stored root (d ++ K ++ [c_star]) = imap_get (wilds node) K).
  { intros K HK. rewrite Hst. unfold stored. rewrite split_on_nosep.
    - cbn [tget]. unfold leaf_get. destruct (K ++ [c_star]) as [|c k'] eqn:E; [destruct K; discriminate|].
      rewrite <- E. assert (Ee : ends_with_char (K ++ [c_star]) c_star = true) by (apply ends_with_char_spec; eauto).
      rewrite Ee, removelast_last. reflexivity.
    - intros Hi. apply in_app_iff in Hi. destruct Hi as [Hi|[Hi|[]]]; [exact (HK Hi)|discriminate]. }
  set (Cf := fun v i r => below (2 * length d) v i r \/ (t_folder node = Some v /\ i = (- Z.of_nat (length d) - 1)%Z /\ r = 2 * length d)).
  assert (Hbf : best Cf (apply_folder_mapping m node (length d))).
  { unfold apply_folder_mapping, Cf. destruct (t_folder node) as [v|] eqn:Ef.
    - eapply best_ext; [|eapply (best_add (below (2 * length d)) m v _ (2 * length d)); [exact Hb|]].
      + intros v' i r. intuition congruence.
      + intros v' i r [_ H]. exact H.
    - eapply best_ext; [|exact Hb]. intros v i r. intuition congruence. }
  assert (Hreq' : d ++ seg ++ tl = req) by (symmetry; exact Hreq).
  assert (Hsplit : forall v i r, below (2 * (length d + length seg + 1)) v i r <->
     (Cf v i r \/ exists K, In (K, v) (wilds node) /\ starts_with seg K = true /\
          i = Z.of_nat (length d + length K) /\ r = 2 * (length d + length K) + 1)).
  { intros v i r. split.
    - intros [Hc Hr]. destruct (Nat.lt_ge_cases r (2 * length d)) as [Hlt|Hge].
      + left. left. split; assumption.
      + destruct Hc as [p [x [Hp [[H1 [H2 H3]]|[H0 [H1 [H2 H3]]]]]]].
        * right. rewrite Hreq in Hp. destruct (prefix_cmp d p (seg ++ tl) x Hp) as [K [-> HK]]; [lia|].
          rewrite app_length in *. symmetry in HK. destruct (prefix_cmp K seg x tl HK) as [z [-> _]]; [lia|].
          exists K. assert (HnK : ~ In c_slash K) by (intros Hi; apply Hs, in_app_iff; auto).
          rewrite <- app_assoc, Hwild in H1 by exact HnK. repeat split.
          -- apply imap_get_In, H1.
          -- apply starts_with_app.
          -- exact H2.
          -- exact H3.
        * left. right. rewrite Hreq in Hp. destruct (prefix_cmp d p (seg ++ tl) x Hp) as [K [-> HK]]; [lia|].
          rewrite app_length in *. symmetry in HK. destruct (prefix_cmp K seg x tl HK) as [z [-> _]]; [lia|].
          assert (K = []).
          { apply (app_last_slash d Hd K H0). intros Hi. apply Hs, in_app_iff. auto. }
          subst K. rewrite app_nil_r in H1. cbn [length] in *. rewrite Nat.add_0_r in *. rewrite <- Hfold. auto.
    - intros [[[Hc Hr]|[H1 [H2 H3]]]|[K [H1 [H2 [H3 H4]]]]].
      + split; [exact Hc|lia].
      + split; [|lia]. exists d, (seg ++ tl). split; [exact Hreq|]. right. rewrite Hfold. auto.
      + apply starts_with_spec in H2. destruct H2 as [z ->]. rewrite app_length in *. split; [|lia].
        exists (d ++ K), (z ++ tl). split; [rewrite Hreq, <- !app_assoc; reflexivity|]. left.
        assert (HnK : ~ In c_slash K) by (intros Hi; apply Hs, in_app_iff; auto).
        rewrite <- app_assoc, Hwild by exact HnK. rewrite app_length. repeat split; auto.
        apply imap_In_get; assumption. }
  eapply best_ext; [intros; symmetry; apply Hsplit|]. apply wild_best.
  - unfold ascii_str in *. rewrite Hreq in Hasc. apply Forall_app in Hasc. destruct Hasc as [_ H].
    apply Forall_app in H. apply H.
  - intros v i r [[Hc _]|[_ [-> ->]]]; [apply cand_ranked in Hc; exact Hc|]. right. split; [lia|]. f_equal. lia.
  - exact Hbf.
  - intros v i r [[Hc Hr]|[_ [-> ->]]] Hi; lia.
Qed.

(** The whole search. *)
Lemma find_segs_best : forall n d node s m, length s < n -> at_node d node -> req = d ++ s ->
  best (below (2 * length d)) m ->
  (exists p seg v, s = p ++ seg /\ is_dir_key p /\ ~ In c_slash seg /\ stored root req = Some v /\
     seg <> [] /\ ends_with_char seg c_star = false /\
     find_segs (split_on c_slash s) node (length d) m = Some (v, (Z.of_nat (length seg) + 1)%Z)) \/
  ((stored root req = None \/ is_dir_key s \/ ends_with_char req c_star = true) /\
   ((s = [] \/ exists q, s = q ++ [c_slash]) \/ best cand (find_segs (split_on c_slash s) node (length d) m))).
Proof.
  induction n as [|n IH]; intros d node s m Hn Hat Hreq Hb; [lia|].
  destruct (find_char s c_slash) as [[seg t]|] eqn:E.
  - apply find_char_some in E. destruct E as [-> Hs]. rewrite split_on_app by exact Hs.
    destruct (split_on_cons_ne c_slash t) as [h [rr Es]]. rewrite Es, find_segs_cons, <- Es. cbv zeta.
    pose proof (level_best d node seg (c_slash :: t) m Hat Hreq Hs (or_intror (ex_intro _ t eq_refl)) Hb) as Hl.
    assert (Hlen : length (d ++ seg ++ [c_slash]) = length d + length seg + 1) by (rewrite !app_length; cbn; lia).
    destruct (imap_get (kids node) seg) as [nd|] eqn:Ek.
    + pose proof (at_kid d node seg nd Hat Hs Ek) as Hat'.
      assert (Hreq' : req = (d ++ seg ++ [c_slash]) ++ t) by (rewrite <- !app_assoc; exact Hreq).
      rewrite <- Hlen in Hl. specialize (IH (d ++ seg ++ [c_slash]) nd t _ ltac:(rewrite app_length in Hn; cbn in Hn; lia) Hat' Hreq' Hl).
      rewrite Hlen in IH. destruct IH as [[p [sg [v [H1 [H2 [H3 [H4 [H5 [H6 H7]]]]]]]]]|[H1 H2]].
      * left. exists (seg ++ c_slash :: p), sg, v. repeat split; auto.
        -- rewrite H1. rewrite <- !app_assoc. reflexivity.
        -- destruct H2 as [->|[q ->]]; right; [exists seg; reflexivity|exists (seg ++ c_slash :: q)].
           rewrite <- app_assoc. reflexivity.
      * right. assert (Hd : forall u, is_dir_key u -> is_dir_key (seg ++ c_slash :: u)).
        { intros u [->|[q ->]]; right; [exists seg; reflexivity|exists (seg ++ c_slash :: q)].
          rewrite <- app_assoc. reflexivity. }
        split.
        -- destruct H1 as [H1|[H1|H1]]; auto.
        -- destruct H2 as [H2|H2]; [|auto]. left. apply (Hd t) in H2. exact H2.
    + right. assert (Hno : stored root req = None) by (rewrite Hreq; eapply no_kid; eassumption).
      split; [auto|]. right. eapply best_ext; [|exact Hl]. intros v i r. split; [intros [H _]; exact H|].
      intros Hc. split; [exact Hc|]. destruct (Nat.lt_ge_cases r (2 * (length d + length seg + 1))) as [Hlt|Hge]; [exact Hlt|].
      exfalso. destruct Hc as [p [x [Hp Hc]]].
      assert (Hple : length (d ++ seg ++ [c_slash]) <= length p) by (destruct Hc as [[_ [_ ->]]|[_ [_ [_ ->]]]]; lia).
      assert (Hreq' : (d ++ seg ++ [c_slash]) ++ t = p ++ x) by (rewrite <- Hp, <- !app_assoc; symmetry; exact Hreq).
      destruct (prefix_cmp _ _ _ _ Hreq' Hple) as [z [-> _]].
      destruct Hc as [[Hc _]|[_ [Hc _]]]; rewrite <- !app_assoc in Hc; cbn [app] in Hc;
        erewrite (no_kid d node seg _ Hat Hs Ek) in Hc; discriminate.
  - apply find_char_none in E. rewrite split_on_nosep by exact E. cbn [find_segs].
    destruct Hat as [Hd [Hnok Hst]]. inversion Hnok as [? Hnd Hfiles _ _ _ _]; subst.
    assert (Hreq2 : req = d ++ s ++ []) by (rewrite app_nil_r; exact Hreq).
    pose proof (level_best d node s [] m (conj Hd (conj Hnok Hst)) Hreq2 E (or_introl eq_refl) Hb) as Hl.
    assert (Hst' : stored root req = leaf_get node s).
    { rewrite Hreq, Hst. unfold stored. rewrite split_on_nosep by exact E. reflexivity. }
    destruct s as [|c s].
    + right. split; [right; left; left; reflexivity|left; left; reflexivity].
    + assert (Hbest : best cand (apply_wildcards (apply_folder_mapping m node (length d)) (wilds node) (c :: s) (length d))).
      { eapply best_ext; [|exact Hl]. intros v i r. split; [intros [H _]; exact H|]. intros Hc. split; [exact Hc|].
        destruct Hc as [p [x [Hp Hc]]]. assert (length p <= length d + length (c :: s)).
        { assert (length req = length (p ++ x)) by congruence. rewrite Hreq in H. rewrite !app_length in H. lia. }
        destruct Hc as [[_ [_ ->]]|[_ [_ [_ ->]]]]; lia. }
      unfold leaf_get in Hst'. destruct (ends_with_char (c :: s) c_star) eqn:Ee.
      * right. assert (Er : ends_with_char req c_star = true).
        { apply ends_with_char_spec in Ee. destruct Ee as [q Eq]. apply ends_with_char_spec. exists (d ++ q).
          rewrite Hreq, Eq, app_assoc. reflexivity. }
        split; [auto|]. right. destruct (imap_get (t_files node) (c :: s)) as [v|] eqn:Eg; [|exact Hbest].
        apply imap_get_In in Eg. apply Hfiles in Eg. destruct Eg as [Eg _]. congruence.
      * destruct (imap_get (t_files node) (c :: s)) as [v|] eqn:Eg.
        -- left. exists [], (c :: s), v. repeat split; auto; try discriminate.
           ++ left. reflexivity.
           ++ rewrite ascii_blen; [reflexivity|]. unfold ascii_str in *. rewrite Hreq in Hasc. apply Forall_app in Hasc. apply Hasc.
        -- right. split; [left; exact Hst'|right; exact Hbest].
Qed.
End Find.
