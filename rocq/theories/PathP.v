(** * Proofs about paths and lexical normalisation. *)
From Coq Require Import String.
From Coq Require Import List Arith NArith Bool Lia.
From Verif Require Import Str StrP Path Json Types Parse SpecParse.
Import ListNotations.

Definition keep (s : str) : bool := negb (skip_seg s).
Definition seg_comps (l : list str) : list comp := map seg_comp (filter keep l).
Definition noslash (s : str) : Prop := ~ In c_slash s.

Lemma components_def : forall p, components p = head_comps p ++ seg_comps (split_on c_slash (path_body p)).
Proof. reflexivity. Qed.
Lemma skip_seg_spec : forall s, skip_seg s = true <-> s = [] \/ s = s_dot.
Proof. intros s. unfold skip_seg. rewrite orb_true_iff, !str_eqb_eq. reflexivity. Qed.
Lemma keep_spec : forall s, keep s = true <-> s <> [] /\ s <> s_dot.
Proof.
  intros s. unfold keep. rewrite negb_true_iff, <- not_true_iff_false, skip_seg_spec. tauto.
Qed.
Lemma seg_comps_app : forall a b, seg_comps (a ++ b) = seg_comps a ++ seg_comps b.
Proof. intros. unfold seg_comps. rewrite filter_app, map_app. reflexivity. Qed.

Lemma split_join : forall l, l <> [] -> Forall noslash l -> split_on c_slash (join_on c_slash l) = l.
Proof.
  induction l as [|x l IH]; intros Hne HF; [congruence|].
  inversion HF as [|? ? Hx HF']; subst. destruct l as [|y l].
  - cbn [join_on]. apply split_on_nosep. exact Hx.
  - change (join_on c_slash (x :: y :: l)) with (x ++ c_slash :: join_on c_slash (y :: l)).
    rewrite split_on_app by exact Hx. f_equal. apply IH; [discriminate|exact HF'].
Qed.
Lemma split_noslash : forall s, Forall noslash (split_on c_slash s).
Proof. intros s. apply Forall_forall. intros x Hx. eapply split_on_no_in; eassumption. Qed.
Lemma split_join_comps : forall l, Forall noslash l ->
  seg_comps (split_on c_slash (join_on c_slash l)) = seg_comps l.
Proof.
  intros [|x l] H; [reflexivity|]. rewrite split_join; [reflexivity|discriminate|exact H].
Qed.
Lemma split_on_app_ne : forall c a b, a <> [] ->
  exists h t, split_on c a = h :: t /\
    split_on c (a ++ b) = match b with [] => split_on c a
                          | _ => removelast (split_on c a) ++ (last (split_on c a) [] ++ hd [] (split_on c b)) :: tl (split_on c b) end.
Proof.
  intros c a b Ha. destruct (split_on_cons_ne c a) as [h [t E]]. exists h, t. split; [exact E|].
  destruct b as [|y b]; [rewrite app_nil_r; reflexivity|].
  clear Ha. revert h t E. induction a as [|x a IH]; intros h t E.
  - cbn in E. inversion E; subst. cbn [app split_on removelast last].
    destruct (split_on_cons_ne c (y :: b)) as [h' [t' E']]. cbn [split_on] in E'. rewrite E'. reflexivity.
  - cbn [app split_on] in *. destruct (split_on_cons_ne c a) as [h' [t' E']].
    specialize (IH _ _ E'). rewrite IH. rewrite E'. destruct (N.eqb x c).
    + cbn [removelast last]. destruct t'; reflexivity.
    + destruct t'; reflexivity.
Qed.
Lemma split_on_sep_app : forall c a b, split_on c (a ++ c :: b) = split_on c a ++ split_on c b.
Proof.
  induction a as [|x a IH]; intros b; cbn [app split_on].
  - rewrite N.eqb_refl. reflexivity.
  - rewrite IH. destruct (N.eqb x c); [reflexivity|].
    destruct (split_on_cons_ne c a) as [h [t ->]]. reflexivity.
Qed.

(** Shapes of a path: absolute, leading ".", other. *)
Inductive shape : path -> path -> list comp -> list str -> Prop :=
| ShAbs : forall l, Forall noslash l -> shape (c_slash :: join_on c_slash l) [c_slash] [CRoot] l
| ShCur : forall l, Forall noslash l -> (l = [] \/ exists r, l = [] :: r) ->
    shape (c_dot :: join_on c_slash l) s_dot [CCur] l
| ShRel : forall l, Forall noslash l ->
    (l = [] \/ l = [[]] \/ exists x r, l = x :: r /\ x <> [] /\ x <> s_dot) ->
    shape (join_on c_slash l) [] [] l.

Lemma is_abs_join_rel : forall l, Forall noslash l ->
  (l = [] \/ l = [[]] \/ exists x r, l = x :: r /\ x <> [] /\ x <> s_dot) ->
  is_abs (join_on c_slash l) = false /\ lead_cur (join_on c_slash l) = false.
Proof.
  intros l HF [->|[->|[x [r [-> [Hx Hd]]]]]]; [auto|auto|].
  inversion HF as [|? ? Hx' HF']; subst.
  destruct x as [|c x]; [congruence|].
  assert (Hc : c <> c_slash) by (intros ->; apply Hx'; left; reflexivity).
  assert (E : exists y, join_on c_slash ((c :: x) :: r) = c :: y /\ (y = x \/ exists z, y = x ++ c_slash :: z)).
  { destruct r; cbn [join_on]; eexists; split; eauto. reflexivity. }
  destruct E as [y [E Hy]].
  enough (G : forall w, w = c :: y -> is_abs w = false /\ lead_cur w = false) by (apply G; exact E).
  clear E. intros w ->.
  unfold is_abs, starts_with_char, lead_cur. split.
  - apply N.eqb_neq. exact Hc.
  - destruct x as [|d x].
    + assert (Hcd : c <> c_dot) by (intros ->; apply Hd; reflexivity).
      apply N.eqb_neq in Hcd.
      destruct Hy as [->|[z ->]]; [exact Hcd|]. cbn [app]. rewrite Hcd. reflexivity.
    + assert (Hds : d <> c_slash) by (intros ->; apply Hx'; right; left; reflexivity).
      apply N.eqb_neq in Hds.
      destruct Hy as [->|[z ->]]; cbn [app]; rewrite Hds, andb_false_r; reflexivity.
Qed.

Lemma shape_props : forall p h hc l, shape p h hc l ->
  path_head p = h /\ head_comps p = hc /\ path_body p = join_on c_slash l /\ components p = hc ++ seg_comps l.
Proof.
  intros p h hc l H.
  assert (G : path_head p = h /\ head_comps p = hc /\ p = h ++ join_on c_slash l /\ Forall noslash l).
  { destruct H as [l HF|l HF Hl|l HF Hl].
    - repeat split; auto.
    - assert (Hc : lead_cur (c_dot :: join_on c_slash l) = true).
      { destruct Hl as [->|[r ->]]; [reflexivity|]. destruct r; reflexivity. }
      unfold path_head, head_comps. rewrite Hc.
      assert (Ha : is_abs (c_dot :: join_on c_slash l) = false) by reflexivity.
      rewrite Ha. repeat split; auto.
    - destruct (is_abs_join_rel l HF Hl) as [Ha Hc]. unfold path_head, head_comps.
      rewrite Ha, Hc. repeat split; auto. }
  destruct G as [G1 [G2 [G3 G4]]].
  assert (G5 : path_body p = join_on c_slash l).
  { unfold path_body. rewrite G1, G3. rewrite skipn_app, skipn_all, Nat.sub_diag. reflexivity. }
  repeat split; auto. rewrite components_def, G2, G5, split_join_comps by exact G4. reflexivity.
Qed.

Lemma shape_of : forall p, exists h hc l, shape p h hc l /\ l = split_on c_slash (path_body p).
Proof.
  intros p. destruct (is_abs p) eqn:Ea.
  - apply starts_with_char_spec in Ea. destruct Ea as [r ->].
    exists [c_slash], [CRoot], (split_on c_slash r). split; [|reflexivity].
    rewrite <- (join_split c_slash r) at 1. constructor. apply split_noslash.
  - destruct (lead_cur p) eqn:El.
    + assert (E : exists r, p = c_dot :: r /\ (r = [] \/ exists r', r = c_slash :: r')).
      { destruct p as [|c [|d p]]; cbn [lead_cur] in El; [discriminate| |].
        - apply N.eqb_eq in El. subst. eauto.
        - apply andb_true_iff in El. destruct El as [E1 E2]. apply N.eqb_eq in E1, E2. subst. eauto 6. }
      destruct E as [r [-> Hr]].
      exists s_dot, [CCur], (split_on c_slash r). split.
      * rewrite <- (join_split c_slash r) at 1. constructor; [apply split_noslash|].
        right. destruct Hr as [->|[r' ->]]; [exists []; reflexivity|]. exists (split_on c_slash r'). reflexivity.
      * unfold path_body, path_head. rewrite Ea, El. reflexivity.
    + assert (Eb : path_body p = p) by (unfold path_body, path_head; rewrite Ea, El; reflexivity).
      rewrite Eb. destruct p as [|c p].
      * exists [], [], [[]]. split; [|reflexivity].
        apply (ShRel [[]]); [|auto]. constructor; [intros []|constructor].
      * exists [], [], (split_on c_slash (c :: p)). split; [|reflexivity].
        rewrite <- (join_split c_slash (c :: p)) at 1. constructor; [apply split_noslash|].
        right. right. cbn [split_on]. cbn [is_abs starts_with_char] in Ea.
        change (N.eqb c c_slash = false) in Ea. rewrite Ea.
        destruct (split_on_cons_ne c_slash p) as [h [t E]]. rewrite E.
        exists (c :: h), t. repeat split; [discriminate|].
        intros Ed. inversion Ed; subst.
        destruct p as [|d p]; [discriminate El|]. cbn [lead_cur] in El.
        rewrite N.eqb_refl in El. cbn [andb] in El. cbn [split_on] in E. rewrite El in E.
        destruct (split_on c_slash p); discriminate.
Qed.

(** ** Components of joins and parents *)
Lemma components_nil_iff : forall p, components p = [] <-> p = [].
Proof.
  intros p. split; [|intros ->; reflexivity].
  destruct (shape_of p) as [h [hc [l [Hs _]]]]. intros E.
  pose proof (shape_props _ _ _ _ Hs) as [_ [_ [_ Hc]]]. rewrite E in Hc.
  destruct Hs as [l HF|l HF Hl|l HF Hl]; try discriminate.
  destruct Hl as [->|[->|[x [r [-> [H1 H2]]]]]]; try reflexivity.
  exfalso. unfold seg_comps in Hc. cbn [filter] in Hc.
  assert (Hk : keep x = true) by (apply keep_spec; auto). rewrite Hk in Hc. discriminate.
Qed.

Definition body_comps (q : path) : list comp := seg_comps (split_on c_slash q).
Definition drop_cur (l : list comp) : list comp := match l with CCur :: r => r | _ => l end.

Lemma components_sep : forall p q, p <> [] -> components (p ++ c_slash :: q) = components p ++ body_comps q.
Proof.
  intros p q Hp.
  assert (Ha : is_abs (p ++ c_slash :: q) = is_abs p) by (destruct p; [congruence|reflexivity]).
  assert (Hl : lead_cur (p ++ c_slash :: q) = lead_cur p).
  { destruct p as [|c [|d p]]; [congruence| |reflexivity]. cbn. rewrite andb_true_r. reflexivity. }
  assert (Hh : path_head (p ++ c_slash :: q) = path_head p) by (unfold path_head; rewrite Ha, Hl; reflexivity).
  assert (Hb : path_body (p ++ c_slash :: q) = path_body p ++ c_slash :: q).
  { unfold path_body. rewrite Hh, skipn_app.
    replace (length (path_head p) - length p) with 0; [reflexivity|].
    unfold path_head. destruct p as [|c p]; [congruence|].
    destruct (is_abs (c :: p)); [cbn [length]; lia|]. destruct (lead_cur (c :: p)); cbn [length s_dot]; unfold s_dot; cbn [length]; lia. }
  rewrite !components_def. unfold head_comps. rewrite Ha, Hl, Hb, split_on_sep_app, seg_comps_app, app_assoc.
  reflexivity.
Qed.
Lemma components_abs : forall q, components (c_slash :: q) = CRoot :: body_comps q.
Proof. reflexivity. Qed.
Lemma body_comps_rel : forall q, is_abs q = false -> body_comps q = drop_cur (components q).
Proof.
  intros q Ha. rewrite components_def. unfold head_comps, path_body, path_head, body_comps. rewrite Ha.
  destruct (lead_cur q) eqn:El.
  - destruct q as [|c [|d q]]; cbn [lead_cur] in El; [discriminate| |].
    + apply N.eqb_eq in El. subst. reflexivity.
    + apply andb_true_iff in El. destruct El as [E1 E2]. apply N.eqb_eq in E1, E2. subst. reflexivity.
  - cbn [length skipn app]. unfold seg_comps. destruct (filter keep (split_on c_slash q)) as [|x r]; [reflexivity|].
    cbn [map]. unfold seg_comp at 1 3. destruct (str_eqb x s_dotdot); reflexivity.
Qed.
Lemma components_join : forall p q, is_abs q = false -> p <> [] ->
  components (join p q) = components p ++ body_comps q.
Proof.
  intros p q Ha Hp. unfold join. rewrite Ha. destruct p as [|c p]; [congruence|].
  destruct (ends_with_char (c :: p) c_slash) eqn:Ee.
  - apply ends_with_char_spec in Ee. destruct Ee as [r Er].
    destruct r as [|x r].
    + cbn [app] in Er. inversion Er; subst. reflexivity.
    + rewrite Er. rewrite <- app_assoc. cbn [app].
      change (x :: r ++ c_slash :: q) with ((x :: r) ++ c_slash :: q).
      rewrite components_sep by discriminate.
      change (x :: r ++ [c_slash]) with ((x :: r) ++ c_slash :: []).
      rewrite components_sep by discriminate. cbn [body_comps split_on seg_comps filter]. rewrite app_nil_r. reflexivity.
  - rewrite <- components_sep by discriminate. reflexivity.
Qed.
Lemma join_congr : forall p p' q, components p = components p' -> components (join p q) = components (join p' q).
Proof.
  intros p p' q E. destruct (is_abs q) eqn:Ea; [unfold join; rewrite Ea; reflexivity|].
  destruct p as [|c p].
  - symmetry in E. apply components_nil_iff in E. subst. reflexivity.
  - destruct p' as [|c' p'].
    + apply components_nil_iff in E. discriminate.
    + rewrite !components_join by (auto; discriminate). rewrite E. reflexivity.
Qed.

Lemma drop_while_spec : forall {A} (f : A -> bool) l, exists d r, l = d ++ r /\ drop_while f l = r /\
  Forall (fun x => f x = true) d /\ (r = [] \/ exists x t, r = x :: t /\ f x = false).
Proof.
  induction l as [|x l IH].
  - exists [], []. auto.
  - cbn [drop_while]. destruct (f x) eqn:E.
    + destruct IH as [d [r [-> [Hd [HF Hr]]]]]. exists (x :: d), r. rewrite Hd. auto.
    + exists [], (x :: l). repeat split; auto. right. eauto.
Qed.
Lemma seg_comps_skip : forall d, Forall (fun x => skip_seg x = true) d -> seg_comps d = [].
Proof.
  induction 1 as [|x d Hx _ IH]; [reflexivity|]. unfold seg_comps in *. cbn [filter].
  unfold keep at 1. rewrite Hx. exact IH.
Qed.
Lemma Forall_app_l {A} (P : A -> Prop) : forall a b, Forall P (a ++ b) -> Forall P a.
Proof. intros a b H. apply Forall_app in H. tauto. Qed.

Lemma parent_some : forall p q, parent p = Some q -> components q = removelast (components p) /\
  components p <> [] /\ components p <> [CRoot].
Proof.
  intros p q H. destruct (shape_of p) as [h [hc [l [Hs El]]]].
  pose proof (shape_props _ _ _ _ Hs) as [Hh [Hhc [Hb Hc]]].
  unfold parent in H. rewrite <- El in H.
  destruct (drop_while_spec skip_seg (rev l)) as [d [r [Erev [Ed [HFd Hr]]]]]. rewrite Ed in H.
  assert (El' : l = rev r ++ rev d) by (rewrite <- (rev_involutive l), Erev, rev_app_distr; reflexivity).
  assert (Hdn : seg_comps (rev d) = []) by (apply seg_comps_skip, Forall_rev, HFd).
  destruct Hr as [->|[x [t [-> Hx]]]].
  - cbn [rev app] in El'. rewrite Hc, El', Hdn, app_nil_r.
    unfold head_comps in Hhc. destruct (is_abs p); [discriminate|].
    destruct (lead_cur p); [|discriminate]. inversion H; subst. repeat split; discriminate.
  - inversion H; subst q; clear H.
    destruct (drop_while_spec skip_seg t) as [d' [r' [Et [Ed' [HFd' Hr']]]]]. rewrite Ed'.
    assert (Hdn' : seg_comps (rev d') = []) by (apply seg_comps_skip, Forall_rev, HFd').
    assert (El2 : l = rev r' ++ rev d' ++ [x] ++ rev d).
    { rewrite El'. cbn [rev]. rewrite Et, rev_app_distr, <- !app_assoc. reflexivity. }
    assert (Hcx : components p = (hc ++ seg_comps (rev r')) ++ [seg_comp x]).
    { rewrite Hc, El2, !seg_comps_app, Hdn, Hdn'. unfold seg_comps at 2. cbn [filter].
      unfold keep at 1. rewrite Hx. cbn. rewrite app_assoc. reflexivity. }
    rewrite Hcx, removelast_last. split.
    + assert (Hs' : shape (path_head p ++ join_on c_slash (rev r')) h hc (rev r')).
      { assert (HFr : Forall noslash (rev r')).
        { assert (HF : Forall noslash l) by (inversion Hs; assumption).
          rewrite El2 in HF. apply Forall_app_l in HF. exact HF. }
        rewrite Hh. destruct Hs as [l HF|l HF Hl|l HF Hl].
        - apply ShAbs. exact HFr.
        - apply ShCur; [exact HFr|]. destruct (rev r') as [|y z]; [auto|].
          right. destruct Hl as [->|[w Hl]]; [discriminate|]. rewrite Hl in El2. inversion El2; subst. eauto.
        - apply ShRel; [exact HFr|]. destruct (rev r') as [|y z]; [auto|].
          right. destruct Hl as [->|[->|[y' [w [Hl [H1 H2]]]]]]; [discriminate| |].
          + exfalso. inversion El2 as [[Hy Hz]]. destruct z; destruct (rev d'); discriminate.
          + right. rewrite Hl in El2. inversion El2; subst. eauto 6. }
      pose proof (shape_props _ _ _ _ Hs') as [_ [_ [_ Hq]]]. exact Hq.
    + split.
      * destruct (hc ++ seg_comps (rev r')); discriminate.
      * intros E. apply (app_inj_tail _ []) in E. destruct E as [_ E]. unfold seg_comp in E.
        destruct (str_eqb x s_dotdot); discriminate.
Qed.
Lemma parent_none : forall p, parent p = None <-> components p = [] \/ components p = [CRoot].
Proof.
  intros p. split.
  - intros H. destruct (shape_of p) as [h [hc [l [Hs El]]]].
    pose proof (shape_props _ _ _ _ Hs) as [Hh [Hhc [Hb Hc]]].
    unfold parent in H. rewrite <- El in H.
    destruct (drop_while_spec skip_seg (rev l)) as [d [r [Erev [Ed [HFd Hr]]]]]. rewrite Ed in H.
    destruct r; [|discriminate]. rewrite app_nil_r in Erev.
    assert (Hdn : seg_comps l = []).
    { apply seg_comps_skip. rewrite <- (rev_involutive l), Erev. apply Forall_rev, HFd. }
    rewrite Hc, Hdn, app_nil_r. unfold head_comps in Hhc.
    destruct (is_abs p); [subst; auto|]. destruct (lead_cur p); [discriminate|]. subst; auto.
  - intros H. destruct (parent p) as [q|] eqn:E; [|reflexivity].
    apply parent_some in E. tauto.
Qed.
Lemma removelast_length {A} : forall l : list A, length (removelast l) = length l - 1.
Proof.
  intros l. induction l as [|x [|y l] IH]; [reflexivity|reflexivity|].
  change (removelast (x :: y :: l)) with (x :: removelast (y :: l)).
  cbn [length] in *. rewrite IH. lia.
Qed.
Lemma parent_shorter : forall p q, parent p = Some q -> S (length (components q)) = length (components p).
Proof.
  intros p q H. apply parent_some in H. destruct H as [E [Hne _]]. rewrite E, removelast_length.
  destruct (components p); [congruence|]. cbn. lia.
Qed.
Lemma parent_congr : forall p p', components p = components p' ->
  match parent p, parent p' with
  | Some q, Some q' => components q = components q'
  | None, None => True
  | _, _ => False
  end.
Proof.
  intros p p' E. destruct (parent p) as [q|] eqn:E1, (parent p') as [q'|] eqn:E2; auto.
  - apply parent_some in E1, E2. destruct E1 as [-> _], E2 as [-> _]. rewrite E. reflexivity.
  - apply parent_none in E2. apply parent_some in E1. rewrite E in E1. tauto.
  - apply parent_none in E1. apply parent_some in E2. rewrite E in E1. tauto.
Qed.

(** ** Normalisation *)
Lemma plain_keep : forall s, plain_name s -> keep s = true /\ seg_comp s = CNormal s.
Proof.
  intros s [H1 [H2 [H3 H4]]]. split; [apply keep_spec; auto|].
  unfold seg_comp. destruct (str_eqb_spec s s_dotdot); [contradiction|reflexivity].
Qed.
Lemma plain_comps : forall l, Forall plain_name l -> seg_comps l = map CNormal l.
Proof.
  induction 1 as [|x l Hx _ IH]; [reflexivity|]. unfold seg_comps in *. cbn [filter].
  destruct (plain_keep x Hx) as [-> E]. cbn [map]. rewrite E, IH. reflexivity.
Qed.
Lemma plain_noslash : forall l, Forall plain_name l -> Forall noslash l.
Proof. intros l H. eapply Forall_impl; [|exact H]. intros a Ha. apply Ha. Qed.
Lemma spell_shape : forall abs l, Forall plain_name l ->
  shape (spell abs l) (if abs then [c_slash] else []) (if abs then [CRoot] else []) l.
Proof.
  intros [] l H; unfold spell.
  - apply ShAbs. apply plain_noslash, H.
  - apply ShRel; [apply plain_noslash, H|]. destruct H as [|x l [H1 [H2 H3]] _]; [auto|].
    right. right. exists x, l. auto.
Qed.
Lemma spell_components : forall abs l, Forall plain_name l ->
  components (spell abs l) = (if abs then [CRoot] else []) ++ map CNormal l.
Proof.
  intros abs l H. pose proof (shape_props _ _ _ _ (spell_shape abs l H)) as [_ [_ [_ E]]].
  rewrite E, plain_comps by exact H. reflexivity.
Qed.
Lemma join_on_snoc : forall l x, l <> [] -> join_on c_slash (l ++ [x]) = join_on c_slash l ++ c_slash :: x.
Proof.
  induction l as [|a [|b l] IH]; intros x H; [congruence|reflexivity|].
  change ((a :: b :: l) ++ [x]) with (a :: (b :: l) ++ [x]).
  change (join_on c_slash (a :: b :: l)) with (a ++ c_slash :: join_on c_slash (b :: l)).
  change (join_on c_slash (a :: (b :: l) ++ [x])) with (a ++ c_slash :: join_on c_slash ((b :: l) ++ [x])).
  rewrite IH by discriminate. rewrite <- app_assoc. reflexivity.
Qed.
Lemma plain_not_abs : forall s, plain_name s -> is_abs s = false.
Proof.
  intros [|c s] [H1 [_ [_ H4]]]; [congruence|]. cbn. apply N.eqb_neq. intros ->. apply H4. left. reflexivity.
Qed.
Lemma ends_with_snoc : forall a (x : char) c, ends_with_char (a ++ [x]) c = N.eqb x c.
Proof.
  induction a as [|y a IH]; intros x c; [reflexivity|]. cbn [app ends_with_char].
  destruct (a ++ [x]) eqn:E; [destruct a; discriminate|]. rewrite <- E. apply IH.
Qed.
Lemma join_on_ends : forall l, Forall plain_name l -> l <> [] ->
  exists a x, join_on c_slash l = a ++ [x] /\ x <> c_slash.
Proof.
  intros l H Hne. destruct (exists_last Hne) as [l' [y ->]].
  apply Forall_app in H. destruct H as [_ H]. inversion H as [|? ? Hy _]; subst.
  destruct Hy as [H1 [_ [_ H4]]]. destruct (exists_last H1) as [y' [x ->]].
  assert (Hx : x <> c_slash) by (intros ->; apply H4; apply in_app_iff; right; left; reflexivity).
  destruct l' as [|a l'].
  - exists y', x. auto.
  - rewrite join_on_snoc by discriminate. exists (join_on c_slash (a :: l') ++ c_slash :: y'), x.
    rewrite <- app_assoc. auto.
Qed.
Lemma join_ns : forall (w p q : path) (u : str) (y : char), w = u ++ [y] -> y <> c_slash -> p = w ->
  is_abs q = false -> join p q = w ++ c_slash :: q.
Proof.
  intros w p q u y Ew Hy -> Ha. unfold join. rewrite Ha.
  assert (He : ends_with_char w c_slash = false).
  { rewrite Ew, ends_with_snoc. apply N.eqb_neq. exact Hy. }
  rewrite He. destruct w; [destruct u; discriminate|reflexivity].
Qed.
Lemma join_spell : forall abs l x, Forall plain_name l -> plain_name x ->
  join (spell abs l) x = spell abs (l ++ [x]).
Proof.
  intros abs l x H Hx. 
  destruct l as [|a l].
  - unfold join. rewrite (plain_not_abs x Hx). destruct abs; reflexivity.
  - assert (Hne : a :: l <> []) by discriminate. revert H Hne. generalize (a :: l) as l0. intros l0 H Hne.
    destruct (join_on_ends l0 H Hne) as [u [y [E Hy]]].
    rewrite (join_ns (spell abs l0) _ x ((if abs then lit "/" else []) ++ u) y); auto using plain_not_abs.
    + unfold spell. change 47%N with c_slash. rewrite join_on_snoc by exact Hne.
      rewrite <- !app_assoc. reflexivity.
    + unfold spell. change 47%N with c_slash. rewrite E, <- app_assoc. reflexivity.
Qed.
Lemma drop_while_all_false {A} (f : A -> bool) : forall l, Forall (fun x => f x = false) l -> drop_while f l = l.
Proof. intros l H. destruct H as [|x l Hx _]; [reflexivity|]. cbn. rewrite Hx. reflexivity. Qed.
Lemma plain_no_skip : forall l, Forall plain_name l -> Forall (fun x => skip_seg x = false) l.
Proof.
  intros l H. eapply Forall_impl; [|exact H]. intros a Ha. apply plain_keep in Ha. destruct Ha as [Ha _].
  unfold keep in Ha. apply negb_true_iff in Ha. exact Ha.
Qed.
Lemma pop_spell : forall abs l, Forall plain_name l -> path_pop (spell abs l) = spell abs (removelast l).
Proof.
  intros abs l H. unfold path_pop.
  destruct l as [|a l0]; [destruct abs; reflexivity|].
  assert (Hne : a :: l0 <> []) by discriminate. revert H Hne. generalize (a :: l0) as l. intros l H Hne.
  destruct (exists_last Hne) as [l' [x ->]]. rewrite removelast_last.
  pose proof (shape_props _ _ _ _ (spell_shape abs _ H)) as [Hh [_ [Hb _]]].
  unfold parent. rewrite Hb, split_join by (auto using plain_noslash).
  rewrite rev_app_distr. cbn [rev app drop_while].
  apply Forall_app in H. destruct H as [H' Hx].
  apply plain_no_skip in Hx. inversion Hx as [|? ? Hx' _]; subst. rewrite Hx'.
  rewrite drop_while_all_false by (apply Forall_rev, plain_no_skip, H').
  rewrite rev_involutive, Hh. destruct abs; reflexivity.
Qed.

(** the fold over the body of the path *)
Lemma keep_cases : forall s, (str_eqb s [] || str_eqb s (lit "."))%bool = negb (keep s).
Proof. intros s. unfold keep. rewrite negb_involutive. reflexivity. Qed.
Lemma norm_fold : forall segs abs l up, Forall noslash segs -> Forall plain_name l ->
  exists l' up', eval_segs segs up (rev l) = (up', rev l') /\ Forall plain_name l' /\
    fold_left norm_step (seg_comps segs) (spell abs l) = spell abs l'.
Proof.
  induction segs as [|s segs IH]; intros abs l up HF HP.
  - exists l, up. auto.
  - inversion HF as [|? ? Hs HF']; subst. cbn [eval_segs]. rewrite keep_cases.
    unfold seg_comps. cbn [filter]. destruct (keep s) eqn:Ek; cbn [negb].
    + cbn [map fold_left]. fold (seg_comps segs). unfold seg_comp.
      change (lit "..") with s_dotdot. destruct (str_eqb_spec s s_dotdot) as [->|Hd].
      * cbn [norm_step]. rewrite pop_spell by exact HP.
        destruct (rev l) as [|y b] eqn:Er.
        -- assert (l = []) by (rewrite <- (rev_involutive l), Er; reflexivity). subst l.
           destruct (IH abs [] (S up) HF' HP) as [l' [up' [E1 [E2 E3]]]]. exists l', up'. auto.
        -- assert (El : l = rev b ++ [y]) by (rewrite <- (rev_involutive l), Er; reflexivity).
           rewrite El, removelast_last. rewrite El in HP. apply Forall_app in HP. destruct HP as [HP _].
           destruct (IH abs (rev b) up HF' HP) as [l' [up' [E1 E2]]]. rewrite rev_involutive in E1.
           exists l', up'. auto.
      * assert (Hp : plain_name s) by (apply keep_spec in Ek; unfold plain_name; repeat split; try tauto; exact Hs).
        cbn [norm_step]. rewrite join_spell by assumption.
        destruct (IH abs (l ++ [s]) up HF') as [l' [up' [E1 E2]]].
        { apply Forall_app. auto. }
        rewrite rev_app_distr in E1. exists l', up'. auto.
    + destruct (IH abs l up HF' HP) as [l' [up' [E1 [E2 E3]]]]. exists l', up'. auto.
Qed.
Lemma normalize_denote : forall p, exists l up, denote p = (is_abs p, up, l) /\ Forall plain_name l /\
  normalize_path_without_link p = spell (is_abs p) l.
Proof.
  intros p. unfold denote. change (starts_with_char p 47%N) with (is_abs p).
  unfold normalize_path_without_link. destruct (is_abs p) eqn:Ea.
  - apply starts_with_char_spec in Ea. destruct Ea as [r ->].
    change (split_on 47%N (c_slash :: r)) with ([] :: split_on c_slash r).
    cbn [eval_segs str_eqb orb].
    destruct (norm_fold (split_on c_slash r) true [] 0 (split_noslash r) (Forall_nil _)) as [l [up [E1 [E2 E3]]]].
    cbn [rev] in E1. rewrite E1. exists l, 0. rewrite rev_involutive. repeat split; auto.
  - destruct (norm_fold (split_on c_slash p) false [] 0 (split_noslash p) (Forall_nil _)) as [l [up [E1 [E2 E3]]]].
    cbn [rev] in E1. change 47%N with c_slash. rewrite E1. exists l, up. rewrite rev_involutive.
    repeat split; auto. rewrite <- E3. fold (body_comps p). rewrite body_comps_rel by exact Ea.
    destruct (components p) as [|[] ?]; reflexivity.
Qed.
Lemma spell_is_abs : forall abs l, Forall plain_name l -> is_abs (spell abs l) = abs.
Proof.
  intros abs l H. destruct abs; [reflexivity|].
  pose proof (is_abs_join_rel l (plain_noslash l H)) as G. apply G.
  destruct H as [|x l [H1 [H2 H3]] _]; [auto|]. right. right. exists x, l. auto.
Qed.
Lemma eval_plain : forall l up st, Forall plain_name l -> eval_segs l up st = (up, rev l ++ st).
Proof.
  induction l as [|x l IH]; intros up st H; [reflexivity|].
  inversion H as [|? ? Hx H']; subst. cbn [eval_segs]. rewrite keep_cases.
  destruct (plain_keep x Hx) as [-> _]. cbn [negb]. change (lit "..") with s_dotdot.
  destruct Hx as [_ [_ [Hd _]]]. destruct (str_eqb_spec x s_dotdot) as [E|_]; [contradiction|].
  rewrite IH by exact H'. cbn [rev]. rewrite <- app_assoc. reflexivity.
Qed.
Lemma eval_split_join : forall l up st, Forall plain_name l ->
  eval_segs (split_on c_slash (join_on c_slash l)) up st = (up, rev l ++ st).
Proof.
  intros l up st H. destruct l as [|x l]; [reflexivity|].
  rewrite split_join by (try discriminate; apply plain_noslash, H). apply eval_plain, H.
Qed.
Lemma denote_spell : forall abs l, Forall plain_name l -> denote (spell abs l) = (abs, 0, l).
Proof.
  intros abs l H. unfold denote. change (starts_with_char (spell abs l) 47%N) with (is_abs (spell abs l)).
  rewrite (spell_is_abs abs l H). unfold spell. destruct abs.
  - change (split_on 47%N (lit "/" ++ join_on 47%N l)) with ([] :: split_on c_slash (join_on c_slash l)).
    cbn [eval_segs str_eqb orb]. rewrite eval_split_join, app_nil_r, rev_involutive by exact H. reflexivity.
  - cbn [app]. change 47%N with c_slash. rewrite eval_split_join, app_nil_r, rev_involutive by exact H. reflexivity.
Qed.
Lemma normalize_idem : forall p, normalize_path_without_link (normalize_path_without_link p)
  = normalize_path_without_link p.
Proof.
  intros p. destruct (normalize_denote p) as [l [up [E [HP ->]]]].
  destruct (normalize_denote (spell (is_abs p) l)) as [l' [up' [E' [HP' ->]]]].
  rewrite denote_spell in E' by exact HP. injection E' as Ha Hu Hl.
  rewrite <- Hl, <- Ha. reflexivity.
Qed.
Lemma normalize_spec : forall p abs up names, denote p = (abs, up, names) ->
  normalize_path_without_link p = spell abs names /\ Forall plain_name names.
Proof.
  intros p abs up names H. destruct (normalize_denote p) as [l [up' [E [HP En]]]].
  rewrite E in H. inversion H; subst. auto.
Qed.
