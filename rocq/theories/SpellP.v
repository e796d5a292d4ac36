(** * Spellings of the same path. *)
From Coq Require Import String.
From Coq Require Import List Arith NArith Bool Lia.
From Verif Require Import Str StrP Path PathP Json Types Parse Prog Run Posix SpecLoad PosixP.
Import ListNotations.

Lemma same_path_refl : forall p, same_path p p. Proof. reflexivity. Qed.
Lemma same_tail_refl : forall p, same_tail p p. Proof. left; reflexivity. Qed.
Lemma same_tail_sym : forall p q, same_tail p q -> same_tail q p.
Proof. intros p q [->|(p0 & q0 & t & H1 & H2 & H3 & -> & ->)]; [left; reflexivity|]. right. exists q0, p0, t. unfold same_path in *. auto. Qed.

Lemma slash_app_comps : forall p0 t, ends_with_char p0 c_slash = true -> components (p0 ++ t) = components p0 ++ body_comps t.
Proof.
  intros p0 t H. apply ends_with_char_spec in H. destruct H as [p1 ->]. rewrite <- app_assoc. cbn [app].
  destruct p1 as [|c p1].
  - cbn [app]. rewrite !components_abs. reflexivity.
  - rewrite !components_sep by discriminate. unfold body_comps at 2. cbn [split_on]. unfold seg_comps. cbn [filter map].
    change (keep []) with false. cbn [map]. rewrite app_nil_r. reflexivity.
Qed.
Lemma same_tail_path : forall p q, same_tail p q -> same_path p q.
Proof.
  intros p q [->|(p0 & q0 & t & H1 & H2 & H3 & -> & ->)]; [reflexivity|].
  unfold same_path in *. rewrite !slash_app_comps by assumption. congruence.
Qed.
Lemma slashed_comps : forall p, p <> [] -> components (p ++ [c_slash]) = components p.
Proof.
  intros p Hp. rewrite (components_sep p []) by exact Hp. unfold body_comps. cbn [split_on]. apply app_nil_r.
Qed.
Lemma ends_slash_snoc : forall p, ends_with_char (p ++ [c_slash]) c_slash = true.
Proof. intros. apply ends_with_char_spec. eauto. Qed.
Lemma same_tail_join : forall p q t, same_path p q -> same_tail (join p t) (join q t).
Proof.
  intros p q t H. unfold join. destruct (is_abs t); [left; reflexivity|].
  destruct p as [|c p].
  - unfold same_path in H. symmetry in H. rewrite (proj2 (components_nil_iff [])) in H by reflexivity.
    apply components_nil_iff in H. subst q. left; reflexivity.
  - destruct q as [|d q].
    { unfold same_path in H. rewrite (proj2 (components_nil_iff [])) in H by reflexivity.
      apply components_nil_iff in H. discriminate. }
    assert (Hw : forall w : path, w <> [] -> exists w', ends_with_char w' c_slash = true /\ components w' = components w /\
      (if ends_with_char w c_slash then w ++ t else w ++ c_slash :: t) = w' ++ t).
    { intros w Hw. destruct (ends_with_char w c_slash) eqn:E; [exists w; auto|].
      exists (w ++ [c_slash]). split; [apply ends_slash_snoc|]. split; [apply slashed_comps; exact Hw|].
      rewrite <- app_assoc. reflexivity. }
    destruct (Hw (c :: p)) as (p' & A1 & A2 & A3); [discriminate|].
    destruct (Hw (d :: q)) as (q' & B1 & B2 & B3); [discriminate|].
    right. exists p', q', t. unfold same_path in *. repeat split; auto. congruence.
Qed.
Lemma same_tail_app : forall p q e, same_tail p q -> same_tail (p ++ e) (q ++ e).
Proof.
  intros p q e [->|(p0 & q0 & t & H1 & H2 & H3 & -> & ->)]; [left; reflexivity|].
  right. exists p0, q0, (t ++ e). rewrite <- !app_assoc. auto 6.
Qed.
Lemma same_path_join : forall p q t, same_path p q -> same_path (join p t) (join q t).
Proof. intros. apply same_tail_path, same_tail_join. assumption. Qed.
Lemma same_path_nil : forall p q, same_path p q -> p = [] -> q = [].
Proof. intros p q H ->. unfold same_path in H. symmetry in H. apply components_nil_iff. exact H. Qed.

(** Texts without '/' are found in a path exactly when they are found in a segment. *)
Lemma in_join_on : forall l x, In x l -> exists u v, join_on c_slash l = u ++ x ++ v.
Proof.
  induction l as [|y l IH]; intros x [].
  - subst y. destruct l as [|z l]; [exists [], []; cbn [join_on app]; rewrite app_nil_r; reflexivity|].
    exists [], (c_slash :: join_on c_slash (z :: l)). reflexivity.
  - destruct l as [|z l]; [contradiction|]. destruct (IH x H) as (u & v & E).
    exists (y ++ c_slash :: u), v. change (join_on c_slash (y :: z :: l)) with (y ++ c_slash :: join_on c_slash (z :: l)).
    rewrite E, <- app_assoc. reflexivity.
Qed.
Lemma last_slash : forall a : str, ~ In c_slash a \/ exists a1 a2, a = a1 ++ c_slash :: a2 /\ ~ In c_slash a2.
Proof.
  induction a as [|c a [IH|(a1 & a2 & -> & IH)]]; [left; intros []| |].
  - destruct (N.eq_dec c c_slash) as [->|Hc].
    + right. exists [], a. auto.
    + left. intros [|]; [congruence|auto].
  - right. exists (c :: a1), a2. auto.
Qed.
Lemma first_slash : forall a : str, ~ In c_slash a \/ exists a1 a2, a = a1 ++ c_slash :: a2 /\ ~ In c_slash a1.
Proof.
  intros a. destruct (find_char a c_slash) as [[x y]|] eqn:E.
  - right. apply find_char_some in E. eauto.
  - left. apply find_char_none. exact E.
Qed.
Lemma contains_split : forall m s, ~ In c_slash m ->
  (contains s m = true <-> exists x, In x (split_on c_slash s) /\ contains x m = true).
Proof.
  intros m s Hm. rewrite contains_spec. split.
  - intros (a & b & ->).
    assert (Ha : exists l a2, ~ In c_slash a2 /\ forall r, split_on c_slash (a ++ r) = l ++ split_on c_slash (a2 ++ r)).
    { destruct (last_slash a) as [H|(a1 & a2 & -> & H)]; [exists [], a; auto|].
      exists (split_on c_slash a1), a2. split; [exact H|]. intros r. rewrite <- app_assoc. cbn [app].
      apply split_on_sep_app. }
    destruct Ha as (l & a2 & Ha2 & Ha). rewrite Ha.
    destruct (first_slash b) as [H|(b1 & b2 & -> & H)].
    + exists (a2 ++ m ++ b). rewrite split_on_nosep by (rewrite !in_app_iff; tauto). split.
      * apply in_or_app. right. left. reflexivity.
      * apply contains_spec. eauto.
    + exists (a2 ++ m ++ b1). split; [|apply contains_spec; eauto].
      replace (a2 ++ m ++ b1 ++ c_slash :: b2) with ((a2 ++ m ++ b1) ++ c_slash :: b2) by (rewrite <- !app_assoc; reflexivity).
      rewrite split_on_app by (rewrite !in_app_iff; tauto). apply in_or_app. right. left. reflexivity.
  - intros (x & Hx & Hc). apply contains_spec in Hc. destruct Hc as (a & b & ->).
    apply in_join_on in Hx. rewrite join_split in Hx. destruct Hx as (u & v & ->).
    exists (u ++ a), (b ++ v). rewrite <- !app_assoc. reflexivity.
Qed.
Lemma contains_module : forall p q, same_path p q -> contains p MODULE = contains q MODULE.
Proof.
  assert (Hm : ~ In c_slash MODULE).
  { intros H. vm_compute in H. repeat (destruct H as [H|H]; [discriminate|]). exact H. }
  assert (Hk : forall p, contains p MODULE = true <-> exists x, In x (filter keep (split_on c_slash p)) /\ contains x MODULE = true).
  { intros p. rewrite contains_split by exact Hm. split; intros (x & Hx & Hc); exists x; (split; [|exact Hc]).
    - apply filter_In. split; [exact Hx|]. apply keep_spec. split; intros ->; discriminate.
    - apply filter_In in Hx. tauto. }
  intros p q H. apply same_split in H. apply eq_true_iff_eq. rewrite !Hk, H. reflexivity.
Qed.

Lemma path_eqb_comps : forall p q, path_eqb p q = true <-> components p = components q.
Proof.
  intros p q. unfold path_eqb. generalize (components p) (components q).
  assert (Hc : forall a b, comp_eqb a b = true <-> a = b).
  { intros [| | |s] [| | |t]; cbn; try (split; congruence). rewrite str_eqb_eq. split; congruence. }
  induction l as [|x l IH]; intros [|y l']; cbn; try (split; congruence).
  rewrite andb_true_iff, Hc, IH. split; [intros []; congruence|intros E; injection E; auto].
Qed.
Lemma path_eqb_congr : forall p p' q q', same_path p p' -> same_path q q' -> path_eqb p q = path_eqb p' q'.
Proof. intros p p' q q' H1 H2. unfold path_eqb. rewrite H1, H2. reflexivity. Qed.

Lemma parent_same : forall p q, same_path p q ->
  match parent p, parent q with Some p', Some q' => same_path p' q' | None, None => True | _, _ => False end.
Proof. intros p q H. apply parent_congr. exact H. Qed.
Lemma normalize_same : forall p q, same_path p q -> normalize_path_without_link p = normalize_path_without_link q.
Proof. intros p q H. unfold normalize_path_without_link. rewrite H. reflexivity. Qed.

Lemma respelled_refl : forall e, respelled e e.
Proof. intros e. exists e, [], [], []. rewrite !app_nil_r. split; [reflexivity|auto]. Qed.
Lemma respelled_at : forall a b x y, same_path x y -> respelled (a ++ x ++ b) (a ++ y ++ b).
Proof. intros. exists a, b, x, y. auto. Qed.

(** ** [parent] leaves no trailing separator or "." *)
Definition tidy (q : path) : Prop :=
  q = [] \/ q = [c_slash] \/ q = s_dot \/
  exists Q x, q = Q ++ x /\ (Q = [] \/ ends_with_char Q c_slash = true) /\ noslash x /\ keep x = true.
Lemma parent_tidy : forall p q, parent p = Some q -> tidy q.
Proof.
  intros p q H. destruct (shape_of p) as [h [hc [l [Hs El]]]].
  pose proof (shape_props _ _ _ _ Hs) as [Hh _]. unfold parent in H. rewrite <- El in H.
  destruct (drop_while_spec skip_seg (rev l)) as [d [r [Erev [Ed [HFd Hr]]]]]. rewrite Ed in H.
  destruct Hr as [->|[x [t [-> Hx]]]].
  { destruct (is_abs p); [discriminate|]. destruct (lead_cur p); [|discriminate]. injection H as <-. left. reflexivity. }
  injection H as <-. rewrite Hh.
  destruct (drop_while_spec skip_seg t) as [d' [r' [Et [Ed' [HFd' Hr']]]]]. rewrite Ed'.
  assert (El2 : l = rev r' ++ rev d' ++ [x] ++ rev d).
  { rewrite <- (rev_involutive l), Erev, rev_app_distr. cbn [rev]. rewrite Et, rev_app_distr, <- !app_assoc. reflexivity. }
  assert (HF : Forall noslash l) by (inversion Hs; assumption).
  destruct Hr' as [->|[y [t' [-> Hy]]]].
  { cbn [rev join_on]. rewrite app_nil_r. unfold tidy. inversion Hs; auto. }
  cbn [rev] in *. right. right. right.
  assert (Hyn : noslash y) by (rewrite El2, <- app_assoc in HF; apply Forall_app in HF; destruct HF as [_ HF]; inversion HF; assumption).
  assert (Hyk : keep y = true) by (unfold keep; rewrite Hy; reflexivity).
  destruct (rev t') as [|z t2] eqn:Et'.
  - cbn [app join_on]. exists h, y. repeat split; auto.
    destruct Hs as [l HF'|l HF' Hl|l HF' Hl]; [right; reflexivity| |left; reflexivity].
    exfalso. cbn [app] in El2. destruct Hl as [->|[w ->]]; [discriminate|]. injection El2 as <- _. discriminate.
  - exists (h ++ join_on c_slash (z :: t2) ++ [c_slash]), y. split.
    + rewrite join_on_snoc by discriminate. rewrite <- !app_assoc. reflexivity.
    + repeat split; auto. right. rewrite app_assoc. apply ends_slash_snoc.
Qed.
Lemma keep_body : forall x, noslash x -> keep x = true -> body_comps x = [seg_comp x] /\ components x = [seg_comp x].
Proof.
  intros x Hn Hk.
  assert (Hsp : split_on c_slash x = [x]).
  { change x with (join_on c_slash [x]) at 1. apply split_join; [discriminate|]. constructor; [exact Hn|constructor]. }
  assert (Hb : body_comps x = [seg_comp x]).
  { unfold body_comps. rewrite Hsp. unfold seg_comps. cbn [filter]. rewrite Hk. reflexivity. }
  split; [exact Hb|]. rewrite body_comps_rel in Hb.
  2:{ destruct (is_abs x) eqn:E; [|reflexivity]. apply starts_with_char_spec in E. destruct E as [r ->]. exfalso. apply Hn. left. reflexivity. }
  unfold components, head_comps, path_body, path_head.
  assert (Ha : is_abs x = false).
  { destruct (is_abs x) eqn:E; [|reflexivity]. apply starts_with_char_spec in E. destruct E as [r ->]. exfalso. apply Hn. left. reflexivity. }
  assert (Hl : lead_cur x = false).
  { destruct x as [|a [|b x]]; cbn [lead_cur]; [reflexivity| |].
    - destruct (N.eqb_spec a c_dot) as [->|]; [|reflexivity]. discriminate Hk.
    - destruct (N.eqb_spec b c_slash) as [->|]; [|apply andb_false_r]. exfalso. apply Hn. right. left. reflexivity. }
  rewrite Ha, Hl. cbn [length skipn app]. rewrite Hsp. cbn [filter]. unfold keep in Hk. rewrite Hk. reflexivity.
Qed.
Lemma tidy_snoc : forall Q x, (Q = [] \/ ends_with_char Q c_slash = true) -> noslash x -> keep x = true ->
  components (Q ++ x) = components Q ++ [seg_comp x].
Proof.
  intros Q x HQ Hn Hk. destruct (keep_body x Hn Hk) as [H1 H2]. destruct HQ as [->|HQ]; [exact H2|].
  rewrite slash_app_comps by exact HQ. rewrite H1. reflexivity.
Qed.
Lemma seg_comp_not : forall x, seg_comp x <> CRoot /\ seg_comp x <> CCur.
Proof. intros x. unfold seg_comp. destruct (str_eqb x s_dotdot); split; discriminate. Qed.
Lemma tidy_same : forall p q, tidy p -> tidy q -> same_path p q -> same_tail p q.
Proof.
  assert (Hone : forall (l : list comp) x y, l ++ [x] = [y] -> x = y).
  { intros l x y E. apply (app_inj_tail l [] x y) in E. apply E. }
  assert (Hno : forall Q x y, y = [] \/ y = [c_slash] \/ y = s_dot -> (Q = [] \/ ends_with_char Q c_slash = true) ->
    noslash x -> keep x = true -> same_path (Q ++ x) y -> False).
  { intros Q x y Hy HQ Hx Hk E. unfold same_path in E. rewrite tidy_snoc in E by assumption. destruct (seg_comp_not x) as [N1 N2].
    destruct Hy as [-> | [-> | ->]].
    - change (components []) with (@nil comp) in E. destruct (components Q); discriminate.
    - change (components [c_slash]) with [CRoot] in E. apply Hone in E. auto.
    - change (components s_dot) with [CCur] in E. apply Hone in E. auto. }
  intros p q Hp Hq Hs.
  assert (Hbase : forall r, tidy r -> (r = [] \/ r = [c_slash] \/ r = s_dot) \/
    exists Q x, r = Q ++ x /\ (Q = [] \/ ends_with_char Q c_slash = true) /\ noslash x /\ keep x = true).
  { intros r [?|[?|[?|?]]]; auto. }
  destruct (Hbase p Hp) as [Bp|(Q & x & -> & HQ & Hx & Hk)], (Hbase q Hq) as [Bq|(Q' & x' & -> & HQ' & Hx' & Hk')].
  - left. destruct Bp as [-> | [-> | ->]], Bq as [-> | [-> | ->]]; try reflexivity; discriminate Hs.
  - exfalso. eapply Hno; [exact Bp|exact HQ'|exact Hx'|exact Hk'|]. symmetry. exact Hs.
  - exfalso. eapply Hno; [exact Bq|exact HQ|exact Hx|exact Hk|exact Hs].
  - unfold same_path in Hs. rewrite !tidy_snoc in Hs by assumption. apply app_inj_tail in Hs. destruct Hs as [Hc Hxx].
    assert (x = x') as <-.
    { revert Hxx. unfold seg_comp. destruct (str_eqb_spec x s_dotdot), (str_eqb_spec x' s_dotdot); congruence. }
    destruct HQ as [->|HQ].
    + left. change (components []) with (@nil comp) in Hc. symmetry in Hc. apply components_nil_iff in Hc. rewrite Hc. reflexivity.
    + destruct HQ' as [->|HQ'].
      * left. change (components []) with (@nil comp) in Hc. apply components_nil_iff in Hc. rewrite Hc. reflexivity.
      * right. exists Q, Q', x. auto.
Qed.
Lemma parent_tail : forall p q p' q', same_path p q -> parent p = Some p' -> parent q = Some q' -> same_tail p' q'.
Proof.
  intros p q p' q' Hs Hp Hq. apply tidy_same; [eapply parent_tidy; eassumption..|].
  pose proof (parent_same _ _ Hs) as H. rewrite Hp, Hq in H. exact H.
Qed.

(** A path has finitely many spellings, up to the spelling of the directory the last text is in. *)
Definition comp_name (c : comp) : str := match c with CNormal s => s | CParent => s_dotdot | _ => [] end.
Lemma seg_name : forall x, comp_name (seg_comp x) = x.
Proof. intros x. unfold seg_comp. destruct (str_eqb_spec x s_dotdot) as [->|]; reflexivity. Qed.
Lemma spellings : forall p, exists L, forall q, same_path p q -> exists r, In r L /\ same_tail r q.
Proof.
  intros p. destruct p as [|c0 p0] eqn:Ep.
  { exists [[]]. intros q H. rewrite (same_path_nil _ _ H eq_refl). exists []. split; [left; reflexivity|apply same_tail_refl]. }
  rewrite <- Ep. assert (Hp : p <> []) by (subst; discriminate). clear Ep.
  set (nm := comp_name (last (components p) CRoot)).
  exists ((p ++ [c_slash]) :: ((p ++ [c_slash]) ++ s_dot) :: s_dot :: match parent p with Some P => [join P nm] | None => [] end).
  assert (Hkeep : forall q l x, same_path p q -> components q = l ++ [seg_comp x] -> exists P, parent p = Some P /\ components P = l /\ nm = x).
  { intros q l x H E. unfold same_path in H. unfold nm. rewrite H, E, last_last, seg_name.
    destruct (parent p) as [P|] eqn:EP.
    - destruct (parent_some _ _ EP) as [Ec _]. rewrite H, E, removelast_last in Ec. eauto.
    - exfalso. apply parent_none in EP. rewrite H, E in EP. destruct EP as [EP|EP]; [destruct l; discriminate|].
      apply (app_inj_tail l []) in EP. destruct EP as [_ EP]. exact (proj1 (seg_comp_not x) EP). }
  intros q H. destruct (last_slash q) as [Hq|(Q & x & -> & Hx)].
  - destruct (keep q) eqn:Ek.
    + destruct (keep_body q Hq Ek) as [_ Ec]. destruct (Hkeep q [] q H Ec) as (P & EP & Ec' & En). apply components_nil_iff in Ec'. subst P. rewrite EP, En.
      exists (join [] q). split; [right; right; right; left; reflexivity|]. left. unfold join. destruct (is_abs q); reflexivity.
    + unfold keep in Ek. apply negb_false_iff in Ek. unfold skip_seg in Ek. apply orb_true_iff in Ek. rewrite !str_eqb_eq in Ek. destruct Ek as [->| ->].
      * exfalso. apply Hp. apply components_nil_iff. unfold same_path in H. rewrite H. reflexivity.
      * exists s_dot. split; [right; right; left; reflexivity|apply same_tail_refl].
  - replace (Q ++ c_slash :: x) with ((Q ++ [c_slash]) ++ x) in * by (rewrite <- app_assoc; reflexivity).
    pose proof (ends_slash_snoc Q) as HQ. set (Q' := Q ++ [c_slash]) in *. destruct (keep x) eqn:Ek.
    + pose proof (tidy_snoc Q' x (or_intror HQ) Hx Ek) as Ec. destruct (Hkeep _ _ _ H Ec) as (P & EP & Ec' & En). rewrite EP, En.
      exists (join P x). split; [right; right; right; left; reflexivity|].
      assert (HP : P <> []).
      { intros ->. change (components []) with (@nil comp) in Ec'. symmetry in Ec'. apply components_nil_iff in Ec'. unfold Q' in Ec'. destruct Q; discriminate. }
      assert (Ha : is_abs x = false).
      { destruct (is_abs x) eqn:E; [|reflexivity]. apply starts_with_char_spec in E. destruct E as [r ->]. exfalso. apply Hx. left. reflexivity. }
      pose proof (same_tail_join P Q' x Ec') as Hj. unfold join at 2 in Hj. rewrite Ha in Hj. rewrite HQ in Hj. destruct Q' as [|c Q']; [discriminate|exact Hj].
    + assert (Hb : body_comps x = []).
      { unfold keep in Ek. apply negb_false_iff in Ek. unfold skip_seg in Ek. apply orb_true_iff in Ek. rewrite !str_eqb_eq in Ek. destruct Ek as [->| ->]; reflexivity. }
      assert (Hs : same_path (p ++ [c_slash]) Q').
      { unfold same_path in *. rewrite slashed_comps by exact Hp. rewrite H, slash_app_comps by exact HQ. rewrite Hb. apply app_nil_r. }
      unfold keep in Ek. apply negb_false_iff in Ek. unfold skip_seg in Ek. apply orb_true_iff in Ek. rewrite !str_eqb_eq in Ek. destruct Ek as [->| ->].
      * exists (p ++ [c_slash]). split; [left; reflexivity|]. right. exists (p ++ [c_slash]), Q', []. rewrite !app_nil_r. repeat split; auto. apply ends_slash_snoc.
      * exists ((p ++ [c_slash]) ++ s_dot). split; [right; left; reflexivity|]. right. exists (p ++ [c_slash]), Q', s_dot. repeat split; auto. apply ends_slash_snoc.
Qed.
