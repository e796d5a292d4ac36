(** * tsconfig: patterns, merging, order of the attempts. *)
From Coq Require Import String.
From Coq Require Import List Arith NArith Bool Lia.
From Verif Require Import Str StrP Path PathP Json Types Parse Map Prog Desc Resolve Top Run Exec ExecP FuelP RunP SpecRun.
Import ListNotations.

(** ** match_star *)
Lemma blen_pos : forall m, m <> [] -> 1 <= blen m.
Proof. intros [|c m] H; [contradiction|]. cbn [blen]. pose proof (utf8_len_pos c). lia. Qed.
Lemma app_split_len : forall (a b a' b' : str), a ++ b = a' ++ b' -> blen a = blen a' -> a = a' /\ b = b'.
Proof.
  intros a b a' b' H Hl. pose proof (byte_split_app a b) as H1. pose proof (byte_split_app a' b') as H2.
  rewrite H, Hl in H1. rewrite H1 in H2. inversion H2; auto.
Qed.
Lemma slice_to_app : forall a b, slice_to (a ++ b) (blen a) = Some a.
Proof. intros a b. unfold slice_to. rewrite byte_split_app. reflexivity. Qed.
Lemma slice_from_app : forall a b n, n = blen a -> slice_from (a ++ b) n = Some b.
Proof. intros a b n ->. unfold slice_from. rewrite byte_split_app. reflexivity. Qed.
Lemma slice_to_some : forall s n a, slice_to s n = Some a -> exists b, s = a ++ b /\ blen a = n.
Proof.
  intros s n a H. unfold slice_to in H. destruct (byte_split s n) as [[x y]|] eqn:E; inversion H; subst.
  apply byte_split_some in E. destruct E. eauto.
Qed.
Lemma slice_from_some : forall s n b, slice_from s n = Some b -> exists a, s = a ++ b /\ blen a = n.
Proof.
  intros s n a H. unfold slice_from in H. destruct (byte_split s n) as [[x y]|] eqn:E; inversion H; subst.
  apply byte_split_some in E. destruct E. eauto.
Qed.
Lemma match_star_complete : forall pat s m, star_matches pat s m -> match_star pat s = PRet (Some m).
Proof.
  intros pat s m [a [b [-> [Ha [-> Hm]]]]]. unfold match_star.
  change (a ++ [c_star] ++ b) with (a ++ c_star :: b). pose proof (blen_pos m Hm) as Hp.
  rewrite !blen_app. cbn [blen]. change (utf8_len c_star) with 1.
  replace (Nat.ltb (blen a + (blen m + blen b)) (blen a + (1 + blen b))) with false
    by (symmetry; apply Nat.ltb_ge; lia).
  destruct (str_eqb_spec (a ++ c_star :: b) [c_star]) as [E|E].
  - destruct a as [|c a]; [|destruct a; discriminate]. cbn [app] in *. inversion E; subst. rewrite app_nil_r. reflexivity.
  - rewrite find_char_first by exact Ha. rewrite slice_to_app, str_eqb_refl. cbn [negb].
    rewrite app_assoc, slice_from_app by (rewrite blen_app; lia). rewrite str_eqb_refl. cbn [negb].
    unfold slice. replace (blen a + (blen a + (blen m + blen b) - blen b - blen a)) with (blen (a ++ m)) by (rewrite blen_app; lia).
    rewrite slice_to_app. replace (blen a <=? blen (a ++ m)) with true by (symmetry; apply Nat.leb_le; rewrite blen_app; lia).
    rewrite slice_from_app by reflexivity. reflexivity.
Qed.
Lemma match_star_sound : forall pat s m, match_star pat s = PRet (Some m) -> star_matches pat s m.
Proof.
  intros pat s m H. unfold match_star in H.
  destruct (Nat.ltb_spec (blen s) (blen pat)) as [Hl|Hl]; [discriminate|].
  destruct (str_eqb_spec pat [c_star]) as [->|Hp].
  - inversion H; subst. exists [], []. cbn [app]. rewrite app_nil_r. repeat split; auto.
    intros ->. cbn in Hl. lia.
  - destruct (find_char pat c_star) as [[a b]|] eqn:Ef; [|discriminate].
    apply find_char_some in Ef. destruct Ef as [-> Ha].
    destruct (slice_to s (blen a)) as [s1|] eqn:E1; [|discriminate].
    destruct (str_eqb_spec s1 a) as [->|]; cbn [negb] in H; [|discriminate].
    destruct (slice_from s (blen s - blen b)) as [s2|] eqn:E2; [|discriminate].
    destruct (str_eqb_spec s2 b) as [->|]; cbn [negb] in H; [|discriminate].
    apply slice_from_some in E2. destruct E2 as [a2 [-> Hb]]. apply slice_to_some in E1. destruct E1 as [b1 [E1 _]].
    rewrite !blen_app in *. cbn [blen] in Hl. change (utf8_len c_star) with 1 in Hl.
    destruct (slice (a2 ++ b) (blen a) (blen a + (blen a2 + blen b - blen b - blen a))) as [m'|] eqn:E3; [|discriminate].
    inversion H; subst m'. clear H. unfold slice in E3.
    replace (blen a + (blen a2 + blen b - blen b - blen a)) with (blen a2) in E3 by lia.
    rewrite slice_to_app in E3. destruct (blen a <=? blen a2); [|discriminate].
    apply slice_from_some in E3. destruct E3 as [a3 [-> H3]].
    rewrite <- app_assoc in E1. destruct (app_split_len _ _ _ _ E1 H3) as [-> _].
    exists a, b. rewrite <- app_assoc. repeat split; auto. intros ->. rewrite blen_app in Hl. cbn in Hl. lia.
Qed.
Lemma byte_split_ascii : forall s n, ascii_str s -> n <= length s -> exists x, byte_split s n = Some x.
Proof.
  intros s n Hs Hn. pose proof (byte_split_app (firstn n s) (skipn n s)) as H. rewrite firstn_skipn in H.
  assert (Hf : ascii_str (firstn n s)).
  { unfold ascii_str in *. rewrite Forall_forall in *. intros c Hc. apply Hs.
    rewrite <- (firstn_skipn n s). apply in_or_app. auto. }
  rewrite ascii_blen in H by exact Hf. rewrite firstn_length in H. replace (Nat.min n (length s)) with n in H by lia. eauto.
Qed.
Lemma match_star_total : forall pat s, splits pat s -> exists r, match_star pat s = PRet r.
Proof.
  intros pat s H. unfold match_star. destruct (Nat.ltb_spec (blen s) (blen pat)) as [Hl|Hl]; [eauto|].
  destruct (str_eqb pat [c_star]); [eauto|].
  destruct (find_char pat c_star) as [[a b]|] eqn:Ef; [|eauto]. apply find_char_some in Ef. destruct Ef as [-> Ha].
  destruct (H a b eq_refl Ha Hl) as [(x & y & -> & Hx) H2].
  rewrite <- Hx, slice_to_app. destruct (str_eqb_spec x a) as [->|]; cbn [negb]; [|eauto].
  destruct (H2 (ex_intro _ y eq_refl)) as (x2 & y2 & E & Hy). rewrite E, slice_from_app by (rewrite blen_app; lia).
  destruct (str_eqb_spec y2 b) as [->|]; cbn [negb]; [|eauto]. rewrite E in Hl. rewrite !blen_app in Hl. cbn [blen] in Hl. change (utf8_len c_star) with 1 in Hl.
  unfold slice. replace (blen a + (blen (x2 ++ b) - blen b - blen a)) with (blen x2) by (rewrite blen_app; lia).
  rewrite slice_to_app. replace (blen a <=? blen x2) with true by (symmetry; apply Nat.leb_le; lia).
  assert (G : exists z, x2 = a ++ z).
  { clear - E Hl. revert x2 E Hl. induction a as [|c a IH]; intros x2 E Hl; [exists x2; reflexivity|].
    destruct x2 as [|c' x2]; [cbn [blen] in Hl; pose proof (utf8_len_pos c); lia|]. cbn [app] in E. injection E as <- E. cbn [blen] in Hl.
    destruct (IH x2 E ltac:(lia)) as [z ->]. exists z. reflexivity. }
  destruct G as [z ->]. rewrite slice_from_app by reflexivity. eauto.
Qed.
Lemma match_star_splits : forall pat s r, match_star pat s = PRet r -> splits pat s.
Proof.
  intros pat s r H a b -> Ha Hl. unfold match_star in H.
  destruct (Nat.ltb_spec (blen s) (blen (a ++ [c_star] ++ b))) as [Hl'|_]; [lia|].
  destruct (str_eqb_spec (a ++ [c_star] ++ b) [c_star]) as [E|_].
  - destruct a as [|c a]; [|destruct a; discriminate]. cbn [app] in E. injection E as ->. split; [exists [], s; auto|]. intros _. exists s, []. rewrite app_nil_r. auto.
  - change (a ++ [c_star] ++ b) with (a ++ c_star :: b) in H. rewrite find_char_first in H by exact Ha.
    destruct (slice_to s (blen a)) as [s1|] eqn:E1; [|discriminate]. apply slice_to_some in E1. destruct E1 as (y & -> & E1).
    split; [exists s1, y; auto|]. intros [y' E]. destruct (str_eqb_spec s1 a) as [->|Hn].
    2:{ exfalso. apply Hn. destruct (app_split_len _ _ _ _ E E1) as [-> _]. reflexivity. }
    cbn [negb] in H. destruct (slice_from (a ++ y) (blen (a ++ y) - blen b)) as [s2|] eqn:E2; [|discriminate].
    apply slice_from_some in E2. destruct E2 as (x & E2 & Hx). exists x, s2. split; [exact E2|]. rewrite E2, blen_app in Hx.
    rewrite E2 in Hl. rewrite !blen_app in Hl. lia.
Qed.
Lemma ascii_splits : forall pat s, ascii_str pat -> ascii_str s -> splits pat s.
Proof.
  intros pat s Hp Hs a b -> _ Hl. rewrite !blen_app in Hl. rewrite (ascii_blen s Hs) in Hl. split.
  - destruct (byte_split_ascii s (blen a) Hs ltac:(lia)) as [[x y] E]. apply byte_split_some in E. destruct E. eauto.
  - intros _. destruct (byte_split_ascii s (length s - blen b) Hs ltac:(lia)) as [[x y] E]. apply byte_split_some in E. destruct E as [E Hx].
    exists x, y. split; [exact E|]. pose proof (ascii_blen s Hs) as H. rewrite E, blen_app, <- E in H. lia.
Qed.
Lemma match_star_ascii : forall pat s, ascii_str pat -> ascii_str s -> exists r, match_star pat s = PRet r.
Proof. intros pat s Hp Hs. apply match_star_total, ascii_splits; assumption. Qed.

(** ** merge *)
Fixpoint merge_go (lb la : list (str * json)) : list (str * json) :=
  match lb with
  | [] => la
  | (k, v) :: r =>
      let cur := match imap_get la k with Some x => x | None => JNull end in
      merge_go r (imap_insert la k (merge cur v))
  end.
Lemma merge_obj : forall la lb, merge (JObj la) (JObj lb) = JObj (merge_go lb la).
Proof.
  intros la lb. cbn [merge]. revert la. induction lb as [|[k v] lb IH]; intros la; [reflexivity|].
  cbn [merge_go]. apply IH.
Qed.
Lemma merge_null : forall b, merge JNull b = b.
Proof. destruct b; reflexivity. Qed.
Lemma merge_kept : forall a b, a <> JNull -> ~ (is_obj a /\ is_obj b) -> merge a b = a.
Proof.
  intros a b Hn Ho. destruct a; try contradiction; destruct b; try reflexivity.
  exfalso. apply Ho. split; eexists; reflexivity.
Qed.
Definition merge_val (x y : option json) : option json :=
  match x, y with
  | Some x, Some y => Some (merge x y)
  | Some x, None => Some x
  | None, y => y
  end.
Lemma merge_go_get : forall lb la k, NoDup (map fst lb) ->
  imap_get (merge_go lb la) k = merge_val (imap_get la k) (imap_get lb k).
Proof.
  induction lb as [|[k0 v] lb IH]; intros la k Hd; cbn [merge_go imap_get].
  - destruct (imap_get la k); reflexivity.
  - cbn [map fst] in Hd. inversion Hd as [|? ? Hk Hd']; subst. rewrite IH by exact Hd'.
    destruct (str_eqb_spec k0 k) as [->|Hne].
    + rewrite imap_get_insert_eq. replace (imap_get lb k) with (@None json) by (symmetry; apply imap_get_None; exact Hk).
      cbn [merge_val]. destruct (imap_get la k); [reflexivity|]. cbn [merge_val]. rewrite merge_null. reflexivity.
    + rewrite imap_get_insert_ne by congruence. reflexivity.
Qed.
Lemma imap_insert_fst {A} : forall (m : imap A) k v,
  map fst (imap_insert m k v) = if mem k (map fst m) then map fst m else map fst m ++ [k].
Proof.
  induction m as [|[k' v'] m IH]; intros k v; cbn [imap_insert map fst]; [reflexivity|].
  change (mem k (k' :: map fst m)) with (str_eqb k k' || mem k (map fst m)). rewrite (str_eqb_sym k k').
  destruct (str_eqb k' k); cbn [map fst orb]; [reflexivity|]. rewrite IH. destruct (mem k (map fst m)); reflexivity.
Qed.
Lemma filter_eq_in {A} : forall (f g : A -> bool) l, (forall x, In x l -> f x = g x) -> filter f l = filter g l.
Proof.
  induction l as [|x l IH]; intros H; [reflexivity|]. cbn [filter]. rewrite (H x) by (left; reflexivity).
  rewrite IH by (intros y Hy; apply H; right; exact Hy). reflexivity.
Qed.
Lemma merge_go_keys : forall lb la, NoDup (map fst lb) ->
  map fst (merge_go lb la) = map fst la ++ filter (fun k => negb (mem k (map fst la))) (map fst lb).
Proof.
  induction lb as [|[k v] lb IH]; intros la Hd; cbn [merge_go map fst filter]; [rewrite app_nil_r; reflexivity|].
  cbn [map fst] in Hd. inversion Hd as [|? ? Hk Hd']; subst. rewrite IH by exact Hd'. rewrite imap_insert_fst.
  destruct (mem k (map fst la)) eqn:E; cbn [negb]; [reflexivity|]. rewrite <- app_assoc. f_equal. cbn [app]. f_equal.
  apply filter_eq_in. intros x Hx. f_equal. unfold mem. rewrite existsb_app. cbn [existsb].
  destruct (str_eqb_spec x k) as [->|]; [contradiction|]. rewrite orb_false_r. reflexivity.
Qed.

(** Key paths. *)
Lemma json_at_get : forall j k ks v, json_nodup j -> (json_at j (k :: ks) v <-> exists x, jget j k = Some x /\ json_at x ks v).
Proof.
  intros j k ks v Hd. split.
  - intros H. inversion H as [|l k0 x ks0 w Hin Hx]; subst. exists x. split; [|exact Hx].
    inversion Hd; subst. apply imap_In_get; assumption.
  - intros [x [Hg Hx]]. destruct j; try discriminate. cbn [jget] in Hg. econstructor; [apply imap_get_In; exact Hg|exact Hx].
Qed.
Lemma nodup_get : forall j k x, json_nodup j -> jget j k = Some x -> json_nodup x.
Proof.
  intros j k x Hd Hg. inversion Hd; subst; try discriminate. cbn [jget] in Hg. apply imap_get_In in Hg.
  rewrite Forall_forall in H0. exact (H0 _ Hg).
Qed.
Lemma merge_go_nodup : forall lb la, NoDup (map fst la) -> NoDup (map fst (merge_go lb la)).
Proof.
  induction lb as [|[k v] lb IH]; intros la H; cbn [merge_go]; [exact H|]. apply IH. apply imap_insert_nodup, H.
Qed.
Fixpoint jsize (j : json) : nat :=
  match j with
  | JArr l => S ((fix go l := match l with [] => 0 | x :: r => jsize x + go r end) l)
  | JObj l => S ((fix go (l : list (str * json)) := match l with [] => 0 | (_, x) :: r => jsize x + go r end) l)
  | _ => 1
  end.
Lemma jsize_in : forall l k x, In (k, x) l -> jsize x < jsize (JObj l).
Proof.
  induction l as [|[k0 y] l IH]; intros k x H; [contradiction|]. destruct H as [H|H].
  - inversion H; subst. cbn [jsize]. lia.
  - apply IH in H. cbn [jsize] in *. lia.
Qed.
Lemma merge_nodup : forall b a, json_nodup a -> json_nodup b -> json_nodup (merge a b).
Proof.
  assert (H : forall n b a, jsize b <= n -> json_nodup a -> json_nodup b -> json_nodup (merge a b)).
  { induction n as [|n IH]; intros b a Hn Ha Hb; [destruct b; cbn in Hn; lia|].
    destruct (match a with JObj _ => true | _ => false end) eqn:Ea; destruct (match b with JObj _ => true | _ => false end) eqn:Eb.
    - destruct a as [| | | | |la]; try discriminate. destruct b as [| | | | |lb]; try discriminate.
      rewrite merge_obj. inversion Ha as [| | | | |? Ha1 Ha2]; subst. inversion Hb as [| | | | |? Hb1 Hb2]; subst. constructor; [apply merge_go_nodup; assumption|].
      apply Forall_forall. intros [k v] Hin. cbn [snd].
      assert (Hg : imap_get (merge_go lb la) k = Some v) by (apply imap_In_get; [apply merge_go_nodup; assumption|exact Hin]).
      rewrite merge_go_get in Hg by assumption.
      destruct (imap_get la k) as [x|] eqn:E1; destruct (imap_get lb k) as [y|] eqn:E2; cbn [merge_val] in Hg; inversion Hg; subst.
      + apply IH; [apply imap_get_In, jsize_in in E2; lia| |].
        * rewrite Forall_forall in Ha2. apply (Ha2 (k, x)). apply imap_get_In, E1.
        * rewrite Forall_forall in Hb2. apply (Hb2 (k, y)). apply imap_get_In, E2.
      + rewrite Forall_forall in Ha2. apply (Ha2 (k, v)). apply imap_get_In, E1.
      + rewrite Forall_forall in Hb2. apply (Hb2 (k, v)). apply imap_get_In, E2.
    - destruct a; try discriminate. destruct b; try discriminate; exact Ha.
    - destruct a; try discriminate; try exact Ha; rewrite ?merge_null; try exact Hb; destruct b; try discriminate; exact Ha.
    - destruct a; try discriminate; try (rewrite merge_null; exact Hb); destruct b; try discriminate; exact Ha. }
  intros b a. apply (H (jsize b)). lia.
Qed.
Lemma merge_get : forall la lb k, json_nodup (JObj lb) ->
  jget (merge (JObj la) (JObj lb)) k = merge_val (jget (JObj la) k) (jget (JObj lb) k).
Proof. intros la lb k Hb. rewrite merge_obj. cbn [jget]. apply merge_go_get. inversion Hb; assumption. Qed.

(** A value set in the extending file stays. *)
Lemma merge_keeps : forall ks a b v, json_nodup a -> json_nodup b -> json_at a ks v -> v <> JNull -> ~ is_obj v ->
  json_at (merge a b) ks v.
Proof.
  induction ks as [|k ks IH]; intros a b v Ha Hb H Hn Ho.
  - inversion H; subst. rewrite merge_kept; [constructor|exact Hn|tauto].
  - assert (Hm : json_nodup (merge a b)) by (apply merge_nodup; assumption).
    apply json_at_get in H; [|exact Ha]. destruct H as [x [Hg Hx]]. apply json_at_get; [exact Hm|].
    destruct a as [| | | | |la]; try discriminate. destruct b as [| | | | |lb];
      try (rewrite merge_kept by (try discriminate; intros [_ [? ?]]; discriminate); exists x; auto).
    rewrite merge_get by exact Hb. rewrite Hg.
    destruct (jget (JObj lb) k) as [y|] eqn:Ey; cbn [merge_val]; [|exists x; auto].
    exists (merge x y). split; [reflexivity|]. apply IH; auto; [exact (nodup_get _ _ _ Ha Hg)|exact (nodup_get _ _ _ Hb Ey)].
Qed.
(** What the extending file leaves unset (absent or null, with no ancestor set to something that
    is not an object) is inherited. *)
Definition unset (a : json) (ks : list str) : Prop :=
  (forall v, json_at a ks v -> v = JNull) /\
  (forall ks1 ks2 v, ks = ks1 ++ ks2 -> ks2 <> [] -> json_at a ks1 v -> v = JNull \/ is_obj v).
Lemma unset_sub : forall a k ks x, json_nodup a -> unset a (k :: ks) -> jget a k = Some x -> unset x ks.
Proof.
  intros a k ks x Ha [H1 H2] Hg. split.
  - intros v Hv. apply H1. apply json_at_get; eauto.
  - intros ks1 ks2 v -> Hn Hv. apply (H2 (k :: ks1) ks2 v); auto. apply json_at_get; eauto.
Qed.
Lemma merge_inherits : forall ks a b v, json_nodup a -> json_nodup b -> json_at b ks v -> unset a ks ->
  json_at (merge a b) ks v.
Proof.
  induction ks as [|k ks IH]; intros a b v Ha Hb H Hu.
  - destruct Hu as [Hu _]. rewrite (Hu a) by constructor. rewrite merge_null. exact H.
  - assert (Hm : json_nodup (merge a b)) by (apply merge_nodup; assumption).
    pose proof H as H'. apply json_at_get in H; [|exact Hb]. destruct H as [y [Hg Hy]].
    destruct (proj2 Hu [] (k :: ks) a) as [->|[la ->]]; [reflexivity|discriminate|constructor| |].
    + rewrite merge_null. exact H'.
    + apply json_at_get; [exact Hm|]. destruct b as [| | | | |lb]; try discriminate.
      rewrite merge_get by exact Hb. rewrite Hg.
      destruct (jget (JObj la) k) as [x|] eqn:Ex; cbn [merge_val]; [|exists y; auto].
      exists (merge x y). split; [reflexivity|]. apply IH; auto; [exact (nodup_get _ _ _ Ha Ex)|exact (nodup_get _ _ _ Hb Hg)|].
      exact (unset_sub _ _ _ _ Ha Hu Ex).
Qed.
(** Nothing else appears. *)
Lemma merge_only : forall ks a b v, json_nodup a -> json_nodup b -> json_at (merge a b) ks v -> ~ is_obj v ->
  json_at a ks v \/ json_at b ks v.
Proof.
  induction ks as [|k ks IH]; intros a b v Ha Hb H Ho.
  - inversion H; subst. destruct a as [| | | | |la]; try (rewrite merge_null; right; constructor);
      try (left; rewrite merge_kept by (try discriminate; intros [[? ?] _]; discriminate); constructor).
    destruct b as [| | | | |lb]; try (left; rewrite merge_kept by (try discriminate; intros [_ [? ?]]; discriminate); constructor).
    exfalso. apply Ho. rewrite merge_obj. eexists. reflexivity.
  - assert (Hm : json_nodup (merge a b)) by (apply merge_nodup; assumption).
    destruct a as [| | | | |la]; try (left; rewrite merge_kept in H by (try discriminate; intros [[? ?] _]; discriminate); exact H).
    { rewrite merge_null in H. auto. }
    destruct b as [| | | | |lb]; try (left; rewrite merge_kept in H by (try discriminate; intros [_ [? ?]]; discriminate); exact H).
    apply json_at_get in H; [|exact Hm]. destruct H as [x [Hg Hx]].
    rewrite merge_get in Hg by exact Hb.
    destruct (jget (JObj la) k) as [xa|] eqn:Ea; destruct (jget (JObj lb) k) as [xb|] eqn:Eb; cbn [merge_val] in Hg; inversion Hg; subst.
    + destruct (IH xa xb v) as [Hl|Hr]; auto; [exact (nodup_get _ _ _ Ha Ea)|exact (nodup_get _ _ _ Hb Eb)| |].
      * left. apply json_at_get; eauto.
      * right. apply json_at_get; eauto.
    + left. apply json_at_get; eauto.
    + right. apply json_at_get; eauto.
Qed.

(** ** Order of the attempts *)
Lemma filled_replace : forall m p, filled m p (replace_char p c_star m).
Proof.
  intros m p. induction p as [|c p IH]; [constructor|]. unfold replace_char in *. cbn [flat_map].
  destruct (N.eqb_spec c c_star) as [->|Hc]; cbn [app]; [constructor; exact IH|constructor; assumption].
Qed.
Lemma filled_fun : forall m p q, filled m p q -> q = replace_char p c_star m.
Proof.
  induction 1 as [|p q H IH|c p q Hc H IH]; unfold replace_char in *; cbn [flat_map]; [reflexivity| |].
  - rewrite N.eqb_refl, <- IH. reflexivity.
  - destruct (N.eqb_spec c c_star); [contradiction|]. rewrite <- IH. reflexivity.
Qed.
Lemma filled_map : forall m ps l, Forall2 (filled m) ps l -> l = map (fun p => replace_char p c_star m) ps.
Proof. induction 1 as [|p q ps l H _ IH]; cbn [map]; [reflexivity|]. rewrite <- (filled_fun _ _ _ H), <- IH. reflexivity. Qed.

Lemma filled_all : forall m ps, Forall2 (filled m) ps (map (fun p => replace_char p c_star m) ps).
Proof. intros m ps. induction ps; constructor; [apply filled_replace|assumption]. Qed.
Lemma all_fail_app : forall st l1 st1, all_fail st l1 st1 -> forall l2 st2, all_fail st1 l2 st2 -> all_fail st (l1 ++ l2) st2.
Proof. induction 1; intros; cbn [app]; [assumption|]. econstructor; eauto. Qed.
Lemma first_of_after : forall l1 l2 d st st1 r st', all_fail st l1 st1 -> first_of l2 d st1 r st' -> first_of (l1 ++ l2) d st r st'.
Proof.
  intros l1 l2 d st st1 r st' H1 H2. destruct H2; rewrite ?app_assoc.
  - eapply FOHit; eauto. eapply all_fail_app; eassumption.
  - eapply FOMiss; eauto. eapply all_fail_app; eassumption.
  - eapply FOPanic; eauto. eapply all_fail_app; eassumption.
  - eapply FOFuel; eauto. eapply all_fail_app; eassumption.
Qed.
Lemma first_of_cons : forall a l d st r st',
  match a st with
  | (Done s, st1) => if is_success s then (Done s, st1) = (r, st') else first_of l d st1 r st'
  | (Panicked m, st1) => (Panicked m, st1) = (r, st')
  | (NoFuel, st1) => (NoFuel, st1) = (r, st')
  end -> first_of (a :: l) d st r st'.
Proof.
  intros a l d st r st' H. destruct (a st) as [[s|m|] st1] eqn:E.
  - destruct (is_success s) eqn:Es.
    + inversion H; subst. apply (FOHit [] a l d st st s st'); [constructor|exact E|exact Es].
    + apply (first_of_after [a] l d st st1); [|exact H]. econstructor; [exact E|exact Es|constructor].
  - inversion H; subst. apply (FOPanic [] a l d st st m st'); [constructor|exact E].
  - inversion H; subst. apply (FOFuel [] a l d st st st'); [constructor|exact E].
Qed.

Section Ts.
Variable R : resolver.
Variable load : path -> prog (result (option pkg)).
Variable fs : fsys.
Variable fuel : nat.
Definition loc_attempt (p : path) : attempt := run fs (resolve_ R load fuel (mkInfo p empty_request)).

Lemma ts_paths_run : forall star ps st r st',
  match run fs (ts_paths_loop R load fuel star ps) st with
  | (Done (Some s), st1) => (Done s, st1) = (r, st')
  | (Done None, st1) => all_fail st (map loc_attempt (map (fun p => replace_char p c_star star) ps)) st1 ->
                        False
  | (Panicked m, st1) => (Panicked m, st1) = (r, st')
  | (NoFuel, st1) => (NoFuel, st1) = (r, st')
  end -> forall d l, first_of (map loc_attempt (map (fun p => replace_char p c_star star) ps) ++ l) d st r st'.
Proof.
  intros star. induction ps as [|p ps IH]; intros st r st' H d l; cbn [ts_paths_loop map app run] in *.
  - exfalso. apply H. constructor.
  - apply first_of_cons. unfold loc_attempt at 1. rewrite run_bind in H.
    destruct (run fs (resolve_ R load fuel (mkInfo (replace_char p c_star star) empty_request)) st) as [[s|m|] st1] eqn:E;
      [|exact H|exact H].
    destruct (is_success s) eqn:Es; [exact H|]. apply IH.
    destruct (run fs (ts_paths_loop R load fuel star ps) st1) as [[[s'|]|m|] st2] eqn:E2; auto.
    intros Hf. apply H. econstructor; eauto.
Qed.
Lemma ts_paths_fail : forall star ps st st1, run fs (ts_paths_loop R load fuel star ps) st = (Done None, st1) ->
  all_fail st (map loc_attempt (map (fun p => replace_char p c_star star) ps)) st1.
Proof.
  intros star. induction ps as [|p ps IH]; intros st st1 H; cbn [ts_paths_loop map run] in *.
  - inversion H; subst. constructor.
  - rewrite run_bind in H.
    destruct (run fs (resolve_ R load fuel (mkInfo (replace_char p c_star star) empty_request)) st) as [[s|m|] st2] eqn:E; try discriminate.
    destruct (is_success s) eqn:Es; [discriminate|]. econstructor; [exact E|exact Es|]. apply IH, H.
Qed.
Lemma ts_entry : forall star ps st r st' d l i rest,
  run fs (x <- ts_paths_loop R load fuel star ps ;; match x with Some s => Ret s | None => ts_entries_loop R load fuel i rest end) st = (r, st') ->
  (forall st, run fs (ts_entries_loop R load fuel i rest) st = (r, st') -> first_of l d st r st') ->
  first_of (map loc_attempt (map (fun p => replace_char p c_star star) ps) ++ l) d st r st'.
Proof.
  intros star ps st r st' d l i rest H Hl. rewrite run_bind in H.
  destruct (run fs (ts_paths_loop R load fuel star ps) st) as [[[s|]|m|] st1] eqn:E.
  - apply ts_paths_run. rewrite E. exact H.
  - eapply first_of_after; [eapply ts_paths_fail; exact E|]. apply Hl, H.
  - apply ts_paths_run. rewrite E. exact H.
  - apply ts_paths_run. rewrite E. exact H.
Qed.
Lemma ts_entries_run : forall i l locs, Forall (fun e => splits (fst e) (r_target (i_req i))) l ->
  ts_locations (r_target (i_req i)) l locs -> forall st r st',
  run fs (ts_entries_loop R load fuel i l) st = (r, st') ->
  first_of (map loc_attempt locs) (run fs (resolve_ R load fuel i)) st r st'.
Proof.
  intros i l locs Hl Ht. induction Ht as [|ps r0 l1 l' Hf Ht IH|pat ps r0 m l1 l' Hne Hm Hf Ht IH|pat ps r0 l1 Hne Hm Ht IH];
    intros st r st' H; cbn [ts_entries_loop map] in *.
  - eapply FOMiss; [constructor|exact H].
  - inversion Hl as [|? ? Ha Hl']; subst. rewrite str_eqb_refl in H. cbn [bind] in H.
    rewrite (filled_map _ _ _ Hf), map_app. eapply ts_entry; [exact H|]. intros st1 H1. apply IH; assumption.
  - inversion Hl as [|? ? Ha Hl']; subst. cbn [fst] in Ha. destruct (str_eqb_spec pat (r_target (i_req i))); [contradiction|].
    rewrite (match_star_complete _ _ _ Hm) in H. cbn [lift bind] in H.
    rewrite (filled_map _ _ _ Hf), map_app. eapply ts_entry; [exact H|]. intros st1 H1. apply IH; assumption.
  - inversion Hl as [|? ? Ha Hl']; subst. cbn [fst] in Ha. destruct (str_eqb_spec pat (r_target (i_req i))); [contradiction|].
    destruct (match_star_total pat (r_target (i_req i)) Ha) as [[m|] E].
    + exfalso. apply (Hm m). apply match_star_sound, E.
    + rewrite E in H. cbn [lift bind] in H. apply IH; assumption.
Qed.
Lemma ts_locations_total : forall t l, Forall (fun e : str * list path => splits (fst e) t) l -> exists locs, ts_locations t l locs.
Proof.
  intros t l. induction l as [|[pat ps] l IH]; intros Hl; [exists []; constructor|].
  inversion Hl as [|? ? Ha Hl']; subst. cbn [fst] in Ha. destruct (IH Hl') as [locs H].
  assert (Hm : forall m, Forall2 (filled m) ps (map (fun p => replace_char p c_star m) ps)).
  { intros m. clear. induction ps; constructor; [apply filled_replace|assumption]. }
  destruct (str_eq_dec pat t) as [->|Hne].
  - exists (map (fun p => replace_char p c_star []) ps ++ locs). constructor; auto.
  - destruct (match_star_total pat t Ha) as [[m|] E].
    + exists (map (fun p => replace_char p c_star m) ps ++ locs). econstructor; eauto. apply match_star_sound, E.
    + exists locs. constructor; auto. intros m Hs. rewrite (match_star_complete _ _ _ Hs) in E. discriminate.
Qed.

Lemma all_strings_map : forall l, all_strings (map JStr l) = PRet l.
Proof. induction l as [|s l IH]; [reflexivity|]. cbn [map all_strings as_str]. rewrite IH. reflexivity. Qed.
Lemma imap_insert_new {A} : forall (m : imap A) k v, ~ In k (map fst m) -> imap_insert m k v = m ++ [(k, v)].
Proof.
  induction m as [|[k' v'] m IH]; intros k v H; cbn [imap_insert app]; [reflexivity|].
  destruct (str_eqb_spec k' k) as [->|]; [exfalso; apply H; left; reflexivity|].
  rewrite IH; [reflexivity|]. intros Hin. apply H. right. exact Hin.
Qed.
Lemma paths_entries_map : forall m acc, NoDup (map fst (acc ++ m)) ->
  paths_entries (map (fun kv => (fst kv, JArr (map JStr (snd kv)))) m) acc = PRet (acc ++ m).
Proof.
  induction m as [|[k l] m IH]; intros acc H; cbn [map fst snd paths_entries as_array]; [rewrite app_nil_r; reflexivity|].
  rewrite all_strings_map. cbn [pbind]. rewrite imap_insert_new.
  - rewrite IH; rewrite <- app_assoc; [reflexivity|exact H].
  - rewrite map_app in H. cbn [map fst] in H. apply NoDup_remove_2 in H. intros Hin. apply H. apply in_or_app. auto.
Qed.
Lemma ts_of_json_sets : forall j b m, ts_sets j b m -> ts_of_json j = PRet (mkTs (Some m) (Some b)).
Proof.
  intros j b m [opts [H1 [H2 [H3 H4]]]]. unfold ts_of_json. rewrite H1, H2, H3. cbn [as_str pbind as_object].
  rewrite paths_entries_map by exact H4. reflexivity.
Qed.
End Ts.

Lemma resolve_final : forall fs R load fuel base req st, rv_debug R = false ->
  run fs (resolve_with R load fuel base req) st =
  let (r, st') := run fs (match o_tsconfig (rv_opts R) with
                          | Some location => resolve_with_tsconfig R load fuel (mkInfo base (parse req)) location
                          | None => resolve_ R load fuel (mkInfo base (parse req))
                          end) st in
  (final_answer fs R r, st').
Proof.
  intros fs R load fuel base req st Hd. unfold resolve_with. rewrite run_bind.
  destruct (run fs _ st) as [[s|m|] st']; try reflexivity. destruct s as [[i|]|i|e i]; try reflexivity.
  unfold normalize_result. rewrite Hd. cbn [andb]. unfold normalize_path, final_answer.
  destruct (o_symlinks (rv_opts R)); [|reflexivity]. unfold try_. cbn [act bind run step].
  destruct (f_canon fs (i_path i)); reflexivity.
Qed.
Lemma ts_first_run : forall fs R load fuel base req loc dir b m j st st1 locs r st', rv_debug R = false ->
  o_tsconfig (rv_opts R) = Some loc -> parent loc = Some dir ->
  run fs (parse_file_to_value R load fuel loc) st = (Done (Ok j), st1) -> ts_sets j b m ->
  Forall (fun e => splits (fst e) (r_target (parse req))) m ->
  ts_locations (r_target (parse req))
    (map (fun kv => (fst kv, map (join (join dir b)) (snd kv))) (permute (s_ord st1 0) m)) locs ->
  run fs (resolve_with R load fuel base req) st = (r, st') ->
  exists r0, first_of (map (loc_attempt R load fs fuel) locs) (run fs (resolve_ R load fuel (mkInfo base (parse req))))
    (snd (step fs st1 OOrder)) r0 st' /\ r = final_answer fs R r0.
Proof.
  intros fs R load fuel base req loc dir b m j st st1 locs r st' Hd Ht Hp Hj Hs Hm Hl H.
  rewrite resolve_final in H by exact Hd. rewrite Ht in H. unfold resolve_with_tsconfig in H.
  rewrite run_bind, Hj in H. rewrite (ts_of_json_sets _ _ _ Hs) in H. cbn [lift bind] in H.
  unfold create_match_list in H. rewrite Hp in H. cbn [ts_base ts_paths bind act run step] in H.
  match type of H with (let (r, st') := run _ ?p ?s in _) = _ => destruct (run fs p s) as [r0 st2] eqn:E end.
  inversion H; subst. exists r0. split; [|reflexivity].
  eapply ts_entries_run; [|exact Hl|exact E].
  apply Forall_forall. intros [k l] Hin. apply in_map_iff in Hin. destruct Hin as [[k' l'] [E' Hin]]. inversion E'; subst.
  cbn [fst] in *. eapply Permutation.Permutation_in in Hin; [|apply permute_perm].
  rewrite Forall_forall in Hm. exact (Hm _ Hin).
Qed.
Lemma ts_nobase_run : forall fs R load fuel base req loc j st st1, rv_debug R = false ->
  o_tsconfig (rv_opts R) = Some loc -> parent loc <> None ->
  run fs (parse_file_to_value R load fuel loc) st = (Done (Ok j), st1) ->
  (forall opts, jget j (lit "compilerOptions") = Some opts -> jget opts (lit "baseUrl") = None /\
     (jget opts (lit "paths") = None \/ exists m, jget opts (lit "paths") = Some (JObj (map (fun kv => (fst kv, JArr (map JStr (snd kv)))) m)) /\ NoDup (map fst m))) ->
  run fs (resolve_with R load fuel base req) st =
  let (r, st') := run fs (resolve_ R load fuel (mkInfo base (parse req))) st1 in (final_answer fs R r, st').
Proof.
  intros fs R load fuel base req loc j st st1 Hd Ht Hp Hj Ho. rewrite resolve_final by exact Hd. rewrite Ht.
  unfold resolve_with_tsconfig. rewrite run_bind, Hj.
  assert (Hts : exists ps, ts_of_json j = PRet (mkTs ps None)).
  { unfold ts_of_json. destruct (jget j (lit "compilerOptions")) as [opts|]; [|eauto].
    destruct (Ho opts eq_refl) as [H1 [H2|[m [H2 H3]]]]; rewrite H1, H2; cbn [pbind as_object]; [eauto|].
    rewrite paths_entries_map by exact H3. cbn [pbind]. eauto. }
  destruct Hts as [ps Hts]. rewrite Hts. cbn [lift bind]. unfold create_match_list.
  destruct (parent loc); [|contradiction]. cbn [ts_base bind]. reflexivity.
Qed.

Lemma parse_plain : forall fs R load f loc s j st, f_read fs loc = Some s -> rv_jsonc R s = JCVal j ->
  (forall e, jget j (lit "extends") <> Some (JStr e)) ->
  run fs (parse_file_to_value R load (S f) loc) st = (Done (Ok j), st).
Proof.
  intros fs R load f loc s j st Hr Hj He. cbn [parse_file_to_value act bind run step]. rewrite Hr, Hj.
  destruct (jget j (lit "extends")) as [[]|]; try reflexivity. exfalso. eapply He. reflexivity.
Qed.
Lemma parse_extends : forall fs R load f loc dir s j e st i st1 base st2, f_read fs loc = Some s -> rv_jsonc R s = JCVal j ->
  jget j (lit "extends") = Some (JStr e) -> parent loc = Some dir ->
  run fs (resolve_ R load (S f) (mkInfo dir (parse e))) st = (Done (Success (RInfo i)), st1) ->
  run fs (parse_file_to_value R load f (get_path i)) st1 = (Done (Ok base), st2) ->
  run fs (parse_file_to_value R load (S f) loc) st = (Done (Ok (merge j base)), st2).
Proof.
  intros fs R load f loc dir s j e st i st1 base st2 Hr Hj He Hp H1 H2.
  cbn [parse_file_to_value]. rewrite run_act. cbn [step fst snd]. rewrite Hr, Hj, He, Hp.
  rewrite run_bind, H1. unfold try_. rewrite run_bind, H2. reflexivity.
Qed.
Lemma parse_ignored : forall fs R load f loc dir s j e st x st1, f_read fs loc = Some s -> rv_jsonc R s = JCVal j ->
  jget j (lit "extends") = Some (JStr e) -> parent loc = Some dir ->
  run fs (resolve_ R load (S f) (mkInfo dir (parse e))) st = (Done x, st1) -> is_success x = false ->
  run fs (parse_file_to_value R load (S f) loc) st = (Done (Ok j), st1).
Proof.
  intros fs R load f loc dir s j e st x st1 Hr Hj He Hp H1 Hx.
  cbn [parse_file_to_value]. rewrite run_act. cbn [step fst snd]. rewrite Hr, Hj, He, Hp.
  rewrite run_bind, H1. destruct x; [discriminate| |]; reflexivity.
Qed.
