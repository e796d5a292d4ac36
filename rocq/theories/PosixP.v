(** * The concrete POSIX file systems meet the assumptions of SpecLoad.v. *)
From Coq Require Import String.
From Coq Require Import List Arith NArith Bool Lia.
From Verif Require Import Str StrP Path PathP Json Types Parse Prog Run Posix SpecLoad.
Import ListNotations.

Lemma seg_comp_inj : forall s t, seg_comp s = seg_comp t -> s = t.
Proof.
  intros s t. unfold seg_comp. destruct (str_eqb_spec s s_dotdot), (str_eqb_spec t s_dotdot); subst; congruence.
Qed.
Lemma map_inj {A B} (f : A -> B) : (forall x y, f x = f y -> x = y) -> forall l l', map f l = map f l' -> l = l'.
Proof.
  intros H. induction l as [|x l IH]; intros [|y l'] E; cbn in E; try congruence.
  injection E as E1 E2. f_equal; auto.
Qed.
Lemma seg_comps_keep : forall l l', seg_comps l = seg_comps l' -> filter keep l = filter keep l'.
Proof. intros. eapply map_inj; [apply seg_comp_inj|]. exact H. Qed.

Lemma is_abs_comps : forall p, is_abs p = match components p with CRoot :: _ => true | _ => false end.
Proof.
  intros p. unfold components, head_comps. destruct (is_abs p) eqn:E; [reflexivity|].
  destruct (lead_cur p); [reflexivity|]. cbn [app].
  destruct (filter _ _) as [|x l]; [reflexivity|]. cbn [map].
  unfold seg_comp. destruct (str_eqb x s_dotdot); reflexivity.
Qed.
Lemma components_is_abs : forall p q, components p = components q -> is_abs p = is_abs q.
Proof. intros p q E. rewrite !is_abs_comps, E. reflexivity. Qed.
Lemma split_comps : forall p, seg_comps (split_on c_slash p) =
  match components p with CRoot :: r => r | l => drop_cur l end.
Proof.
  intros p. destruct (is_abs p) eqn:E.
  - unfold is_abs in E. apply starts_with_char_spec in E. destruct E as [r ->].
    rewrite components_abs. cbn [split_on]. rewrite N.eqb_refl. reflexivity.
  - fold (body_comps p). rewrite body_comps_rel by exact E.
    rewrite is_abs_comps in E. destruct (components p) as [|[| | |s] l]; try reflexivity. discriminate.
Qed.
Lemma same_split : forall p q, same_path p q -> filter keep (split_on c_slash p) = filter keep (split_on c_slash q).
Proof. intros p q H. apply seg_comps_keep. rewrite !split_comps, H. reflexivity. Qed.

Section Walk.
Variable fuel : nat.
Variable root : node.
Notation go := (walk_path fuel root).
Definition dir_at (cur : list str) : Prop := exists l, lookup root (rev cur) = Some (NDir l).

Lemma walk_cons : forall cur s r, go cur (s :: r) =
  match lookup root (rev cur) with
  | Some (NDir l) =>
      if str_eqb s [] || str_eqb s s_dot then go cur r
      else if str_eqb s s_dotdot then go (tl cur) r
      else match imap_get l s with
           | None => None
           | Some (NLink t) =>
               match fuel with
               | 0 => None
               | S f => match walk_path f root (if is_abs t then [] else cur) (split_on c_slash t) with
                        | Some cur' => go cur' r
                        | None => None
                        end
               end
           | Some _ => go (s :: cur) r
           end
  | _ => None
  end.
Proof. intros. destruct fuel; reflexivity. Qed.
Lemma walk_nil : forall cur, go cur [] = Some cur.
Proof. intros. destruct fuel; reflexivity. Qed.
Lemma walk_needs_dir : forall cur s r c, go cur (s :: r) = Some c -> dir_at cur.
Proof.
  intros cur s r c H. rewrite walk_cons in H. unfold dir_at.
  destruct (lookup root (rev cur)) as [[| |]|]; try discriminate. eauto.
Qed.
Lemma walk_skip : forall cur x r, skip_seg x = true -> r <> [] -> go cur (x :: r) = go cur r.
Proof.
  intros cur x r Hx Hr. rewrite walk_cons. unfold skip_seg in Hx. rewrite Hx.
  destruct r as [|y r]; [congruence|]. destruct (lookup root (rev cur)) as [[| |]|] eqn:E; try reflexivity;
    rewrite walk_cons, E; reflexivity.
Qed.
(** A trailing empty segment demands a directory. *)
Lemma walk_app : forall a cur b, go cur (a ++ b) = match go cur a with Some c => go c b | None => None end.
Proof.
  induction a as [|s a IH]; intros cur b; [cbn [app]; rewrite walk_nil; reflexivity|].
  cbn [app]. rewrite !walk_cons. destruct (lookup root (rev cur)) as [[| |]|]; try reflexivity.
  destruct (str_eqb s [] || str_eqb s s_dot)%bool; [apply IH|].
  destruct (str_eqb s s_dotdot); [apply IH|]. destruct (imap_get l s) as [[| |]|]; try reflexivity; try apply IH.
  destruct fuel; [reflexivity|]. destruct (walk_path n root _ _); [apply IH|reflexivity].
Qed.
Lemma walk_filter : forall l s cur, s <> [] -> go cur (l ++ s) = go cur (filter keep l ++ s).
Proof.
  intros l s cur Hs. revert cur. induction l as [|x l IH]; intros cur; [reflexivity|].
  assert (Hne : forall m : list str, m ++ s <> []) by (intros m; destruct m; [exact Hs|discriminate]).
  cbn [filter]. unfold keep at 1. destruct (skip_seg x) eqn:E; cbn [negb app].
  - rewrite walk_skip by auto. apply IH.
  - change (go cur ([x] ++ l ++ s) = go cur ([x] ++ filter keep l ++ s)). rewrite (walk_app [x]).
    symmetry. rewrite walk_app. destruct (go cur [x]); [|reflexivity]. symmetry. apply IH.
Qed.
Lemma walk_end : forall cur, go cur [[]] = match lookup root (rev cur) with Some (NDir _) => Some cur | _ => None end.
Proof.
  intros. rewrite walk_cons. destruct (lookup root (rev cur)) as [[| |]|]; try reflexivity.
  cbn [str_eqb orb]. apply walk_nil.
Qed.

Variable cwd : list str.
Notation start p := (if is_abs p then [] else rev cwd).
Lemma resolve_walk : forall p, p <> [] -> posix_resolve fuel root cwd p = go (start p) (split_on c_slash p).
Proof. intros p Hp. unfold posix_resolve. destruct p; [congruence|reflexivity]. Qed.
Lemma resolve_same_tail : forall p q, same_tail p q -> posix_resolve fuel root cwd p = posix_resolve fuel root cwd q.
Proof.
  intros p q [->|(p0 & q0 & t & Hp & Hq & Hs & -> & ->)]; [reflexivity|].
  assert (Habs : is_abs (p0 ++ t) = is_abs (q0 ++ t)).
  { pose proof (components_is_abs _ _ Hs) as Ha. apply ends_with_char_spec in Hp, Hq.
    destruct Hp as [p1 ->], Hq as [q1 ->]. destruct p1, q1; cbn in *; congruence. }
  rewrite !resolve_walk.
  2,3: apply ends_with_char_spec in Hp, Hq; destruct Hp as [p1 ->], Hq as [q1 ->]; intros E;
    apply app_eq_nil in E; destruct E as [E _]; apply app_eq_nil in E; destruct E; discriminate.
  rewrite Habs. pose proof (same_split _ _ Hs) as Hf.
  apply ends_with_char_spec in Hp, Hq. destruct Hp as [p1 ->], Hq as [q1 ->].
  rewrite <- !app_assoc. cbn [app].
  rewrite !split_on_sep_app in *. rewrite !filter_app in Hf. apply app_inv_tail in Hf.
  assert (Hne : split_on c_slash t <> []) by (destruct (split_on_cons_ne c_slash t) as (h & l & ->); discriminate).
  rewrite walk_filter by exact Hne. rewrite Hf. rewrite <- walk_filter by exact Hne. reflexivity.
Qed.
Lemma file_walk : forall p s t, posix_node fuel root cwd p = Some (NFile s t) ->
  posix_resolve fuel root cwd p = go (start p) (filter keep (split_on c_slash p)).
Proof.
  intros p s t H. unfold posix_node in H. destruct p as [|c p]; [discriminate|]. rewrite resolve_walk in * by discriminate.
  destruct (split_on_cons_ne c_slash (c :: p)) as (h & l & E). remember (split_on c_slash (c :: p)) as L eqn:EL. clear EL.
  assert (HL : L <> []) by (rewrite E; discriminate). clear E. destruct (exists_last HL) as (l0 & x & ->). clear HL.
  rewrite filter_app. cbn [filter]. unfold keep at 2. destruct (skip_seg x) eqn:Ex; cbn [negb].
  2:{ apply walk_filter. discriminate. }
  exfalso. rewrite walk_app in H. destruct (go _ l0) as [cur|]; [|discriminate].
  rewrite walk_cons, walk_nil in H. unfold skip_seg in Ex. rewrite Ex in H.
  destruct (lookup root (rev cur)) as [[| |]|] eqn:El; try discriminate. rewrite El in H. discriminate.
Qed.
Lemma is_dir_walk : forall p, p <> [] -> f_dir (posix_fs fuel root cwd) p =
  match go (start p) (filter keep (split_on c_slash p) ++ [[]]) with Some _ => true | None => false end.
Proof.
  intros p Hp. cbn [f_dir posix_fs]. unfold posix_node. rewrite resolve_walk by exact Hp.
  rewrite <- walk_filter by discriminate. rewrite walk_app.
  destruct (go _ (split_on c_slash p)) as [c|]; [|reflexivity]. rewrite walk_end.
  destruct (lookup root (rev c)) as [[| |]|]; reflexivity.
Qed.
Lemma posix_parent : forall p q, f_dir (posix_fs fuel root cwd) p = true -> parent p = Some q -> q <> [] ->
  f_dir (posix_fs fuel root cwd) q = true.
Proof.
  intros p q Hd Hpar Hq. assert (Hp : p <> []) by (intros ->; discriminate).
  rewrite is_dir_walk in Hd |- * by assumption.
  pose proof (parent_some _ _ Hpar) as (Hc & Hn1 & Hn2).
  assert (Habs : is_abs q = is_abs p /\ exists x, filter keep (split_on c_slash p) = filter keep (split_on c_slash q) ++ x).
  { destruct (exists_last Hn1) as (l & x & El). rewrite El in Hc, Hn2. rewrite removelast_last in Hc.
    pose proof (split_comps p) as Sp. pose proof (split_comps q) as Sq. rewrite El in Sp. rewrite Hc in Sq.
    assert (Hl : l <> []). { intros ->. apply components_nil_iff in Hc. congruence. }
    destruct l as [|c l]; [congruence|]. split.
    - rewrite !is_abs_comps, El, Hc. reflexivity.
    - assert (Es : seg_comps (split_on c_slash p) = seg_comps (split_on c_slash q) ++ [x]).
      { rewrite Sp, Sq. destruct c; reflexivity. }
      unfold seg_comps in Es. apply map_eq_app in Es. destruct Es as (l1 & l2 & E1 & E2 & E3).
      exists l2. rewrite E1. f_equal. eapply map_inj; [apply seg_comp_inj|exact E2]. }
  destruct Habs as [Ha (x & Hx)]. rewrite Ha. rewrite Hx in Hd. rewrite <- app_assoc in Hd.
  rewrite walk_app in Hd |- *.
  destruct (go _ (filter keep (split_on c_slash q))) as [c|]; [|discriminate].
  rewrite walk_end.
  assert (Hdir : dir_at c).
  { destruct (x ++ [[]]) as [|y r] eqn:Ex; [destruct x; discriminate|].
    destruct (go c (y :: r)) eqn:E; [|discriminate]. eapply walk_needs_dir; eauto. }
  destruct Hdir as [m ->]. reflexivity.
Qed.
End Walk.

Lemma posix_sane : forall fuel root cwd, sane_fs (posix_fs fuel root cwd).
Proof.
  intros fuel root cwd. pose proof (resolve_same_tail fuel root cwd) as Hst.
  constructor.
  - intros p q H. destruct p as [|cp p], q as [|cq q]; try reflexivity.
    + symmetry in H. apply components_nil_iff in H. discriminate.
    + apply components_nil_iff in H. discriminate.
    + rewrite !is_dir_walk by discriminate. rewrite (same_split _ _ H), (components_is_abs _ _ H). reflexivity.
  - intros p q H. cbn. unfold posix_node. rewrite (Hst p q H). reflexivity.
  - intros p q H. cbn. unfold posix_node. rewrite (Hst p q H). reflexivity.
  - intros p q H. cbn. unfold posix_node. rewrite (Hst p q H). reflexivity.
  - intros p q H. cbn. unfold posix_node. rewrite (Hst p q H). reflexivity.
  - intros p q H. cbn. rewrite (Hst p q H). reflexivity.
  - intros p q H Hp Hq. cbn in *.
    assert (E : posix_resolve fuel root cwd p = posix_resolve fuel root cwd q).
    { destruct (posix_node fuel root cwd p) as [[s t| |]|] eqn:Ep; try congruence.
      destruct (posix_node fuel root cwd q) as [[s' t'| |]|] eqn:Eq; try discriminate.
      rewrite (file_walk _ _ _ _ _ _ Ep), (file_walk _ _ _ _ _ _ Eq), (same_split _ _ H), (components_is_abs _ _ H). reflexivity. }
    unfold posix_node. rewrite E. reflexivity.
  - intros p. cbn. unfold posix_node. destruct (posix_resolve _ _ _ p); [|discriminate].
    destruct (lookup _ _) as [[| |]|]; congruence.
  - reflexivity.
  - apply posix_parent.
Qed.
