(** * Edits and additions on a concrete tree are noticeable. *)
From Coq Require Import String.
From Coq Require Import List Arith NArith Bool Lia.
From Verif Require Import Str StrP Path PathP Json Types Parse Map Prog Desc Run Posix SpecLoad PosixP SpellP SimP LoadP SpecChange.
Import ListNotations.

Lemma lookup_app : forall a b root, lookup root (a ++ b) = match lookup root a with Some n => lookup n b | None => None end.
Proof.
  induction a as [|x a IH]; intros b root; cbn [lookup app]; [reflexivity|]. destruct root as [|l|]; try reflexivity.
  destruct (imap_get l x); [apply IH|reflexivity].
Qed.
Section Grown.
Variable name : str.
Variable dur : N.
Hypothesis Hname : file_name name.
Variables old new : node.
Hypothesis Hg : grown name dur old new.
Lemma grown_lookup : forall ns a b v, grown name dur a b -> lookup a ns = Some v -> exists v', lookup b ns = Some v' /\ grown name dur v v'.
Proof.
  induction ns as [|x ns IH]; intros a b v H Hl; cbn [lookup] in *; [injection Hl as <-; eauto|].
  destruct a as [s t|l|t]; try discriminate. destruct (imap_get l x) as [c|] eqn:E; [|discriminate].
  inversion H as [| | |l0 l' H1 H2 H3]; subst. destruct (H1 x c E) as (c' & Ec & Hc). rewrite Ec. eapply IH; eassumption.
Qed.
Lemma grown_dir : forall l n, grown name dur (NDir l) n -> exists l', n = NDir l' /\
  (forall k v, imap_get l k = Some v -> exists v', imap_get l' k = Some v' /\ grown name dur v v') /\
  (imap_get l name = None -> imap_get l' name = None) /\ (forall t, imap_get l name <> Some (NLink t)).
Proof. intros l n H. inversion H as [| | |l0 l' H1 H2 H3]; subst. exists l'. auto. Qed.
Lemma grown_walk : forall fuel segs cur c, walk_path fuel old cur segs = Some c -> walk_path fuel new cur segs = Some c.
Proof.
  induction fuel as [|f IHf]; induction segs as [|s r IH]; intros cur c H; try (rewrite walk_nil in *; exact H).
  - rewrite walk_cons in *. destruct (lookup old (rev cur)) as [[| l |]|] eqn:El; try discriminate.
    destruct (grown_lookup _ _ _ _ Hg El) as (v' & -> & Hv). apply grown_dir in Hv. destruct Hv as (l' & -> & H1 & H2 & H3).
    destruct (str_eqb s [] || str_eqb s s_dot)%bool; [apply IH, H|]. destruct (str_eqb s s_dotdot); [apply IH, H|].
    destruct (imap_get l s) as [x|] eqn:E; [|discriminate]. destruct (H1 _ _ E) as (x' & -> & Hx).
    destruct x; [| |discriminate]; inversion Hx; subst; apply IH, H.
  - rewrite walk_cons in *. destruct (lookup old (rev cur)) as [[| l |]|] eqn:El; try discriminate.
    destruct (grown_lookup _ _ _ _ Hg El) as (v' & -> & Hv). apply grown_dir in Hv. destruct Hv as (l' & -> & H1 & H2 & H3).
    destruct (str_eqb s [] || str_eqb s s_dot)%bool; [apply IH, H|]. destruct (str_eqb s s_dotdot); [apply IH, H|].
    destruct (imap_get l s) as [x|] eqn:E; [|discriminate]. destruct (H1 _ _ E) as (x' & -> & Hx).
    destruct x; inversion Hx; subst; try (apply IH, H).
    destruct (walk_path f old _ _) as [cur'|] eqn:Ew; [|discriminate]. rewrite (IHf _ _ _ Ew). apply IH, H.
Qed.

Variable fuel : nat.
Variable cwd : list str.
Hypothesis Hcwd : exists l, lookup old cwd = Some (NDir l).
Notation fs := (posix_fs fuel old cwd).
Notation fs' := (posix_fs fuel new cwd).
Lemma name_split : split_on c_slash name = [name] /\ is_abs name = false.
Proof.
  destruct Hname as (H1 & H2 & H3 & H4). split.
  - apply split_on_nosep. exact H4.
  - destruct name as [|c n]; [congruence|]. unfold is_abs, starts_with_char. destruct (N.eqb_spec c c_slash) as [->|]; [|reflexivity].
    exfalso. apply H4. left; reflexivity.
Qed.
(** The child [name] of a directory. *)
Definition child_ok (o : option node) (l : list (str * node)) : Prop :=
  match imap_get l name with
  | Some (NLink _) => True
  | c => o = c
  end.
Lemma child_walk : forall root c l, lookup root (rev c) = Some (NDir l) ->
  child_ok (match walk_path fuel root c [name] with Some n => lookup root (rev n) | None => None end) l.
Proof.
  intros root c l H. unfold child_ok. rewrite walk_cons, H. destruct Hname as (H1 & H2 & H3 & H4).
  destruct (str_eqb_spec name []) as [|_]; [contradiction|]. destruct (str_eqb_spec name s_dot) as [|_]; [contradiction|].
  destruct (str_eqb_spec name s_dotdot) as [|_]; [contradiction|]. cbn [orb].
  destruct (imap_get l name) as [[s t|m|t]|] eqn:E; auto; rewrite walk_nil; cbn [rev]; rewrite lookup_app, H; cbn [lookup]; rewrite E; reflexivity.
Qed.
Lemma join_child : forall root q, f_dir (posix_fs fuel root cwd) q = true -> exists c l,
  posix_resolve fuel root cwd q = Some c /\ lookup root (rev c) = Some (NDir l) /\
  posix_node fuel root cwd (join q name) = match walk_path fuel root c [name] with Some n => lookup root (rev n) | None => None end.
Proof.
  intros root q H. cbn [f_dir posix_fs] in H. unfold posix_node in *. destruct (posix_resolve fuel root cwd q) as [c|] eqn:Er; [|discriminate].
  destruct (lookup root (rev c)) as [[|l|]|] eqn:El; try discriminate. exists c, l. split; [reflexivity|]. split; [exact El|].
  assert (Hq : q <> []) by (intros ->; discriminate). destruct name_split as [Hs Ha].
  assert (Ej : posix_resolve fuel root cwd (join q name) = walk_path fuel root (if is_abs q then [] else rev cwd) (split_on c_slash q ++ [name])).
  { unfold join. rewrite Ha. destruct q as [|x q]; [congruence|]. destruct (ends_with_char (x :: q) c_slash) eqn:Ee.
    - apply ends_with_char_spec in Ee. destruct Ee as [r Eq]. rewrite Eq in *. rewrite <- app_assoc. cbn [app].
      rewrite resolve_walk by (destruct r; discriminate). rewrite !split_on_sep_app, Hs.
      replace (is_abs (r ++ c_slash :: name)) with (is_abs (r ++ [c_slash])) by (destruct r; reflexivity).
      rewrite <- app_assoc. rewrite !walk_app. destruct (walk_path fuel root _ (split_on c_slash r)) as [c0|]; [|reflexivity].
      cbn [app]. symmetry. apply walk_skip; [reflexivity|discriminate].
    - rewrite resolve_walk by discriminate. rewrite split_on_sep_app, Hs. reflexivity. }
  rewrite Ej, walk_app. rewrite resolve_walk in Er by exact Hq. rewrite Er. reflexivity.
Qed.
Lemma dir_kept : forall q, f_dir fs q = true -> f_dir fs' q = true.
Proof.
  intros q H. cbn [f_dir posix_fs] in *. unfold posix_node in *. destruct (posix_resolve fuel old cwd q) as [c|] eqn:Er; [|discriminate].
  assert (Er' : posix_resolve fuel new cwd q = Some c).
  { destruct q; [discriminate|]. unfold posix_resolve in *. apply grown_walk, Er. }
  rewrite Er'. destruct (lookup old (rev c)) as [[|l|]|] eqn:El; try discriminate.
  destruct (grown_lookup _ _ _ _ Hg El) as (v' & -> & Hv). inversion Hv; reflexivity.
Qed.
(** In a directory that is there before and after: the same description, or an edited one. *)
Definition child_rel (o o' : option node) : Prop :=
  match o with
  | Some (NFile s t) => exists s' t', o' = Some (NFile s' t') /\ (s' = s /\ t' = t \/ (t + dur <= t')%N)
  | _ => match o' with Some (NFile _ _) => False | _ => True end
  end.
Lemma child_rel_at : forall c l, lookup old (rev c) = Some (NDir l) ->
  child_rel (match walk_path fuel old c [name] with Some n => lookup old (rev n) | None => None end)
            (match walk_path fuel new c [name] with Some n => lookup new (rev n) | None => None end).
Proof.
  intros c l El. destruct (grown_lookup _ _ _ _ Hg El) as (v' & El' & Hv). apply grown_dir in Hv. destruct Hv as (l' & -> & H1 & H2 & H3).
  pose proof (child_walk old c l El) as C. pose proof (child_walk new c l' El') as C'. unfold child_ok in *.
  destruct (imap_get l name) as [[s t|m|t]|] eqn:E.
  - destruct (H1 _ _ E) as (x & Ex & Hx). rewrite Ex in C'. rewrite C. cbn [child_rel]. inversion Hx; subst; rewrite C'; eauto 6.
  - destruct (H1 _ _ E) as (x & Ex & Hx). rewrite Ex in C'. rewrite C. cbn [child_rel]. inversion Hx; subst; rewrite C'; exact I.
  - exfalso. exact (H3 t eq_refl).
  - rewrite (H2 eq_refl) in C'. rewrite C, C'. exact I.
Qed.
Lemma child_rel_dir : forall q, f_dir fs q = true -> child_rel (posix_node fuel old cwd (join q name)) (posix_node fuel new cwd (join q name)).
Proof.
  intros q H. destruct (join_child old q H) as (c & l & Er & El & ->). destruct (join_child new q (dir_kept q H)) as (c' & l' & Er' & El' & ->).
  assert (c' = c) as ->.
  { destruct q; [discriminate|]. unfold posix_resolve in *. apply grown_walk in Er. congruence. }
  eapply child_rel_at, El.
Qed.
Lemma child_rel_top : child_rel (posix_node fuel old cwd (join [] name)) (posix_node fuel new cwd (join [] name)).
Proof.
  destruct Hcwd as [l El]. destruct name_split as [Hs Ha]. unfold posix_node, join. rewrite Ha.
  rewrite !resolve_walk by apply Hname. rewrite Ha, Hs. apply (child_rel_at (rev cwd) l). rewrite rev_involutive. exact El.
Qed.
Lemma lineage_dirs : forall d q, f_dir fs d = true -> In q (lineage d) -> q = [] \/ f_dir fs q = true.
Proof.
  intros d. induction d as [d Hd|d d' Hd IH] using lineage_ind; intros q H Hin.
  - rewrite (lineage_none _ Hd) in Hin. destruct Hin as [<-|[]]. auto.
  - rewrite (lineage_some _ _ Hd) in Hin. destruct Hin as [<-|Hin]; [auto|]. destruct d' as [|c d'].
    + cbn in Hin. destruct Hin as [<-|[]]. auto.
    + apply IH; [|exact Hin]. eapply (sf_parent _ (posix_sane fuel old cwd)); [exact H|exact Hd|discriminate].
Qed.
Lemma grown_noticeable : noticeable name dur fs fs'.
Proof.
  intros d Hd Hd'. pose proof (child_rel_dir d Hd) as C. split.
  - cbn [f_file f_read f_mtime posix_fs]. destruct (posix_node fuel old cwd (join d name)) as [[s t| |]|]; try discriminate. intros _.
    destruct C as (s' & t' & -> & [[-> ->]|Hle]); (split; [reflexivity|]); [left; auto|right; exists t, t'; auto].
  - intros Hn. left. unfold nearest in *. rewrite (from_dir_dir _ _ Hd) in Hn. rewrite (from_dir_dir _ _ Hd').
    destruct (find (fun q => f_file fs' (join q name)) (lineage d)) as [q|] eqn:E; [|reflexivity]. exfalso. apply find_some in E. destruct E as [Hin Hf].
    pose proof (find_none _ _ Hn q Hin) as Hf0. cbn beta in Hf0. cbn [f_file posix_fs] in Hf, Hf0.
    assert (Cq : child_rel (posix_node fuel old cwd (join q name)) (posix_node fuel new cwd (join q name))).
    { destruct (lineage_dirs d q Hd Hin) as [->|Hq]; [apply child_rel_top|apply child_rel_dir, Hq]. }
    destruct (posix_node fuel old cwd (join q name)) as [[s t| |]|]; try discriminate;
      destruct (posix_node fuel new cwd (join q name)) as [[s' t'| |]|]; try discriminate; contradiction.
Qed.
End Grown.

(** ** Several changes *)
Lemma grown_trans : forall name dur a b, grown name dur a b -> forall c, grown name dur b c -> grown name dur a c.
Proof.
  intros name dur. fix IH 3. intros a b H c H'. destruct H as [s t|s t s' t' Hle|t|l l' H1 H2 H3].
  - exact H'.
  - inversion H' as [s0 t0|s0 t0 s1 t1 Hle1| |]; subst; apply GrEdit; lia.
  - exact H'.
  - inversion H' as [| | |l0 l'' H1' H2' H3']; subst. apply GrDir; auto.
    intros k v Hk. destruct (H1 k v Hk) as (v' & E & Hv). destruct (H1' k v' E) as (v'' & E' & Hv').
    exists v''. split; [exact E'|]. exact (IH v v' Hv v'' Hv').
Qed.
Lemma named_in : forall name ns root l v, lookup root ns = Some (NDir l) -> imap_get l name = Some v -> In v (named name root).
Proof.
  intros name. induction ns as [|x ns IH]; intros root l v Hl Hv; cbn [lookup] in Hl.
  - injection Hl as ->. cbn [named]. apply in_flat_map. exists (name, v). split; [apply imap_get_In; exact Hv|].
    cbn [fst snd]. rewrite str_eqb_refl. left. reflexivity.
  - destruct root as [|m|]; try discriminate. destruct (imap_get m x) as [c|] eqn:E; [|discriminate].
    cbn [named]. apply in_flat_map. exists (x, c). split; [apply imap_get_In; exact E|]. cbn [fst snd]. apply in_or_app. right. eapply IH; eassumption.
Qed.
Lemma side_any : forall p q j se, side_effects_of p j = Ok se -> exists se', side_effects_of q j = Ok se'.
Proof.
  intros p q j se. unfold side_effects_of. destruct (jget j (lit "sideEffects")) as [v|]; [|eauto].
  destruct (as_bool v); [eauto|]. destruct (as_array v) as [l|]; [|discriminate].
  assert (H : forall t, side_strings p l = Ok t -> side_strings q l = Ok t).
  { induction l as [|w l IH]; intros t; cbn [side_strings]; [auto|]. destruct (as_str w); [|discriminate].
    destruct (side_strings p l) as [t'|]; [|discriminate]. rewrite (IH t' eq_refl). auto. }
  destruct (side_strings p l) as [t|]; [|discriminate]. rewrite (H t eq_refl). eauto.
Qed.
(** What is read under the name of a description is the text of such a file of the tree. *)
Lemma read_named : forall js name fuel root cwd q s, file_name name -> good_tree js name root ->
  f_read (posix_fs fuel root cwd) (join q name) = Some s -> exists t, In (NFile s t) (named name root).
Proof.
  intros js name fuel root cwd q s Hn Hgood H. cbn [f_read posix_fs] in H. unfold posix_node in H.
  destruct (name_split name 0%N Hn (NLink []) (NLink []) (GrLink _ _ [])) as [Hs Ha].
  assert (Hne : name <> []) by (destruct Hn as (H1 & _); exact H1).
  assert (Hw : exists c, posix_resolve fuel root cwd (join q name) = walk_path fuel root c [name] \/ posix_resolve fuel root cwd (join q name) = None).
  { unfold join. rewrite Ha. destruct q as [|x q].
    - exists (rev cwd). left. rewrite resolve_walk by exact Hne. rewrite Ha, Hs. reflexivity.
    - destruct (ends_with_char (x :: q) c_slash) eqn:Ee.
      + apply ends_with_char_spec in Ee. destruct Ee as [r Eq]. rewrite Eq in *. rewrite <- app_assoc. cbn [app].
        rewrite resolve_walk by (destruct r; discriminate). rewrite split_on_sep_app, Hs, walk_app.
        destruct (walk_path fuel root _ (split_on c_slash r)) as [c|]; [exists c; left; reflexivity|exists []; right; reflexivity].
      + rewrite resolve_walk by discriminate. rewrite split_on_sep_app, Hs, walk_app.
        destruct (walk_path fuel root _ (split_on c_slash (x :: q))) as [c|]; [exists c; left; reflexivity|exists []; right; reflexivity]. }
  destruct Hw as (c & [E|E]); rewrite E in H; [|discriminate].
  destruct (lookup root (rev c)) as [[s0 t0|l|t0]|] eqn:El.
  2:{ pose proof (child_walk name Hn fuel root c l El) as C. unfold child_ok in C.
      destruct (imap_get l name) as [v|] eqn:Ev; [|rewrite C in H; discriminate].
      pose proof (named_in _ _ _ _ _ El Ev) as Hin. pose proof (Hgood v Hin) as Hv.
      destruct v as [s1 t1|m|t1]; [|rewrite C in H; discriminate|contradiction]. rewrite C in H. injection H as <-. exists t1. exact Hin. }
  all: rewrite walk_cons, El in H; discriminate.
Qed.
Lemma good_readable : forall js name fuel root cwd, file_name name -> good_tree js name root -> all_readable js name (posix_fs fuel root cwd).
Proof.
  intros js name fuel root cwd Hn Hgood d Hd Hf. unfold described.
  destruct (join_child name 0%N Hn (NLink []) (NLink []) (GrLink _ _ []) fuel cwd root d Hd) as (c & l & Er & El & Ej). pose proof (child_walk name Hn fuel root c l El) as C.
  rewrite <- Ej in C. unfold child_ok in C. cbn [f_file f_read f_mtime posix_fs] in *.
  destruct (imap_get l name) as [v|] eqn:E; [|rewrite C in Hf; discriminate].
  pose proof (Hgood v (named_in _ _ _ _ _ El E)) as Hv. destruct v as [s t|m|t]; [|rewrite C in Hf; discriminate|contradiction].
  rewrite C. destruct Hv as (j & af & se & Ej' & Ea & Es & Hex & Him). rewrite Ej', Ea. cbn [pbind].
  destruct (side_any _ (join d name) j se Es) as [se' ->].
  destruct (jget j (lit "exports")) as [v|]; [destruct (Hex v eq_refl) as [tx ->]|]; cbn [pbind];
    (destruct (jget j (lit "imports")) as [w|]; [destruct (Him w eq_refl) as [ti ->]|]; cbn [pbind]; eauto).
Qed.
