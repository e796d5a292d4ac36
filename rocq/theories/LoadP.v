(** * The description loader answers as an uncached lookup, whatever good entries it finds in the
    tables, and stores good entries only. *)
From Coq Require Import String.
From Coq Require Import List Arith NArith Bool Lia Permutation.
From Verif Require Import Str StrP Path PathP Json Types Parse Map Prog Desc Resolve Top Run Exec ExecP ApiP Posix SpecLoad PosixP SpellP SimP.
Import ListNotations.

(** ** Imports fields that are accepted *)
Lemma imports_hash : forall m root t, imports_keys m root = PRet (Ok t) -> forall k, In k (map fst m) -> exists r, k = c_hash :: r.
Proof.
  induction m as [|[key v] m IH]; intros root t H k Hin; [destruct Hin|]. cbn [imports_keys] in H. destruct (starts_with_char key c_hash) eqn:E; [|discriminate]. cbn [negb] in H.
  destruct (Nat.eqb (blen key) 1); [discriminate|]. destruct (starts_with key (lit "#/")); [discriminate|]. destruct (walk root (skipn 1 key) v) as [root'| |]; try discriminate.
  destruct Hin as [<-|Hin]; [apply starts_with_char_spec, E|exact (IH root' t H k Hin)].
Qed.
Lemma build_imports_hash : forall v t, build_imports v = PRet (Ok t) -> hash_keys v.
Proof.
  intros v t H. unfold build_imports in H. destruct v as [|b|n|s|l|l]; try discriminate H.
  - cbn [from_json] in H. match type of H with pbind (pbind ?x _) _ = _ => destruct x end; discriminate H.
  - exists l. split; [reflexivity|]. cbn [from_json] in H.
    assert (Hgo : forall (l : list (str * json)) (acc : cmap) m, (fix obj (l : list (str * json)) (acc : cmap) : pcomp cmap :=
       match l with [] => PRet acc | (k, x) :: r => plet v := from_json x in obj r (imap_insert acc k v) end) l acc = PRet m ->
       forall k, In k (map fst l) \/ In k (map fst acc) -> In k (map fst m)).
    { clear. induction l as [|[k x] l IH]; intros acc m H k' Hin; [injection H as <-; destruct Hin as [[]|Hin]; exact Hin|].
      destruct (from_json x) as [v| |]; try discriminate. cbn [pbind] in H. apply (IH _ _ H). cbn [map fst In] in Hin. rewrite imap_insert_keys. destruct Hin as [[<-|Hin]|Hin]; auto. }
    match type of H with pbind (pbind ?x _) _ = _ => destruct x as [m| |] eqn:E end; try discriminate H. cbn [pbind] in H.
    intros k x Hin. apply (imports_hash _ _ _ H). apply (Hgo l [] m E). left. apply in_map_iff. exists (k, x). auto.
Qed.

(** ** Lineages *)
Lemma ancestors_len : forall p q, parent p = Some q -> ancestors (length (components p)) p = lineage q.
Proof.
  intros p q H. pose proof (parent_shorter _ _ H) as Hl. rewrite <- Hl. cbn [ancestors]. rewrite H. reflexivity.
Qed.
Lemma lineage_some : forall p q, parent p = Some q -> lineage p = p :: lineage q.
Proof. intros p q H. unfold lineage at 1. rewrite (ancestors_len _ _ H). reflexivity. Qed.
Lemma lineage_none : forall p, parent p = None -> lineage p = [p].
Proof. intros p H. unfold lineage. destruct (length (components p)); cbn [ancestors]; [reflexivity|]. rewrite H. reflexivity. Qed.
Lemma lineage_ind : forall P : path -> Prop, (forall p, parent p = None -> P p) ->
  (forall p q, parent p = Some q -> P q -> P p) -> forall p, P p.
Proof.
  intros P H0 H1 p. remember (length (components p)) as n eqn:E. revert p E. induction n as [n IH] using lt_wf_ind. intros p E.
  destruct (parent p) as [q|] eqn:Ep; [|apply H0, Ep]. apply (H1 p q Ep). apply (IH (length (components q))); [|reflexivity].
  pose proof (parent_shorter _ _ Ep). lia.
Qed.
Lemma lineage_same : forall p q, same_path p q -> Forall2 same_path (lineage p) (lineage q).
Proof.
  intros p. induction p as [p Hp|p p' Hp IH] using lineage_ind; intros q Hs; pose proof (parent_same _ _ Hs) as H; rewrite Hp in H.
  - destruct (parent q) eqn:Eq; [contradiction|]. rewrite !lineage_none by assumption. constructor; [exact Hs|constructor].
  - destruct (parent q) as [q'|] eqn:Eq; [|contradiction].
    rewrite (lineage_some _ _ Hp), (lineage_some _ _ Eq). constructor; [exact Hs|apply IH, H].
Qed.

Section Fs.
Variable fs : fsys.
Hypothesis Hfs : sane_fs fs.
Variable js : str -> option json.
Section Name.
Variable name : str.
Notation has d := (f_file fs (join d name)).

Lemma from_dir_some : forall p q, f_dir fs p = false -> parent p = Some q -> from_dir fs p = from_dir fs q.
Proof. intros p q Hd Hp. unfold from_dir. rewrite (lineage_some _ _ Hp). cbn [drop_while]. rewrite Hd. reflexivity. Qed.
Lemma from_dir_none : forall p, f_dir fs p = false -> parent p = None -> from_dir fs p = [].
Proof. intros p Hd Hp. unfold from_dir. rewrite (lineage_none _ Hp). cbn [drop_while]. rewrite Hd. reflexivity. Qed.
Lemma from_dir_dir : forall p, f_dir fs p = true -> from_dir fs p = lineage p.
Proof. intros p Hd. unfold from_dir, lineage. cbn [drop_while]. rewrite Hd. reflexivity. Qed.

Notation look := (lookup_desc fs js (Some name)).
Lemma look_up : forall p q, f_dir fs p = false -> parent p = Some q -> look p = look q.
Proof. intros p q Hd Hp. unfold lookup_desc, nearest. rewrite (from_dir_some _ _ Hd Hp). reflexivity. Qed.
Lemma look_top : forall p, f_dir fs p = false -> parent p = None -> look p = PRet (Err TAG).
Proof. intros p Hd Hp. unfold lookup_desc. rewrite (from_dir_none _ Hd Hp). reflexivity. Qed.
(** The result for a directory, in terms of the search along its lineage. *)
Definition found (o : option path) : pcomp (result (option pkg)) :=
  match o with
  | None => PRet (Ok None)
  | Some d => if f_dir fs d
              then plet r := described fs js name d in PRet (match r with Ok pk => Ok (Some pk) | Err e => Err e end)
              else PRet (Err TAG)
  end.
Definition search (p : path) : option path := find (fun q => has q) (lineage p).
Lemma look_dir : forall p, f_dir fs p = true -> look p = found (search p).
Proof.
  intros p Hd. unfold lookup_desc, nearest, search. rewrite (from_dir_dir _ Hd). unfold lineage at 1.
  unfold found. destruct (find _ _); reflexivity.
Qed.
Lemma search_in : forall p d, search p = Some d -> f_dir fs p = true -> d = [] \/ f_dir fs d = true.
Proof.
  intros p. induction p as [p Hp|p q Hp IH] using lineage_ind; intros d Hs Hd; unfold search in Hs.
  - rewrite (lineage_none _ Hp) in Hs. cbn [find] in Hs. destruct (has p); [|discriminate]. injection Hs as <-. auto.
  - rewrite (lineage_some _ _ Hp) in Hs. cbn [find] in Hs. destruct (has p); [injection Hs as <-; auto|].
    destruct q as [|c q].
    + unfold lineage in Hs. cbn in Hs. destruct (has []); [|discriminate]. injection Hs as <-. auto.
    + apply (IH d Hs). eapply sf_parent; [exact Hfs|exact Hd|exact Hp|discriminate].
Qed.
Lemma search_self : forall d p, search p = Some d -> search d = Some d.
Proof.
  intros d p. unfold search. intros H. apply find_some in H. destruct H as [_ H]. unfold lineage. cbn [find]. rewrite H. reflexivity.
Qed.
Lemma look_found : forall p d, f_dir fs p = true -> search p = Some d -> look p = look d.
Proof.
  intros p d Hd Hs. rewrite (look_dir _ Hd), Hs. destruct (search_in _ _ Hs Hd) as [->|Hd'].
  - cbn [found]. rewrite (sf_empty _ Hfs). unfold lookup_desc. unfold from_dir, lineage. cbn [length components ancestors drop_while].
    change (length (components [])) with 0. cbn [ancestors drop_while]. rewrite (sf_empty _ Hfs). reflexivity.
  - rewrite (look_dir _ Hd'), (search_self _ _ Hs). reflexivity.
Qed.
Lemma look_here : forall p, f_dir fs p = true -> has p = true ->
  look p = plet r := described fs js name p in PRet (match r with Ok pk => Ok (Some pk) | Err e => Err e end).
Proof.
  intros p Hd Hf. rewrite (look_dir _ Hd). unfold search, lineage. cbn [find]. rewrite Hf. cbn [found]. rewrite Hd. reflexivity.
Qed.

(** ** The lookup depends on the components only *)
Definition pkgeq (pk pk' : pkg) : Prop :=
  same_path (p_dir pk) (p_dir pk') /\ p_name pk = p_name pk' /\ p_version pk = p_version pk' /\
  p_exports pk = p_exports pk' /\ p_imports pk = p_imports pk' /\ p_side pk = p_side pk' /\ p_raw pk = p_raw pk' /\
  Permutation (p_alias pk) (p_alias pk').
Definition okeq (o o' : option pkg) : Prop :=
  match o, o' with None, None => True | Some pk, Some pk' => pkgeq pk pk' | _, _ => False end.
Definition leq (ER : str -> str -> Prop) (r r' : result (option pkg)) : Prop :=
  match r, r' with Ok o, Ok o' => okeq o o' | Err e, Err e' => ER e e' | _, _ => False end.
Definition oc {A} (c : pcomp A) : outcome A :=
  match c with PRet a => Done a | PPanic m => Panicked m | PFuel => NoFuel end.
Lemma pkgeq_refl : forall pk, pkgeq pk pk.
Proof. intros. repeat split; auto. Qed.
Lemma pkgeq_trans : forall a b c, pkgeq a b -> pkgeq b c -> pkgeq a c.
Proof.
  unfold pkgeq, same_path. intros a b c (?&?&?&?&?&?&?&Hp) (?&?&?&?&?&?&?&Hq). repeat split; try congruence.
  eapply Permutation_trans; eassumption.
Qed.
Lemma okeq_trans : forall a b c, okeq a b -> okeq b c -> okeq a c.
Proof. intros [a|] [b|] [c|]; cbn [okeq]; try contradiction; auto. apply pkgeq_trans. Qed.

Lemma erel_long : forall pre mid post x y, same_path x y -> (forall z, pre ++ z <> TAG) ->
  mid = [] -> erel (pre ++ mid ++ x ++ post) (pre ++ mid ++ y ++ post).
Proof.
  intros pre mid post x y Hs Hn ->. cbn [app]. split; [exists pre, post, x, y; auto|]. split; intros H; exfalso; eapply Hn; exact H.
Qed.
Lemma open_tag : forall z, lit "Open " ++ z <> TAG. Proof. intros z H. discriminate. Qed.
Lemma parse_tag : forall z, lit "Parse " ++ z <> TAG. Proof. intros z H. discriminate. Qed.
Lemma side_tag : forall z, lit "sideEffects in " ++ z <> TAG. Proof. intros z H. discriminate. Qed.
Lemma side_err_rel : forall x y v, same_path x y -> erel (side_err x v) (side_err y v).
Proof. intros x y v H. unfold side_err. apply (erel_long _ [] _ _ _ H side_tag eq_refl). Qed.
Lemma side_rel : forall x y j, same_path x y ->
  match side_effects_of x j, side_effects_of y j with Ok a, Ok b => a = b | Err e, Err e' => erel e e' | _, _ => False end.
Proof.
  intros x y j H. unfold side_effects_of. destruct (jget j (lit "sideEffects")) as [v|]; [|reflexivity].
  destruct (as_bool v); [reflexivity|]. destruct (as_array v) as [l|]; [|apply side_err_rel, H].
  assert (Hs : match side_strings x l, side_strings y l with Ok a, Ok b => a = b | Err e, Err e' => erel e e' | _, _ => False end).
  { induction l as [|w l IH]; cbn [side_strings]; [reflexivity|]. destruct (as_str w); [|apply side_err_rel, H].
    destruct (side_strings x l), (side_strings y l); try contradiction; [congruence|exact IH]. }
  destruct (side_strings x l), (side_strings y l); try contradiction; [congruence|exact Hs].
Qed.

Definition creq {A} (V : A -> A -> Prop) (c c' : pcomp A) : Prop :=
  match c, c' with PRet a, PRet b => V a b | PPanic m, PPanic m' => m = m' | PFuel, PFuel => True | _, _ => False end.
Definition peq (r r' : result pkg) : Prop :=
  match r, r' with Ok o, Ok o' => pkgeq o o' | Err e, Err e' => erel e e' | _, _ => False end.
Lemma described_same : forall d d', same_path d d' -> creq peq (described fs js name d) (described fs js name d').
Proof.
  intros d d' H. unfold described. pose proof (same_tail_join _ _ name H) as Ht. pose proof (same_tail_path _ _ Ht) as Hp.
  rewrite <- (sf_read _ Hfs _ _ Ht), <- (sf_mtime _ Hfs _ _ Ht).
  assert (Ho : erel (open_failed (join d name)) (open_failed (join d' name))) by (apply (erel_long _ [] _ _ _ Hp open_tag eq_refl)).
  destruct (f_read fs (join d name)) as [s|]; [|exact Ho].
  destruct (f_mtime fs (join d name)) as [| |t]; try exact Ho.
  destruct (js s) as [j|]; [|apply (erel_long _ [] _ _ _ Hp parse_tag eq_refl)].
  destruct (alias_fields_of j) as [af|m|]; cbn [pbind creq]; auto.
  match goal with |- creq _ (pbind ?X _) _ => destruct X as [[ex|e]|m|]; cbn [pbind creq peq]; auto using erel_refl end.
  match goal with |- creq _ (pbind ?X _) _ => destruct X as [[im|e]|m|]; cbn [pbind creq peq]; auto using erel_refl end.
  pose proof (side_rel _ _ j Hp) as Hs. destruct (side_effects_of (join d name) j), (side_effects_of (join d' name) j); try contradiction.
  - cbn [peq]. subst. unfold pkgeq. cbn. repeat split; auto.
  - exact Hs.
Qed.
Lemma find_same : forall l l', Forall2 same_path l l' ->
  match find (fun q => has q) l, find (fun q => has q) l' with Some d, Some d' => same_path d d' | None, None => True | _, _ => False end.
Proof.
  intros l l' H. induction H as [|x y l l' Hxy Hl IH]; cbn [find]; [exact I|].
  rewrite <- (sf_file _ Hfs _ _ (same_tail_join _ _ name Hxy)). destruct (has x); [exact Hxy|exact IH].
Qed.
Lemma drop_same : forall l l', Forall2 same_path l l' ->
  Forall2 same_path (drop_while (fun q => negb (f_dir fs q)) l) (drop_while (fun q => negb (f_dir fs q)) l').
Proof.
  intros l l' H. induction H as [|x y l l' Hxy Hl IH]; cbn [drop_while]; [constructor|].
  rewrite <- (sf_dir _ Hfs _ _ Hxy). destruct (negb _); [exact IH|]. constructor; assumption.
Qed.
Lemma look_same : forall p q, same_path p q -> creq (leq erel) (look p) (look q).
Proof.
  intros p q H. unfold lookup_desc, nearest. pose proof (drop_same _ _ (lineage_same _ _ H)) as Hd.
  fold (from_dir fs p) in Hd. fold (from_dir fs q) in Hd. pose proof (find_same _ _ Hd) as Hf.
  destruct Hd as [|x y l l' Hxy Hl]; [apply erel_refl|].
  destruct (find _ (x :: l)) as [d|], (find _ (y :: l')) as [d'|]; try contradiction; [|exact I].
  rewrite <- (sf_dir _ Hfs _ _ Hf). destruct (f_dir fs d); [|apply erel_refl].
  pose proof (described_same _ _ Hf) as Hdes.
  destruct (described fs js name d) as [[pk|e]|m|], (described fs js name d') as [[pk'|e']|m'|]; cbn [creq peq] in Hdes; try contradiction; cbn [pbind creq leq okeq]; auto.
Qed.

(** ** Good tables *)
Definition pkg_good (c : list comp) (v : option pkg) : Prop :=
  forall p, components p = c -> f_dir fs p = true -> exists o, look p = PRet (Ok o) /\ okeq o v.
Definition exp_good (k : str) (t : ptn) : Prop :=
  forall v, field_on fs js name (lit "exports") v -> to_string v = k -> build_exports v = PRet (Ok t).
End Name.
Definition file_good (c : list comp) (t : N) : Prop :=
  forall p, components p = c -> f_file fs p = true -> f_mtime fs p = MTime t.

(** The name of the description files recorded in each cache. *)
Variable nm : nat -> str.
(** Everything on the disk is as in [fs] ([exact]), or only the directories and the description files are. *)
Variable exact : Prop.
Definition watched (p : path) : Prop := exact \/ exists c d, p = join d (nm c).
Definition okx (o : op) : ans o -> Prop :=
  match o return ans o -> Prop with
  | OIsFile p => fun x => watched p -> x = f_file fs p
  | OIsDir p => fun x => x = f_dir fs p
  | OExists p => fun x => exact -> x = f_exists fs p
  | ORead p => fun x => watched p -> x = f_read fs p
  | OMtime p => fun x => watched p -> x = f_mtime fs p
  | OCanon p => fun x => exact -> x = f_canon fs p
  | OPkgGet c p => fun x => forall v, x = Some v -> pkg_good (nm c) (components p) v
  | OExpGet c k => fun x => forall t, x = Some t -> exp_good (nm c) k t
  | OImpGet _ _ => fun x => x = None
  | OFileGet _ p => fun x => forall s t, x = Some (s, t) -> file_good (components p) t
  | _ => fun _ => True
  end.
Lemma watched_name : forall c d, watched (join d (nm c)).
Proof. intros c d. right. eauto. Qed.
Definition put_ok (o : op) : Prop :=
  match o with
  | OPkgPut c p v => pkg_good (nm c) (components p) v
  | OExpPut c k t => exp_good (nm c) k t
  | OFilePut _ p _ t => file_good (components p) t
  | _ => True
  end.

(** Outcomes under admissible answers, with good puts. *)
Fixpoint wgx {A} (Q : outcome A -> Prop) (p : prog A) : Prop :=
  match p with
  | Ret a => Q (Done a)
  | Panic m => Q (Panicked m)
  | OutOfFuel => Q NoFuel
  | Do o k => put_ok o /\ forall x, okx o x -> wgx Q (k x)
  end.
Lemma wg_wx {A} : forall (p : prog A) Q, wgx Q p -> wx okx Q p.
Proof. intros p Q. induction p as [a|m| |o k IH]; cbn [wgx wx]; auto. intros [_ H] x Hx. auto. Qed.
Lemma wg_mono {A} : forall (p : prog A) (Q Q' : outcome A -> Prop), (forall r, Q r -> Q' r) -> wgx Q p -> wgx Q' p.
Proof. intros p Q Q' H. induction p as [a|m| |o k IH]; cbn [wgx]; auto. intros [Ha Hk]. split; auto. Qed.
Lemma wg_bind {A B} : forall (p : prog A) (f : A -> prog B) (Q : outcome B -> Prop),
  wgx (fun r => match r with Done a => wgx Q (f a) | Panicked m => Q (Panicked m) | NoFuel => Q NoFuel end) p ->
  wgx Q (bind p f).
Proof. intros p f Q. induction p as [a|m| |o k IH]; cbn [wgx bind]; auto. intros [Ha Hk]. split; auto. Qed.
Lemma wg_unbind {A B} : forall (p : prog A) (f : A -> prog B) (Q : outcome B -> Prop), wgx Q (bind p f) ->
  wgx (fun r => match r with Done a => wgx Q (f a) | Panicked m => Q (Panicked m) | NoFuel => Q NoFuel end) p.
Proof. intros p f Q. induction p as [a|m| |o k IH]; cbn [wgx bind]; auto. intros [Ha Hk]. split; auto. Qed.
Lemma wg_act {B} : forall o (f : ans o -> prog B) Q, put_ok o -> (forall x, okx o x -> wgx Q (f x)) -> wgx Q (bind (act o) f).
Proof. intros. cbn [act bind wgx]. auto. Qed.
Lemma wg_lift {A} : forall (c : pcomp A) (Q : outcome A -> Prop), Q (oc c) -> wgx Q (lift c).
Proof. intros [a|m|] Q H; exact H. Qed.

(** Fields are told apart by their texts, and no text is both an exports and an imports field. *)
Hypothesis Hinj : forall c v v', field_on fs js (nm c) (lit "exports") v -> field_on fs js (nm c) (lit "exports") v' -> to_string v = to_string v' -> v = v'.
Hypothesis Hclash : forall c v v', field_on fs js (nm c) (lit "exports") v -> field_on fs js (nm c) (lit "imports") v' -> hash_keys v' -> to_string v <> to_string v'.

Variable R : resolver.
Notation name := (nm (rv_cache R)).
Notation has d := (f_file fs (join d name)).
Notation look := (lookup_desc fs js (Some name)).
Hypothesis Hname : o_desc (rv_opts R) = Some name.
Hypothesis Hjs : rv_json R = js.
Hypothesis Hdbg : rv_debug R = false.

Lemma file_good_here : forall q s t, f_read fs q = Some s -> f_mtime fs q = MTime t -> file_good (components q) t.
Proof.
  intros q s t Hs Ht p Hc Hp. rewrite <- Ht. symmetry. apply (sf_plain _ Hfs); [symmetry; exact Hc|congruence|exact Hp].
Qed.

Definition exp_part (j : json) : pcomp (result (option ptn)) :=
  match jget j (lit "exports") with
  | None => PRet (Ok None)
  | Some v => plet r := build_exports v in PRet (match r with Ok t => Ok (Some t) | Err e => Err e end)
  end.
Definition imp_part (j : json) : pcomp (result (option ptn)) :=
  match jget j (lit "imports") with
  | None => PRet (Ok None)
  | Some v => plet r := build_imports v in PRet (match r with Ok t => Ok (Some t) | Err e => Err e end)
  end.
Lemma wg_exports : forall d s j, f_dir fs d = true -> f_read fs (join d name) = Some s -> js s = Some j ->
  wgx (fun r => r = oc (exp_part j)) (load_exports R j).
Proof.
  intros d s j Hd Hs Hj. unfold load_exports, exp_part. destruct (jget j (lit "exports")) as [v|] eqn:Ev; [|reflexivity].
  assert (Hon : field_on fs js name (lit "exports") v) by (exists d, s, j; auto).
  apply wg_act; [exact I|]. intros [t|] Hx.
  - cbn [okx] in Hx. cbn [wgx]. rewrite (Hx t eq_refl v Hon eq_refl). reflexivity.
  - unfold try_. destruct (build_exports v) as [[t|e]|m|] eqn:Eb; try reflexivity. cbn [lift bind].
    apply wg_act; [|intros; reflexivity]. intros v' Hv' Hk. rewrite (Hinj _ v' v Hv' Hon Hk). exact Eb.
Qed.
Lemma wg_imports : forall d s j, f_dir fs d = true -> f_read fs (join d name) = Some s -> js s = Some j ->
  wgx (fun r => r = oc (imp_part j)) (load_imports R j).
Proof.
  intros d s j Hd Hs Hj. unfold load_imports, imp_part. destruct (jget j (lit "imports")) as [v|] eqn:Ev; [|reflexivity].
  assert (Hon : field_on fs js name (lit "imports") v) by (exists d, s, j; auto).
  apply wg_act; [exact I|]. intros x Hx. cbn [okx] in Hx. subst x.
  unfold try_. destruct (build_imports v) as [[t|e]|m|] eqn:Eb; try reflexivity. cbn [lift bind].
  apply wg_act; [|intros; reflexivity]. intros v' Hv' Hk. exfalso. exact (Hclash _ _ _ Hv' Hon (build_imports_hash _ _ Eb) Hk).
Qed.

(** Answers of the loader against the lookup of the same path: errors are the same text. *)
Notation ltop q := (orel (leq eq) (oc (look q))).
Lemma wg_parse : forall q, f_dir fs q = true ->
  wgx (fun r => orel (fun a b => match a, b with Ok pk, Ok pk' => pkgeq pk pk' | Err e, Err e' => e = e' | _, _ => False end)
                    (oc (described fs js name q)) r)
     (parse_description_file R q (join q name)).
Proof.
  intros q Hq. unfold parse_description_file, dbg_check. rewrite Hdbg. cbn [bind].
  unfold described. apply wg_bind. unfold read_to_string.
  apply wg_act; [exact I|]. intros x Hx. cbn [okx] in Hx. rewrite (Hx (watched_name _ _)). clear x Hx.
  assert (Herr : forall e : str, wgx (fun r : outcome (result str) => match r with
       | Done (Ok _) => False | Done (Err _) => True | _ => False end) (Ret (Err e))) by (intros; exact I).
  destruct (f_read fs (join q name)) as [s|] eqn:Es.
  2:{ cbn [wgx]. eexists. split; reflexivity. }
  unfold try_. apply wg_bind. unfold get_last_modified.
  apply wg_act; [exact I|]. intros x Hx. cbn [okx] in Hx. rewrite (Hx (watched_name _ _)). clear x Hx.
  destruct (f_mtime fs (join q name)) as [| |t] eqn:Et.
  1,2: cbn [wgx]; eexists; split; reflexivity.
  cbn [wgx]. apply wg_act; [eapply file_good_here; eassumption|]. intros _ _. cbn [wgx].
  rewrite Hjs. destruct (js s) as [j|] eqn:Ej; [|cbn [wgx]; eexists; split; reflexivity].
  destruct (alias_fields_of j) as [af|m|].
  2:{ cbn. exists m. split; [reflexivity|apply respelled_refl]. }
  2:{ exact I. }
  cbn [lift bind pbind]. apply wg_act; [exact I|]. intros seed _.
  fold (exp_part j) (imp_part j).
  apply wg_bind. eapply wg_mono; [|eapply wg_exports; eassumption]. intros r ->.
  destruct (exp_part j) as [[ex|e]|m|]; cbn [oc pbind wgx].
  2:{ eexists. split; reflexivity. }
  2:{ exists m. split; [reflexivity|apply respelled_refl]. }
  2:{ exact I. }
  apply wg_bind. eapply wg_mono; [|eapply wg_imports; eassumption]. intros r ->.
  destruct (imp_part j) as [[im|e]|m|]; cbn [oc pbind wgx].
  2:{ eexists. split; reflexivity. }
  2:{ exists m. split; [reflexivity|apply respelled_refl]. }
  2:{ exact I. }
  destruct (side_effects_of (join q name) j) as [se|e]; cbn [wgx orel]; eexists; (split; [reflexivity|]); [|reflexivity].
  unfold pkgeq. cbn. repeat split; auto. apply Permutation_sym, permute_perm.
Qed.
Lemma leq_exact : forall ER o o', leq ER (Ok o) o' -> exists b, o' = Ok b /\ okeq o b.
Proof. intros ER o [b|e] H; [eauto|contradiction]. Qed.
Lemma pkg_good_of : forall q o v, look q = PRet (Ok o) -> okeq o v -> pkg_good name (components q) v.
Proof.
  intros q o v Hl Ho p Hc Hp. pose proof (look_same name p q Hc) as H. rewrite Hl in H.
  destruct (look p) as [[o'|e]|m|]; cbn [creq leq] in H; try contradiction. exists o'. split; [reflexivity|].
  eapply okeq_trans; eassumption.
Qed.
Lemma wg_store : forall q, f_dir fs q = true -> has q = true -> wgx (ltop q) (parse_and_store R q (join q name)).
Proof.
  intros q Hd Hf. unfold parse_and_store, try_. apply wg_bind. eapply wg_mono; [|apply wg_parse, Hd].
  pose proof (look_here name q Hd Hf) as Hl.
  intros [[pk|e]|m|]; cbn [orel wgx].
  - intros ([pk0|e] & E & Hpk); [|contradiction]. destruct (described fs js name q) as [r|m|]; try discriminate. cbn [oc] in E. injection E as ->.
    cbn [pbind] in Hl. apply wg_act.
    + eapply pkg_good_of; [exact Hl|exact Hpk].
    + intros _ _. cbn [wgx orel]. rewrite Hl. eexists. split; [reflexivity|exact Hpk].
  - intros ([pk0|e0] & E & Hpk); [contradiction|]. destruct (described fs js name q) as [r|m|]; try discriminate. cbn [oc] in E. injection E as ->.
    cbn [pbind] in Hl. rewrite Hl. eexists. split; [reflexivity|exact Hpk].
  - intros (m' & E & Hm). destruct (described fs js name q) as [r|m0|]; try discriminate. cbn [oc] in E. injection E as ->.
    cbn [pbind] in Hl. rewrite Hl. eexists. split; [reflexivity|exact Hm].
  - auto.
Qed.
Lemma wg_find_up : forall f q, wgx (fun r => match r with Done x => x = search name q | NoFuel => True | Panicked _ => False end) (find_up f q name).
Proof.
  induction f as [|f IH]; intros q; cbn [find_up]; [exact I|].
  apply wg_act; [exact I|]. intros x Hx. cbn [okx] in Hx. rewrite (Hx (watched_name _ _)). clear x Hx.
  destruct (has q) eqn:Ef.
  - cbn [wgx]. unfold search, lineage. cbn [find]. rewrite Ef. reflexivity.
  - destruct (parent q) as [q'|] eqn:Ep.
    + eapply wg_mono; [|apply IH]. intros [x|m|]; auto. intros ->. unfold search. rewrite (lineage_some _ _ Ep). cbn [find]. rewrite Ef. reflexivity.
    + cbn [wgx]. unfold search. rewrite (lineage_none _ Ep). cbn [find]. rewrite Ef. reflexivity.
Qed.
Lemma wg_none_loop : forall f q, search name q = None ->
  wgx (fun r => match r with Done x => x = Ok None | NoFuel => True | Panicked _ => False end) (none_loop R f q).
Proof.
  induction f as [|f IH]; intros q Hs; cbn [none_loop]; [exact I|].
  apply wg_act; [exact I|]. intros x Hx. cbn [okx] in Hx. subst x.
  destruct (f_dir fs q) eqn:Ed; [|apply IH, Hs].
  apply wg_act.
  - apply (pkg_good_of q None None); [|exact I]. rewrite (look_dir _ _ Ed), Hs. reflexivity.
  - intros _ _. destruct (parent q) as [q'|] eqn:Ep; [|reflexivity]. apply IH.
    unfold search in *. rewrite (lineage_some _ _ Ep) in Hs. cbn [find] in Hs. destruct (has q); [discriminate|exact Hs].
Qed.
Lemma wg_load : forall f q, wgx (ltop q) (load_pkg_file R f q).
Proof.
  induction f as [|f IH]; intros q; cbn [load_pkg_file]; [exact I|]. rewrite Hname.
  apply wg_act; [exact I|]. intros x Hx. cbn [okx] in Hx. subst x.
  destruct (f_dir fs q) eqn:Ed; cbn [negb].
  2:{ destruct (parent q) as [q'|] eqn:Ep; [rewrite (look_up _ _ _ Ed Ep); apply IH|].
      cbn [wgx orel]. rewrite (look_top _ _ Ed Ep). eexists. split; reflexivity. }
  apply wg_act; [exact I|]. intros c Hc. cbn [okx] in Hc. destruct c as [v|].
  - destruct (Hc v eq_refl q eq_refl Ed) as (o & Hl & Hv).
    assert (Hkeep : ltop q (Done (Ok v))) by (cbn [orel]; rewrite Hl; eexists; split; [reflexivity|exact Hv]).
    assert (Hre : forall u : bool, (u = true -> has q = true) -> wgx (ltop q)
      (r <- ((match Ok u with Ok true => if rv_debug R then act (ODbgDel (rv_id R) (join q name)) else Ret tt | _ => Ret tt end) ;;;
             act (OPkgDrop (rv_cache R) q) ;;; Ret (Ok u)) ;;
       match r with Ok u => if negb u then Ret (Ok v) else parse_and_store R q (join q name) | Err e => Ret (Err e) end)).
    { intros u Hu. rewrite Hdbg. destruct u; cbn [act bind wgx]; (split; [exact I|]); intros x _; cbn [negb bind wgx]; [|exact Hkeep]. apply wg_store; [exact Ed|apply Hu; reflexivity]. }
    unfold try_ at 1, check_entry. apply wg_bind, wg_bind. unfold need_update.
    apply wg_act; [exact I|]. intros x Hx. cbn [okx] in Hx. rewrite (Hx (watched_name _ _)). clear x Hx.
    destruct (has q) eqn:Ef; cbn [negb]; [|cbn [wgx]; apply wg_unbind; apply (Hre false); discriminate].
    apply wg_act; [exact I|]. intros [[s t]|] Hx; cbn [okx] in Hx.
    + pose proof (Hx s t eq_refl (join q name) eq_refl Ef) as Hm. unfold try_. apply wg_bind. unfold get_last_modified.
      apply wg_act; [exact I|]. intros x Hx'. cbn [okx] in Hx'. rewrite (Hx' (watched_name _ _)), Hm. cbn [wgx].
      rewrite N.ltb_irrefl. cbn [wgx]. apply wg_unbind. exact (Hre _ (fun _ => eq_refl)).
    + cbn [wgx]. apply wg_unbind. exact (Hre true (fun _ => eq_refl)).
  - apply wg_act; [exact I|]. intros x Hx. cbn [okx] in Hx. rewrite (Hx (watched_name _ _)). clear x Hx.
    destruct (has q) eqn:Ef; [apply wg_store; assumption|].
    apply wg_bind. eapply wg_mono; [|apply wg_find_up]. intros [x|m|]; [|contradiction|auto]. intros ->.
    destruct (search name q) as [d|] eqn:Es.
    + rewrite (look_found _ _ _ Ed Es). apply IH.
    + eapply wg_mono; [|apply wg_none_loop, Es]. intros [x|m|]; [|contradiction|auto]. intros ->.
      cbn [orel]. rewrite (look_dir _ _ Ed), Es. eexists. split; [reflexivity|exact I].
Qed.
End Fs.
Notation okc fs js nm := (okx fs js nm True).
Notation wg fs js nm := (wgx fs js nm True).
