(** * Where panics can come from. *)
From Coq Require Import String.
From Coq Require Import List Arith NArith ZArith Bool Lia Permutation.
From Verif Require Import Str StrP Path PathP Json Types Parse ParseP Map Prog Desc Resolve Top Run SpecRun SpecMap TrieP FindP MapP FieldP NamesP CheckP PropMapP LookupP TsP SpecLoad SimP GuarP SpecCache SpecTerm AnswerP TotalP SpecPanic.
Import ListNotations.

(** ** Pure functions *)
Definition fine {A} (c : pcomp A) : Prop := forall m, c <> PPanic m.
Lemma fine_ret {A} : forall a : A, fine (PRet a). Proof. intros a m H. discriminate. Qed.
Lemma fine_fuel {A} : fine (@PFuel A). Proof. intros m H. discriminate. Qed.
Lemma fine_bind {A B} : forall (p : pcomp A) (f : A -> pcomp B), fine p -> (forall a, p = PRet a -> fine (f a)) -> fine (pbind p f).
Proof. intros [a|m|] f H Hf; cbn [pbind]; [apply Hf; reflexivity|exfalso; exact (H m eq_refl)|apply fine_fuel]. Qed.

Lemma check_fine : forall t, fine (check_target t).
Proof. intros t. rewrite check_target_segs. apply fine_ret. Qed.
Lemma cond_loop_fine : forall f names l, fine (cond_loop f names l).
Proof.
  induction f as [|f IH]; intros names l; cbn [cond_loop]; [apply fine_fuel|]. destruct l as [|[[m cs] j] l]; [apply fine_ret|].
  destruct (cond_for names m (length cs) j (skipn j cs)); try apply fine_ret; apply IH.
Qed.
Lemma mapping_fine : forall f fk rm sp v names, fine (mapping f fk rm sp v names).
Proof.
  induction f as [|f IH]; intros fk rm sp v names; [apply fine_fuel|]. destruct v as [s|m|a].
  - cbn [mapping]. destruct (target_mapping fk rm sp s); apply fine_ret.
  - cbn [mapping]. apply fine_bind; [apply cond_loop_fine|]. intros [[w|]|e] _; try apply fine_ret. apply IH.
  - rewrite mapping_array. generalize (@nil str). induction a as [|[s|m] a IHa]; intros acc; cbn [map_array]; [apply fine_ret| |].
    + destruct (target_mapping fk rm sp s); [apply IHa|apply fine_ret].
    + apply fine_bind; [apply cond_loop_fine|]. intros [[w|]|e] _; [|apply IHa|apply fine_ret].
      apply fine_bind; [apply IH|]. intros [x|e] _; [apply IHa|apply fine_ret].
Qed.
Lemma find_match_fine : forall root req, fine (find_match root req).
Proof.
  intros root [|c req]; cbn [find_match]; [apply fine_ret|]. destruct (_ && _); [apply fine_ret|].
  rewrite find_loop_segs; [apply fine_ret|]. rewrite skipn_O. lia.
Qed.
Lemma field_process_fine : forall fk root t names, fine (field_process fk root t names).
Proof.
  intros fk root t names. unfold field_process. destruct (assert_request fk t) as [r|e]; [|apply fine_ret].
  apply fine_bind; [apply find_match_fine|]. intros [[v i]|] _; [apply mapping_fine|apply fine_ret].
Qed.
Lemma chase_fine : forall f t af, fine (chase f t af).
Proof. induction f as [|f IH]; intros t af; cbn [chase]; [apply fine_fuel|]. destruct t as [s|]; [destruct (imap_get af s); [apply IH|apply fine_ret]|apply fine_ret]. Qed.
(** The value parsed from an array never is an array inside one. *)
Lemma from_json_fine : forall j, field_value j -> fine (from_json j).
Proof.
  induction j as [|b|s|s|l IH|l IH] using json_ind2; intros H; try (inversion H; fail); [apply fine_ret| |].
  - rewrite from_json_arr. apply fine_bind; [|intros; apply fine_ret]. inversion H as [| |? Hl]; subst. clear H.
    induction l as [|x l IHl]; cbn [from_arr]; [apply fine_ret|]. inversion IH as [|? ? Hx Hr]; subst.
    destruct (Hl x (or_introl eq_refl)) as [Hv Hn]. apply fine_bind; [apply Hx, Hv|].
    assert (Hrest : fine (from_arr l)) by (apply IHl; [exact Hr|intros v Hin; apply Hl; right; exact Hin]).
    intros [s|m|a] E; try (apply fine_bind; [exact Hrest|intros; apply fine_ret]).
    exfalso. destruct x as [|b|s|s|a'|a']; try discriminate; [exact (Hn a' eq_refl)|]. rewrite from_json_obj in E. destruct (from_obj a' []); discriminate.
  - rewrite from_json_obj. apply fine_bind; [|intros; apply fine_ret]. inversion H as [|? Hl|]; subst. clear H. generalize (@nil (str * mv)).
    induction l as [|[k x] l IHl]; intros acc; cbn [from_obj]; [apply fine_ret|]. inversion IH as [|? ? Hx Hr]; subst.
    apply fine_bind; [apply Hx, (Hl k); left; reflexivity|]. intros v _. apply IHl; [exact Hr|]. intros k' v' Hin. apply (Hl k'). right. exact Hin.
Qed.
Lemma exports_keys_fine : forall m root, fine (exports_keys m root).
Proof.
  induction m as [|[k v] m IH]; intros root; cbn [exports_keys]; [apply fine_ret|]. destruct (Nat.eqb _ _); [apply IH|].
  destruct (negb _); [apply fine_ret|]. rewrite walk_segs_eq. cbn [pbind]. apply IH.
Qed.
Lemma imports_keys_fine : forall m root, fine (imports_keys m root).
Proof.
  induction m as [|[k v] m IH]; intros root; cbn [imports_keys]; [apply fine_ret|].
  repeat match goal with |- fine (if ?b then _ else _) => destruct b; try apply fine_ret end.
  all: rewrite walk_segs_eq; cbn [pbind]; apply IH.
Qed.
Lemma build_exports_fine : forall j, field_value j -> fine (build_exports j).
Proof.
  intros j H. unfold build_exports. apply fine_bind; [apply from_json_fine, H|]. intros [s|m|a] _; try apply fine_ret.
  repeat match goal with |- fine (if ?b then _ else _) => destruct b; try apply fine_ret end. apply exports_keys_fine.
Qed.
Lemma build_imports_fine : forall j, field_value j -> is_obj j -> fine (build_imports j).
Proof.
  intros j H [l ->]. unfold build_imports. apply fine_bind; [apply from_json_fine, H|]. rewrite from_json_obj. intros v E.
  destruct (from_obj l []) as [m| |]; try discriminate. cbn [pbind] in E. injection E as <-. apply imports_keys_fine.
Qed.
Lemma alias_fields_fine : forall j, shaped j -> fine (alias_fields_of j).
Proof.
  intros j [Hb _ _]. unfold alias_fields_of. destruct (jget j (lit "browser")) as [v|]; [|apply fine_ret].
  destruct v as [|b|s|s|a|l]; cbn [as_object]; try apply fine_ret. specialize (fun k => Hb l k eq_refl).
  generalize (@nil (str * alias_map)). revert Hb. induction l as [|[k w] l IH]; intros Hb acc; cbn [browser_fields]; [apply fine_ret|].
  assert (Hb' : forall k, ~ In (k, JBool true) l) by (intros k' Hin; apply (Hb k'); right; exact Hin).
  destruct w as [|[|]| | | |]; try (apply IH, Hb'). exfalso. apply (Hb k). left. reflexivity.
Qed.
Lemma browser_targets : forall l acc af, browser_fields l acc = PRet af ->
  forall k c, In (k, ATarget c) af -> In (k, ATarget c) acc \/ In (k, JStr c) l.
Proof.
  induction l as [|[k0 w] l IH]; intros acc af H k c Hin; cbn [browser_fields] in H; [injection H as ->; auto|].
  assert (G : forall acc', browser_fields l acc' = PRet af -> (forall k c, In (k, ATarget c) acc' -> In (k, ATarget c) acc \/ In (k, JStr c) [(k0, w)]) ->
     In (k, ATarget c) acc \/ In (k, JStr c) ((k0, w) :: l)).
  { intros acc' H' Hacc. destruct (IH _ _ H' _ _ Hin) as [Hi|Hi]; [destruct (Hacc _ _ Hi) as [Hj|[E|[]]]; [left; exact Hj|right; left; exact E]|right; right; exact Hi]. }
  destruct w as [|[|]| |s| |]; try discriminate; try (eapply G; [exact H|]; auto; fail).
  - eapply G; [exact H|]. intros k' c' Hi. apply imap_insert_in in Hi. destruct Hi as [[_ E]|Hi]; [discriminate|auto].
  - eapply G; [exact H|]. intros k' c' Hi. apply imap_insert_in in Hi. destruct Hi as [[-> E]|Hi]; [injection E as ->; right; left; reflexivity|auto].
Qed.

(** ** What a target becomes *)
Section Ascii.
Variable ascii : bool.
Notation text := (text ascii).
Notation plain_target := (plain_target ascii).
Notation plain_string := (plain_string ascii).
Notation tidy := (tidy ascii).
Notation alias_plain := (alias_plain ascii).
Notation ts_shaped := (ts_shaped ascii).
Notation ts_files := (ts_files ascii).
Notation tsconfig_tidy := (tsconfig_tidy ascii).
Notation disk_tidy := (disk_tidy ascii).
Lemma text_ascii : forall s, text s -> ascii = true -> ascii_str s.
Proof. intros s H E. unfold ascii_str. eapply Forall_impl; [|exact H]. auto. Qed.
Lemma ascii_app' : forall a b, text (a ++ b) <-> text a /\ text b.
Proof. intros a b. apply Forall_app. Qed.
Lemma ascii_incl : forall a b, incl a b -> text b -> text a.
Proof. intros a b Hi H. unfold SpecPanic.text in *. rewrite Forall_forall in *. auto. Qed.
Lemma skipn_incl {A} : forall n (l : list A), incl (skipn n l) l.
Proof. intros n l x Hx. rewrite <- (firstn_skipn n l). apply in_or_app. right. exact Hx. Qed.
Lemma replace_char_ascii : forall s c t, text s -> text t -> text (replace_char s c t).
Proof.
  intros s c t Hs Ht. unfold replace_char. induction Hs as [|x s Hx Hs IH]; cbn [flat_map]; [constructor|]. apply ascii_app'. split; [|exact IH].
  destruct (N.eqb x c); [exact Ht|repeat constructor; exact Hx].
Qed.
(** (The tree may have been built for the other field: see C43.) *)
Lemma process_from : forall (P : str -> Prop) fk fk' j root req names out, (forall t, json_string t j -> P t) -> build_field fk' j = PRet (Ok root) ->
  field_process fk root req names = PRet (Ok out) ->
  Forall (fun s => exists rm sp t, P t /\ (forall r, rm = Some r -> incl r req) /\ target_mapping fk rm sp t = Ok s) out.
Proof.
  intros P fk fk' j root req names out HP Hb H.
  assert (Hj : exists v, from_json j = PRet v).
  { destruct fk'; cbn [build_field] in Hb; unfold build_exports, build_imports in Hb; apply pbind_ret in Hb; destruct Hb as [v [Hv _]]; eauto. }
  destruct Hj as [v Hj]. pose proof (from_json_offers _ _ _ HP Hj) as Ha.
  assert (Hok : trie_ok (all_offered P) root).
  { eapply build_ok; [exact Hj|exact Ha| |exact Hb]. intros m k w -> Hin t Ho. apply Ha. eapply OfCond; eassumption. }
  unfold field_process in H. destruct (assert_request fk req) as [r|e] eqn:Er; [|discriminate].
  assert (Hr : incl r req).
  { unfold assert_request in Er. destruct fk; repeat match type of Er with (if ?b then _ else _) = _ => destruct b; try discriminate end; injection Er as <-; first [exact (skipn_incl 2 req)|exact (skipn_incl 1 req)|intros x []]. }
  apply pbind_ret in H. destruct H as [m [Hf H]]. destruct m as [[w i]|]; [|inversion H; constructor].
  pose proof (find_match_good _ _ _ _ Hok Hf w i eq_refl) as Hw.
  apply mapping_from in H. eapply Forall_impl; [|exact H]. intros s [t [Ho Ht]]. exists (remaining_of r i), (i <? 0)%Z, t.
  split; [apply Hw, Ho|split; [|exact Ht]]. intros r' E. unfold remaining_of in E.
  destruct (_ =? _)%Z; [discriminate|]. destruct (i <? 0)%Z; injection E as <-; intros x Hx; apply Hr; exact (skipn_incl _ _ _ Hx).
Qed.
(** The mapped text: ASCII, and a scope in it is complete. *)
Definition plain_item (s : str) : Prop :=
  text s /\ forall r, s = lit "@" ++ r -> exists a b, r = a ++ c_slash :: b /\ ~ In c_hash a /\ ~ In c_quest a.
Lemma plain_mapped : forall fk rm sp t s, plain_string t -> (forall r, rm = Some r -> text r) -> target_mapping fk rm sp t = Ok s -> plain_item s.
Proof.
  intros fk rm sp t s (Ha & Hstar & Hsc) Hr H. unfold target_mapping in H. destruct (assert_target fk t true) as [b|e] eqn:Et; [|discriminate].
  assert (Hself : plain_item t).
  { split; [exact Ha|]. intros r E. destruct (Hsc r E) as (a & b' & E' & _ & H1 & H2). exists a, b'. auto. }
  destruct rm as [r|]; [specialize (Hr r eq_refl); destruct sp, b; try discriminate|destruct b; try discriminate]; injection H as <-; [| |exact Hself].
  - split; [apply ascii_app'; auto|]. intros r' E. destruct t as [|c t].
    { exfalso. unfold assert_target in Et. destruct fk; cbn in Et; discriminate. }
    cbn [app] in E. injection E as -> E. destruct (Hsc t eq_refl) as (a & b & -> & _ & H1 & H2). exists a, (b ++ r). rewrite <- app_assoc in E. auto.
  - split; [apply replace_char_ascii; [exact Ha|]; apply replace_char_ascii; [exact Hr|repeat constructor]|].
    intros r' E. destruct t as [|c t]; [discriminate|]. unfold replace_char at 1 in E. cbn [flat_map] in E.
    destruct (N.eqb_spec c c_star) as [->|Hn]; [exfalso; exact (Hstar t eq_refl)|]. cbn [app] in E. injection E as -> E.
    destruct (Hsc t eq_refl) as (a & b & -> & H0 & H1 & H2). change (replace_char (a ++ c_slash :: b) c_star (replace_char r c_dollar (lit "$$")) = r') in E.
    rewrite replace_char_app, (replace_char_none a) in E by exact H0. exists a. eexists. split; [rewrite <- E; reflexivity|auto].
Qed.
Lemma plain_parse : forall s, plain_item s -> plain_target (r_target (parse s)) /\ text (r_query (parse s)) /\ text (r_fragment (parse s)).
Proof.
  intros s [Ha Hsc]. unfold parse. destruct (parse_identifier s) as [[t q] f] eqn:E. cbn [r_target r_query r_fragment].
  pose proof (parse_identifier_lossless _ _ _ _ E) as Hs. pose proof (parse_identifier_canonical _ _ _ _ E) as (Ht & Hq & Hf & _).
  rewrite <- Hs in Ha. apply ascii_app' in Ha. destruct Ha as [A1 Ha]. apply ascii_app' in Ha. destruct Ha as [A2 A3].
  split; [|auto]. split; [exact A1|]. intros (x & -> & Hx). destruct (Hsc (x ++ q ++ f)) as (a & b & Hab & H1 & H2).
  { rewrite <- Hs. reflexivity. }
  assert (G : forall x a, x ++ q ++ f = a ++ c_slash :: b -> ~ In c_slash x -> (exists c r, q ++ f = c :: r /\ (In c a \/ c = c_slash))).
  { clear. induction x as [|c x IH]; intros a E Hx.
    - cbn [app] in E. rewrite E. destruct a as [|c a]; cbn [app]; eexists; eexists; (split; [reflexivity|]); [right; reflexivity|left; left; reflexivity].
    - destruct a as [|c' a]; cbn [app] in E; injection E as -> E; [exfalso; apply Hx; left; reflexivity|].
      destruct (IH a E) as (c & r & E' & Hc); [intros H; apply Hx; right; exact H|]. exists c, r. split; [exact E'|]. destruct Hc; [left; right; assumption|auto]. }
  destruct (G x a Hab Hx) as (c & r & E' & Hc).
  assert (Hc' : c = c_hash \/ c = c_quest).
  { destruct Hq as [->|(r0 & -> & _)].
    - cbn [app] in E'. destruct Hf as [->|[r0 ->]]; [discriminate|]. injection E' as <- _. left. reflexivity.
    - injection E' as <- _. right. reflexivity. }
  destruct Hc as [Hc|Hc], Hc' as [->| ->]; try contradiction; discriminate.
Qed.
Lemma slash_nth : forall s n k idx, nth_error (slash_indices n s) k = Some idx -> n <= idx < n + length s.
Proof.
  induction s as [|c s IH]; intros n k idx H; cbn [slash_indices] in H; [destruct k; discriminate|]. cbn [length].
  destruct (N.eqb c c_slash); [destruct k as [|k]; cbn [nth_error] in H; [injection H as <-; lia|]|]; apply IH in H; lia.
Qed.
Lemma ascii_split : forall s n, ascii_str s -> n <= length s -> byte_split s n <> None.
Proof.
  induction s as [|c s IH]; intros n Ha Hn; destruct n as [|n]; cbn [byte_split]; try discriminate; [cbn in Hn; lia|].
  inversion Ha as [|? ? Hc Hs]; subst. assert (E : utf8_len c = 1) by (unfold utf8_len; destruct (N.ltb_spec c 128); [reflexivity|lia]). rewrite E.
  cbn [Nat.ltb Nat.leb]. replace (S n - 1) with n by lia. cbn [length] in Hn. specialize (IH n Hs ltac:(lia)). destruct (byte_split s n) as [[a b]|]; [discriminate|congruence].
Qed.
Lemma module_name_ascii : forall t, ascii_str t -> module_name t <> None.
Proof.
  intros t Ha. unfold module_name. destruct (if starts_with_char t c_at then _ else _) as [idx|] eqn:E; [|discriminate].
  assert (Hi : idx < length t) by (destruct (starts_with_char t c_at); apply slash_nth in E; lia).
  unfold slice_to. pose proof (ascii_split t idx Ha ltac:(lia)). destruct (byte_split t idx) as [[a b]|]; [discriminate|congruence].
Qed.
Lemma plain_rewritten : forall o t t', alias_plain o -> plain_target t -> rewritten o t t' -> plain_target t'.
Proof.
  intros o t t' Ho [Ha Hl] H. destruct H as [from to t Hin Hs _|t _ _ _].
  - destruct (Ho _ _ Hin) as (H1 & H2 & H3). apply starts_with_spec in Hs. destruct Hs as [r ->]. rewrite replacen1_prefix.
    apply ascii_app' in Ha. split; [apply ascii_app'; tauto|]. intros (s & E & Hn). destruct to as [|c to]; [congruence|].
    cbn [app] in E. injection E as -> E. apply H3. exists to. split; [reflexivity|]. intros Hin'. apply Hn. rewrite <- E. apply in_or_app. left. exact Hin'.
  - split; [apply ascii_app'; split; [repeat constructor|exact Ha]|]. intros (s & E & _). discriminate.
Qed.

(** ** Programs *)
Definition tree_tidy (t : ptn) : Prop := exists fk v, build_field fk v = PRet (Ok t) /\ forall s, json_string s v -> plain_string s.
Definition pkg_tidy (pk : pkg) : Prop :=
  (forall k c, In (k, ATarget c) (p_alias pk) -> plain_target c) /\ (forall t, p_exports pk = Some t -> tree_tidy t) /\
  (forall t, p_imports pk = Some t -> tree_tidy t).
(** Answers of the file system, and tables with tidy content. *)
Definition okp (fs : fsys) (o : op) : ans o -> Prop :=
  match o return ans o -> Prop with
  | OIsFile p => fun x => x = f_file fs p
  | OIsDir p => fun x => x = f_dir fs p
  | ORead p => fun x => x = f_read fs p
  | OPkgGet _ _ => fun x => forall pk, x = Some (Some pk) -> pkg_tidy pk
  | OExpGet _ _ => fun x => forall t, x = Some t -> tree_tidy t
  | OImpGet _ _ => fun x => forall t, x = Some t -> tree_tidy t
  | _ => fun _ => True
  end.
Definition putp (o : op) : Prop :=
  match o with
  | OPkgPut _ _ (Some pk) => pkg_tidy pk
  | OExpPut _ _ t => tree_tidy t
  | _ => True
  end.
Lemma reads_putp : forall o, reads o -> putp o.
Proof. intros [] H; try exact I; contradiction. Qed.
(** Results in [P]; panics in [X]. *)
Definition np {A} (X : str -> Prop) (P : A -> Prop) (r : outcome A) : Prop :=
  match r with Done a => P a | Panicked m => X m | NoFuel => True end.
Notation nopanic := (fun _ : str => False).
(** The slice. *)
Definition cut (m : str) : Prop := m = p_boundary /\ ascii = false.
Lemma np_mono {A} : forall (X X' : str -> Prop) (P P' : A -> Prop) r, (forall m, X m -> X' m) -> (forall a, P a -> P' a) -> np X P r -> np X' P' r.
Proof. intros X X' P P' [a|m|] H1 H2; cbn; auto. Qed.

Lemma W_V_load {A} : forall ok (P : A -> Prop) p, wx ok (np nopanic P) p -> wx ok (np cut P) p.
Proof. intros ok P p. apply wx_mono. intros r. apply np_mono; [intros m []|auto]. Qed.

Section Gen.
Variable ok : forall o, ans o -> Prop.
Variable put : op -> Prop.
Variable X : str -> Prop.
Lemma g_bind {A B} : forall (P : A -> Prop) (P' : B -> Prop) (p : prog A) (f : A -> prog B), wgo ok put (np X P) p ->
  (forall a, P a -> wgo ok put (np X P') (f a)) -> wgo ok put (np X P') (bind p f).
Proof. intros P P' p f Hp Hf. apply wgo_bind. eapply wgo_mono; [|exact Hp]. intros [a|m|] H; cbn [np] in *; auto. Qed.
Lemma g_try {A B} : forall (P : A -> Prop) (P' : result B -> Prop) (p : prog (result A)) (f : A -> prog (result B)),
  wgo ok put (np X (fun r => forall a, r = Ok a -> P a)) p -> (forall e, P' (Err e)) -> (forall a, P a -> wgo ok put (np X P') (f a)) -> wgo ok put (np X P') (try_ p f).
Proof. intros P P' p f Hp He Hf. unfold try_. eapply g_bind; [exact Hp|]. intros [a|e] H; [apply Hf, H; reflexivity|apply He]. Qed.
Lemma g_lift {A} : forall (P : A -> Prop) c, fine c -> (forall a, c = PRet a -> P a) -> wgo ok put (np X P) (lift c).
Proof. intros P [a|m|] H HP; cbn [lift wgo np]; auto. exfalso. exact (H m eq_refl). Qed.
Lemma w_bind {A B} : forall (P : A -> Prop) (P' : B -> Prop) (p : prog A) (f : A -> prog B), wx ok (np X P) p ->
  (forall a, P a -> wx ok (np X P') (f a)) -> wx ok (np X P') (bind p f).
Proof. intros P P' p f Hp Hf. apply wx_bind. eapply wx_mono; [|exact Hp]. intros [a|m|] H; cbn [np] in *; auto. Qed.
Lemma w_lift {A} : forall (P : A -> Prop) c, fine c -> (forall a, c = PRet a -> P a) -> wx ok (np X P) (lift c).
Proof. intros P [a|m|] H HP; cbn [lift wx np]; auto. exfalso. exact (H m eq_refl). Qed.
Lemma w_then : forall (P : stats -> Prop) (PI : info -> Prop) p f, wx ok (np X (fun s => forall i, s = Resolving i -> PI i)) p ->
  (forall s, (forall i, s <> Resolving i) -> P s) -> (forall i, PI i -> wx ok (np X P) (f i)) -> wx ok (np X P) (and_then p f).
Proof.
  intros P PI p f Hp HP Hf. unfold and_then. eapply w_bind; [exact Hp|]. intros [r|i|e i] H; [apply HP; discriminate|apply Hf, H; reflexivity|apply HP; discriminate].
Qed.
Lemma w_weak {A} : forall (P P' : A -> Prop) p, (forall a, P a -> P' a) -> wx ok (np X P) p -> wx ok (np X P') p.
Proof. intros P P' p H. apply wx_mono. intros r. apply np_mono; auto. Qed.
Lemma wgo_wx {A} : forall (p : prog A) Q, wgo ok put Q p -> wx ok Q p.
Proof. intros p Q. induction p as [a|m| |o k IH]; cbn [wgo wx]; auto. intros [_ H] x Hx. auto. Qed.
Lemma wgo_GG {A} : forall (p : prog A) Q, wgo ok put Q p -> GG ok put p.
Proof. intros p Q H. eapply wgo_mono; [|exact H]. auto. Qed.
Lemma wx_wgo {A} : forall (p : prog A) Q, wx ok Q p -> GG ok put p -> wgo ok put Q p.
Proof. intros p Q. unfold GG. induction p as [a|m| |o k IH]; cbn [wgo wx]; auto. intros H [Hp Hg]. split; [exact Hp|]. intros x Hx. auto. Qed.
End Gen.

(** ** The loader *)
Section Load.
Variable fs : fsys.
Variable R : resolver.
Hypothesis Hdbg : rv_debug R = false.
Hypothesis Hdisk : disk_tidy fs R.
Notation ok := (okp fs).
Notation T P := (wgo ok putp (np nopanic P)).
Definition lgood (r : result (option pkg)) : Prop := forall pk, r = Ok (Some pk) -> pkg_tidy pk.

Lemma modified_np : forall q, T (fun _ => True) (get_last_modified q).
Proof. intros q. split; [exact I|]. intros x _. destruct x; exact I. Qed.
Lemma store_np : forall q name, o_desc (rv_opts R) = Some name -> f_dir fs q = true -> T lgood (parse_and_store R q (join q name)).
Proof.
  intros q name Hn Hd. unfold parse_and_store. apply (g_try _ _ _ pkg_tidy).
  - unfold parse_description_file, dbg_check. rewrite Hdbg. cbn [bind].
    apply (g_bind _ _ _ (fun r : result str => forall s, r = Ok s -> f_read fs (join q name) = Some s)).
    + unfold read_to_string. cbn [act bind]. split; [exact I|]. intros x Hx. cbn [okp] in Hx. destruct x as [s|]; [|intros s E; discriminate].
      apply (g_try _ _ _ (fun _ => True)); [|discriminate|].
      * eapply wgo_mono; [|apply modified_np]. intros r. apply np_mono; auto.
      * intros t _. split; [exact I|]. intros u _ s' E. injection E as <-. symmetry. exact Hx.
    + intros [s|e] Hs; [|intros pk E; discriminate]. specialize (Hs s eq_refl). destruct (rv_json R s) as [j|] eqn:Ej; [|intros pk E; discriminate].
      assert (Ht : tidy j) by (apply (Hdisk q); exists name, s; auto). destruct Ht as [Hsh Hb He Hi].
      apply (g_bind _ _ _ (fun af : imap alias_map => forall k c, In (k, ATarget c) af -> plain_target c)).
      { apply g_lift; [apply alias_fields_fine, Hsh|]. intros af E k c Hin. unfold alias_fields_of in E.
        destruct (jget j (lit "browser")) as [v|] eqn:Ev; [|injection E as <-; contradiction].
        destruct v as [| | | | |l]; try (injection E as <-; contradiction). cbn [as_object] in E.
        destruct (browser_targets _ _ _ E _ _ Hin) as [[]|Hin']. eapply Hb; [reflexivity|exact Hin']. }
      intros af Haf. cbn [act bind]. split; [exact I|]. intros seed _.
      apply (g_try _ _ _ (fun o => forall t, o = Some t -> tree_tidy t)); [|discriminate|].
      { unfold load_exports. destruct (jget j (lit "exports")) as [v|] eqn:Ev; [|intros a E t Et; congruence].
        cbn [act bind]. split; [exact I|]. intros x Hx. cbn [okp] in Hx. destruct x as [t|]; [intros a E t' Et; apply Hx; congruence|].
        apply (g_try _ _ _ tree_tidy); [|discriminate|].
        - apply g_lift; [apply build_exports_fine, (sh_exports _ Hsh), Ev|]. intros a E t Et. subst a. exists FExports, v. split; [exact E|]. intros s0. apply He. reflexivity.
        - intros t Ht. cbn [act bind]. split; [exact Ht|]. intros u _ a E t' Et. congruence. }
      intros ex Hex. apply (g_try _ _ _ (fun o => forall t, o = Some t -> tree_tidy t)); [|discriminate|].
      { unfold load_imports. destruct (jget j (lit "imports")) as [v|] eqn:Ev; [|intros a E t Et; congruence].
        cbn [act bind]. split; [exact I|]. intros x Hx. cbn [okp] in Hx. destruct x as [t|]; [intros a E t' Et; apply Hx; congruence|].
        apply (g_try _ _ _ tree_tidy); [|discriminate|].
        - destruct (sh_imports _ Hsh v Ev) as [H1 H2]. apply g_lift; [apply build_imports_fine; assumption|]. intros a E t Et. subst a. exists FImports, v. split; [exact E|]. intros s0. apply Hi. reflexivity.
        - intros t Ht. cbn [act bind]. split; [exact Ht|]. intros u _ a E t' Et. congruence. }
      intros im Him. destruct (side_effects_of (join q name) j) as [se|e]; [|intros pk E; discriminate].
      intros pk E. injection E as <-. split; [|split; [exact Hex|exact Him]]. cbn [p_alias]. intros k c Hin.
      apply (Haf k c). eapply Permutation_in; [apply permute_perm|exact Hin].
  - intros e pk E. discriminate.
  - intros pk Hpk. cbn [act bind]. split; [exact Hpk|]. intros u _ pk' E. congruence.
Qed.
Lemma update_np : forall q, T (fun _ => True) (need_update R q).
Proof.
  intros q. unfold need_update. cbn [act bind]. split; [exact I|]. intros [|] _; [|exact I]. cbn [negb act bind]. split; [exact I|]. intros [[s t]|] _; [|exact I].
  apply (g_try _ _ _ (fun _ => True)); [|auto|].
  - eapply wgo_mono; [|apply modified_np]. intros r. apply np_mono; auto.
  - intros n _. destruct (N.ltb n t); exact I.
Qed.
Lemma entry_np : forall d q, T (fun _ => True) (check_entry R d q).
Proof.
  intros d q. unfold check_entry. eapply g_bind; [apply update_np|]. intros u _. rewrite Hdbg.
  destruct u as [[|]|]; cbn [act bind wgo]; (split; [exact I|]; intros x _; exact I).
Qed.
Lemma find_up_np : forall f q name, T (fun _ => True) (find_up f q name).
Proof.
  induction f as [|f IH]; intros q name; cbn [find_up act bind]; [exact I|]. split; [exact I|]. intros [|] _; [exact I|]. destruct (parent q); [apply IH|exact I].
Qed.
Lemma none_loop_np : forall f q, T lgood (none_loop R f q).
Proof.
  induction f as [|f IH]; intros q; cbn [none_loop act bind]; [exact I|]. split; [exact I|]. intros [|] _; [|apply IH]. cbn [act bind]. split; [exact I|]. intros u _.
  destruct (parent q); [apply IH|intros pk E; discriminate].
Qed.
Lemma load_np : forall f q, T lgood (load_pkg_file R f q).
Proof.
  induction f as [|f IH]; intros q; cbn [load_pkg_file]; [exact I|]. destruct (o_desc (rv_opts R)) as [name|] eqn:En; [|intros pk E; discriminate].
  cbn [act bind]. split; [exact I|]. intros x Hx. cbn [okp] in Hx. subst x. destruct (f_dir fs q) eqn:Ed; cbn [negb].
  2:{ destruct (parent q) as [r|]; [apply IH|intros pk E; discriminate]. }
  cbn [act bind]. split; [exact I|]. intros x Hx. cbn [okp] in Hx. destruct x as [v|].
  - apply (g_try _ _ _ (fun _ => True)); [|intros e pk E; discriminate|].
    + eapply wgo_mono; [|apply entry_np]. intros r. apply np_mono; auto.
    + intros [|] _; cbn [negb]; [|intros pk E; apply Hx; congruence]. apply store_np; assumption.
  - cbn [act bind]. split; [exact I|]. intros x _. destruct x; [apply store_np; assumption|].
    eapply g_bind; [apply find_up_np|]. intros [d|] _; [apply IH|apply none_loop_np].
Qed.
End Load.

(** ** Resolutions *)
Section Res.
Variable fs : fsys.
Variable R : resolver.
Variable load : path -> prog (result (option pkg)).
Notation ok := (okp fs).
Notation opts := (rv_opts R).
Notation W P := (wx ok (np cut P)).
Hypothesis Hload : forall p, W lgood (load p).
Definition good_info (i : info) : Prop := plain_target (r_target (i_req i)) /\ text (r_query (i_req i)) /\ text (r_fragment (i_req i)).
Definition opk_tidy (o : option pkg) : Prop := forall pk, o = Some pk -> pkg_tidy pk.
(** The stats, when they are still resolving. *)
Definition still (PI : info -> Prop) (s : stats) : Prop := forall i, s = Resolving i -> PI i.
Lemma still_ret : forall (PI : info -> Prop) i, PI i -> still PI (Resolving i).
Proof. intros PI i H j E. injection E as <-. exact H. Qed.

Lemma ext_np : forall p i l, W (still (fun i' => i' = i /\ no_file fs (map (fun e => p ++ e) l))) (extensions_loop p i l).
Proof.
  intros p i l. induction l as [|e l IH]; cbn [extensions_loop].
  - apply still_ret. split; [reflexivity|constructor].
  - cbv zeta. cbn [act bind]. intros x Hx. cbn [okp] in Hx. destruct x; [intros i' E; discriminate|].
    eapply w_weak; [|exact IH]. intros s Hs i' E. destruct (Hs i' E) as [-> Hn]. split; [reflexivity|]. constructor; [symmetry; exact Hx|exact Hn].
Qed.
Lemma file_np : forall i, W (still (fun i' => i' = i /\ no_file fs (file_candidates opts (get_path i)))) (resolve_as_file R i).
Proof.
  intros i. unfold resolve_as_file, extensions_apply, enforce, file_candidates. cbv zeta. destruct (o_enforce opts) as [[|]|]; cbn [negb app].
  - apply ext_np.
  - cbn [act bind]. intros x Hx. cbn [okp] in Hx. destruct x; [intros i' E; discriminate|]. eapply w_weak; [|apply ext_np].
    intros s Hs i' E. destruct (Hs i' E) as [-> Hn]. split; [reflexivity|]. constructor; [symmetry; exact Hx|exact Hn].
  - cbn [act bind]. intros x Hx. cbn [okp] in Hx. destruct x; [intros i' E; discriminate|]. eapply w_weak; [|apply ext_np].
    intros s Hs i' E. destruct (Hs i' E) as [-> Hn]. split; [reflexivity|]. constructor; [symmetry; exact Hx|exact Hn].
Qed.
Lemma chase_target : forall f t af c, (forall k c, In (k, ATarget c) af -> plain_target c) -> (forall s, t = ATarget s -> plain_target s) ->
  chase f t af = PRet (ATarget c) -> plain_target c.
Proof.
  induction f as [|f IH]; intros t af c Haf Ht H; cbn [chase] in H; [discriminate|]. destruct t as [s|]; [|discriminate].
  destruct (imap_get af s) as [n|] eqn:E; [|injection H as <-; apply Ht; reflexivity]. eapply IH; [exact Haf| |exact H].
  intros s' ->. apply imap_get_In in E. eapply Haf, E.
Qed.
Lemma afl_np : forall fuel pk i l, pkg_tidy pk -> incl l (p_alias pk) -> W (still (fun i' => good_info i -> good_info i')) (alias_field_loop R fuel pk i l).
Proof.
  intros fuel pk i l (Ha & _ & _). induction l as [|[k v] l IH]; intros Hl; cbn [alias_field_loop]; [apply still_ret; auto|].
  destruct (should_deal_alias R pk i k); [|apply IH; intros x Hx; apply Hl; right; exact Hx].
  apply (w_bind _ _ (fun x => forall c, x = ATarget c -> plain_target c)).
  - apply w_lift; [apply chase_fine|]. intros a E c ->. eapply chase_target; [exact Ha| |exact E]. intros s ->. eapply Ha, Hl. left. reflexivity.
  - intros [c|] Hc; [|intros i' E; discriminate]. apply still_ret. intros (_ & Hq & Hf). split; [apply Hc; reflexivity|split; [exact Hq|exact Hf]].
Qed.
Lemma af_np : forall fuel o i, opk_tidy o -> W (still (fun i' => (good_info i -> good_info i') /\ (o_browser opts = false -> i' = i))) (alias_field_apply R fuel o i).
Proof.
  intros fuel o i Ho. unfold alias_field_apply. destruct (o_browser opts) eqn:Eb; cbn [negb]; [|apply still_ret; auto].
  destruct o as [pk|]; [|apply still_ret; auto]. eapply w_weak; [|apply afl_np; [apply Ho; reflexivity|intros x; auto]].
  intros s Hs i' E. split; [apply Hs, E|discriminate].
Qed.
Lemma items_plain : forall fk root x names l, tree_tidy root -> text x -> field_process fk root x names = PRet (Ok l) -> Forall plain_item l.
Proof.
  intros fk root x names l (fk' & v & Hb & Hv) Hx H.
  eapply Forall_impl; [|eapply process_from; eassumption]. intros s (rm & sp & t & Ht & Hr & E). eapply plain_mapped; [exact Ht| |exact E].
  intros r Er. eapply ascii_incl; [apply Hr, Er|exact Hx].
Qed.
Lemma item_info : forall d s, plain_item s -> good_info (mkInfo d (parse s)).
Proof. intros d s H. exact (plain_parse s H). Qed.
Lemma exl_np : forall pk i l, Forall plain_item l -> W (still good_info) (exports_loop pk i l).
Proof.
  intros pk i l. induction l as [|t l IH]; intros Hl; cbn [exports_loop]; [intros i' E; discriminate|]. inversion Hl as [|? ? Ht Hr]; subst. cbv zeta. cbn [act bind].
  intros x _. destruct x; [|apply IH, Hr]. apply (w_bind _ _ (fun _ => True)); [apply w_lift; [apply check_fine|auto]|].
  intros [|] _; [|apply IH, Hr]. apply still_ret, item_info, Ht.
Qed.
Lemma find_char_incl : forall s c a b, find_char s c = Some (a, b) -> incl b s.
Proof. intros s c a b H. apply find_char_some in H. destruct H as [-> _]. intros x Hx. apply in_or_app. right. right. exact Hx. Qed.
Lemma sub_np : forall pk i, plain_target (r_target (i_req i)) -> W (fun r => forall t, r = Some t -> text t) (exports_subpath pk i).
Proof.
  intros pk i [Ha Hl]. unfold exports_subpath. cbv zeta. apply (w_bind _ _ (fun cs => incl cs (r_target (i_req i)))).
  - destruct (starts_with_char (r_target (i_req i)) c_at) eqn:E; [|intros x; auto]. destruct (find_char (r_target (i_req i)) c_slash) as [[a b]|] eqn:Ef.
    + apply (find_char_incl _ _ _ _ Ef).
    + exfalso. apply starts_with_char_spec in E. destruct E as [r Er]. apply Hl. exists r. split; [exact Er|]. apply find_char_none in Ef. rewrite Er in Ef. intros H. apply Ef. right. exact H.
  - intros cs Hi. destruct (find_char cs c_slash) as [[a b]|] eqn:Ef.
    + intros t E. injection E as <-. constructor; [reflexivity|]. constructor; [reflexivity|]. eapply ascii_incl; [|exact Ha]. intros x Hx. apply Hi. eapply find_char_incl; eassumption.
    + cbn [act bind]. intros x _. destruct (x || _); intros t E; [injection E as <-; repeat constructor|discriminate].
Qed.
Lemma exports_np : forall o i, opk_tidy o -> good_info i -> W (still good_info) (exports_apply R o i).
Proof.
  intros o i Ho Hi. unfold exports_apply. destruct o as [pk|]; [|apply still_ret, Hi]. destruct (negb (kind_eqb _ _)); [apply still_ret, Hi|].
  destruct (_ && _); [apply still_ret, Hi|]. destruct (p_exports pk) as [root|] eqn:Er; [|apply still_ret, Hi].
  destruct Hi as (Hp & Hq & Hf). eapply w_bind; [apply sub_np, Hp|]. intros [t|] Ht; [|intros i' E; discriminate].
  assert (Hrem : text (exports_remaining i t)).
  { specialize (Ht t eq_refl). unfold exports_remaining. destruct (_ || _); [|exact Ht]. apply ascii_app'. split; [destruct (str_eqb t s_dot); [repeat constructor|exact Ht]|apply ascii_app'; auto]. }
  apply (w_bind _ _ (fun r => forall l, r = Ok l -> Forall plain_item l)).
  - apply w_lift; [apply field_process_fine|]. intros a E l ->. eapply items_plain; [|exact Hrem|exact E]. destruct (Ho pk eq_refl) as (? & ? & ?). eauto.
  - intros [l|e] Hl; [apply exl_np, Hl; reflexivity|intros i' E; discriminate].
Qed.
Lemma check_np : forall i t, good_info i -> W (still (fun i' => good_info i' /\ f_file fs (get_path i') = true)) (imports_check i t).
Proof.
  intros i t Hi. unfold imports_check. cbn [act bind]. intros x Hx. cbn [okp] in Hx. destruct x; [|intros i' E; discriminate].
  apply (w_bind _ _ (fun _ => True)); [apply w_lift; [apply check_fine|auto]|]. intros [|] _; [apply still_ret; split; [exact Hi|symmetry; exact Hx]|intros i' E; discriminate].
Qed.
Lemma still_final : forall PI s, (forall i, s <> Resolving i) -> still PI s.
Proof. intros PI s H i E. contradiction (H i E). Qed.
(** What "imports" leaves: the request it was given, an existing file, or the name of a package. *)
Definition off_disk (i : info) : Prop := f_file fs (get_path i) = true \/ r_kind (i_req i) = Normal \/ r_kind (i_req i) = Internal.
Lemma imports_np : forall fuel o i, opk_tidy o -> good_info i -> W (still (fun i' => good_info i' /\ (i' = i \/ off_disk i'))) (imports_apply R load fuel o i).
Proof.
  induction fuel as [|f IH]; intros o i Ho Hi; cbn [imports_apply]; [exact I|]. destruct o as [pk|]; [|apply still_ret; auto].
  cbv zeta. destruct (negb _); [apply still_ret; auto|]. destruct (p_imports pk) as [root|] eqn:Er; [|apply still_ret; auto].
  apply (w_bind _ _ (fun r => forall l, r = Ok l -> Forall plain_item l)).
  { apply w_lift; [apply field_process_fine|]. intros a E l ->. eapply items_plain; [|exact (proj1 (proj1 Hi))|exact E]. apply (Ho pk eq_refl). exact Er. }
  intros [[|item l]|e] Hl; try (intros i' E; discriminate). specialize (Hl _ eq_refl). inversion Hl as [|? ? Hit _]; subst.
  assert (Hck : forall i1, good_info i1 -> W (still (fun i' => good_info i' /\ (i' = i \/ off_disk i'))) (imports_check i1 (r_target (i_req i)))).
  { intros i1 H1. eapply w_weak; [|apply check_np, H1]. intros s Hs i' E. destruct (Hs i' E) as [H2 H3]. split; [exact H2|right; left; exact H3]. }
  destruct (r_kind (parse item)) eqn:Ek; try (apply Hck, item_info, Hit).
  1:{ eapply w_weak; [|apply IH; [exact Ho|apply item_info, Hit]]. intros s Hs i' E. destruct (Hs i' E) as [H2 [->|H3]]; (split; [exact H2|right]); [right; right; exact Ek|exact H3]. }
  eapply w_bind; [apply Hload|]. intros [o'|e] Hlp; [|intros i' E; discriminate].
  assert (Ho' : opk_tidy o') by (intros pk' ->; apply Hlp; reflexivity).
  assert (Hc : W (still (fun i' => good_info i' /\ (i' = i \/ off_disk i'))) (and_then (and_then (and_then (exports_apply R o' (mkInfo (join (p_dir pk) MODULE) (parse item))) (imports_apply R load f o')) (alias_field_apply R (S f) o')) (fun i2 => imports_check i2 (r_target (i_req i))))).
  { apply (w_then _ _ _ good_info); [apply (w_then _ _ _ good_info); [apply (w_then _ _ _ good_info); [apply exports_np; [exact Ho'|apply item_info, Hit]|apply still_final|]|apply still_final|]|apply still_final|].
    - intros i1 H1. eapply w_weak; [|apply IH; assumption]. intros s Hs i2 E. apply (Hs i2 E).
    - intros i1 H1. eapply w_weak; [|apply af_np, Ho']. intros s Hs i2 E. apply (Hs i2 E), H1.
    - intros i1 H1. apply Hck, H1. }
  destruct o' as [pk'|]; [|exact Hc]. destruct (negb _); [|exact Hc]. apply still_ret. split; [apply item_info, Hit|]. right. right. left. exact Ek.
Qed.
Lemma extract_np : forall s, is_success s = false -> W (fun _ => True) (extract_info s).
Proof. intros [r|i|e i] H; [discriminate|exact I|exact I]. Qed.
Lemma mfl_np : forall rad fuel pk i l mi, pkg_tidy pk -> (forall i, W (fun _ => True) (rad i)) -> W (still (fun i' => i' = i)) (main_field_loop R rad fuel pk i l mi).
Proof.
  intros rad fuel pk i l mi Hp Hr. revert mi. induction l as [|fl l IH]; intros mi; cbn [main_field_loop]; [apply still_ret; reflexivity|].
  destruct (opt_str _) as [m|]; [|apply IH]. destruct (_ || _); [apply still_ret; reflexivity|]. cbv zeta.
  apply (w_bind _ _ (fun _ => True)).
  - apply (w_then _ _ _ (fun _ => True)); [|auto|auto]. apply (w_then _ _ _ (fun _ => True)).
    + eapply w_weak; [|apply af_np]; [intros s _ i' _; exact I|]. intros pk' E. injection E as <-. exact Hp.
    + intros s _ i' _. exact I.
    + intros i1 _. eapply w_weak; [|apply file_np]. intros s _ i' _. exact I.
  - intros s _. destruct (is_success s) eqn:Es; [intros i' ->; discriminate|]. eapply w_bind; [apply extract_np, Es|]. intros mi' _. apply IH.
Qed.
Lemma mf_np : forall rad fuel o i, opk_tidy o -> (forall i, W (fun _ => True) (rad i)) -> W (still (fun i' => i' = i)) (main_field_apply R rad fuel o i).
Proof.
  intros rad fuel o i Ho Hr. unfold main_field_apply. destruct o as [pk|]; [|apply still_ret; reflexivity]. destruct (negb _); [apply still_ret; reflexivity|].
  apply mfl_np; [apply Ho; reflexivity|exact Hr].
Qed.
Lemma dotted_kind : forall f, get_target_kind (lit "./" ++ f) = Relative.
Proof. intros f. apply (get_target_kind_table (lit "./" ++ f)). right. right. right. left. eauto. Qed.
Lemma ext_only : forall ok' p i l, wx ok' (np cut (fun s => forall e i', s <> SError e i')) (extensions_loop p i l).
Proof.
  intros ok' p i l. induction l as [|e l IH]; cbn [extensions_loop]; [intros e i'; discriminate|]. cbv zeta. cbn [act bind]. intros [|] _; [intros e' i'; discriminate|exact IH].
Qed.
Lemma file_only : forall ok' i, wx ok' (np cut (fun s => forall e i', s <> SError e i')) (resolve_as_file R i).
Proof.
  intros ok' i. unfold resolve_as_file, extensions_apply. cbv zeta. destruct (negb _); [|apply ext_only]. cbn [act bind]. intros [|] _; [intros e' i'; discriminate|apply ext_only].
Qed.
Lemma wx_and {A} : forall ok' (Q Q' : outcome A -> Prop) p, wx ok' Q p -> wx ok' Q' p -> wx ok' (fun r => Q r /\ Q' r) p.
Proof. intros ok' Q Q' p. induction p as [a|m| |o k IH]; cbn [wx]; auto. Qed.
Lemma mfil_np : forall fuel o i l mi, opk_tidy o -> (o_browser opts = false -> i_path mi = i_path i) ->
  W (still (fun i' => i' = i /\ (o_browser opts = true \/ no_file fs (main_file_paths R (i_path i) l)))) (main_file_loop R load fuel o i l mi).
Proof.
  intros fuel o i l. induction l as [|f l IH]; intros mi Ho Hmi; cbn [main_file_loop].
  - apply still_ret. split; [reflexivity|right; constructor].
  - cbv zeta. set (mi' := with_target mi (lit "./" ++ f)).
    assert (Hk : r_kind (i_req mi') = Relative) by (apply dotted_kind).
    assert (Hex : exports_apply R o mi' = Ret (Resolving mi')) by (unfold exports_apply; destruct o; [rewrite Hk|]; reflexivity).
    assert (Him : imports_apply R load fuel o mi' = OutOfFuel \/ imports_apply R load fuel o mi' = Ret (Resolving mi')).
    { destruct fuel; [left; reflexivity|]. right. cbn [imports_apply]. destruct o; reflexivity. }
    apply (w_bind _ _ (fun s => is_success s = false -> o_browser opts = false -> s = Resolving mi' /\ no_file fs (file_candidates opts (join (i_path i) (lit "./" ++ f))))).
    + rewrite Hex. unfold and_then at 3. cbn [bind]. destruct Him as [E|E]; rewrite E; [exact I|].
      unfold and_then at 2. cbn [bind]. unfold and_then. destruct (o_browser opts) eqn:Eb.
      * eapply w_bind; [apply af_np, Ho|]. intros [r|i1|e i1] _; [discriminate| |discriminate].
        eapply w_weak; [|apply file_np]. intros s1 _ _ H. discriminate.
      * unfold alias_field_apply. rewrite Eb. cbn [negb bind].
        eapply wx_mono; [|apply wx_and; [apply (file_only ok)|apply file_np]]. intros [s|m|] [H1 H2]; cbn [np] in *; [|exact H1|exact I].
        intros Hf _. destruct s as [r|i2|e i2]; [discriminate| |contradiction (H1 e i2 eq_refl)].
        destruct (H2 i2 eq_refl) as [-> Hn]. split; [reflexivity|]. rewrite <- (Hmi eq_refl). exact Hn.
    + intros s Hs. destruct (is_success s) eqn:Es; [intros i' ->; discriminate|].
      apply (w_bind _ _ (fun mi'' => o_browser opts = false -> i_path mi'' = i_path i)).
      { destruct s as [r|i1|e i1]; [discriminate| |]; intros Hb; destruct (Hs eq_refl Hb) as [E _]; [|discriminate]. injection E as ->. exact (Hmi Hb). }
      intros mi'' Hmi''. eapply w_weak; [|apply IH; [exact Ho|exact Hmi'']]. intros s' Hs' i' E. destruct (Hs' i' E) as [-> Hn]. split; [reflexivity|].
      destruct (o_browser opts) eqn:Eb; [left; reflexivity|]. right. destruct Hn as [?|Hn]; [discriminate|]. destruct (Hs eq_refl eq_refl) as [_ Hc].
      unfold main_file_paths in *. cbn [flat_map]. apply Forall_app. split; [exact Hc|exact Hn].
Qed.
Definition no_main (d : path) : Prop := f_dir fs d = true /\ (o_browser opts = true \/ no_file fs (main_file_paths R d (o_main_files opts))).
Lemma rad_np : forall fuel i, W (still (fun i' => i' = with_target (with_path i (get_path i)) [] /\ no_main (get_path i))) (resolve_as_dir R load fuel i).
Proof.
  induction fuel as [|f IH]; intros i; cbn [resolve_as_dir]; [exact I|]. cbv zeta. cbn [act bind]. intros x Hx. cbn [okp] in Hx. destruct x; cbn [negb]; [|intros i' E; discriminate].
  eapply w_bind; [apply Hload|]. intros [o|e] Hl; [|intros i' E; discriminate].
  assert (Ho : opk_tidy o) by (intros pk ->; apply Hl; reflexivity).
  eapply w_then; [apply mf_np; [exact Ho|]|apply still_final|].
  - intros i1. eapply w_weak; [|apply IH]. auto.
  - intros i1 ->. unfold main_file_apply. eapply w_weak; [|apply mfil_np; [exact Ho|reflexivity]].
    intros s Hs i' E. destruct (Hs i' E) as [-> Hn]. split; [reflexivity|]. split; [symmetry; exact Hx|exact Hn].
Qed.
Lemma emptied_good : forall i p, good_info i -> good_info (with_target (with_path i p) []).
Proof. intros i p (_ & Hq & Hf). split; [|split; assumption]. split; [constructor|]. intros (x & E & _). discriminate. Qed.
Lemma dotted_good : forall i, good_info i -> good_info (with_target i (lit "./" ++ r_target (i_req i))).
Proof.
  intros i ([Ha _] & Hq & Hf). split; [|split; assumption]. split; [apply ascii_app'; split; [repeat constructor|exact Ha]|]. intros (x & E & _). discriminate.
Qed.
Lemma level_np : forall fuel i, good_info i -> W (fun r => match r with inl s => still (fun _ => False) s | inr s => still good_info s end) (modules_level R load fuel i).
Proof.
  intros fuel i Hi. unfold modules_level. cbv zeta. cbn [act bind]. intros [|] _; cbn [negb]; [|apply still_ret, Hi].
  pose proof (fun E => module_name_ascii _ (text_ascii _ (proj1 (proj1 Hi)) E)) as Hm. destruct (module_name _) as [mn|]; [|split; [reflexivity|destruct ascii; [contradiction (Hm eq_refl eq_refl)|reflexivity]]]. clear Hm.
  eapply w_bind; [apply Hload|]. intros [o|e] Hl; [|intros i' E; discriminate].
  assert (Ho : opk_tidy o) by (intros pk ->; apply Hl; reflexivity).
  set (mi := mkInfo (join (i_path i) MODULE) (i_req i)). assert (Hmi : good_info mi) by exact Hi.
  cbn [act bind]. intros md _. destruct (_ && _).
  - eapply w_bind; [apply file_np|]. intros s _. destruct (is_success s) eqn:Es; [intros i' ->; discriminate|apply still_ret, Hi].
  - apply (w_bind _ _ (still good_info)).
    + eapply w_then; [eapply w_then; [eapply w_then; [eapply w_then; [apply exports_np; [exact Ho|exact Hmi]|apply still_final|]|apply still_final|]|apply still_final|]|apply still_final|].
      * intros i1 H1. eapply w_weak; [|apply imports_np; assumption]. intros s Hs i2 E. exact (proj1 (Hs i2 E)).
      * intros i1 H1. cbv zeta. eapply w_weak; [|apply af_np, Ho]. intros s Hs i2 E. apply (Hs i2 E). destruct (r_kind (i_req i1)); try exact H1. apply dotted_good, H1.
      * intros i1 H1. eapply w_weak; [|apply file_np]. intros s Hs i2 E. destruct (Hs i2 E) as [-> _]. exact H1.
      * intros i1 H1. eapply w_weak; [|apply rad_np]. intros s Hs i2 E. destruct (Hs i2 E) as [-> _]. apply emptied_good, H1.
    + intros [r|i1|e i1] Hs; [intros i' E; discriminate|exact Hs|]. destruct (str_eqb e TAG); [apply still_ret, Hi|intros i' E; discriminate].
Qed.
Lemma ram_np : forall fuel i, good_info i -> W (still (fun _ => False)) (resolve_as_modules R load fuel i).
Proof.
  induction fuel as [|f IH]; intros i Hi; cbn [resolve_as_modules]; [exact I|]. cbv zeta. eapply w_bind; [apply level_np, Hi|]. intros [s|s] Hs; [exact Hs|].
  apply (w_bind _ _ (fun _ => True)); [|intros [r|i1|e i1] _ i' E; discriminate].
  unfold and_then. cbn [bind]. destruct s as [r|i1|e i1]; try exact I. destruct (parent (i_path i)) as [q|]; [|exact I].
  eapply w_weak; [|apply IH]; [auto|]. exact (Hs i1 eq_refl).
Qed.
(** *** [_resolve] *)
Hypothesis Hal : alias_plain opts.
Hypothesis Hkind : forall p, f_dir fs p = true -> f_file fs p = false.
Definition here (base : path) (t : str) (d : path) : Prop := no_main d /\ (o_browser opts = true \/ asked opts base t d).
Definition blame (base : path) (t : str) (m : str) : Prop := m = p_unreachable /\ (exists d, here base t d) \/ cut m.
Notation V base t P := (wx ok (np (blame base t) P)).
Lemma W_V {A} : forall (X : str -> Prop) (P : A -> Prop) p, (forall m, cut m -> X m) -> W P p -> wx ok (np X P) p.
Proof. intros X P p HX. apply wx_mono. intros r. apply np_mono; auto. Qed.
Lemma cut_blame : forall base t m, cut m -> blame base t m.
Proof. intros base t m H. right. exact H. Qed.
Definition kinded (i : info) : Prop := good_info i /\ r_kind (i_req i) = get_target_kind (r_target (i_req i)).
Definition quiet (rec : info -> prog stats) : Prop := forall i, kinded i -> V (i_path i) (r_target (i_req i)) (fun _ => True) (rec i).
Lemma blame_rw {A} : forall base t t' (P : A -> Prop) p, rewritten opts t t' -> V base t' P p -> V base t P p.
Proof.
  intros base t t' P p Hr. apply wx_mono. intros r. apply np_mono; [|auto]. intros m [(E & d & Hn & H)|H]; [left|right; exact H]. split; [exact E|]. exists d. split; [exact Hn|].
  destruct H as [H|H]; [left; exact H|right]. eapply AskRewritten; eassumption.
Qed.
Lemma al_np : forall rec i l, kinded i -> incl l (o_alias opts) -> quiet rec -> V (i_path i) (r_target (i_req i)) (still (fun i' => i' = i)) (alias_loop rec i l).
Proof.
  intros rec i l Hi. induction l as [|[from to] l IH]; intros Hl Hr; cbn [alias_loop]; [apply still_ret; reflexivity|].
  specialize (IH ltac:(intros x Hx; apply Hl; right; exact Hx) Hr). cbv zeta. destruct (starts_with (r_target (i_req i)) from) eqn:Es; [|exact IH].
  destruct to as [t|]; [|intros i' E; discriminate]. destruct (_ || _) eqn:Eo; [exact IH|].
  assert (Hrw : rewritten opts (r_target (i_req i)) (replacen1 (r_target (i_req i)) from t)).
  { apply orb_false_elim in Eo. destruct Eo as [_ Eo]. apply RwAlias; [apply Hl; left; reflexivity|exact Es|exact Eo]. }
  apply (w_bind _ _ (fun _ => True)); [|intros s _; destruct (is_success s) eqn:E; [intros i' ->; discriminate|exact IH]].
  eapply blame_rw; [exact Hrw|]. apply (Hr (mkInfo (i_path i) (req_with_target (i_req i) (replacen1 (r_target (i_req i)) from t)))).
  destruct Hi as ((Hp & Hq & Hf) & _). split; [|reflexivity]. split; [|split; [exact Hq|exact Hf]]. exact (plain_rewritten opts _ _ Hal Hp Hrw).
Qed.
Lemma alias_np : forall rec i, kinded i -> quiet rec -> V (i_path i) (r_target (i_req i)) (still (fun i' => i' = i)) (alias_apply R rec i).
Proof. intros rec i Hi Hr. unfold alias_apply. destruct (contains _ _); [apply still_ret; reflexivity|]. apply al_np; [exact Hi|intros x; auto|exact Hr]. Qed.
Lemma prefer_np : forall rec i, kinded i -> quiet rec -> V (i_path i) (r_target (i_req i)) (still (fun i' => i' = i)) (prefer_relative_apply R rec i).
Proof.
  intros rec i Hi Hr. unfold prefer_relative_apply. cbv zeta. destruct (_ || _) eqn:Eo; [apply still_ret; reflexivity|]. destruct (o_prefer_relative opts) eqn:Ep; [|apply still_ret; reflexivity].
  apply orb_false_elim in Eo. apply (w_bind _ _ (fun _ => True)).
  - eapply blame_rw; [apply RwRelative; tauto|]. apply (Hr (mkInfo (i_path i) (req_with_target (i_req i) (lit "./" ++ r_target (i_req i))))). split; [exact (dotted_good i (proj1 Hi))|reflexivity].
  - intros s _. destruct (is_success s) eqn:E; [intros i' ->; discriminate|apply still_ret; reflexivity].
Qed.
Lemma pkg_np : forall fuel i, good_info i -> W (still (fun i' => good_info i' /\ (o_browser opts = true \/ i' = i \/ off_disk i'))) (pkg_step R load fuel i).
Proof.
  intros fuel i Hi. unfold pkg_step. cbv zeta. eapply w_bind; [apply Hload|]. intros [o|e] Hl; [|intros i' E; discriminate].
  assert (Ho : opk_tidy o) by (intros pk ->; apply Hl; reflexivity).
  eapply w_then; [apply imports_np; assumption|apply still_final|]. intros i1 [H1 H1']. eapply w_weak; [|apply af_np, Ho]. intros s Hs i2 E.
  destruct (Hs i2 E) as [Hg Hb]. split; [apply Hg, H1|]. destruct (o_browser opts); [left; reflexivity|right]. rewrite (Hb eq_refl). exact H1'.
Qed.
Lemma final_np : forall fuel i, good_info i -> W (still (fun _ => no_main (get_path i) /\ r_kind (i_req i) <> Normal /\ r_kind (i_req i) <> Internal)) (final_step R load fuel i).
Proof.
  intros fuel i Hi. unfold final_step.
  assert (H1 : W (still (fun _ => no_main (get_path i))) (and_then (resolve_as_file R i) (resolve_as_dir R load fuel))).
  { eapply w_then; [apply file_np|apply still_final|]. intros i1 [-> _]. eapply w_weak; [|apply rad_np]. intros s Hs i2 E. exact (proj2 (Hs i2 E)). }
  assert (H2 : forall P, W (still (fun _ => P)) (resolve_as_modules R load fuel i)).
  { intros P. eapply w_weak; [|apply ram_np, Hi]. intros s Hs i' E. destruct (Hs i' E). }
  destruct (r_kind (i_req i)); try apply H2; (eapply w_weak; [|exact H1]; intros s Hs i' E; split; [exact (Hs i' E)|split; discriminate]).
Qed.
Lemma res_np : forall fuel i, kinded i -> V (i_path i) (r_target (i_req i)) (still (fun _ => False)) (resolve_ R load fuel i).
Proof.
  induction fuel as [|f IH]; intros i Hi; cbn [resolve_]; [exact I|].
  assert (Hr : quiet (resolve_ R load f)) by (intros i1 H1; eapply w_weak; [|apply IH, H1]; auto).
  apply (w_bind _ _ (still (fun _ => exists d, here (i_path i) (r_target (i_req i)) d))).
  - eapply w_then; [eapply w_then; [eapply w_then; [apply alias_np; [exact Hi|exact Hr]|apply still_final|]|apply still_final|]|apply still_final|].
    + intros i1 ->. apply prefer_np; [exact Hi|exact Hr].
    + intros i1 ->. apply W_V; [apply cut_blame|]. apply pkg_np, Hi.
    + intros i1 [H1 H2]. apply W_V; [apply cut_blame|]. eapply w_weak; [|apply final_np, H1]. intros s Hs i2 E. destruct (Hs i2 E) as (Hn & Hk1 & Hk2). exists (get_path i1). split; [exact Hn|].
      destruct H2 as [H2|[->|[H2|[H2|H2]]]]; [left; exact H2| |exfalso; rewrite (Hkind _ (proj1 Hn)) in H2; discriminate|contradiction..].
      right. rewrite (proj2 Hi) in Hk1, Hk2. apply (AskPath opts (i_path i) (r_target (i_req i)) Hk1 Hk2).
  - intros [r|i1|e i1] Hs; [intros i' E; discriminate| |intros i' E; discriminate]. left. split; [reflexivity|]. exact (Hs i1 eq_refl).
Qed.
(** *** tsconfig *)
Lemma match_star_panic : forall p s m, match_star p s = PPanic m -> m = p_boundary.
Proof.
  intros p s m H. unfold match_star in H. destruct (_ <? _); [discriminate|]. destruct (str_eqb p _); [discriminate|].
  destruct (find_char p c_star) as [[p1 p2]|]; [|discriminate]. cbv zeta in H. destruct (slice_to s _) as [s1|]; [|injection H as <-; reflexivity].
  destruct (negb _); [discriminate|]. destruct (slice_from s _) as [s2|]; [|injection H as <-; reflexivity].
  destruct (negb _); [discriminate|]. destruct (slice s _ _); [discriminate|]. injection H as <-. reflexivity.
Qed.
Lemma parse_good : forall base req, text req -> ~ lone_scope (r_target (parse req)) -> kinded (mkInfo base (parse req)).
Proof.
  intros base req Ha Hl. unfold kinded, good_info, parse in *. cbn [i_req]. destruct (parse_identifier req) as [[t q] f] eqn:E. cbn [r_target r_query r_fragment] in *.
  rewrite <- (parse_identifier_lossless _ _ _ _ E) in Ha. apply ascii_app' in Ha. destruct Ha as [A1 Ha]. apply ascii_app' in Ha. destruct Ha as [A2 A3].
  split; [|reflexivity]. split; [split; [exact A1|exact Hl]|split; assumption].
Qed.
Hypothesis Hdbg : rv_debug R = false.
Lemma strings_fine : forall l, (forall x, In x l -> exists s, x = JStr s) -> fine (all_strings l).
Proof.
  induction l as [|v l IH]; intros H m; cbn [all_strings]; [discriminate|]. destruct (H v (or_introl eq_refl)) as [s ->]. cbn [as_str].
  specialize (IH ltac:(intros x Hx; apply H; right; exact Hx) m). destruct (all_strings l); cbn [pbind] in *; congruence.
Qed.
Lemma entries_fine : forall l acc, (forall k w, In (k, w) l -> text k /\ exists a, w = JArr a /\ forall x, In x a -> exists s, x = JStr s) ->
  Forall (fun kv => text (fst kv)) acc ->
  fine (paths_entries l acc) /\ forall m, paths_entries l acc = PRet m -> Forall (fun kv => text (fst kv)) m.
Proof.
  induction l as [|[k w] l IH]; intros acc H Ha; cbn [paths_entries]; [split; [intros m; discriminate|intros m E; injection E as <-; exact Ha]|].
  destruct (H k w (or_introl eq_refl)) as [Hk (a & -> & Hs)]. cbn [as_array]. pose proof (strings_fine a Hs) as Hf.
  destruct (all_strings a) as [t|m|]; cbn [pbind]; [|exfalso; exact (Hf m eq_refl)|split; [intros m|intros m E]; discriminate].
  apply IH; [intros k' w' Hin; apply H; right; exact Hin|]. clear - Ha Hk. induction Ha as [|[k' v'] acc Hk' Ha IHa]; cbn [imap_insert]; [constructor; [exact Hk|constructor]|].
  destruct (str_eqb k' k); constructor; auto.
Qed.
Lemma jget_member : forall j k v, jget j k = Some v -> member j k v.
Proof. intros [| | | | |l] k v H; try discriminate. exists l. split; [reflexivity|]. apply imap_get_In, H. Qed.
Lemma ts_fine : forall j, ts_shaped j -> fine (ts_of_json j) /\ forall t m, ts_of_json j = PRet t -> ts_paths t = Some m -> Forall (fun kv => text (fst kv)) m.
Proof.
  intros j H. unfold ts_of_json. unfold ts_shaped in H. destruct (jget j (lit "compilerOptions")) as [op|] eqn:Eop; [|split; [intros m; discriminate|intros t m E; injection E as <-; discriminate]].
  destruct (H op (jget_member _ _ _ Eop)) as [Hb Hp]. clear H.
  assert (Hb' : forall v, jget op (lit "baseUrl") = Some v -> exists s, v = JStr s) by (intros v E; apply Hb, jget_member, E).
  assert (Hp' : forall v, jget op (lit "paths") = Some v -> exists l, v = JObj l /\
       forall k w, In (k, w) l -> text k /\ exists a, w = JArr a /\ forall x, In x a -> exists s, x = JStr s) by (intros v E; apply Hp, jget_member, E).
  clear Hb Hp. rename Hb' into Hb. rename Hp' into Hp.
  destruct (jget op (lit "baseUrl")) as [v|]; [destruct (Hb v eq_refl) as [s ->]|]; cbn [as_str pbind];
  (destruct (jget op (lit "paths")) as [w|]; [destruct (Hp w eq_refl) as (l & -> & Hl); cbn [as_object]; destruct (entries_fine l [] Hl (Forall_nil _)) as [Hf Hq];
    destruct (paths_entries l []) as [m'|m'|]; cbn [pbind]; [|exfalso; exact (Hf m' eq_refl)|]|cbn [pbind]];
   (split; [intros m; discriminate|intros t m E Em; try discriminate; injection E as <-; cbn in Em; try discriminate; injection Em as <-; auto])).
Qed.
(** Merging keeps the shape. *)
Lemma merge_cases : forall x y, merge x y = x \/ (x = JNull /\ merge x y = y) \/ exists la lb, x = JObj la /\ y = JObj lb.
Proof. intros [] []; cbn [merge]; auto. right. right. eauto. Qed.
Definition merge_into : list (str * json) -> list (str * json) -> list (str * json) :=
  fix go (lb la : list (str * json)) : list (str * json) :=
    match lb with
    | [] => la
    | (k, v) :: r => let cur := match imap_get la k with Some x => x | None => JNull end in go r (imap_insert la k (merge cur v))
    end.
Lemma merge_objects : forall la lb, merge (JObj la) (JObj lb) = JObj (merge_into lb la).
Proof. reflexivity. Qed.
Lemma insert_in {A} : forall (l : imap A) k v k' v', In (k', v') (imap_insert l k v) -> (k' = k /\ v' = v) \/ In (k', v') l.
Proof.
  induction l as [|[k0 v0] l IH]; intros k v k' v' H; cbn [imap_insert] in H.
  - destruct H as [E|[]]. injection E as <- <-. auto.
  - destruct (str_eqb k0 k) eqn:E0.
    + destruct H as [E|H]; [|right; right; exact H]. apply str_eqb_eq in E0. injection E as <- <-. left. auto.
    + destruct H as [E|H]; [right; left; exact E|]. destruct (IH _ _ _ _ H) as [H'|H']; [left; exact H'|right; right; exact H'].
Qed.
Lemma merge_all : forall (P : str -> json -> Prop) lb la, (forall k v, In (k, v) la -> P k v) ->
  (forall k y, In (k, y) lb -> P k y) -> (forall k x y, P k x -> P k y -> P k (merge x y)) ->
  forall k v, In (k, v) (merge_into lb la) -> P k v.
Proof.
  intros P. induction lb as [|[k0 y0] lb IH]; intros la Ha Hb Hm; cbn [merge_into]; [exact Ha|]. cbv zeta. apply IH; [|intros k y Hin; apply Hb; right; exact Hin|exact Hm].
  intros k v Hin. destruct (insert_in _ _ _ _ _ Hin) as [[-> ->]|H]; [|apply Ha, H]. destruct (imap_get la k0) as [x|] eqn:E.
  - apply Hm; [apply Ha, imap_get_In, E|apply Hb; left; reflexivity].
  - destruct (merge_cases JNull y0) as [H|[[_ H]|(la' & lb' & H & _)]]; [|rewrite H; apply Hb; left; reflexivity|discriminate].
    replace (merge JNull y0) with y0 by (destruct y0; reflexivity). apply Hb. left. reflexivity.
Qed.
Lemma cml_np : forall loc t, parent loc <> None -> (forall m, ts_paths t = Some m -> Forall (fun kv => text (fst kv)) m) ->
  W (Forall (fun kv : str * list path => text (fst kv))) (create_match_list loc t).
Proof.
  intros loc t Hp Hm. unfold create_match_list. destruct (parent loc) as [d|]; [|congruence]. destruct (ts_base t) as [b|]; [|constructor]. cbv zeta.
  destruct (ts_paths t) as [m|]; [|constructor]. cbn [act bind]. intros seed _. cbn [wx np]. specialize (Hm m eq_refl). rewrite Forall_forall in *.
  intros kv Hin. apply in_map_iff in Hin. destruct Hin as (x & <- & Hx). cbn [fst]. apply Hm. eapply Permutation_in; [|exact Hx]. apply permute_perm.
Qed.
Definition blame_ts (base : path) (t : str) (m : str) : Prop := m = p_unreachable /\ (exists d, main_missing fs R base t d) \/ cut m.
Lemma cut_blame_ts : forall base t m, cut m -> blame_ts base t m.
Proof. intros base t m H. right. exact H. Qed.
Notation U base t P := (wx ok (np (blame_ts base t) P)).
Lemma V_U {A} : forall base t (P : A -> Prop) p, V base t P p -> U base t P p.
Proof.
  intros base t P p. apply wx_mono. intros r. apply np_mono; [|auto]. intros m [(E & d & [Hd Hn] & Ha)|H]; [left|right; exact H]. split; [exact E|]. exists d. split; [exact Hd|]. tauto.
Qed.
Lemma V_ts {A} : forall base t p0 t0 (P : A -> Prop) p, o_tsconfig opts <> None ->
  (t0 = [] \/ exists loc e, extends_text fs R loc e /\ parent loc = Some p0 /\ t0 = r_target (parse e)) -> V p0 t0 P p -> U base t P p.
Proof.
  intros base t p0 t0 P p Ht Ht0. apply wx_mono. intros r. apply np_mono; [|auto]. intros m [(E & d & [Hd Hn] & Ha)|H]; [left|right; exact H]. split; [exact E|]. exists d. split; [exact Hd|].
  destruct Hn as [Hn|Hn]; [left; exact Hn|]. destruct Ha as [Ha|Ha]; [left; exact Ha|right]. split; [exact Hn|right; eauto].
Qed.
Lemma empty_good : forall p, kinded (mkInfo p empty_request).
Proof. intros p. split; [|reflexivity]. split; [|split; constructor]. split; [constructor|]. intros (x & E & _). discriminate. Qed.
Lemma tpl_np : forall base t fuel star l, o_tsconfig opts <> None -> U base t (fun r => forall s, r = Some s -> still (fun _ => False) s) (ts_paths_loop R load fuel star l).
Proof.
  intros base t fuel star l Ht. induction l as [|p l IH]; cbn [ts_paths_loop]; [intros s E; discriminate|]. cbv zeta.
  eapply w_bind; [eapply (V_ts _ _ _ []); [exact Ht|left; reflexivity|]; exact (res_np fuel _ (empty_good (replace_char p c_star star)))|].
  intros s Hs. destruct (is_success s); [|exact IH]. intros s' E. injection E as <-. exact Hs.
Qed.
Lemma tel_np : forall fuel i l, o_tsconfig opts <> None -> kinded i -> Forall (fun kv : str * list path => text (fst kv)) l ->
  U (i_path i) (r_target (i_req i)) (still (fun _ => False)) (ts_entries_loop R load fuel i l).
Proof.
  intros fuel i l Ht Hi. induction 1 as [|[pat ps] l Hp Hl IH]; cbn [ts_entries_loop]; [apply V_U, res_np, Hi|].
  apply (w_bind _ _ (fun _ => True)).
  - destruct (str_eqb pat _); [exact I|].
    pose proof (fun E => match_star_ascii pat (r_target (i_req i)) (text_ascii _ Hp E) (text_ascii _ (proj1 (proj1 (proj1 Hi))) E)) as Hm.
    destruct (match_star pat _) as [r|m|] eqn:Er; cbn [lift wx np]; [exact I| |exact I]. right.
    split; [exact (match_star_panic _ _ _ Er)|]. destruct ascii; [|reflexivity]. destruct (Hm eq_refl) as [r Hr]. discriminate.
  - intros [star|] _; [|exact IH]. eapply w_bind; [apply tpl_np, Ht|]. intros [s|] Hs; [exact (Hs s eq_refl)|exact IH].
Qed.
Lemma merge_keeps : forall (S : json -> Prop) (P : str -> json -> Prop), (forall x, S x <-> forall k v, member x k v -> P k v) ->
  (forall k x y, P k x -> P k y -> P k (merge x y)) -> forall x y, S x -> S y -> S (merge x y).
Proof.
  intros S P HS HP x y Hx Hy. destruct (merge_cases x y) as [->|[[_ ->]|(la & lb & -> & ->)]]; [exact Hx|exact Hy|].
  apply HS. rewrite merge_objects. intros k v (l & E & Hin). injection E as <-. revert k v Hin. apply merge_all; [| |exact HP].
  - intros k v Hin. apply (proj1 (HS _) Hx). exists la. auto.
  - intros k v Hin. apply (proj1 (HS _) Hy). exists lb. auto.
Qed.
Definition entry_shaped (k : str) (w : json) : Prop := text k /\ exists a, w = JArr a /\ forall x, In x a -> exists s, x = JStr s.
Definition paths_shaped (v : json) : Prop := exists l, v = JObj l /\ forall k w, In (k, w) l -> entry_shaped k w.
Definition options_member (k : str) (v : json) : Prop := (k = lit "baseUrl" -> exists s, v = JStr s) /\ (k = lit "paths" -> paths_shaped v).
Lemma merge_shaped : forall a b, ts_shaped a -> ts_shaped b -> ts_shaped (merge a b).
Proof.
  apply (merge_keeps ts_shaped (fun k v => k = lit "compilerOptions" -> forall k' v', member v k' v' -> options_member k' v')).
  { intros x. unfold ts_shaped. split.
    - intros H k v Hm -> k' v' Hm'. destruct (H v Hm) as [H1 H2]. split; intros ->; [apply H1, Hm'|apply H2, Hm'].
    - intros H opts0 Hm. pose proof (H _ _ Hm eq_refl) as H'. split; intros v Hv; [apply (H' _ _ Hv); reflexivity|apply (H' _ _ Hv); reflexivity]. }
  intros k x y Hx Hy E. specialize (Hx E). specialize (Hy E). clear k E. revert x y Hx Hy.
  apply (merge_keeps (fun x => forall k' v', member x k' v' -> options_member k' v') options_member); [reflexivity|].
  intros k x y [Hx1 Hx2] [Hy1 Hy2]. split; intros Ek.
  - destruct (Hx1 Ek) as [s ->]. exists s. destruct y; reflexivity.
  - destruct (Hx2 Ek) as (la & -> & Ha). destruct (Hy2 Ek) as (lb & -> & Hb). rewrite merge_objects. eexists. split; [reflexivity|].
    apply merge_all; [exact Ha|exact Hb|]. intros k' x y [H1 (a & -> & H2)] _. split; [exact H1|]. exists a. split; [destruct y; reflexivity|exact H2].
Qed.
Variable fl : nat.
Hypothesis Hfl : load = load_pkg_file R fl.
Lemma okp_disk : forall o x, ok o x -> disk_answer fs o x.
Proof. intros [] x H; cbn in *; auto. Qed.
Lemma pfv_np : forall base t loc0 T, ts_files fs R loc0 T -> o_tsconfig opts <> None -> forall fuel loc, T loc ->
  U base t (fun r => forall j, r = Ok j -> parent loc <> None /\ ts_shaped j) (parse_file_to_value R load fuel loc).
Proof.
  intros base t loc0 T HT Ht fuel. induction fuel as [|f IH]; intros loc Hl; cbn [parse_file_to_value]; [exact I|]. cbn [act bind]. intros c Hc. cbn [okp] in Hc. subst c.
  destruct (f_read fs loc) as [s|] eqn:Er; [|intros j E; discriminate].
  assert (Hp : parent loc <> None) by (apply (tf_parent _ _ _ _ _ HT loc Hl); congruence).
  pose proof (tf_content _ _ _ _ _ HT loc s Hl Er) as Hn. destruct (rv_jsonc R s) as [e| |j] eqn:Ej; [intros j E; discriminate|congruence|].
  pose proof (tf_shaped _ _ _ _ _ HT loc s j Hl Er Ej) as Hs.
  assert (G : U base t (fun r => forall j0, r = Ok j0 -> parent loc <> None /\ ts_shaped j0) (Ret (Ok j))) by (intros j0 E; injection E as <-; split; assumption).
  destruct (jget j (lit "extends")) as [[| | |e| |]|] eqn:Ee; try exact G.
  assert (He : extends_text fs R loc e) by (exists s, j; auto). destruct (tf_text _ _ _ _ _ HT loc e Hl He) as [He1 He2].
  destruct (parent loc) as [dir|] eqn:Ep; [|congruence].
  apply (w_bind _ _ (fun st => forall i, st = Success (RInfo i) -> T (get_path i))).
  - eapply wx_mono; [|apply wx_and; [apply (V_ts base t dir (r_target (parse e))); [exact Ht|right; exists loc, e; auto|exact (res_np (S f) (mkInfo dir (parse e)) (parse_good dir e He1 He2))]|
      exact (wx_may_give _ _ okp_disk (resolve_ R load (S f) (mkInfo dir (parse e))))]].
    intros [st|m|] [H1 H2]; cbn [np] in *; auto. intros i ->. apply (tf_next _ _ _ _ _ HT loc); [exact Hl|].
    exists e, dir, (rv_cache R), (rv_id R), fl, (S f), i. split; [exact He|]. split; [exact Ep|]. cbv zeta. rewrite moved_self, <- Hfl. split; [exact H2|reflexivity].
  - intros [[i|]|i|x i] Hst; try exact G; [|intros j0 E; discriminate]. unfold try_.
    eapply w_bind; [apply (IH (get_path i)); apply Hst; reflexivity|]. intros [b|x] Hb; [|intros j0 E; discriminate].
    intros j0 E. injection E as <-. split; [exact Hp|]. apply merge_shaped; [exact Hs|]. apply (Hb b eq_refl).
Qed.
Lemma rts_np : forall fuel i loc, tsconfig_tidy fs R -> o_tsconfig opts = Some loc -> kinded i -> U (i_path i) (r_target (i_req i)) (still (fun _ => False)) (resolve_with_tsconfig R load fuel i loc).
Proof.
  intros fuel i loc Ht Eo Hi. destruct (Ht loc Eo) as [T HT]. unfold resolve_with_tsconfig.
  eapply w_bind; [apply (pfv_np _ _ loc T HT); [congruence|apply (tf_start _ _ _ _ _ HT)]|].
  intros [j|e] Hj; [|intros i' E; discriminate]. destruct (Hj j eq_refl) as [Hp Hs]. destruct (ts_fine j Hs) as [Hf Hm].
  eapply w_bind; [apply w_lift; [exact Hf|intros t Et; exact Et]|]. intros t Et. cbn beta in Et. eapply w_bind; [apply W_V; [apply cut_blame_ts|apply cml_np]; [exact Hp|intros m; apply Hm, Et]|].
  intros l Hl. apply tel_np; [congruence|assumption|assumption].
Qed.
Lemma norm_np : forall r, W (fun _ => True) (normalize_result R r).
Proof.
  intros [i|]; unfold normalize_result; [|exact I]. rewrite Hdbg. cbn [andb]. unfold try_. apply (w_bind _ _ (fun _ => True)).
  - unfold normalize_path. destruct (o_symlinks opts); [|exact I]. cbn [act bind]. intros [q|] _; exact I.
  - intros [p|e] _; exact I.
Qed.
Lemma with_np : forall fuel base req, tsconfig_tidy fs R -> kinded (mkInfo base (parse req)) -> U base (r_target (parse req)) (fun _ => True) (resolve_with R load fuel base req).
Proof.
  intros fuel base req Ht Hi. unfold resolve_with. cbv zeta. apply (w_bind _ _ (still (fun _ => False))).
  - destruct (o_tsconfig opts) as [loc|] eqn:E; [exact (rts_np fuel _ loc Ht E Hi)|exact (V_U _ _ _ _ (res_np fuel _ Hi))].
  - intros [r|i|e i] Hs; [apply W_V; [apply cut_blame_ts|apply norm_np]|destruct (Hs i eq_refl)|exact I].
Qed.
End Res.
End Ascii.
