(** * The resolver without tables follows the reference of SpecFull.v. *)
From Coq Require Import String.
From Coq Require Import List Arith NArith Bool Lia.
From Verif Require Import Str StrP Path PathP Json Types Parse ParseP Map FieldP Prog Desc Resolve Top Run Exec ExecP ApiP Posix FuelP RunP SpecRun SpecMap SpecParse SpecExports SpecLoad SpecCache SpecNode SpecWorld SpecFull TsP LookupP LookupTopP CheckP PropMapP PosixP SpellP SimP LoadP CacheP ExportsP PanicP NodeP.
Import ListNotations.

Ltac wd := cbn [standing w_file w_dir w_exists w_read w_mtime w_canon] in *.
Section Full.
Variables (fs : fsys) (R : resolver).
Notation opts := (rv_opts R).
Notation ev := (ev_fs fs).
Notation LL := (L fs R).
Notation HD := (fresh fs R).

(** ** Outcomes *)
Definition moved (y : move) (o : outcome stats) : Prop :=
  match y with
  | Moves d r => o = Done (Resolving (mkInfo d r))
  | Stops e => exists i, o = Done (SError e i)
  | Drops => o = Done (Success RIgnored)
  | Falls => exists m, o = Panicked m
  end.
Definition tells (a : fate) (o : outcome stats) : Prop :=
  match a with
  | Finds q qu fr => o = Done (Success (RInfo (mkInfo q (mkReq [] qu fr Relative))))
  | Skips => o = Done (Success RIgnored)
  | Fails e => exists i, o = Done (SError e i)
  | Crashes => exists m, o = Panicked m
  end.
(** Soundness of an outcome: a bound was hit, or the relation has what is shown. *)
Definition sound {A B} (P : A -> Prop) (S : A -> outcome B -> Prop) (o : outcome B) : Prop := o = NoFuel \/ exists y, P y /\ S y o.
Lemma sound_imp {A B} : forall (P Q : A -> Prop) (S : A -> outcome B -> Prop) o, (forall y, P y -> Q y) -> sound P S o -> sound Q S o.
Proof. intros P Q S o H [E|(y & Hy & Hs)]; [left; exact E|right; eauto]. Qed.
Lemma and_then_complete : forall (Q : path -> request -> move -> Prop) p f y z, after Q y z -> moved y (ev p) ->
  (forall d r, y = Moves d r -> Q d r z -> moved z (ev (f (mkInfo d r)))) -> moved z (ev (and_then p f)).
Proof.
  intros Q p f y z H Hy Hf. rewrite ev_and_then. destruct H as [d r y H|e| |]; cbn [moved] in Hy.
  - rewrite Hy. apply Hf; [reflexivity|exact H].
  - destruct Hy as [i ->]. exists i. reflexivity.
  - rewrite Hy. reflexivity.
  - destruct Hy as [m ->]. exists m. reflexivity.
Qed.
Lemma halted_tells : forall z a o, halted z a -> moved z o -> tells a o.
Proof. intros z a o H. destruct H; exact (fun x => x). Qed.
Lemma halted_dec : forall z, (exists d r, z = Moves d r) \/ exists a, halted z a.
Proof. intros [d r|e| |]; [left; eauto|right..]; eexists; constructor. Qed.

(** ** The browser field *)
Lemma key_dec : forall dir i k, browser_key opts dir i k \/ ~ browser_key opts dir i k.
Proof.
  intros dir i k. destruct (should_deal_alias R (mkPkg dir None None [] None None None JNull) i k) eqn:E.
  - left. apply should_deal_spec in E. exact E.
  - right. intros H. change dir with (p_dir (mkPkg dir None None [] None None None JNull)) in H. apply should_deal_spec in H. congruence.
Qed.
Lemma first_key : forall dir i (l : list (str * alias_map)), (forall k v, In (k, v) l -> ~ browser_key opts dir i k) \/
  exists l1 k v l2, l = l1 ++ (k, v) :: l2 /\ (forall k' v', In (k', v') l1 -> ~ browser_key opts dir i k') /\ browser_key opts dir i k.
Proof.
  intros dir i l. induction l as [|[k v] l IH]; [left; intros ? ? []|]. destruct (key_dec dir i k) as [H|H].
  - right. exists [], k, v, l. split; [reflexivity|]. split; [intros ? ? []|exact H].
  - destruct IH as [IH|(l1 & k1 & v1 & l2 & -> & H1 & H2)].
    + left. intros k' v' [E|Hin]; [injection E as -> ->; exact H|eapply IH, Hin].
    + right. exists ((k, v) :: l1), k1, v1, l2. split; [reflexivity|]. split; [|exact H2]. intros k' v' [E|Hin]; [injection E as -> ->; exact H|eapply H1, Hin].
Qed.
Lemma swapped_sound : forall fu opk d r, sound (swapped R opk d r) moved (ev (alias_field_apply R fu opk (mkInfo d r))).
Proof.
  intros fu opk d r.
  assert (Hs : browser_silent opts opk (mkInfo d r) -> sound (swapped R opk d r) moved (ev (alias_field_apply R fu opk (mkInfo d r)))).
  { intros H. rewrite (alias_field_silent R fu opk _ H). right. exists (Moves d r). split; [apply SwSilent, H|reflexivity]. }
  destruct (o_browser opts) eqn:Eb; [|apply Hs; left; exact Eb]. destruct opk as [pk|]; [|apply Hs; right; discriminate].
  destruct (first_key (p_dir pk) (mkInfo d r) (p_alias pk)) as [H|(l1 & k & v & l2 & El & H1 & H2)].
  { apply Hs. right. intros pk0 k v E. injection E as <-. apply H. }
  clear Hs. unfold alias_field_apply. rewrite Eb. cbn [negb]. rewrite El. rewrite (alias_field_loop_first R fu pk (mkInfo d r) l1 k v l2 H1 H2).
  destruct (chase fu v (p_alias pk)) as [[c|]|m|] eqn:Ec; cbn [lift bind ev_fs].
  - right. exists (Moves (p_dir pk) (req_with_target r c)). split; [|reflexivity]. eapply SwTo; try eassumption; [reflexivity|]. eapply chase_sound, Ec.
  - right. exists Drops. split; [|reflexivity]. eapply SwDrop; try eassumption; [reflexivity|]. eapply chase_sound, Ec.
  - destruct (chase_fine fu v (p_alias pk) m Ec).
  - left. reflexivity.
Qed.
Lemma swapped_complete : forall opk d r y, swapped R opk d r y -> exists N, forall fu, N <= fu -> moved y (ev (alias_field_apply R fu opk (mkInfo d r))).
Proof.
  intros opk d r y H. destruct H as [H|pk l1 k v l2 c Hb -> El H1 H2 Hc|pk l1 k v l2 Hb -> El H1 H2 Hc].
  - exists 0. intros fu _. rewrite (alias_field_silent R fu opk _ H). reflexivity.
  - destruct (chase_complete _ _ _ Hc) as [N HN]. exists N. intros fu Hf. unfold alias_field_apply. rewrite Hb. cbn [negb]. rewrite El at 1.
    rewrite (alias_field_loop_first R fu pk (mkInfo d r) l1 k v l2 H1 H2), (HN fu Hf). reflexivity.
  - destruct (chase_complete _ _ _ Hc) as [N HN]. exists N. intros fu Hf. unfold alias_field_apply. rewrite Hb. cbn [negb]. rewrite El at 1.
    rewrite (alias_field_loop_first R fu pk (mkInfo d r) l1 k v l2 H1 H2), (HN fu Hf). reflexivity.
Qed.

(** ** Exports *)
Lemma ruled_dec : forall opk t, (exists pk tree, governed opk t pk tree) \/ (forall pk tree, ~ governed opk t pk tree).
Proof.
  intros [pk|] t; [|right; intros pk tree (H & _); discriminate].
  destruct (p_exports pk) as [tree|] eqn:E.
  - destruct (contains (p_dir pk) MODULE) eqn:Ec; [left; exists pk, tree; repeat split; auto|].
    destruct (is_resolve_self pk (mkInfo [] (mkReq t [] [] Normal))) eqn:Es.
    + left. exists pk, tree. repeat split; auto. right. apply (own_spec (Some pk) [] (mkReq t [] [] Normal)). exact Es.
    + right. intros pk' tree' (H1 & H2 & [H3|H3]); [congruence|]. apply (own_spec (Some pk) [] (mkReq t [] [] Normal)) in H3. congruence.
  - right. intros pk' tree' (H1 & H2 & _). congruence.
Qed.
Lemma unfit_usable : forall pk l, Forall (unfit (standing fs) pk) l -> Forall (fun c => ~ usable fs pk c) l.
Proof. intros pk l. apply Forall_impl. intros c [Hc|Hc] [H1 H2]; cbn [standing w_file] in Hc; congruence. Qed.
Lemma fit_usable : forall pk l c, first_fit (standing fs) pk l c -> first_usable fs pk l c.
Proof. intros pk l c (l1 & l2 & H1 & H2 & H3). exists l1, l2. split; [exact H1|]. split; [apply unfit_usable, H2|exact H3]. Qed.
Lemma exported_complete : forall d r opk y, r_kind r = Normal -> exported (standing fs) R d r opk y -> moved y (ev (exports_apply R opk (mkInfo (join d MODULE) r))).
Proof.
  intros d r opk y Hn H. destruct H as [Hg|pk tree Hg H1 H2|pk tree n Hg Hbp H1 H2|pk tree u e Hg Ha Hc|pk tree u l Hg Ha Hc Hl|pk tree u l c Hg Ha Hc Hl].
  - rewrite (not_governed_apply R r Hn opk (mkInfo (join d MODULE) r) eq_refl Hg). reflexivity.
  - rewrite (governed_ev fs R r Hn opk pk tree d Hg). destruct (subpath_panics fs r pk (join d MODULE) H1 H2) as [m Em]. rewrite Em. exists m. reflexivity.
  - rewrite (governed_ev fs R r Hn opk pk tree d Hg), (subpath_ev fs r pk (join d MODULE) n _ Hbp), H1. cbn [orb].
    assert (E : opt_str_eqb (p_name pk) n = false).
    { destruct (p_name pk) as [y|]; [|reflexivity]. cbn. apply str_eqb_neq. congruence. }
    rewrite E. eexists. reflexivity.
  - rewrite (governed_ev fs R r Hn opk pk tree d Hg), (asks_ev fs r pk d u Ha). unfold chooses in Hc. rewrite Hc. eexists. reflexivity.
  - rewrite (governed_ev fs R r Hn opk pk tree d Hg), (asks_ev fs r pk d u Ha). unfold chooses in Hc. rewrite Hc. cbn [lift bind].
    rewrite (loop_none_ev fs pk _ l (unfit_usable pk l Hl)). eexists. reflexivity.
  - rewrite (governed_ev fs R r Hn opk pk tree d Hg), (asks_ev fs r pk d u Ha). unfold chooses in Hc. rewrite Hc. cbn [lift bind].
    rewrite (loop_first_ev fs pk _ l c (fit_usable pk l c Hl)). reflexivity.
Qed.

(** ** Imports *)
Lemma checked_complete : forall d r t y, checked (standing fs) t d r y -> moved y (ev (imports_check (mkInfo d r) t)).
Proof.
  intros d r t y H. unfold imports_check. cbn [act bind ev_fs fs_ans i_req]. destruct H as [H1 H2|H]; wd.
  - rewrite H1, H2. reflexivity.
  - destruct (f_file fs (get_path (mkInfo d r))) eqn:E; [|eexists; reflexivity]. destruct H as [H|H]; [discriminate|]. rewrite H. eexists. reflexivity.
Qed.
Definition after_package (f : nat) (pk : pkg) (c : str) (t : str) (opk' : option pkg) : prog stats :=
  and_then (and_then (and_then (exports_apply R opk' (mkInfo (join (p_dir pk) MODULE) (parse c))) (imports_apply R LL f opk'))
    (alias_field_apply R (S f) opk')) (fun i2 => imports_check i2 t).
Definition after_item (f : nat) (pk : pkg) (c : str) (t : str) : outcome stats :=
  match r_kind (parse c) with
  | Normal =>
      match lookup_desc fs (rv_json R) (o_desc opts) (item_place pk c) with
      | PRet (Err e) => Done (SError e (mkInfo (join (p_dir pk) MODULE) (parse c)))
      | PRet (Ok opk') =>
          match opk' with
          | Some pk' => if negb (contains (p_dir pk') MODULE) then Done (Resolving (mkInfo (join (p_dir pk) MODULE) (parse c))) else ev (after_package f pk c t opk')
          | None => ev (after_package f pk c t None)
          end
      | PPanic m => Panicked m
      | PFuel => NoFuel
      end
  | Internal => ev (imports_apply R LL f (Some pk) (mkInfo (p_dir pk) (parse c)))
  | _ => ev (imports_check (mkInfo (p_dir pk) (parse c)) t)
  end.
Lemma imports_ev : forall f pk tree d r, starts_with_char (r_target r) c_hash = true -> p_imports pk = Some tree ->
  ev (imports_apply R LL (S f) (Some pk) (mkInfo d r)) =
  match field_process FImports tree (r_target r) (o_conditions opts) with
  | PRet (Err e) => Done (SError e (mkInfo d r))
  | PRet (Ok []) => Done (SError (not_exported (r_target r)) (mkInfo d r))
  | PRet (Ok (c :: _)) => after_item f pk c (r_target r)
  | PPanic m => Panicked m
  | PFuel => NoFuel
  end.
Proof.
  intros f pk tree d r Hh Ht. cbn [imports_apply i_req]. rewrite Hh, Ht. cbn [negb]. rewrite ev_bind.
  destruct (field_process FImports tree (r_target r) (o_conditions opts)) as [[[|c l]|e]|m|]; cbn [lift ev_fs]; try reflexivity.
  unfold after_item. destruct (r_kind (parse c)) eqn:Ek; try reflexivity.
  change (get_path (mkInfo (join (p_dir pk) MODULE) (parse c))) with (item_place pk c).
  unfold L at 1. destruct (lookup_desc fs (rv_json R) (o_desc opts) _) as [[[pk'|]|e]|m|]; cbn [lift bind ev_fs]; try reflexivity.
  destruct (negb (contains (p_dir pk') MODULE)); reflexivity.
Qed.
Lemma item_ev : forall f pk d r c, first_item R pk r c -> ev (imports_apply R LL (S f) (Some pk) (mkInfo d r)) = after_item f pk c (r_target r).
Proof. intros f pk d r c (Hh & tree & l & Ht & Hs). rewrite (imports_ev f pk tree d r Hh Ht), Hs. reflexivity. Qed.
Lemma moved_halts : forall y p (f : info -> prog stats), halts y -> moved y (ev p) -> moved y (ev (and_then p f)).
Proof. intros [d r|e| |] p f Hh H; rewrite ev_and_then; cbn [moved] in *; [destruct (Hh d r eq_refl)|destruct H as [i ->]; eauto|rewrite H; reflexivity|destruct H as [m ->]; eauto]. Qed.
Lemma imported_complete : forall opk d r y, imported (standing fs) R HD opk d r y -> exists N, forall f, N <= f -> moved y (ev (imports_apply R LL f opk (mkInfo d r))).
Proof.
  intros opk d r y H. induction H as [opk d r Hh|opk d r Hn|pk tree d r e Hh Ht Hs|pk tree d r Hh Ht Hs|pk d r c x Hi Hc Hx
    |pk d r c x Hi Hc Hx IH|pk d r c e Hi Hc Hd|pk d r c Hi Hc Hd|pk d r c pk' Hi Hc Hd Hm
    |pk d r c opk' x Hi Hc Hd Hm Hx Hh|pk d r c opk' d1 r1 y z x Hi Hc Hd Hm Hx Hy IH Hz Hck].
  - exists 1. intros [|f] Hf; [lia|]. rewrite imports_not_hash by exact Hh. reflexivity.
  - exists 1. intros [|f] Hf; [lia|]. cbn [imports_apply]. destruct opk as [pk|]; [|reflexivity].
    destruct (negb _); [reflexivity|]. destruct (p_imports pk) as [tree|] eqn:E; [destruct (Hn pk tree eq_refl E)|reflexivity].
  - exists 1. intros [|f] Hf; [lia|]. unfold selects in Hs. rewrite (imports_ev f pk tree d r Hh Ht), Hs. eexists. reflexivity.
  - exists 1. intros [|f] Hf; [lia|]. unfold selects in Hs. rewrite (imports_ev f pk tree d r Hh Ht), Hs. eexists. reflexivity.
  - exists 1. intros [|f] Hf; [lia|]. rewrite (item_ev f pk d r c Hi). unfold after_item.
    pose proof (checked_complete _ _ _ _ Hx) as Hm. destruct Hc as [-> |[-> | ->]]; exact Hm.
  - destruct IH as [N HN]. exists (S N). intros [|f] Hf; [lia|]. rewrite (item_ev f pk d r c Hi). unfold after_item. rewrite Hc. apply HN. lia.
  - exists 1. intros [|f] Hf; [lia|]. rewrite (item_ev f pk d r c Hi). unfold after_item. cbn [fresh] in Hd; unfold bad_desc in Hd. rewrite Hc, Hd. eexists. reflexivity.
  - destruct Hd as [m Hd]. exists 1. intros [|f] Hf; [lia|]. rewrite (item_ev f pk d r c Hi). unfold after_item. rewrite Hc, Hd. eexists. reflexivity.
  - exists 1. intros [|f] Hf; [lia|]. rewrite (item_ev f pk d r c Hi). unfold after_item. cbn [fresh] in Hd; unfold has_desc in Hd. rewrite Hc, Hd, Hm. reflexivity.
  - exists 1. intros [|f] Hf; [lia|]. rewrite (item_ev f pk d r c Hi). unfold after_item. cbn [fresh] in Hd; unfold has_desc in Hd. rewrite Hc, Hd.
    assert (E : moved x (ev (after_package f pk c (r_target r) opk'))).
    { unfold after_package. do 3 (apply moved_halts; [exact Hh|]). apply exported_complete; assumption. }
    destruct opk' as [pk'|]; [rewrite (Hm pk' eq_refl)|]; exact E.
  - destruct IH as [N HN].
    assert (Hz' : exists N', forall f, N' <= f -> forall d2 r2, y = Moves d2 r2 -> moved z (ev (alias_field_apply R f opk' (mkInfo d2 r2)))).
    { destruct Hz as [d2 r2 z Hz|e| |]; [|exists 0; discriminate..]. destruct (swapped_complete _ _ _ _ Hz) as [N' HN']. exists N'. intros f Hf d3 r3 E. injection E as <- <-. apply HN', Hf. }
    destruct Hz' as [N' HN']. exists (S (N + N')). intros [|f] Hf; [lia|]. rewrite (item_ev f pk d r c Hi). unfold after_item. cbn [fresh] in Hd; unfold has_desc in Hd. rewrite Hc, Hd.
    assert (E : moved x (ev (after_package f pk c (r_target r) opk'))).
    { unfold after_package. eapply and_then_complete; [exact Hck| |intros d0 r0 _ H; apply checked_complete, H].
      eapply and_then_complete; [exact Hz| |intros d0 r0 E _; apply HN'; [lia|exact E]].
      rewrite ev_and_then. pose proof (exported_complete _ _ _ _ Hc Hx) as Hx'. cbn [moved] in Hx'. rewrite Hx'. apply HN. lia. }
    destruct opk' as [pk'|]; [rewrite (Hm pk' eq_refl)|]; exact E.
Qed.
Lemma after_complete : forall (Q : path -> request -> move -> Prop) (g : nat -> info -> prog stats),
  (forall d r z, Q d r z -> exists N, forall f, N <= f -> moved z (ev (g f (mkInfo d r)))) ->
  forall y z, after Q y z -> exists N, forall f, N <= f -> forall d r, y = Moves d r -> moved z (ev (g f (mkInfo d r))).
Proof.
  intros Q g Hg y z H. destruct H as [d r z H|e| |]; [|exists 0; discriminate..]. destruct (Hg _ _ _ H) as [N HN].
  exists N. intros f Hf d0 r0 E. injection E as <- <-. apply HN, Hf.
Qed.

(** ** Directories *)
Definition stood (i : info) (x : option fate) (o : outcome stats) : Prop :=
  match x with Some a => tells a o /\ (forall e, a <> Fails e) | None => o = Done (Resolving i) end.
Lemma stood_and_then : forall a i p f, stood i (Some a) (ev p) -> stood i (Some a) (ev (and_then p f)).
Proof.
  intros a i p f [H Hn]. split; [|exact Hn]. rewrite ev_and_then. destruct a as [q qu fr| |e|]; cbn [tells] in *; [rewrite H; reflexivity|rewrite H; reflexivity|destruct (Hn e eq_refl)|destruct H as [m ->]; eauto].
Qed.
Lemma index_step : forall fu opk pos r f, ev (and_then (and_then (and_then (exports_apply R opk (with_target (mkInfo pos r) (lit "./" ++ f)))
    (imports_apply R LL (S fu) opk)) (alias_field_apply R (S fu) opk)) (resolve_as_file R)) =
  ev (and_then (alias_field_apply R (S fu) opk (mkInfo pos (req_with_target r (lit "./" ++ f)))) (resolve_as_file R)).
Proof.
  intros fu opk pos r f.
  assert (E1 : exports_apply R opk (with_target (mkInfo pos r) (lit "./" ++ f)) = Ret (Resolving (with_target (mkInfo pos r) (lit "./" ++ f)))).
  { destruct opk; [|reflexivity]. unfold exports_apply, with_target, req_with_target. cbn [i_req r_kind]. rewrite kind_dot. reflexivity. }
  rewrite E1. cbn [and_then bind]. rewrite imports_not_hash by reflexivity. reflexivity.
Qed.
Lemma file_at_ev : forall d r q, file_at fs R (get_path (mkInfo d r)) q ->
  ev (resolve_as_file R (mkInfo d r)) = Done (Success (RInfo (mkInfo q (mkReq [] (r_query r) (r_fragment r) Relative)))).
Proof. intros d r q H. apply pick_some in H. rewrite as_file_ev, H. reflexivity. Qed.
Lemma no_file_ev : forall d r, no_file_at fs R (get_path (mkInfo d r)) -> ev (resolve_as_file R (mkInfo d r)) = Done (Resolving (mkInfo d r)).
Proof. intros d r H. apply pick_none in H. rewrite as_file_ev, H. reflexivity. Qed.
Lemma file_dec : forall p, (exists q, file_at fs R p q) \/ no_file_at fs R p.
Proof. intros p. destruct (pick fs (file_candidates opts p)) as [q|] eqn:E; [left; exists q; apply pick_some, E|right; apply pick_none, E]. Qed.
Lemma indexes_complete : forall opk pos r files x, indexes (standing fs) R opk pos r files x -> exists N, forall fu i, N <= fu ->
  stood i x (ev (main_file_loop R LL (S fu) opk i files (mkInfo pos r))).
Proof.
  intros opk pos r files x H. induction H as [pos r|pos r f l Hs|pos r f l d1 r1 q Hs Hq|pos r f l d1 r1 x Hs Hq Hx [N IH]].
  - exists 0. intros fu i _. reflexivity.
  - destruct (swapped_complete _ _ _ _ Hs) as [N HN]. exists N. intros fu i Hf. cbn [main_file_loop]. rewrite ev_bind, index_step, ev_and_then.
    pose proof (HN (S fu) ltac:(lia)) as Hm. cbn [moved] in Hm. rewrite Hm. split; [reflexivity|discriminate].
  - destruct (swapped_complete _ _ _ _ Hs) as [N HN]. exists N. intros fu i Hf. cbn [main_file_loop]. rewrite ev_bind, index_step, ev_and_then.
    pose proof (HN (S fu) ltac:(lia)) as Hm. cbn [moved] in Hm. rewrite Hm, (file_at_ev d1 r1 q Hq). split; [reflexivity|discriminate].
  - destruct (swapped_complete _ _ _ _ Hs) as [N' HN]. exists (N + N'). intros fu i Hf. cbn [main_file_loop]. rewrite ev_bind, index_step, ev_and_then.
    pose proof (HN (S fu) ltac:(lia)) as Hm. cbn [moved] in Hm. rewrite Hm, (no_file_ev d1 r1 Hq). cbn [is_success extract_info bind]. apply IH. lia.
Qed.
(** The main fields, by what they name. *)
Definition visit (n : nat) (i : info) : prog stats := and_then (resolve_as_file R i) (resolve_as_dir R LL n).
Fixpoint attempts (n fu : nat) (pk : pkg) (i : info) (ms : list str) (mi : info) : prog stats :=
  match ms with
  | [] => Ret (Resolving i)
  | m :: r =>
      s <- and_then (alias_field_apply R fu (Some pk) (with_target mi m)) (visit n) ;;
      if is_success s then Ret s else mi' <- extract_info s ;; attempts n fu pk i r mi'
  end.
Lemma attempts_ev : forall n fu pk i fields ms, main_plan (p_raw pk) fields ms -> forall mi,
  ev (main_field_loop R (resolve_as_dir R LL n) fu pk i fields mi) = ev (attempts n fu pk i ms mi).
Proof.
  intros n fu pk i fields ms H. induction H as [|f l ms Hn H IH|f l m Hj Hm|f l m ms Hj H1 H2 H IH]; intros mi; cbn [main_field_loop attempts].
  - reflexivity.
  - destruct (jget (p_raw pk) f) as [[| | |s| |]|] eqn:E; cbn [opt_str as_str]; try apply IH. destruct (Hn s eq_refl).
  - rewrite Hj. cbn [opt_str as_str]. destruct Hm as [-> | ->]; reflexivity.
  - rewrite Hj. cbn [opt_str as_str].
    assert (E : (str_eqb m s_dot || str_eqb m (lit "./"))%bool = false) by (apply orb_false_iff; split; apply str_eqb_neq; assumption).
    rewrite E. replace (if starts_with m (lit "./") then with_target mi m else with_target mi (lit "./" ++ m)) with (with_target mi (dotted m)) by (unfold dotted; destruct (starts_with m (lit "./")); reflexivity).
    rewrite !ev_bind, !ev_and_then. destruct (ev (alias_field_apply R fu (Some pk) (with_target mi (dotted m)))) as [[x|i1|e i1]|p|]; try reflexivity.
    + cbn [is_success extract_info bind]. unfold visit. rewrite ev_and_then. destruct (ev (resolve_as_file R i1)) as [[x|i2|e i2]|p|]; try reflexivity.
      * destruct (ev (resolve_as_dir R LL n i2)) as [[x|i3|e i3]|p|]; try reflexivity; cbn [is_success extract_info bind]; apply IH.
      * cbn [is_success extract_info bind]. apply IH.
    + cbn [is_success extract_info bind]. apply IH.
Qed.
Definition sights (d : path) (r : request) (x : sight) (o : outcome stats) : Prop :=
  match x with
  | Sees a => tells a o /\ forall e, a <> Fails e
  | Hollow => o = Done (Resolving (mkInfo (get_path (mkInfo d r)) (req_with_target r [])))
  | Lacks e => o = Done (SError e (mkInfo d r))
  end.
Lemma dir_ev : forall n d r opk, f_dir fs (get_path (mkInfo d r)) = true -> has_desc fs R (get_path (mkInfo d r)) opk ->
  ev (resolve_as_dir R LL (S n) (mkInfo d r)) =
  ev (and_then (main_field_apply R (resolve_as_dir R LL n) (S n) opk (mkInfo (get_path (mkInfo d r)) (req_with_target r []))) (main_file_apply R LL (S n) opk)).
Proof.
  intros n d r opk Hd Hp. cbn [resolve_as_dir act bind ev_fs fs_ans]. rewrite Hd. cbn [negb]. rewrite (ev_ok fs R _ _ Hp). reflexivity.
Qed.
Lemma same_dec : forall p q, same_path p q \/ ~ same_path p q.
Proof. intros p q. destruct (path_eqb p q) eqn:E; [left; apply path_eqb_eq, E|right; intros H; apply path_eqb_eq in H; congruence]. Qed.
Lemma same_eqb : forall p q, ~ same_path p q -> path_eqb p q = false.
Proof. intros p q H. destruct (path_eqb p q) eqn:E; [|reflexivity]. apply path_eqb_eq in E. contradiction. Qed.
Scheme stands_mind := Minimality for stands Sort Prop
  with leads_mind := Minimality for leads Sort Prop.
Definition stands_ (r : request) (dir : path) (x : option fate) : Prop := f_dir fs dir = true -> exists N, forall n d, N <= n -> get_path (mkInfo d r) = dir ->
  stood (mkInfo dir (req_with_target r [])) x (ev (resolve_as_dir R LL n (mkInfo d r))).
Definition leads_ (pk : pkg) (pos : path) (r : request) (ms : list str) (x : option fate) : Prop := exists N, forall n fu i, N <= n -> N <= fu ->
  stood i x (ev (attempts n fu pk i ms (mkInfo pos r))).
Lemma visit_file : forall n d r q, file_at fs R (get_path (mkInfo d r)) q -> ev (visit n (mkInfo d r)) = Done (Success (RInfo (mkInfo q (mkReq [] (r_query r) (r_fragment r) Relative)))).
Proof. intros n d r q H. unfold visit. rewrite ev_and_then, (file_at_ev _ _ _ H). reflexivity. Qed.
Lemma visit_dir : forall n d r, no_file_at fs R (get_path (mkInfo d r)) -> ev (visit n (mkInfo d r)) = ev (resolve_as_dir R LL n (mkInfo d r)).
Proof. intros n d r H. unfold visit. rewrite ev_and_then, (no_file_ev _ _ H). reflexivity. Qed.
Lemma dir_fallen : forall n d r, f_dir fs (get_path (mkInfo d r)) = true -> fallen_desc fs R (get_path (mkInfo d r)) -> exists m, ev (resolve_as_dir R LL (S n) (mkInfo d r)) = Panicked m.
Proof. intros n d r Hd [m Hm]. exists m. cbn [resolve_as_dir act bind ev_fs fs_ans]. rewrite Hd. cbn [negb]. rewrite ev_bind. unfold L at 1. rewrite Hm. reflexivity. Qed.
Lemma stands_complete : forall r dir x, stands (standing fs) R HD r dir x -> stands_ r dir x.
Proof.
  assert (Hix : forall r dir x (P : nat -> nat -> Prop) opk, indexes (standing fs) R opk dir (req_with_target r []) (o_main_files opts) x -> exists N, forall n i, N <= n -> i = mkInfo dir (req_with_target r []) ->
     stood i x (ev (main_file_apply R LL (S n) opk i))).
  { intros r dir x _ opk H. destruct (indexes_complete _ _ _ _ _ H) as [N HN]. exists N. intros n i Hn ->. apply HN, Hn. }
  apply (stands_mind (standing fs) R HD stands_ leads_); unfold stands_, leads_.
  - intros r dir pk ms a Hp Hs Hms _ [N HN] Hd. exists (S N). intros [|n] d Hn Hg; [lia|]. rewrite <- Hg in *. rewrite (dir_ev n d r (Some pk) Hd Hp).
    apply stood_and_then. cbn [main_field_apply i_path]. rewrite (proj2 (path_eqb_eq _ _) Hs). cbn [negb]. rewrite (attempts_ev n (S n) pk _ _ ms Hms). apply HN; lia.
  - intros r dir pk ms x Hp Hs Hms _ [N HN] Hx Hd. destruct (Hix r dir x (fun _ _ => True) _ Hx) as [N' HN']. exists (S (N + N')). intros [|n] d Hn Hg; [lia|]. rewrite <- Hg in *. rewrite (dir_ev n d r (Some pk) Hd Hp), ev_and_then.
    cbn [main_field_apply i_path]. rewrite (proj2 (path_eqb_eq _ _) Hs). cbn [negb]. rewrite (attempts_ev n (S n) pk _ _ ms Hms).
    pose proof (HN n (S n) (mkInfo (get_path (mkInfo d r)) (req_with_target r [])) ltac:(lia) ltac:(lia)) as E. cbn [stood i_path i_req] in *. rewrite E. apply HN'; [lia|reflexivity].
  - intros r dir pk x Hp Hs Hx Hd. destruct (Hix r dir x (fun _ _ => True) _ Hx) as [N' HN']. exists (S N'). intros [|n] d Hn Hg; [lia|]. rewrite <- Hg in *. rewrite (dir_ev n d r (Some pk) Hd Hp), ev_and_then.
    cbn [main_field_apply i_path]. rewrite (same_eqb _ _ Hs). cbn [negb ev_fs]. apply HN'; [lia|reflexivity].
  - intros r dir x Hp Hx Hd. destruct (Hix r dir x (fun _ _ => True) _ Hx) as [N' HN']. exists (S N'). intros [|n] d Hn Hg; [lia|]. rewrite <- Hg in *. rewrite (dir_ev n d r None Hd Hp), ev_and_then.
    cbn [main_field_apply ev_fs]. apply HN'; [lia|reflexivity].
  - intros pk pos r. exists 0. intros n fu i _ _. reflexivity.
  - intros pk pos r m ms Hs. destruct (swapped_complete _ _ _ _ Hs) as [N HN]. exists N. intros n fu i _ Hf. cbn [attempts]. rewrite ev_bind, ev_and_then.
    pose proof (HN fu Hf) as E. cbn [moved] in E. change (with_target (mkInfo pos r) m) with (mkInfo pos (req_with_target r m)). rewrite E. split; [reflexivity|discriminate].
  - intros pk pos r m ms d1 r1 q Hs Hq. destruct (swapped_complete _ _ _ _ Hs) as [N HN]. exists N. intros n fu i _ Hf. cbn [attempts]. rewrite ev_bind, ev_and_then.
    pose proof (HN fu Hf) as E. cbn [moved] in E. change (with_target (mkInfo pos r) m) with (mkInfo pos (req_with_target r m)). rewrite E, (visit_file n d1 r1 q Hq). split; [reflexivity|discriminate].
  - intros pk pos r m ms d1 r1 Hs H1 H2 H3. destruct (swapped_complete _ _ _ _ Hs) as [N HN]. exists (S N). intros [|n] fu i Hn Hf; [lia|]. cbn [attempts]. rewrite ev_bind, ev_and_then.
    pose proof (HN fu ltac:(lia)) as E. cbn [moved] in E. change (with_target (mkInfo pos r) m) with (mkInfo pos (req_with_target r m)). rewrite E, (visit_dir _ _ _ H1).
    destruct (dir_fallen n d1 r1 H2 H3) as [x Ex]. rewrite Ex. split; [exists x; reflexivity|discriminate].
  - intros pk pos r m ms d1 r1 x Hs Hmi _ [N' HN']. destruct (swapped_complete _ _ _ _ Hs) as [N HN]. exists (S (N + N')). intros [|n] fu i Hn Hf; [lia|]. cbn [attempts]. rewrite ev_bind, ev_and_then.
    pose proof (HN fu ltac:(lia)) as E. cbn [moved] in E. change (with_target (mkInfo pos r) m) with (mkInfo pos (req_with_target r m)). destruct Hmi as [H1 H2]. rewrite E, (visit_dir _ _ _ H1).
    assert (Ee : exists e, ev (resolve_as_dir R LL (S n) (mkInfo d1 r1)) = Done (SError e (mkInfo d1 r1))).
    { wd. destruct (f_dir fs (get_path (mkInfo d1 r1))) eqn:Ed; [|exists TAG; apply as_dir_absent_ev, Ed]. destruct H2 as [H2|[e H2]]; [discriminate|]. exists e. apply as_dir_bad_ev; assumption. }
    destruct Ee as [e Ee]. rewrite Ee. cbn [is_success extract_info bind]. apply HN'; lia.
  - intros pk pos r m ms d1 r1 a Hs H1 H2 _ IH. destruct (IH H2) as [N' HN']. destruct (swapped_complete _ _ _ _ Hs) as [N HN]. exists (N + N'). intros n fu i Hn Hf. cbn [attempts]. rewrite ev_bind, ev_and_then.
    pose proof (HN fu ltac:(lia)) as E. cbn [moved] in E. change (with_target (mkInfo pos r) m) with (mkInfo pos (req_with_target r m)). rewrite E, (visit_dir _ _ _ H1).
    destruct (HN' n d1 ltac:(lia) eq_refl) as [Ht Hne]. split; [|exact Hne].
    destruct a as [q qu fr| |e|]; cbn [tells] in *; [rewrite Ht; reflexivity|rewrite Ht; reflexivity|destruct (Hne e eq_refl)|destruct Ht as [x ->]; exists x; reflexivity].
  - intros pk pos r m ms d1 r1 x Hs H1 H2 _ IH _ [N'' HN'']. destruct (IH H2) as [N' HN']. destruct (swapped_complete _ _ _ _ Hs) as [N HN]. exists (N + N' + N''). intros n fu i Hn Hf. cbn [attempts]. rewrite ev_bind, ev_and_then.
    pose proof (HN fu ltac:(lia)) as E. cbn [moved] in E. change (with_target (mkInfo pos r) m) with (mkInfo pos (req_with_target r m)). rewrite E, (visit_dir _ _ _ H1).
    pose proof (HN' n d1 ltac:(lia) eq_refl) as Ht. cbn [stood] in Ht. rewrite Ht. cbn [is_success extract_info bind]. apply HN''; lia.
Qed.
Lemma place_complete : forall d r x, place (standing fs) R HD r (get_path (mkInfo d r)) x -> exists N, forall n, N <= n -> sights d r x (ev (visit n (mkInfo d r))).
Proof.
  intros d r x H. destruct H as [q Hq|a H1 H2 H3|H1 H2 H3|H1 H2|e H1 H2 H3|H1 H2 H3].
  - exists 0. intros n _. rewrite (visit_file n d r q Hq). split; [reflexivity|discriminate].
  - destruct (stands_complete _ _ _ H3 H2) as [N HN]. exists N. intros n Hn. rewrite (visit_dir _ _ _ H1). exact (HN n d Hn eq_refl).
  - destruct (stands_complete _ _ _ H3 H2) as [N HN]. exists N. intros n Hn. rewrite (visit_dir _ _ _ H1). exact (HN n d Hn eq_refl).
  - exists 1. intros [|n] Hn; [lia|]. rewrite (visit_dir _ _ _ H1). apply as_dir_absent_ev, H2.
  - exists 1. intros [|n] Hn; [lia|]. rewrite (visit_dir _ _ _ H1). apply as_dir_bad_ev; assumption.
  - exists 1. intros [|n] Hn; [lia|]. rewrite (visit_dir _ _ _ H1). destruct (dir_fallen n d r H2 H3) as [m Em]. rewrite Em. split; [exists m; reflexivity|discriminate].
Qed.

(** ** The climb *)
Lemma head_total : forall t, exists x, head t x.
Proof.
  intros t. destruct (cut_slash t) as [H|(a & b & -> & H)]; [exists None; apply HdWhole, H|].
  destruct (starts_with_char a c_at) eqn:E.
  - destruct (cut_slash b) as [Hn|(n & s & -> & Hn)]; [exists None; eapply HdScope; [reflexivity|assumption..]|].
    exists (Some (a ++ c_slash :: n)). eapply HdScopeCut; [reflexivity|assumption..].
  - exists (Some a). eapply HdCut; [reflexivity|rewrite starts_char_slash; exact E|exact H].
Qed.
Lemma head_ev : forall t x, head t x -> module_name t = match x with None => Some t | Some h => slice_to t (length h) end.
Proof.
  intros t x H. unfold module_name. destruct H as [H|a n -> Hs H1 H2|n s -> Hs Hn|a n s -> Hs H1 H2].
  - rewrite slash_indices_none by exact H. destruct (starts_with_char t c_at); reflexivity.
  - rewrite starts_char_slash, Hs, slash_indices_app by exact H1. cbn [nth_error]. rewrite slash_indices_none by exact H2. reflexivity.
  - rewrite Hs, slash_indices_app by exact Hn. reflexivity.
  - rewrite starts_char_slash, Hs, slash_indices_app by exact H1. cbn [nth_error plus]. rewrite slash_indices_app by exact H2. cbn [nth_error plus].
    replace (S (length a + length n)) with (length (a ++ c_slash :: n)) by (rewrite app_length; cbn; lia). reflexivity.
Qed.
Lemma folder_ev : forall t x, folder t x -> module_name t = x.
Proof.
  intros t x H. destruct H as [H|h n H [b ->] E|h H Hn]; rewrite (head_ev _ _ H).
  - reflexivity.
  - rewrite <- E. apply slice_to_app.
  - destruct (slice_to t (length h)) as [n|] eqn:E; [|reflexivity]. destruct (slice_to_some _ _ _ E) as (b & Et & El). destruct (Hn n); [exists b; exact Et|exact El].
Qed.
Lemma folder_of : forall t, folder t (module_name t).
Proof.
  intros t. destruct (head_total t) as [[h|] H]; rewrite (head_ev _ _ H).
  - destruct (slice_to t (length h)) as [n|] eqn:E.
    + destruct (slice_to_some _ _ _ E) as (b & Et & El). eapply FoCut; [exact H|exists b; exact Et|exact El].
    + eapply FoTorn; [exact H|]. intros n [b ->] El. rewrite <- El, slice_to_app in E. discriminate.
  - apply FoWhole, H.
Qed.
Notation root d := (join d MODULE).
Definition fields (f : nat) (opk : option pkg) (d : path) (r : request) : prog stats :=
  and_then (and_then (exports_apply R opk (mkInfo (root d) r)) (imports_apply R LL f opk)) (fun i => alias_field_apply R f opk (there i)).
Lemma there_dotted : forall d r, there (mkInfo d r) = mkInfo d (dotted_request r).
Proof. intros d r. unfold there, dotted_request. cbn [i_req]. destruct (r_kind r); reflexivity. Qed.
Lemma not_normal_exports : forall opk i, r_kind (i_req i) <> Normal -> exports_apply R opk i = Ret (Resolving i).
Proof. intros [pk|] i H; [|reflexivity]. unfold exports_apply. destruct (r_kind (i_req i)); try reflexivity. congruence. Qed.
Lemma normal_dec : forall r, r_kind r = Normal \/ r_kind r <> Normal.
Proof. intros r. destruct (r_kind r); auto; right; discriminate. Qed.
Lemma passed_complete : forall opk d r y, passed (standing fs) R HD opk d r y -> exists N, forall f, N <= f ->
  moved y (ev (and_then (exports_apply R opk (mkInfo (root d) r)) (imports_apply R LL f opk))).
Proof.
  intros opk d r y H. destruct H as [y z Hn Hy Hz|z Hn Hz].
  - destruct (after_complete _ (fun f => imports_apply R LL f opk) (imported_complete opk) _ _ Hz) as [N HN].
    exists N. intros f Hf. eapply and_then_complete; [exact Hz|apply exported_complete; assumption|]. intros d0 r0 E _. exact (HN f Hf d0 r0 E).
  - destruct (imported_complete _ _ _ _ Hz) as [N HN]. exists N. intros f Hf. rewrite not_normal_exports by exact Hn. cbn [and_then bind]. apply HN, Hf.
Qed.
Lemma fields_complete : forall opk d r y z, passed (standing fs) R HD opk d r y -> after (fun d r => swapped R opk d (dotted_request r)) y z ->
  exists N, forall f, N <= f -> moved z (ev (fields f opk d r)).
Proof.
  intros opk d r y z Hy Hz. destruct (passed_complete _ _ _ _ Hy) as [N HN].
  assert (Hs : forall d0 r0 z0, swapped R opk d0 (dotted_request r0) z0 -> exists N0, forall f, N0 <= f -> moved z0 (ev (alias_field_apply R f opk (there (mkInfo d0 r0))))).
  { intros d0 r0 z0 H0. destruct (swapped_complete _ _ _ _ H0) as [N0 HN0]. exists N0. intros f Hf. rewrite there_dotted. apply HN0, Hf. }
  destruct (after_complete _ (fun f i => alias_field_apply R f opk (there i)) Hs _ _ Hz) as [N' HN'].
  exists (N + N'). intros f Hf. unfold fields. eapply and_then_complete; [exact Hz|apply HN; lia|]. intros d0 r0 E _. exact (HN' f ltac:(lia) d0 r0 E).
Qed.
Lemma enters_ev : forall f d r opk, enters (standing fs) HD d r opk -> ev (modules_level R LL f (mkInfo d r)) = level_end r d (ev (and_then (fields f opk d r) (visit f))).
Proof.
  intros f d r opk (H1 & H2 & n & H3 & H4). unfold modules_level. cbn [i_path i_req act bind ev_fs fs_ans]. rewrite H1. cbn [negb].
  rewrite (folder_ev _ _ H3), (ev_ok _ _ _ _ H2). cbn [act bind ev_fs fs_ans].
  assert (E : (negb (f_dir fs (join (root d) n)) && negb match opk with Some pk => is_resolve_self pk (mkInfo (root d) r) | None => false end)%bool = false).
  { destruct H4 as [-> |H4]; [reflexivity|]. apply (own_spec opk (root d) r) in H4. rewrite H4, andb_false_r. reflexivity. }
  rewrite E, ev_bind. unfold fields. rewrite !ev_and_then. destruct (ev (exports_apply R opk (mkInfo (root d) r))) as [[x|i1|e i1]|m|]; try reflexivity.
  - destruct (ev (imports_apply R LL f opk i1)) as [[x|i2|e i2]|m|]; try reflexivity.
    + fold (there i2). destruct (ev (alias_field_apply R f opk (there i2))) as [[x|i3|e i3]|m|]; try reflexivity.
      * unfold visit. rewrite ev_and_then. destruct (ev (resolve_as_file R i3)) as [[x|i4|e i4]|m|]; try reflexivity.
        -- destruct (ev (resolve_as_dir R LL f i4)) as [[x|i5|e i5]|m|]; try reflexivity. cbn [level_end]. destruct (str_eqb e TAG); reflexivity.
        -- cbn [level_end]. destruct (str_eqb e TAG); reflexivity.
      * cbn [level_end]. destruct (str_eqb e TAG); reflexivity.
    + cbn [level_end]. destruct (str_eqb e TAG); reflexivity.
  - cbn [level_end]. destruct (str_eqb e TAG); reflexivity.
Qed.
Lemma outside_rung : forall f d r opk n, f_dir fs (root d) = true -> has_desc fs R (join (root d) (r_target r)) opk -> folder (r_target r) (Some n) ->
  f_dir fs (join (root d) n) = false -> ~ own_name opk (r_target r) ->
  ev (modules_level R LL f (mkInfo d r)) = Done (inr (match pick fs (file_candidates opts (get_path (mkInfo (root d) r))) with
    | Some q => Success (RInfo (mkInfo q (mkReq [] (r_query r) (r_fragment r) Relative))) | None => Resolving (mkInfo d r) end)).
Proof.
  intros f d r opk n H1 H2 H3 H4 H5. unfold modules_level. cbn [i_path i_req act bind ev_fs fs_ans]. rewrite H1. cbn [negb].
  rewrite (folder_ev _ _ H3), (ev_ok _ _ _ _ H2). cbn [act bind ev_fs fs_ans]. rewrite H4.
  assert (E : match opk with Some pk => is_resolve_self pk (mkInfo (root d) r) | None => false end = false).
  { destruct (match opk with Some pk => is_resolve_self pk (mkInfo (root d) r) | None => false end) eqn:E; [|reflexivity].
    apply (own_spec opk (root d) r) in E. contradiction. }
  rewrite E. cbn [negb andb]. rewrite ev_bind, as_file_ev.
  destruct (pick fs (file_candidates opts (get_path (mkInfo (root d) r)))) as [q|]; reflexivity.
Qed.
Definition judged (v : verdict) (x : outcome (stats + stats)) : Prop :=
  match v with
  | Settles a => match x with Done (inl s) | Done (inr s) => tells a (Done s) | Panicked m => a = Crashes | NoFuel => False end
  | Climbs r => exists d, x = Done (inr (Resolving (mkInfo d r)))
  end.
Lemma judged_stop : forall r d e i, judged (stopped r e) (level_end r d (Done (SError e i))).
Proof. intros r d e i. unfold stopped. cbn [level_end]. destruct (str_eqb e TAG); cbn [judged tells]; eauto. Qed.
Lemma judged_settle : forall r d a o, tells a o -> (forall e, a <> Fails e) -> judged (Settles a) (level_end r d o).
Proof.
  intros r d a o H Hn. destruct a as [q qu fr| |e|]; cbn [tells] in H; [rewrite H; reflexivity|rewrite H; reflexivity|destruct (Hn e eq_refl)|destruct H as [m ->]; reflexivity].
Qed.
Lemma level_load : forall f d r n, f_dir fs (root d) = true -> folder (r_target r) (Some n) -> (forall opk, ~ has_desc fs R (join (root d) (r_target r)) opk) ->
  ev (modules_level R LL f (mkInfo d r)) =
  match lookup_desc fs (rv_json R) (o_desc opts) (join (root d) (r_target r)) with
  | PRet (Err e) => Done (inl (SError e (mkInfo d r))) | PPanic m => Panicked m | _ => NoFuel end.
Proof.
  intros f d r n Hd Hf Hn. unfold modules_level. cbn [i_path i_req act bind ev_fs fs_ans]. rewrite Hd. cbn [negb]. rewrite (folder_ev _ _ Hf), ev_bind. unfold L at 1.
  unfold has_desc in Hn. destruct (lookup_desc fs (rv_json R) (o_desc opts) (join (root d) (r_target r))) as [[opk|e]|m|]; try reflexivity. destruct (Hn opk eq_refl).
Qed.
Lemma torn_ev : forall f d r, f_dir fs (root d) = true -> folder (r_target r) None -> exists m, ev (modules_level R LL f (mkInfo d r)) = Panicked m.
Proof. intros f d r Hd Hf. eexists. unfold modules_level. cbn [i_path i_req act bind ev_fs fs_ans]. rewrite Hd. cbn [negb]. rewrite (folder_ev _ _ Hf). reflexivity. Qed.
Lemma rung_complete : forall d r v, rung (standing fs) R HD d r v -> exists N, forall f, N <= f -> judged v (ev (modules_level R LL f (mkInfo d r))).
Proof.
  intros d r v H.
  assert (Hgo : forall opk y d' r' x, enters (standing fs) HD d r opk -> passed (standing fs) R HD opk d r y -> after (fun d r => swapped R opk d (dotted_request r)) y (Moves d' r') ->
    place (standing fs) R HD r' (get_path (mkInfo d' r')) x -> exists N, forall f, N <= f -> exists o, ev (modules_level R LL f (mkInfo d r)) = level_end r d o /\ sights d' r' x o).
  { intros opk y d' r' x Hin Hy Hz Hx. destruct (fields_complete _ _ _ _ _ Hy Hz) as [N HN]. destruct (place_complete _ _ _ Hx) as [N' HN'].
    exists (N + N'). intros f Hf. exists (ev (visit f (mkInfo d' r'))). split; [|apply HN'; lia]. rewrite (enters_ev f d r opk Hin), ev_and_then.
    pose proof (HN f ltac:(lia)) as E. cbn [moved] in E. rewrite E. reflexivity. }
  destruct H as [Hd|Hd Hf|n e Hd Hf He|n Hd Hf [m Hm]|opk n q Hd Hp Hf H1 H2 Hq|opk n Hd Hp Hf H1 H2 Hq|opk y e Hin Hy Hz|opk y z a Hin Hy Hz Ha Hn|opk y d' r' a Hin Hy Hz Hx|opk y d' r' e Hin Hy Hz Hx|opk y d' r' Hin Hy Hz Hx].
  - exists 0. intros f _. exists d. apply absent_ev, Hd.
  - exists 0. intros f _. destruct (torn_ev f d r Hd Hf) as [m Em]. rewrite Em. reflexivity.
  - exists 0. intros f _. cbn [fresh] in He; unfold bad_desc in He. rewrite (level_load f d r n Hd Hf) by (unfold has_desc; intros opk; congruence). rewrite He. eexists. reflexivity.
  - exists 0. intros f _. rewrite (level_load f d r n Hd Hf) by (unfold has_desc; intros opk; congruence). rewrite Hm. reflexivity.
  - exists 0. intros f _. rewrite (outside_rung _ _ _ _ _ Hd Hp Hf H1 H2). apply pick_some in Hq. rewrite Hq. reflexivity.
  - exists 0. intros f _. rewrite (outside_rung _ _ _ _ _ Hd Hp Hf H1 H2). apply pick_none in Hq. rewrite Hq. eexists. reflexivity.
  - destruct (fields_complete _ _ _ _ _ Hy Hz) as [N HN]. exists N. intros f Hf. rewrite (enters_ev f d r opk Hin), ev_and_then. destruct (HN f Hf) as [i ->]. apply judged_stop.
  - destruct (fields_complete _ _ _ _ _ Hy Hz) as [N HN]. exists N. intros f Hf. rewrite (enters_ev f d r opk Hin), ev_and_then. pose proof (HN f Hf) as E.
    destruct Ha as [e| |]; cbn [moved] in E; [destruct (Hn e eq_refl)|rewrite E; reflexivity|destruct E as [m ->]; reflexivity].
  - destruct (Hgo _ _ _ _ _ Hin Hy Hz Hx) as [N HN]. exists N. intros f Hf. destruct (HN f Hf) as (o & -> & Ho & Hn). apply judged_settle; assumption.
  - destruct (Hgo _ _ _ _ _ Hin Hy Hz Hx) as [N HN]. exists N. intros f Hf. destruct (HN f Hf) as (o & -> & Ho). cbn [sights] in Ho. rewrite Ho. apply judged_stop.
  - destruct (Hgo _ _ _ _ _ Hin Hy Hz Hx) as [N HN]. exists N. intros f Hf. destruct (HN f Hf) as (o & -> & Ho). cbn [sights] in Ho. rewrite Ho. eexists. reflexivity.
Qed.
Lemma tells_res : forall a i, ~ tells a (Done (Resolving i)).
Proof. intros [q qu fr| |e|] i; cbn; [discriminate|discriminate|intros [? ?]; discriminate|intros [? ?]; discriminate]. Qed.
(** One step of the climb. *)
Definition over_top (o : outcome stats) : outcome stats := match o with Done (Resolving i1) => Done (SError TAG i1) | o => o end.
Definition climb_on (n : nat) (d : path) (x : outcome (stats + stats)) : outcome stats :=
  match x with
  | Done (inl s) => Done s
  | Done (inr (Resolving i)) =>
      match parent d with
      | Some q => over_top (ev (resolve_as_modules R LL n (with_path i q)))
      | None => Done (SError TAG i)
      end
  | Done (inr s) => Done s
  | Panicked m => Panicked m
  | NoFuel => NoFuel
  end.
Lemma climb_ev : forall n d r, ev (resolve_as_modules R LL (S n) (mkInfo d r)) = climb_on n d (ev (modules_level R LL (S n) (mkInfo d r))).
Proof.
  intros n d r. cbn [resolve_as_modules i_path]. rewrite ev_bind. unfold climb_on. destruct (ev (modules_level R LL (S n) (mkInfo d r))) as [[s|[x|i|e i]]|m|]; try reflexivity.
  cbn [and_then bind]. destruct (parent d) as [q|]; [|reflexivity]. rewrite ev_bind. destruct (ev (resolve_as_modules R LL n (with_path i q))) as [[x|i1|e i1]|m|]; reflexivity.
Qed.
Lemma judged_climb : forall n d a x, judged (Settles a) x -> tells a (climb_on n d x).
Proof.
  intros n d a [[s|s]|m|] H; cbn [judged] in H; cbn [climb_on].
  - exact H.
  - destruct s as [x|i|e i]; [exact H|destruct (tells_res _ _ H)|exact H].
  - subst a. exists m. reflexivity.
  - destruct H.
Qed.
Lemma tells_climb : forall a o, tells a o -> tells a (over_top o).
Proof. intros a [[x|i|e i]|m|] H; try exact H. destruct (tells_res _ _ H). Qed.
Lemma ascent_complete : forall l r a, ascent (standing fs) R HD l r a -> forall d, up_chain d l -> exists N, forall n, N <= n -> tells a (ev (resolve_as_modules R LL n (mkInfo d r))).
Proof.
  intros l r a H. induction H as [r|d l r a Hv|d l r r' a Hv H IH]; intros d0 Hc.
  - inversion Hc.
  - assert (d0 = d) by (inversion Hc; reflexivity). subst d0. destruct (rung_complete _ _ _ Hv) as [N HN].
    exists (S N). intros [|n] Hn; [lia|]. rewrite climb_ev. apply judged_climb, HN. lia.
  - assert (d0 = d) by (inversion Hc; reflexivity). subst d0. destruct (rung_complete _ _ _ Hv) as [N HN].
    inversion Hc as [p Hp|p q l1 Hp Hc']; subst.
    + exists (S N). intros [|n] Hn; [lia|]. rewrite climb_ev. destruct (HN (S n) ltac:(lia)) as [d0 ->]. cbn [climb_on]. rewrite Hp. inversion H; subst. eexists. reflexivity.
    + destruct (IH q Hc') as [N' HN']. exists (S (N + N')). intros [|n] Hn; [lia|]. rewrite climb_ev. destruct (HN (S n) ltac:(lia)) as [d0 ->]. cbn [climb_on]. rewrite Hp.
      change (with_path (mkInfo d0 r') q) with (mkInfo q r'). apply tells_climb, HN'. lia.
Qed.

(** ** The search proper *)
Definition tells_end (a : fate) (o : outcome stats) : Prop := tells a o \/ a = Crashes /\ exists i, o = Done (Resolving i).
Lemma step_path : forall f d r, path_kind (r_kind r) -> final_step R LL f (mkInfo d r) = visit f (mkInfo d r).
Proof. intros f d r H. unfold final_step. cbn [i_req]. destruct H as [-> |[-> | ->]]; reflexivity. Qed.
Lemma step_modules : forall f d r, ~ path_kind (r_kind r) -> final_step R LL f (mkInfo d r) = resolve_as_modules R LL f (mkInfo d r).
Proof. intros f d r H. unfold final_step. cbn [i_req]. unfold path_kind in H. destruct (r_kind r); try reflexivity; exfalso; apply H; auto. Qed.
Lemma path_dec : forall r, path_kind (r_kind r) \/ ~ path_kind (r_kind r).
Proof. intros r. unfold path_kind. destruct (r_kind r); auto; right; intros [H|[H|H]]; discriminate. Qed.
Lemma ends_complete : forall d r a, ends (standing fs) R HD d r a -> exists N, forall f, N <= f -> tells_end a (ev (final_step R LL f (mkInfo d r))).
Proof.
  intros d r a H. destruct H as [a Hp Hx|e Hp Hx|Hp Hx|l a Hp Hl Ha].
  - destruct (place_complete _ _ _ Hx) as [N HN]. exists N. intros f Hf. rewrite step_path by exact Hp. left. apply (HN f Hf).
  - destruct (place_complete _ _ _ Hx) as [N HN]. exists N. intros f Hf. rewrite step_path by exact Hp. left. eexists. apply (HN f Hf).
  - destruct (place_complete _ _ _ Hx) as [N HN]. exists N. intros f Hf. rewrite step_path by exact Hp. right. split; [reflexivity|]. eexists. apply (HN f Hf).
  - destruct (ascent_complete _ _ _ Ha _ Hl) as [N HN]. exists N. intros f Hf. rewrite step_modules by exact Hp. left. apply HN, Hf.
Qed.
(** What comes after aliases and prefer_relative. *)
Definition rest_ (f : nat) (base : path) (r : request) : outcome stats :=
  ev (and_then (pkg_step R LL f (mkInfo base r)) (final_step R LL f)).
Lemma rest_ev : forall f base r, rest_ f base r =
  match lookup_desc fs (rv_json R) (o_desc opts) (first_place base r) with
  | PRet (Err e) => Done (SError e (mkInfo base r))
  | PRet (Ok opk) => ev (and_then (and_then (imports_apply R LL f opk (mkInfo base r)) (alias_field_apply R f opk)) (final_step R LL f))
  | PPanic m => Panicked m
  | PFuel => NoFuel
  end.
Proof.
  intros f base r. unfold rest_. rewrite ev_and_then. unfold pkg_step. cbn [i_path i_req].
  change (match r_kind r with Normal => join (join base MODULE) (r_target r) | _ => get_path (mkInfo base r) end) with (first_place base r).
  rewrite ev_bind. unfold L at 1. destruct (lookup_desc fs (rv_json R) (o_desc opts) (first_place base r)) as [[opk|e]|m|]; try reflexivity.
  cbn [lift ev_fs]. rewrite (ev_and_then fs (and_then _ _)). reflexivity.
Qed.
Lemma search_complete : forall base r a, sought (standing fs) R HD base r a -> exists N, forall f, N <= f -> tells_end a (rest_ f base r).
Proof.
  intros base r a H.
  assert (Hgo : forall opk y z, imported (standing fs) R HD opk base r y -> after (swapped R opk) y z -> exists N, forall f, N <= f ->
    moved z (ev (and_then (imports_apply R LL f opk (mkInfo base r)) (alias_field_apply R f opk)))).
  { intros opk y z Hy Hz. destruct (imported_complete _ _ _ _ Hy) as [N HN].
    destruct (after_complete _ (fun f => alias_field_apply R f opk) (swapped_complete opk) _ _ Hz) as [N' HN']. exists (N + N'). intros f Hf.
    eapply and_then_complete; [exact Hz|apply HN; lia|]. intros d0 r0 E _. exact (HN' f ltac:(lia) d0 r0 E). }
  destruct H as [e He|[m Hm]|opk y z a Hd Hy Hz Ha|opk y d r' a Hd Hy Hz Ha].
  - exists 0. intros f _. rewrite rest_ev. cbn [fresh] in He; unfold bad_desc in He. rewrite He. left. eexists. reflexivity.
  - exists 0. intros f _. rewrite rest_ev, Hm. left. eexists. reflexivity.
  - destruct (Hgo _ _ _ Hy Hz) as [N HN]. exists N. intros f Hf. rewrite rest_ev. cbn [fresh] in Hd; unfold has_desc in Hd. rewrite Hd, ev_and_then. pose proof (HN f Hf) as Hm. left.
    destruct Ha; cbn [moved tells] in *; [destruct Hm as [i ->]; eexists; reflexivity|rewrite Hm; reflexivity|destruct Hm as [m ->]; eexists; reflexivity].
  - destruct (Hgo _ _ _ Hy Hz) as [N HN]. destruct (ends_complete _ _ _ Ha) as [N' HN']. exists (N + N'). intros f Hf. rewrite rest_ev. cbn [fresh] in Hd; unfold has_desc in Hd. rewrite Hd, ev_and_then.
    pose proof (HN f ltac:(lia)) as Hm. cbn [moved] in Hm. rewrite Hm. apply HN'. lia.
Qed.


(** ** Aliases and prefer_relative *)
Fixpoint try_all (f : nat) (l : list info) : outcome (option stats) :=
  match l with
  | [] => Done None
  | i :: r =>
      match ev (resolve_ R LL f i) with
      | Done s => if is_success s then Done (Some s) else try_all f r
      | Panicked m => Panicked m
      | NoFuel => NoFuel
      end
  end.
Lemma try_all_success : forall f l s, try_all f l = Done (Some s) -> exists x, s = Success x.
Proof.
  intros f l s. induction l as [|i l IH]; cbn [try_all]; [discriminate|]. destruct (ev (resolve_ R LL f i)) as [s1|m|]; try discriminate.
  destruct s1 as [x|j|e j]; cbn [is_success]; [intros H; inversion H; eauto|exact IH|exact IH].
Qed.
Lemma try_all_app : forall f l l', try_all f (l ++ l') = match try_all f l with Done None => try_all f l' | o => o end.
Proof.
  intros f l l'. induction l as [|i l IH]; [reflexivity|]. cbn [app try_all]. destruct (ev (resolve_ R LL f i)) as [s|m|]; try reflexivity.
  destruct (is_success s); [reflexivity|exact IH].
Qed.
Notation at_ base r := (map (fun c => mkInfo base (req_with_target r c))).
Lemma alias_ev : forall f base r l cs b, alias_plan (r_target r) l cs b -> ev (alias_loop (resolve_ R LL f) (mkInfo base r) l) =
  match try_all f (at_ base r cs) with
  | Done (Some s) => Done s
  | Done None => Done (if b then Success RIgnored else Resolving (mkInfo base r))
  | Panicked m => Panicked m
  | NoFuel => NoFuel
  end.
Proof.
  intros f base r l cs b H. induction H as [|from to l cs b Hn H IH|from l Hp|from to l cs b Hp Ht H IH|from to rest l cs b Ht Hn H IH]; cbn [alias_loop map try_all i_req i_path].
  - reflexivity.
  - replace (starts_with (r_target r) from) with false; [exact IH|].
    symmetry. destruct (starts_with _ _) eqn:E; [apply prefix_dec in E; contradiction|reflexivity].
  - apply prefix_dec in Hp. rewrite Hp. reflexivity.
  - apply prefix_dec in Hp. rewrite Hp. apply prefix_dec in Ht. rewrite Ht, orb_true_r. exact IH.
  - rewrite Ht at 1. rewrite starts_with_app.
    assert (E1 : starts_with (r_target r) to = false).
    { destruct (starts_with _ to) eqn:E; [apply prefix_dec in E; contradiction|reflexivity]. }
    assert (E2 : str_eqb (r_target r) to = false).
    { apply str_eqb_neq. intros E. apply Hn. exists []. rewrite app_nil_r. exact E. }
    rewrite E1, E2. cbn [orb]. rewrite Ht at 1. rewrite replacen1_prefix, ev_bind.
    destruct (ev (resolve_ R LL f (mkInfo base (req_with_target r (to ++ rest))))) as [s|m|]; try reflexivity.
    destruct (is_success s); [reflexivity|exact IH].
Qed.
Lemma nearby_ev : forall f base r l, nearby R (r_target r) l -> ev (prefer_relative_apply R (resolve_ R LL f) (mkInfo base r)) =
  match try_all f (at_ base r l) with
  | Done (Some s) => Done s
  | Done None => Done (Resolving (mkInfo base r))
  | Panicked m => Panicked m
  | NoFuel => NoFuel
  end.
Proof.
  intros f base r l H. unfold prefer_relative_apply. cbn [i_req i_path]. destruct H as [H|H1 H2 H3].
  - cbn [map try_all]. destruct (starts_with (r_target r) (lit "../") || starts_with (r_target r) (lit "./"))%bool eqn:E; [reflexivity|].
    apply orb_false_iff in E. destruct E as [E1 E2]. destruct H as [-> |[H|H]]; [reflexivity| |]; apply prefix_dec in H; congruence.
  - assert (E : (starts_with (r_target r) (lit "../") || starts_with (r_target r) (lit "./"))%bool = false).
    { apply orb_false_iff. split; (destruct (starts_with _ _) eqn:E; [apply prefix_dec in E; contradiction|reflexivity]). }
    rewrite E, H1. cbn [map try_all]. rewrite ev_bind. destruct (ev (resolve_ R LL f _)) as [s|m|]; try reflexivity. destruct (is_success s); reflexivity.
Qed.
Lemma nearby_total : forall t, exists l, nearby R t l.
Proof.
  intros t. destruct (o_prefer_relative opts) eqn:E; [|exists []; apply NbNo; auto].
  destruct (prefix_prop_dec (lit "./") t) as [H|H]; [exists []; apply NbNo; auto|].
  destruct (prefix_prop_dec (lit "../") t) as [H'|H']; [exists []; apply NbNo; auto|]. eexists. apply NbYes; assumption.
Qed.
Lemma trials_total : forall base t, exists cs b, trials R base t cs b.
Proof.
  intros base t. destruct (nearby_total t) as [l Hl]. destruct (contains base MODULE) eqn:E; [exists l, false; apply TrModules; assumption|].
  destruct (alias_plan_total t (o_alias opts)) as (cs & [] & H); [exists cs, true; apply TrIgnored; assumption|].
  exists (cs ++ l), false. apply TrAliases; assumption.
Qed.
Lemma resolve_ev : forall f base r cs b, trials R base (r_target r) cs b -> ev (resolve_ R LL (S f) (mkInfo base r)) =
  match try_all f (at_ base r cs) with
  | Done (Some s) => Done s
  | Done None => if b then Done (Success RIgnored) else SpecRun.settled (mkInfo base r) (rest_ (S f) base r)
  | Panicked m => Panicked m
  | NoFuel => NoFuel
  end.
Proof.
  intros f base r cs b H.
  assert (Ef : forall p, ev (s <- p ;; match s with Success x => Ret (Success x) | SError e ei => Ret (SError (if str_eqb e TAG then resolve_failed_message (mkInfo base r) else e) ei) | Resolving _ => Panic p_unreachable end) = SpecRun.settled (mkInfo base r) (ev p)).
  { intros p. rewrite ev_bind. destruct (ev p) as [[| |]| |]; reflexivity. }
  cbn [resolve_]. rewrite Ef, !ev_and_then. unfold rest_, alias_apply. cbn [i_path].
  destruct H as [cs Hc Hp|cs l Hc Hp Hl|l Hc Hl]; rewrite Hc.
  - rewrite (alias_ev f base r _ _ _ Hp). destruct (try_all f (at_ base r cs)) as [[s|]|m|] eqn:E; try reflexivity.
    destruct (try_all_success _ _ _ E) as [x ->]. reflexivity.
  - rewrite (alias_ev f base r _ _ _ Hp), map_app, try_all_app. destruct (try_all f (at_ base r cs)) as [[s|]|m|] eqn:E; try reflexivity.
    + destruct (try_all_success _ _ _ E) as [x ->]. reflexivity.
    + rewrite (nearby_ev f base r l Hl). destruct (try_all f (at_ base r l)) as [[s|]|m|] eqn:E'; try reflexivity.
      * destruct (try_all_success _ _ _ E') as [x ->]. reflexivity.
      * rewrite ev_and_then. reflexivity.
  - cbn [ev_fs]. rewrite (nearby_ev f base r l Hl). destruct (try_all f (at_ base r l)) as [[s|]|m|] eqn:E'; try reflexivity.
    + destruct (try_all_success _ _ _ E') as [x ->]. reflexivity.
    + rewrite ev_and_then. reflexivity.
Qed.
(** What a list of trials comes to. *)
Definition tells_all (x : option fate) (o : outcome (option stats)) : Prop :=
  match x with
  | None => o = Done None
  | Some a => match o with Done (Some s) => tells a (Done s) | Panicked m => a = Crashes | _ => False end
  end.
Lemma trial_step : forall a o z, tells a o ->
  (forall e, a = Fails e -> match o with Done s => if is_success s then Done (Some s) else z | Panicked m => Panicked m | NoFuel => NoFuel end = z) /\
  ((forall e, a <> Fails e) -> tells_all (Some a) (match o with Done s => if is_success s then Done (Some s) else z | Panicked m => Panicked m | NoFuel => NoFuel end)).
Proof.
  intros [q qu fr| |e|] o z H; cbn [tells] in H.
  - rewrite H. split; [discriminate|reflexivity].
  - rewrite H. split; [discriminate|reflexivity].
  - destruct H as [i ->]. split; [reflexivity|]. intros H. destruct (H e eq_refl).
  - destruct H as [m ->]. split; [discriminate|reflexivity].
Qed.
Lemma fails_dec : forall a : fate, (exists e, a = Fails e) \/ forall e, a <> Fails e.
Proof. intros [q qu fr| |e|]; [right; discriminate|right; discriminate|left; eauto|right; discriminate]. Qed.
Lemma reported_tells : forall base r a o, tells_end a o -> tells (reported base r a) (SpecRun.settled (mkInfo base r) o).
Proof.
  intros base r a o [H|[-> [i ->]]]; [|eexists; reflexivity]. destruct a as [q qu fr| |e|]; cbn [tells reported] in *.
  - rewrite H. reflexivity.
  - rewrite H. reflexivity.
  - destruct H as [i ->]. eexists. reflexivity.
  - destruct H as [m ->]. exists m. reflexivity.
Qed.
Lemma tells_all_some : forall a x z, tells_all (Some a) x ->
  tells a (match x with Done (Some s) => Done s | Done None => z | Panicked m => Panicked m | NoFuel => NoFuel end).
Proof. intros a [[s|]|m|] z H; cbn [tells_all] in H; [exact H|destruct H|subst a; eexists; reflexivity|destruct H]. Qed.
Scheme seek_mind := Minimality for seek Sort Prop
  with tried_mind := Minimality for tried Sort Prop.
Definition seeks_ (base : path) (r : request) (a : fate) : Prop := exists N, forall f, N <= f -> tells a (ev (resolve_ R LL f (mkInfo base r))).
Definition tries_ (base : path) (r : request) (cs : list str) (x : option fate) : Prop := exists N, forall f, N <= f -> tells_all x (try_all f (at_ base r cs)).
Lemma seek_complete : forall base r a, seek (standing fs) R HD base r a -> seeks_ base r a.
Proof.
  apply (seek_mind (standing fs) R HD seeks_ tries_); unfold seeks_, tries_.
  - intros base r cs b a Htr _ [N HN]. exists (S N). intros [|f] Hf; [lia|]. rewrite (resolve_ev f base r cs b Htr). apply tells_all_some, HN. lia.
  - intros base r cs Htr _ [N HN]. exists (S N). intros [|f] Hf; [lia|]. rewrite (resolve_ev f base r cs true Htr).
    pose proof (HN f ltac:(lia)) as Ho. cbn [tells_all] in Ho. rewrite Ho. reflexivity.
  - intros base r cs a Htr _ [N HN] Hs. destruct (search_complete _ _ _ Hs) as [N' HN']. exists (S (N + N')). intros [|f] Hf; [lia|].
    rewrite (resolve_ev f base r cs false Htr). pose proof (HN f ltac:(lia)) as Ho. cbn [tells_all] in Ho. rewrite Ho. apply reported_tells, HN'. lia.
  - intros base r. exists 0. intros f _. reflexivity.
  - intros base r c cs a _ [N HN] Hd. exists N. intros f Hf. cbn [map try_all]. apply trial_step; [apply HN, Hf|exact Hd].
  - intros base r c cs e x _ [N HN] _ [N' HN']. exists (N + N'). intros f Hf. cbn [map try_all].
    destruct (trial_step _ _ (try_all f (at_ base r cs)) (HN f ltac:(lia))) as [H1 _]. rewrite (H1 e eq_refl). apply HN'. lia.
Qed.

(** ** tsconfig *)
Lemma permute_none {A} : forall l : list A, permute [] l = l.
Proof. induction l as [|x l IH]; cbn [permute hd tl]; [reflexivity|]. rewrite IH. destruct l; reflexivity. Qed.
Definition cf_tells (x : option (result json)) (o : outcome (result json)) : Prop :=
  match x with Some y => o = Done y | None => exists m, o = Panicked m end.
Lemma config_nodup : (forall s j, rv_jsonc R s = JCVal j -> json_nodup j) -> forall w D loc x, config w R D loc x -> forall j, x = Some (Ok j) -> json_nodup j.
Proof.
  intros Hv w D loc x H. induction H; intros j0 E; try discriminate; injection E as <-; try (eapply Hv; eassumption).
  apply merge_nodup; [eapply Hv; eassumption|apply IHconfig; reflexivity].
Qed.
Lemma config_complete : forall loc x, config (standing fs) R HD loc x -> exists N, forall f, N <= f -> cf_tells x (ev (parse_file_to_value R LL f loc)).
Proof.
  intros loc x H. induction H as [loc Er|loc s e Er Ej|loc s Er Ej|loc s j Er Ej Hn|loc s j x Er Ej Ee Ep|loc s j x dir q qu fr b Er Ej Ee Ep Ha Hc [N' HN']|loc s j x dir q qu fr e Er Ej Ee Ep Ha Hc [N' HN']
    |loc s j x dir q qu fr Er Ej Ee Ep Ha Hc [N' HN']|loc s j x dir Er Ej Ee Ep Ha|loc s j x dir e Er Ej Ee Ep Ha|loc s j x dir Er Ej Ee Ep Ha].
  - exists 1. intros [|f] Hf; [lia|]. cbn [parse_file_to_value act bind ev_fs fs_ans]. rewrite Er. reflexivity.
  - exists 1. intros [|f] Hf; [lia|]. cbn [parse_file_to_value act bind ev_fs fs_ans]. rewrite Er, Ej. reflexivity.
  - exists 1. intros [|f] Hf; [lia|]. cbn [parse_file_to_value act bind ev_fs fs_ans]. rewrite Er, Ej. eexists. reflexivity.
  - exists 1. intros [|f] Hf; [lia|]. cbn [parse_file_to_value act bind ev_fs fs_ans]. rewrite Er, Ej.
    destruct (jget j (lit "extends")) as [[| | |x| |]|]; try reflexivity. destruct (Hn x eq_refl).
  - exists 1. intros [|f] Hf; [lia|]. cbn [parse_file_to_value act bind ev_fs fs_ans]. rewrite Er, Ej, Ee, Ep. eexists. reflexivity.
  - destruct (seek_complete _ _ _ Ha) as [N HN]. exists (S (N + N')). intros [|f] Hf; [lia|].
    cbn [parse_file_to_value act bind ev_fs fs_ans]. rewrite Er, Ej, Ee, Ep, ev_bind. pose proof (HN (S f) ltac:(lia)) as E. cbn [tells] in E. rewrite E.
    change (get_path (mkInfo q (mkReq [] qu fr Relative))) with q. unfold try_. pose proof (HN' f ltac:(lia)) as E'. cbn [cf_tells] in E'. rewrite ev_bind, E'. reflexivity.
  - destruct (seek_complete _ _ _ Ha) as [N HN]. exists (S (N + N')). intros [|f] Hf; [lia|].
    cbn [parse_file_to_value act bind ev_fs fs_ans]. rewrite Er, Ej, Ee, Ep, ev_bind. pose proof (HN (S f) ltac:(lia)) as E. cbn [tells] in E. rewrite E.
    change (get_path (mkInfo q (mkReq [] qu fr Relative))) with q. unfold try_. pose proof (HN' f ltac:(lia)) as E'. cbn [cf_tells] in E'. rewrite ev_bind, E'. reflexivity.
  - destruct (seek_complete _ _ _ Ha) as [N HN]. exists (S (N + N')). intros [|f] Hf; [lia|].
    cbn [parse_file_to_value act bind ev_fs fs_ans]. rewrite Er, Ej, Ee, Ep, ev_bind. pose proof (HN (S f) ltac:(lia)) as E. cbn [tells] in E. rewrite E.
    change (get_path (mkInfo q (mkReq [] qu fr Relative))) with q. unfold try_. destruct (HN' f ltac:(lia)) as [m E']. rewrite ev_bind, E'. eexists. reflexivity.
  - destruct (seek_complete _ _ _ Ha) as [N HN]. exists (S N). intros [|f] Hf; [lia|].
    cbn [parse_file_to_value act bind ev_fs fs_ans]. rewrite Er, Ej, Ee, Ep, ev_bind. pose proof (HN (S f) ltac:(lia)) as E. cbn [tells] in E. rewrite E. reflexivity.
  - destruct (seek_complete _ _ _ Ha) as [N HN]. exists (S N). intros [|f] Hf; [lia|].
    cbn [parse_file_to_value act bind ev_fs fs_ans]. rewrite Er, Ej, Ee, Ep, ev_bind. destruct (HN (S f) ltac:(lia)) as [i E]. rewrite E. reflexivity.
  - destruct (seek_complete _ _ _ Ha) as [N HN]. exists (S N). intros [|f] Hf; [lia|].
    cbn [parse_file_to_value act bind ev_fs fs_ans]. rewrite Er, Ej, Ee, Ep, ev_bind. destruct (HN (S f) ltac:(lia)) as [m E]. rewrite E. eexists. reflexivity.
Qed.
(** [ts_of_json] taken apart. *)
Lemma all_strings_inv : forall l t, all_strings l = PRet t -> l = map JStr t.
Proof.
  induction l as [|v l IH]; intros t H; cbn [all_strings] in H; [injection H as <-; reflexivity|].
  destruct v as [| | |s| |]; cbn [as_str] in H; try discriminate. destruct (all_strings l) as [u|m|] eqn:E; cbn [pbind] in H; try discriminate.
  injection H as <-. cbn [map]. rewrite (IH u eq_refl). reflexivity.
Qed.
Notation entry_json := (fun kv : str * list str => (fst kv, JArr (map JStr (snd kv)))).
Lemma paths_entries_inv : forall l acc x, paths_entries l acc = PRet x -> exists m : list (str * list str), l = map entry_json m.
Proof.
  induction l as [|[k v] l IH]; intros acc x H; cbn [paths_entries] in H; [exists []; reflexivity|].
  destruct v as [| | | |a|]; cbn [as_array] in H; try discriminate. destruct (all_strings a) as [t|m|] eqn:E; cbn [pbind] in H; try discriminate.
  destruct (IH _ _ H) as [m ->]. exists ((k, t) :: m). cbn [map fst snd]. rewrite (all_strings_inv _ _ E). reflexivity.
Qed.
Lemma paths_entries_any : forall m acc, exists x, paths_entries (map entry_json m) acc = PRet x.
Proof.
  induction m as [|[k l] m IH]; intros acc; [exists acc; reflexivity|]. cbn [map fst snd paths_entries as_array]. rewrite all_strings_map. cbn [pbind]. apply IH.
Qed.
Lemma entry_keys : forall m : list (str * list str), map fst (map entry_json m) = map fst m.
Proof. intros m. rewrite map_map. reflexivity. Qed.
Lemma all_strings_ends : forall l, all_strings l <> PFuel.
Proof.
  induction l as [|v l IH]; cbn [all_strings]; [discriminate|]. destruct (as_str v); [|discriminate].
  destruct (all_strings l) as [t|m|]; cbn [pbind]; [discriminate|discriminate|congruence].
Qed.
Lemma paths_entries_ends : forall l acc, paths_entries l acc <> PFuel.
Proof.
  induction l as [|[k v] l IH]; intros acc; cbn [paths_entries]; [discriminate|]. destruct (as_array v) as [a|]; [|discriminate].
  pose proof (all_strings_ends a) as H. destruct (all_strings a) as [t|m|]; cbn [pbind]; [apply IH|discriminate|congruence].
Qed.
Lemma ts_ends : forall j, ts_of_json j <> PFuel.
Proof.
  intros j. unfold ts_of_json. destruct (jget j (lit "compilerOptions")) as [o|]; [|discriminate].
  destruct (jget o (lit "baseUrl")) as [bv|]; [destruct (as_str bv)|]; cbn [pbind]; try discriminate;
    (destruct (jget o (lit "paths")) as [pv|]; [destruct (as_object pv) as [l|]|]; cbn [pbind]; try discriminate;
     pose proof (paths_entries_ends l []) as H; destruct (paths_entries l []); cbn [pbind]; try discriminate; congruence).
Qed.
Lemma ts_cases : forall j t, json_nodup j -> ts_of_json j = PRet t ->
  (exists b m, ts_sets j b m) \/ no_mapping j /\ (ts_base t = None \/ ts_paths t = None).
Proof.
  intros j t Hn H. unfold ts_of_json in H. destruct (jget j (lit "compilerOptions")) as [o|] eqn:Eo; [|injection H as <-; right; split; [left; exact Eo|left; reflexivity]].
  pose proof (nodup_get _ _ _ Hn Eo) as Hno.
  destruct (jget o (lit "baseUrl")) as [bv|] eqn:Eb.
  - destruct bv as [| | |b| |]; cbn [as_str pbind] in H; try discriminate. destruct (jget o (lit "paths")) as [pv|] eqn:Epp.
    + destruct pv as [| | | | |l]; cbn [as_object pbind] in H; try discriminate. destruct (paths_entries l []) as [m0|m0|] eqn:Em; cbn [pbind] in H; try discriminate.
      destruct (paths_entries_inv _ _ _ Em) as [m ->]. left. exists b, m, o. repeat split; try assumption.
      pose proof (nodup_get _ _ _ Hno Epp) as Hp. inversion Hp as [| | | | |? Hk _]; subst. rewrite entry_keys in Hk. exact Hk.
    + injection H as <-. right. split; [|right; reflexivity]. right. exists o. repeat split; eauto.
  - cbn [pbind] in H. right. destruct (jget o (lit "paths")) as [pv|] eqn:Epp.
    + destruct pv as [| | | | |l]; cbn [as_object pbind] in H; try discriminate. destruct (paths_entries l []) as [m0|m0|] eqn:Em; cbn [pbind] in H; try discriminate.
      injection H as <-. split; [|left; reflexivity]. right. exists o. destruct (paths_entries_inv _ _ _ Em) as [m ->]. repeat split; eauto.
    + injection H as <-. split; [|left; reflexivity]. right. exists o. repeat split; eauto.
Qed.
Lemma no_mapping_ts : forall j, no_mapping j -> exists t, ts_of_json j = PRet t /\ (ts_base t = None \/ ts_paths t = None).
Proof.
  intros j [H|(o & Ho & H1 & H2 & H3)]; unfold ts_of_json; [rewrite H; eexists; split; [reflexivity|left; reflexivity]|].
  rewrite Ho. destruct H2 as [H2|[b H2]]; rewrite H2 in *; cbn [as_str pbind].
  - destruct H3 as [H3|[m H3]]; rewrite H3; cbn [as_object pbind]; [eexists; split; [reflexivity|left; reflexivity]|].
    destruct (paths_entries_any m []) as [x Ex]. rewrite Ex. cbn [pbind]. eexists. split; [reflexivity|left; reflexivity].
  - destruct H1 as [H1|H1]; [discriminate|]. rewrite H1. cbn [pbind]. eexists. split; [reflexivity|right; reflexivity].
Qed.
(** ** Patterns *)
Definition p_boundary : str := lit "byte index is not a char boundary".
Lemma star_cases : forall pat s,
  (exists m, star_matches pat s m /\ match_star pat s = PRet (Some m)) \/
  (match_star pat s = PRet None /\ (forall m, ~ star_matches pat s m) /\ ~ tears pat s) \/
  (tears pat s /\ match_star pat s = PPanic p_boundary).
Proof.
  intros pat s.
  assert (Hno : match_star pat s = PRet None -> ~ tears pat s -> (exists m, star_matches pat s m /\ match_star pat s = PRet (Some m)) \/
    (match_star pat s = PRet None /\ (forall m, ~ star_matches pat s m) /\ ~ tears pat s) \/ (tears pat s /\ match_star pat s = PPanic p_boundary)).
  { intros H Ht. right. left. split; [exact H|]. split; [|exact Ht]. intros m Hm. rewrite (match_star_complete _ _ _ Hm) in H. discriminate. }
  destruct (match_star pat s) as [[m|]|m0|] eqn:E.
  - left. exists m. split; [apply match_star_sound, E|reflexivity].
  - apply Hno; [reflexivity|]. intros (a & b & -> & Ha & Hl & Ht). unfold match_star in E. change (a ++ [c_star] ++ b) with (a ++ c_star :: b) in *.
    destruct (Nat.ltb_spec (blen s) (blen (a ++ c_star :: b))) as [H|_]; [lia|]. destruct (str_eqb_spec (a ++ c_star :: b) [c_star]) as [_|_]; [discriminate|].
    rewrite find_char_first in E by exact Ha. destruct (slice_to s (blen a)) as [s1|] eqn:E1; [|discriminate]. destruct (slice_to_some _ _ _ E1) as (b1 & -> & H1).
    destruct Ht as [Ht|[[r Hp] Ht]]; [destruct (Ht s1); [exists b1; reflexivity|exact H1]|].
    destruct (app_split_len _ _ _ _ Hp H1) as [-> ->]. rewrite str_eqb_refl in E. cbn [negb] in E.
    destruct (slice_from (a ++ r) (blen (a ++ r) - blen b)) as [s2|] eqn:E2; [|discriminate]. destruct (slice_from_some _ _ _ E2) as (n & En & Hn).
    apply (Ht n s2 En). rewrite En, blen_app in Hn. rewrite En in Hl. rewrite !blen_app in Hl. cbn [blen] in Hl. change (utf8_len c_star) with 1 in Hl. lia.
  - right. right. unfold match_star in E.
    destruct (Nat.ltb_spec (blen s) (blen pat)) as [H|Hl]; [discriminate|]. destruct (str_eqb_spec pat [c_star]) as [_|Hp]; [discriminate|].
    destruct (find_char pat c_star) as [[a b]|] eqn:Ef; [|discriminate]. apply find_char_some in Ef. destruct Ef as [-> Ha].
    destruct (slice_to s (blen a)) as [s1|] eqn:E1.
    + destruct (str_eqb_spec s1 a) as [->|]; cbn [negb] in E; [|discriminate]. destruct (slice_to_some _ _ _ E1) as (r & Er & _).
      destruct (slice_from s (blen s - blen b)) as [s2|] eqn:E2.
      * destruct (str_eqb_spec s2 b) as [->|]; cbn [negb] in E; [|discriminate]. exfalso. destruct (slice_from_some _ _ _ E2) as (n & En & Hn).
        rewrite En in Hl. rewrite !blen_app in Hl. cbn [blen] in Hl. change (utf8_len c_star) with 1 in Hl.
        assert (Hs : exists m, n = a ++ m).
        { rewrite En in E1. unfold slice_to in E1. destruct (byte_split (n ++ b) (blen a)) as [[x y]|] eqn:Eb; [|discriminate]. injection E1 as ->.
          clear - En Er Hl. rewrite En in Er. clear En. revert n Er Hl. induction a as [|c a IH]; intros n Er Hl; [exists n; reflexivity|].
          destruct n as [|c' n]; [cbn in Hl; lia|]. injection Er as <- Er. destruct (IH n Er) as [m ->]; [cbn in Hl; lia|]. exists m. reflexivity. }
        destruct Hs as [m Hm]. subst n. assert (Hne : m <> []) by (intros ->; rewrite app_nil_r in Hl; lia).
        assert (Hs : star_matches (a ++ c_star :: b) s m) by (exists a, b; repeat split; auto; rewrite En, <- app_assoc; reflexivity).
        pose proof (match_star_complete _ _ _ Hs) as Hc. unfold match_star in Hc.
        destruct (Nat.ltb_spec (blen s) (blen (a ++ c_star :: b))) as [H|_]; [discriminate|]. destruct (str_eqb_spec (a ++ c_star :: b) [c_star]) as [|_]; [contradiction|].
        rewrite find_char_first, E1, str_eqb_refl, E2, str_eqb_refl in Hc by exact Ha. cbn [negb] in Hc. rewrite E in Hc. discriminate.
      * split; [|injection E as <-; reflexivity]. exists a, b. repeat split; auto. right. split; [exists r; exact Er|]. intros n y En Hy.
        rewrite En, slice_from_app in E2; [discriminate|]. rewrite blen_app. lia.
    + split; [|injection E as <-; reflexivity]. exists a, b. repeat split; auto. left. intros n [y ->] Hn. rewrite <- Hn, slice_to_app in E1. discriminate.
  - exfalso. unfold match_star in E. repeat (match type of E with context [if ?x then _ else _] => destruct x | context [match ?x with _ => _ end] => destruct x end; try discriminate E).
Qed.
Lemma tries_total : forall t l, exists locs torn, ts_tries t l locs torn.
Proof.
  intros t l. induction l as [|[pat ps] l (locs & torn & H)]; [exists [], false; constructor|].
  assert (Hm : forall m, Forall2 (filled m) ps (map (fun p => replace_char p c_star m) ps)).
  { intros m. clear. induction ps; constructor; [apply filled_replace|assumption]. }
  destruct (str_eq_dec pat t) as [->|Hne]; [do 2 eexists; eapply TtSame; eauto|].
  destruct (star_cases pat t) as [(m & Hs & _)|[(_ & H1 & H2)|[Ht _]]].
  - do 2 eexists. eapply TtStar; eauto.
  - exists locs, torn. apply TtSkip; assumption.
  - exists [], true. apply TtTorn; assumption.
Qed.
(** ** Locations *)
Notation spots := (map (fun p => mkInfo p empty_request)).
Lemma ts_paths_ev : forall f star ps, ev (ts_paths_loop R LL f star ps) = try_all f (spots (map (fun p => replace_char p c_star star) ps)).
Proof.
  intros f star ps. induction ps as [|p ps IH]; [reflexivity|]. cbn [ts_paths_loop map try_all]. rewrite ev_bind.
  destruct (ev (resolve_ R LL f _)) as [s|m|]; try reflexivity. destruct (is_success s); [reflexivity|exact IH].
Qed.
Lemma two_stages : forall (T U : outcome (option stats)) (p : prog stats) (z : outcome stats),
  ev p = match U with Done (Some s) => Done s | Done None => z | Panicked m => Panicked m | NoFuel => NoFuel end ->
  match T with Done a => ev (match a with Some s => Ret s | None => p end) | Panicked m => Panicked m | NoFuel => NoFuel end =
  match match T with Done (Some s) => Done (Some s) | Done None => U | Panicked m => Panicked m | NoFuel => NoFuel end with Done (Some s) => Done s | Done None => z | Panicked m => Panicked m | NoFuel => NoFuel end.
Proof. intros [[s|]|m|] U p z H; try reflexivity. exact H. Qed.
Lemma ts_entries_ev : forall f i l locs torn, ts_tries (r_target (i_req i)) l locs torn ->
  ev (ts_entries_loop R LL f i l) = match try_all f (spots locs) with
    | Done (Some s) => Done s | Done None => if torn then Panicked p_boundary else ev (resolve_ R LL f i) | Panicked m => Panicked m | NoFuel => NoFuel end.
Proof.
  intros f i l locs torn Ht. induction Ht as [|ps r0 l1 l' b Hf Ht IH|pat ps r0 m l1 l' b Hne Hm Hf Ht IH|pat ps r0 l1 b Hne Hm Hnt Ht IH|pat ps r0 Hne Ht]; cbn [ts_entries_loop].
  - reflexivity.
  - rewrite str_eqb_refl. cbn [bind]. rewrite (filled_map _ _ _ Hf), map_app, try_all_app, ev_bind, ts_paths_ev.
    apply (two_stages (try_all f (spots (map (fun p => replace_char p c_star []) ps)))), IH.
  - destruct (str_eqb_spec pat (r_target (i_req i))); [contradiction|].
    rewrite (match_star_complete _ _ _ Hm). cbn [lift bind]. rewrite (filled_map _ _ _ Hf), map_app, try_all_app, ev_bind, ts_paths_ev.
    apply (two_stages (try_all f (spots (map (fun p => replace_char p c_star m) ps)))), IH.
  - destruct (str_eqb_spec pat (r_target (i_req i))); [contradiction|].
    destruct (star_cases pat (r_target (i_req i))) as [(m & H & _)|[(E & _)|[H _]]]; [destruct (Hm m H)| |contradiction]. rewrite E. cbn [lift bind]. exact IH.
  - destruct (str_eqb_spec pat (r_target (i_req i))); [contradiction|].
    destruct (star_cases pat (r_target (i_req i))) as [(m & (a' & b' & -> & Ha & Hs & Hn) & _)|[(_ & _ & H)|[_ E]]]; [exfalso|contradiction|rewrite E; reflexivity].
    destruct Ht as (a & b & Ep & Ha' & _ & Ht). change (a' ++ [c_star] ++ b') with (a' ++ c_star :: b') in Ep. change (a ++ [c_star] ++ b) with (a ++ c_star :: b) in Ep.
    assert (E : Some (a', b') = Some (a, b)) by (rewrite <- (find_char_first a' b' c_star Ha), Ep; apply find_char_first, Ha'). injection E as <- <-.
    destruct Ht as [Ht|[_ Ht]]; [apply (Ht a'); [exists (m ++ b'); exact Hs|reflexivity]|]. apply (Ht (a' ++ m) b'); [rewrite <- app_assoc; exact Hs|reflexivity].
Qed.
Lemma located_complete : forall locs x, located (standing fs) R HD locs x -> exists N, forall f, N <= f -> tells_all x (try_all f (spots locs)).
Proof.
  intros locs x H. induction H as [|p l a Ha Hd|p l e x Ha Hl [N' HN']].
  - exists 0. intros f _. reflexivity.
  - destruct (seek_complete _ _ _ Ha) as [N HN]. exists N. intros f Hf. cbn [map try_all]. apply trial_step; [apply HN, Hf|exact Hd].
  - destruct (seek_complete _ _ _ Ha) as [N HN]. exists (N + N'). intros f Hf. cbn [map try_all].
    destruct (trial_step _ _ (try_all f (spots l)) (HN f ltac:(lia))) as [H1 _]. rewrite (H1 e eq_refl). apply HN'. lia.
Qed.
(** ** Calls *)
Lemma match_list_none : forall loc dir t, parent loc = Some dir -> ts_base t = None \/ ts_paths t = None -> ev (create_match_list loc t) = Done [].
Proof. intros loc dir t Hp H. unfold create_match_list. rewrite Hp. destruct H as [H|H]; rewrite H; [reflexivity|]. destruct (ts_base t); reflexivity. Qed.
Lemma match_list_some : forall loc dir b m, parent loc = Some dir ->
  ev (create_match_list loc (mkTs (Some m) (Some b))) = Done (map (fun kv => (fst kv, map (join (join dir b)) (snd kv))) m).
Proof. intros loc dir b m Hp. unfold create_match_list. rewrite Hp. cbn [ts_base ts_paths act bind ev_fs fs_ans]. rewrite permute_none. reflexivity. Qed.
Definition mapping (f : nat) (loc : path) (j : json) (i : info) : prog stats :=
  ti <- lift (ts_of_json j) ;; l <- create_match_list loc ti ;; ts_entries_loop R LL f i l.
Lemma unmapped_ev : forall loc j f base r, json_nodup j -> parent loc = None \/ (forall b m, ~ ts_sets j b m) /\ ~ no_mapping j ->
  exists m, ev (mapping f loc j (mkInfo base r)) = Panicked m.
Proof.
  intros loc j f base r Hn H. unfold mapping. destruct (ts_of_json j) as [ti|m|] eqn:Et; [|eexists; reflexivity|destruct (ts_ends j Et)].
  destruct H as [H|[H1 H2]].
  - eexists. cbn [lift bind]. rewrite ev_bind. unfold create_match_list. rewrite H. reflexivity.
  - destruct (ts_cases j ti Hn Et) as [(b & m & Hs)|[Hm _]]; [destruct (H1 _ _ Hs)|contradiction].
Qed.
Lemma mapped_ev : forall loc j f base r locs torn, mapped eq loc j (r_target r) locs torn ->
  ev (mapping f loc j (mkInfo base r)) =
  match try_all f (spots locs) with
    | Done (Some s) => Done s | Done None => if torn then Panicked p_boundary else ev (resolve_ R LL f (mkInfo base r)) | Panicked m => Panicked m | NoFuel => NoFuel end.
Proof.
  intros loc j f base r locs torn H. unfold mapping. destruct H as [dir b m m' locs torn Hp Hs <- Hl|dir Hp Hm].
  - rewrite (ts_of_json_sets _ _ _ Hs). cbn [lift bind]. rewrite ev_bind, (match_list_some _ _ _ _ Hp). apply ts_entries_ev, Hl.
  - destruct (no_mapping_ts j Hm) as (t & Et & Hb'). rewrite Et. cbn [lift bind]. rewrite ev_bind, (match_list_none _ _ _ Hp Hb'). reflexivity.
Qed.
Definition stage (f : nat) (base : path) (r : request) : prog stats :=
  match o_tsconfig opts with Some location => resolve_with_tsconfig R LL f (mkInfo base r) location | None => resolve_ R LL f (mkInfo base r) end.
Hypothesis Hval : values_nodup R.
Lemma stage_complete : forall base r a, comes_to fs R base r a -> exists N, forall f, N <= f -> tells a (ev (stage f base r)).
Proof.
  intros base r a H. unfold stage.
  assert (Hbad : forall loc j, o_tsconfig opts = Some loc -> config (standing fs) R HD loc (Some (Ok j)) -> parent loc = None \/ (forall b m, ~ ts_sets j b m) /\ ~ no_mapping j ->
    exists N, forall f, N <= f -> tells Crashes (ev (resolve_with_tsconfig R LL f (mkInfo base r) loc))).
  { intros loc j Et Hx Hw. assert (Hn : json_nodup j) by (eapply config_nodup; [apply Hval; congruence|exact Hx|reflexivity]).
    destruct (config_complete _ _ Hx) as [N HN]. exists N. intros f Hf. unfold resolve_with_tsconfig. pose proof (HN f Hf) as E. cbn [cf_tells] in E. rewrite ev_bind, E.
    exact (unmapped_ev loc j f base r Hn Hw). }
  destruct H as [a Et Ha|loc e Et Hx|loc Et Hx|loc j Et Hx H1 H2|loc j Et Hx Hp|loc j locs torn a Et Hx Hm Hl|loc j locs Et Hx Hm Hl|loc j locs a Et Hx Hm Hl Ha]; rewrite Et.
  - apply seek_complete; assumption.
  - destruct (config_complete _ _ Hx) as [N HN]. exists N. intros f Hf. unfold resolve_with_tsconfig. pose proof (HN f Hf) as E. cbn [cf_tells] in E. rewrite ev_bind, E. eexists. reflexivity.
  - destruct (config_complete _ _ Hx) as [N HN]. exists N. intros f Hf. unfold resolve_with_tsconfig. destruct (HN f Hf) as [m E]. rewrite ev_bind, E. eexists. reflexivity.
  - eapply Hbad; [exact Et|exact Hx|auto].
  - eapply Hbad; [exact Et|exact Hx|auto].
  - destruct (config_complete _ _ Hx) as [N HN]. destruct (located_complete _ _ Hl) as [N' HN']. exists (N + N'). intros f Hf.
    unfold resolve_with_tsconfig. pose proof (HN f ltac:(lia)) as E. cbn [cf_tells] in E. rewrite ev_bind, E. fold (mapping f loc j (mkInfo base r)).
    rewrite (mapped_ev loc j f base r locs torn Hm). apply tells_all_some, HN'. lia.
  - destruct (config_complete _ _ Hx) as [N HN]. destruct (located_complete _ _ Hl) as [N' HN']. exists (N + N'). intros f Hf.
    unfold resolve_with_tsconfig. pose proof (HN f ltac:(lia)) as E. cbn [cf_tells] in E. rewrite ev_bind, E. fold (mapping f loc j (mkInfo base r)).
    rewrite (mapped_ev loc j f base r locs true Hm). pose proof (HN' f ltac:(lia)) as Ho. cbn [tells_all] in Ho. rewrite Ho. eexists. reflexivity.
  - destruct (config_complete _ _ Hx) as [N HN]. destruct (located_complete _ _ Hl) as [N' HN'].
    destruct (seek_complete _ _ _ Ha) as [N'' HN'']. exists (N + N' + N''). intros f Hf.
    unfold resolve_with_tsconfig. pose proof (HN f ltac:(lia)) as E. cbn [cf_tells] in E. rewrite ev_bind, E. fold (mapping f loc j (mkInfo base r)).
    rewrite (mapped_ev loc j f base r locs false Hm). pose proof (HN' f ltac:(lia)) as Ho. cbn [tells_all] in Ho. rewrite Ho. apply HN''. lia.
Qed.
(** The outcome a fate stands for. *)
(** The answer to a fate. *)
Definition given (a : fate) : option (result rresult) :=
  match a with
  | Finds q qu fr =>
      Some (if o_symlinks opts
            then match f_canon fs q with
                 | Some p => Ok (RInfo (mkInfo p (mkReq [] qu fr Relative)))
                 | None => Err (lit "Path normalized failed")
                 end
            else Ok (RInfo (mkInfo (normalize_path_without_link q) (mkReq [] qu fr Relative))))
  | Skips => Some (Ok RIgnored)
  | Fails e => Some (Err e)
  | Crashes => None
  end.
Lemma given_returned : forall a y, returned (standing fs) R a y <-> y = given a.
Proof.
  intros a y. split.
  - intros H. destruct H as [q qu fr p H1 H2|q qu fr H1 H2|q qu fr H1| |e|]; cbn [given]; try reflexivity; rewrite H1; wd; try rewrite H2; reflexivity.
  - intros ->. destruct a as [q qu fr| |e|]; cbn [given]; try constructor. destruct (o_symlinks opts) eqn:E1; [|constructor; exact E1].
    destruct (f_canon fs q) as [p|] eqn:E2; constructor; assumption.
Qed.
Definition final (a : fate) (o : outcome (result rresult)) : Prop :=
  match given a with Some x => o = Done x | None => exists m, o = Panicked m end.
Lemma final_delivers : forall a o, delivers fs R a o <-> match given a with Some x => exists x', o = Done (AResolve x') /\ agrees x x' | None => exists m, o = Panicked m end.
Proof.
  intros a o. unfold delivers. split; [intros (y & Hy & H); apply given_returned in Hy; subst y; exact H|]. intros H. exists (given a). split; [apply given_returned; reflexivity|exact H].
Qed.
Lemma final_gives : forall a o, gives (standing fs) R a o <-> match given a with Some x => o = Done (AResolve x) | None => exists m, o = Panicked m end.
Proof.
  intros a o. unfold gives. split; [intros (y & Hy & H); apply given_returned in Hy; subst y; exact H|]. intros H. exists (given a). split; [apply given_returned; reflexivity|exact H].
Qed.
Lemma tells_final : forall a o, tells a o ->
  final a (match o with
    | Done s => ev (match s with Success r => normalize_result R r | SError e _ => Ret (Err e) | Resolving _ => Panic p_unreachable end)
    | Panicked m => Panicked m | NoFuel => NoFuel end).
Proof.
  intros [q qu fr| |e|] o; unfold final; cbn [tells given].
  - intros ->. unfold normalize_result. cbn [i_req r_target str_eqb negb]. rewrite andb_false_r. unfold normalize_path, try_. cbn [i_path].
    destruct (o_symlinks opts); [|reflexivity]. cbn [act bind ev_fs fs_ans]. destruct (f_canon fs q); reflexivity.
  - intros ->. reflexivity.
  - intros [i ->]. reflexivity.
  - intros [m ->]. exists m. reflexivity.
Qed.
Lemma full_complete : forall base req a, comes_to fs R base (parse req) a ->
  exists N, forall f, N <= f -> final a (ev (resolve_with R LL f base req)).
Proof.
  intros base req a Ha. destruct (stage_complete base (parse req) a Ha) as [N HN]. exists N. intros f Hf.
  unfold resolve_with. rewrite ev_bind. change (match o_tsconfig opts with Some location => _ | None => _ end) with (stage f base (parse req)).
  apply tells_final, HN, Hf.
Qed.
Lemma tells_unique : forall a a' o, tells a o -> tells a' o -> a = a'.
Proof.
  intros [q qu fr| |e|] [q' qu' fr'| |e'|] o; cbn [tells]; intros H H'; repeat match goal with H : exists _, _ |- _ => destruct H end; congruence.
Qed.
Lemma full_unique : forall base req a a', comes_to fs R base (parse req) a -> comes_to fs R base (parse req) a' -> a = a'.
Proof.
  intros base req a a' Ha Ha'. destruct (stage_complete base (parse req) a Ha) as [N HN]. destruct (stage_complete base (parse req) a' Ha') as [N' HN'].
  exact (tells_unique _ _ _ (HN (N + N') ltac:(lia)) (HN' (N + N') ltac:(lia))).
Qed.
End Full.
