(** * Proofs for PropBroken.v *)
From Coq Require Import String.
From Coq Require Import List Arith NArith Bool Lia.
From Verif Require Import Str StrP Path PathP Json Types Parse Map Prog Desc Resolve Top Run RunP Posix Demo SpecLoad SpecCache SpecDesc SpecNode SpellP SimP LoadP GuarP LookupP PosixP SpecBroken.
Import ListNotations.

(** Going up. *)
Inductive up : path -> path -> Prop :=
| UpHere : forall p, up p p
| UpMore : forall p q r, parent p = Some q -> up q r -> up p r.
Lemma up_trans : forall p q r, up p q -> up q r -> up p r.
Proof. intros p q r H. induction H as [|p q' r' Hp _ IH]; [auto|]. intros H. eapply UpMore; [exact Hp|auto]. Qed.
Lemma up_same : forall p r, up p r -> forall q, same_path q p -> exists r', up q r' /\ same_path r' r.
Proof.
  intros p r H. induction H as [p|p p' r Hp _ IH]; intros q Hq; [exists q; split; [constructor|exact Hq]|].
  pose proof (parent_same _ _ Hq) as Hs. rewrite Hp in Hs. destruct (parent q) as [q'|] eqn:Eq; [|contradiction].
  destruct (IH q' Hs) as (r' & H1 & H2). exists r'. split; [|exact H2]. eapply UpMore; eassumption.
Qed.
Lemma lineage_parts : forall p0 l1 d l2, lineage p0 = l1 ++ d :: l2 -> forall x, In x l1 -> exists y, parent x = Some y /\ In y (l1 ++ [d]).
Proof.
  intros p0. induction p0 as [p Hp|p q Hp IH] using lineage_ind; intros l1 d l2 E x Hx.
  - rewrite (lineage_none _ Hp) in E. destruct l1 as [|a [|b l1]]; [contradiction|discriminate|discriminate].
  - rewrite (lineage_some _ _ Hp) in E. destruct l1 as [|a l1]; [contradiction|]. cbn [app] in E. injection E as <- E.
    destruct Hx as [<-|Hx].
    + exists q. split; [exact Hp|]. right. destruct l1 as [|b l1]; cbn [app] in E.
      * destruct (parent q) as [q'|] eqn:Eq; [rewrite (lineage_some _ _ Eq) in E|rewrite (lineage_none _ Eq) in E]; injection E as <- _; left; reflexivity.
      * destruct (parent q) as [q'|] eqn:Eq; [rewrite (lineage_some _ _ Eq) in E|rewrite (lineage_none _ Eq) in E]; injection E as <- _; left; reflexivity.
    + destruct (IH l1 d l2 E x Hx) as (y & H1 & H2). exists y. split; [exact H1|right; exact H2].
Qed.
Lemma lineage_up : forall p0 l1 d l2, lineage p0 = l1 ++ d :: l2 -> forall x, In x (l1 ++ [d]) -> up x d.
Proof.
  intros p0. induction p0 as [p Hp|p q Hp IH] using lineage_ind; intros l1 d l2 E x Hx.
  - rewrite (lineage_none _ Hp) in E. destruct l1 as [|a [|b l1]]; [|discriminate|discriminate]. injection E as <- _.
    destruct Hx as [<-|[]]. constructor.
  - rewrite (lineage_some _ _ Hp) in E. destruct l1 as [|a l1]; cbn [app] in E.
    + injection E as <- _. destruct Hx as [<-|[]]. constructor.
    + injection E as <- E. destruct Hx as [<-|Hx]; [|eapply IH; eassumption]. eapply UpMore; [exact Hp|]. apply (IH l1 d l2 E).
      destruct l1 as [|b l1]; cbn [app] in *; (destruct (parent q) as [q'|] eqn:Eq; [rewrite (lineage_some _ _ Eq) in E|rewrite (lineage_none _ Eq) in E]);
        injection E as <- _; left; reflexivity.
Qed.

Section Broken.
Variable js : str -> option json.
Variable name : str.
Variable c : nat.
Variables p0 d : path.
Variables l1 l2 : list path.
Hypothesis El : lineage p0 = l1 ++ d :: l2.
Definition inK (q : path) : Prop := exists x, In x (l1 ++ [d]) /\ same_path q x.
Definition okb (o : op) : ans o -> Prop :=
  match o return ans o -> Prop with
  | OIsDir q => fun x => same_path q d -> x = true
  | OIsFile q => fun x => (forall q', q = join q' name -> same_path q' d -> x = true) /\
                          (forall q' y, q = join q' name -> In y l1 -> same_path q' y -> x = false)
  | ORead q => fun x => forall q', q = join q' name -> same_path q' d -> exists s, x = Some s /\ js s = None
  | OMtime q => fun x => forall q', q = join q' name -> same_path q' d -> exists t, x = MTime t
  | OPkgGet c' q => fun x => c' = c -> inK q -> x = None
  | _ => fun _ => True
  end.
Definition putb (o : op) : Prop := match o with OPkgPut c' q v => c' = c -> ~ inK q | _ => True end.
Lemma reads_putb : forall o, reads o -> putb o.
Proof. intros [] H; try exact I; contradiction. Qed.
Notation wgb := (wgo okb putb).
Notation GGb := (GG okb putb).
Definition clearb (st : state) : Prop := forall q, inK q -> s_pkg st c (components q) = None.
Definition badb (fs : fsys) : Prop := sane_fs fs /\ broken_at js name l1 d fs.
Lemma step_b : forall fs st o, badb fs -> clearb st -> putb o -> okb o (fst (step fs st o)) /\ clearb (snd (step fs st o)).
Proof.
  intros fs st o (Hs & Hn & Hd & Hf & s & t & Hr & Hm & Hj) Hst Ho. destruct o; cbn [step fst snd okb]; try (split; [exact I|exact Hst]).
  - split; [|exact Hst]. split.
    + intros q' -> Hq. rewrite (sf_file _ Hs _ _ (same_tail_join _ _ name Hq)). exact Hf.
    + intros q' y -> Hy Hq. rewrite (sf_file _ Hs _ _ (same_tail_join _ _ name Hq)). eapply Forall_forall in Hn; [|exact Hy]. exact Hn.
  - split; [|exact Hst]. intros Hq. rewrite (sf_dir _ Hs _ _ Hq). exact Hd.
  - split; [|exact Hst]. intros q' -> Hq. rewrite (sf_read _ Hs _ _ (same_tail_join _ _ name Hq)). exists s. auto.
  - split; [|exact Hst]. intros q' -> Hq. rewrite (sf_mtime _ Hs _ _ (same_tail_join _ _ name Hq)). exists t. auto.
  - split; [|exact Hst]. intros -> Hq. apply Hst, Hq.
  - split; [exact I|]. intros q Hq. cbn. unfold upd_path. destruct (Nat.eqb_spec c c0) as [<-|]; cbn [andb]; [|apply Hst, Hq].
    destruct (comps_eqb (components q) (components p)) eqn:E; [|apply Hst, Hq]. exfalso. apply (Ho eq_refl). destruct Hq as (x & Hx & Hq).
    exists x. split; [exact Hx|]. apply comps_eqb_eq in E. unfold same_path in *. congruence.
Qed.
Lemma step_nth_b : forall fs (Qs : list (outcome answer -> Prop)) l i st, badb fs -> Forall2 (fun Q p => wgb Q p) Qs l -> clearb st ->
  Forall2 (fun Q p => wgb Q p) Qs (fst (step_nth fs st i l)) /\ clearb (snd (step_nth fs st i l)).
Proof.
  intros fs Qs l i st Hfs H. revert i st. induction H as [|Q p Qs l Hp Hl IH]; intros i st Hst; [destruct i; split; [constructor|exact Hst|constructor|exact Hst]|].
  destruct i as [|i]; cbn [step_nth].
  - destruct p as [a|m| |o k]; cbn [thread_step fst snd]; try (split; [constructor; assumption|exact Hst]). destruct Hp as [Ho Hk].
    destruct (step_b fs st o Hfs Hst Ho) as [H1 H2]. destruct (step fs st o) as [x st']. cbn [fst snd] in *. split; [constructor; [apply Hk, H1|exact Hl]|exact H2].
  - specialize (IH i st Hst). destruct (step_nth fs st i l) as [l' st']. cbn [fst snd] in *. destruct IH as [H1 H2]. split; [constructor; assumption|exact H2].
Qed.
Lemma moving_b : forall sched (Qs : list (outcome answer -> Prop)) l st, Forall (fun x => badb (fst x)) sched -> Forall2 (fun Q p => wgb Q p) Qs l -> clearb st ->
  Forall2 (fun Q p => wgb Q p) Qs (fst (run_moving sched st l)).
Proof.
  induction sched as [|[fs i] sched IH]; intros Qs l st Hs Hl Hst; [exact Hl|]. inversion Hs as [|? ? H1 H2]; subst. cbn [run_moving fst] in *.
  destruct (step_nth_b fs Qs l i st H1 Hl Hst) as [H3 H4]. destruct (step_nth fs st i l) as [l' st']. apply IH; assumption.
Qed.

Definition said {A} (r : outcome (result A)) : Prop := r = NoFuel \/ r = Done (Err (parse_failed (join d name))).
Ltac act_ := apply wgo_bind; cbn [act wgo]; (split; [exact I|]).
Section Load.
Variable R : resolver.
Hypothesis Hc : rv_cache R = c.
Hypothesis Hn : o_desc (rv_opts R) = Some name.
Hypothesis Hj : rv_json R = js.
Lemma b_find_up : forall f p, wgb (fun r => (forall x, r = Done None -> up p x -> ~ same_path x d) /\
  (In p (l1 ++ [d]) -> r = NoFuel \/ r = Done (Some d))) (find_up f p name).
Proof.
  induction f as [|f IH]; intros p; cbn [find_up wgo]; [split; [discriminate|auto]|]. act_. intros isf [H1 H2]. cbn [wgo].
  destruct isf.
  - cbn [wgo]. split; [discriminate|]. intros Hp. apply in_app_iff in Hp. destruct Hp as [Hp|[<-|[]]]; [|auto].
    specialize (H2 p p eq_refl Hp eq_refl). discriminate.
  - destruct (parent p) as [q|] eqn:Eq.
    + eapply wgo_mono; [|apply IH]. intros r [Ha Hb]. split.
      * intros x Er Hup. inversion Hup as [? E1 E2|? q' ? Hq Hup']; subst; [|rewrite Eq in Hq; injection Hq as <-; eapply Ha; eauto].
        intros Hs. specialize (H1 x eq_refl Hs). discriminate.
      * intros Hp. apply Hb. apply in_app_iff in Hp. destruct Hp as [Hp|[<-|[]]].
        -- destruct (lineage_parts _ _ _ _ El p Hp) as (y & E & Hy). rewrite Eq in E. injection E as <-. exact Hy.
        -- specialize (H1 d eq_refl eq_refl). discriminate.
    + cbn [wgo]. split.
      * intros x _ Hup. inversion Hup as [? E1 E2|? q' ? Hq Hup']; subst; [|congruence]. intros Hs. specialize (H1 x eq_refl Hs). discriminate.
      * intros Hp. exfalso. apply in_app_iff in Hp. destruct Hp as [Hp|[<-|[]]].
        -- destruct (lineage_parts _ _ _ _ El p Hp) as (y & E & Hy). congruence.
        -- specialize (H1 d eq_refl eq_refl). discriminate.
Qed.
Lemma inK_up : forall q, inK q -> exists x, up q x /\ same_path x d.
Proof. intros q (x & Hx & Hq). apply (up_same x d); [|exact Hq]. eapply lineage_up; eassumption. Qed.
Lemma b_none : forall f p (Q : outcome (result (option pkg)) -> Prop), (forall x, up p x -> ~ same_path x d) -> (forall r, Q r) -> wgb Q (none_loop R f p).
Proof.
  induction f as [|f IH]; intros p Q Hp HQ; cbn [none_loop]; [apply HQ|]. act_. intros b _. cbn [wgo]. destruct b; [|apply IH; assumption].
  apply wgo_bind. cbn [act wgo]. split.
  - intros _ Hk. destruct (inK_up _ Hk) as (x & H1 & H2). apply (Hp x H1 H2).
  - intros u0 _. destruct (parent p) as [q|] eqn:Eq; [|apply HQ]. apply IH; [|exact HQ]. intros x Hx. apply Hp. eapply UpMore; eassumption.
Qed.
Lemma b_modified : forall p (Q : outcome (result N) -> Prop), (forall r, Q (Done r)) -> wgb Q (get_last_modified p).
Proof. intros p Q H. unfold get_last_modified. act_. intros [| |t] _; apply H. Qed.
Lemma b_exports : forall j, GGb (load_exports R j).
Proof. intros j. unfold load_exports. destruct (jget j _); [|exact I]. act_. intros [t|] _; [exact I|]. apply GG_try; [apply GG_lift|]. intros t. act_. intros; exact I. Qed.
Lemma b_imports : forall j, GGb (load_imports R j).
Proof. intros j. unfold load_imports. destruct (jget j _); [|exact I]. act_. intros [t|] _; [exact I|]. apply GG_try; [apply GG_lift|]. intros t. act_. intros; exact I. Qed.
Lemma b_store : forall p, (inK p -> same_path p d) ->
  wgb (fun r => rv_debug R = false -> p = d -> said r) (parse_and_store R p (join p name)).
Proof.
  intros p Hp. unfold parse_and_store, try_. apply wgo_bind. unfold parse_description_file. apply wgo_bind.
  assert (G : wgb (fun r => match r with
     | Done (Ok pk) => (~ inK p) /\ p <> d
     | Done (Err e) => p = d -> e = parse_failed (join d name)
     | Panicked _ => p <> d | NoFuel => True end)
      (s <- read_to_string R (join p name) ;;
       match s with
       | Err _ => Ret (Err (open_failed (join p name)))
       | Ok s =>
          match rv_json R s with
          | None => Ret (Err (lit "Parse " ++ join p name ++ lit " failed"))
          | Some j =>
              af <- lift (alias_fields_of j) ;;
              seed <- act OOrder ;;
              try_ (load_exports R j) (fun ex =>
              try_ (load_imports R j) (fun im =>
              let name0 := opt_str (jget j (lit "name")) in
              match side_effects_of (join p name) j with
              | Err e => Ret (Err e)
              | Ok se =>
                  let version := opt_str (jget j (lit "version")) in
                  Ret (Ok (mkPkg p name0 version (permute seed af) ex im se j))
              end))
          end
       end)).
  { apply wgo_bind. unfold read_to_string. act_. intros x Hx. cbn [wgo okb] in *. destruct x as [s|].
    - unfold try_. apply wgo_bind. unfold get_last_modified. act_. intros m Hm. cbn [wgo okb] in *.
      assert (E : inK p -> exists s', Some s = Some s' /\ js s' = None) by (intros Hk; apply (Hx p eq_refl), Hp, Hk).
      assert (E' : p = d -> exists t, m = MTime t) by (intros ->; apply (Hm d eq_refl eq_refl)).
      destruct m as [| |t]; cbn [wgo]; [intros Ed; destruct (E' Ed); discriminate|intros Ed; destruct (E' Ed); discriminate|].
      act_. intros u0 _. cbn [wgo]. rewrite Hj. destruct (js s) as [j|] eqn:Ej; [|cbn [wgo]; intros ->; reflexivity].
      assert (N : ~ inK p). { intros Hk. destruct (E Hk) as (s' & Es & Hs'). injection Es as <-. congruence. }
      assert (N' : p <> d). { intros ->. apply N. exists d. split; [apply in_app_iff; right; left; reflexivity|reflexivity]. }
      eapply (wgo_mono okb putb) with (Q := fun _ => True); [intros [[pk|e]|m'|] _; auto; contradiction|].
      apply GG_bind; [apply GG_lift|]. intros af. act_. intros seed _. cbn [wgo]. apply GG_try; [apply b_exports|]. intros ex. apply GG_try; [apply b_imports|].
      intros im. cbv zeta. destruct (side_effects_of (join p name) j); exact I.
    - cbn [wgo]. intros ->. destruct (Hx d eq_refl eq_refl) as (s & E & _). discriminate. }
  assert (G2 : wgb (fun r => match r with
     | Done a => wgb (fun r => rv_debug R = false -> p = d -> said r) match a with Ok a0 => act (OPkgPut (rv_cache R) p (Some a0)) ;;; Ret (Ok (Some a0)) | Err e => Ret (Err e) end
     | Panicked m => rv_debug R = false -> p = d -> said (Panicked m : outcome (result (option pkg)))
     | NoFuel => rv_debug R = false -> p = d -> said (NoFuel : outcome (result (option pkg))) end)
      (s <- read_to_string R (join p name) ;;
       match s with
       | Err _ => Ret (Err (open_failed (join p name)))
       | Ok s =>
          match rv_json R s with
          | None => Ret (Err (lit "Parse " ++ join p name ++ lit " failed"))
          | Some j =>
              af <- lift (alias_fields_of j) ;;
              seed <- act OOrder ;;
              try_ (load_exports R j) (fun ex =>
              try_ (load_imports R j) (fun im =>
              let name0 := opt_str (jget j (lit "name")) in
              match side_effects_of (join p name) j with
              | Err e => Ret (Err e)
              | Ok se =>
                  let version := opt_str (jget j (lit "version")) in
                  Ret (Ok (mkPkg p name0 version (permute seed af) ex im se j))
              end))
          end
       end)).
  { eapply wgo_mono; [|exact G]. intros [[pk|e]|m|] H; cbn beta iota in H |- *.
    - apply wgo_bind. cbn [act wgo]. split; [intros _; apply H|]. intros u0 _ _ Ed. destruct H as [_ H]. contradiction.
    - cbn [wgo]. intros _ Ed. right. rewrite (H Ed). reflexivity.
    - intros _ Ed. contradiction.
    - intros _ _. left. reflexivity. }
  unfold dbg_check. destruct (rv_debug R) eqn:Eb; [|exact G2].
  act_. intros [|] _; cbn [wgo]; [discriminate|]. split; [exact I|]. intros u0 _. exact G2.
Qed.
Lemma b_load : forall f p, wgb (fun r => rv_debug R = false -> In p (l1 ++ [d]) -> said r) (load_pkg_file R f p).
Proof.
  induction f as [|f IH]; intros p; cbn [load_pkg_file]; [left; reflexivity|]. rewrite Hn. act_. intros b Hb. cbn [wgo okb] in Hb |- *.
  destruct b; cbn [negb].
  - act_. intros x Hx. cbn [wgo okb] in Hx |- *. specialize (Hx Hc). destruct x as [v|].
    + assert (N : ~ inK p) by (intros Hk; specialize (Hx Hk); discriminate).
      assert (N' : ~ In p (l1 ++ [d])). { intros Hi. apply N. exists p. split; [exact Hi|reflexivity]. }
      eapply (wgo_mono okb putb) with (Q := fun _ => True); [intros r _ _ Hi; contradiction|].
      apply GG_try.
      * unfold check_entry, need_update. apply GG_bind.
        -- act_. intros isf _. cbn [wgo]. destruct (negb isf); [exact I|]. act_. intros [[s t]|] _; [|exact I]. cbn [wgo].
           unfold try_. apply wgo_bind. apply b_modified. intros [n|e]; [|exact I]. destruct (N.ltb n t); exact I.
        -- intros u. assert (G : GGb (act (OPkgDrop (rv_cache R) p) ;;; Ret u)) by (act_; intros u0 _; exact I).
           apply GG_bind; [|intros; exact G]. destruct u as [[|]|]; try exact I. destruct (rv_debug R); [|exact I]. cbn. split; [exact I|]. intros; exact I.
      * intros [|]; cbn [negb]; [|exact I]. eapply wgo_mono; [|apply b_store; intros Hk; contradiction]. auto.
    + act_. intros isf [H1 H2]. cbn [wgo]. destruct isf.
      * eapply wgo_mono; [|apply b_store].
        -- intros r Hr Hd Hi. apply Hr; [exact Hd|]. apply in_app_iff in Hi. destruct Hi as [Hi|[<-|[]]]; [|reflexivity].
           specialize (H2 p p eq_refl Hi eq_refl). discriminate.
        -- intros (y & Hy & Hs). apply in_app_iff in Hy. destruct Hy as [Hy|[<-|[]]]; [|exact Hs]. specialize (H2 p y eq_refl Hy Hs). discriminate.
      * apply wgo_bind. eapply wgo_mono; [|apply b_find_up]. intros [[q|]|m|] [Ha Hb']; cbn beta iota.
        -- eapply wgo_mono; [|apply IH]. intros r Hr Hd Hi. apply Hr; [exact Hd|]. destruct (Hb' Hi) as [E|E]; [discriminate|]. injection E as ->.
           apply in_app_iff. right. left. reflexivity.
        -- eapply (wgo_mono okb putb) with (Q := fun _ => True); [|apply b_none; [intros x Hx'; apply (Ha x eq_refl Hx')|auto]].
           intros r _ _ Hi. destruct (Hb' Hi); discriminate.
        -- intros _ Hi. destruct (Hb' Hi); discriminate.
        -- intros _ _. left. reflexivity.
  - destruct (parent p) as [q|] eqn:Eq.
    + eapply wgo_mono; [|apply IH]. intros r Hr Hd Hi. apply Hr; [exact Hd|]. apply in_app_iff in Hi. destruct Hi as [Hi|[<-|[]]].
      * destruct (lineage_parts _ _ _ _ El p Hi) as (y & E & Hy). rewrite Eq in E. injection E as <-. exact Hy.
      * specialize (Hb eq_refl). discriminate.
    + cbn [wgo]. intros _ Hi. exfalso. apply in_app_iff in Hi. destruct Hi as [Hi|[<-|[]]].
      * destruct (lineage_parts _ _ _ _ El p Hi) as (y & E & Hy). congruence.
      * specialize (Hb eq_refl). discriminate.
Qed.
End Load.
Lemma other_load : forall R f p, rv_cache R <> c -> GGb (load_pkg_file R f p).
Proof.
  intros R f p Hc.
  assert (Gm : forall q, GGb (get_last_modified q)) by (intros q; apply b_modified; intros; exact I).
  assert (Gs : forall q r, GGb (parse_and_store R q r)).
  { intros q r. unfold parse_and_store. apply GG_try.
    - unfold parse_description_file. apply GG_bind.
      + unfold dbg_check. destruct (rv_debug R); [|exact I]. act_. intros [|] _; [exact I|]. cbn. split; [exact I|]. intros; exact I.
      + intros u. apply GG_bind.
        * unfold read_to_string. act_. intros [s|] _; [|exact I]. cbn [wgo]. apply GG_try; [apply Gm|]. intros t. act_. intros; exact I.
        * intros [s|e]; [|exact I]. destruct (rv_json R s) as [j|]; [|exact I]. apply GG_bind; [apply GG_lift|]. intros af. act_. intros seed _. cbn [wgo].
          apply GG_try; [apply b_exports|]. intros ex. apply GG_try; [apply b_imports|]. intros im. cbv zeta. destruct (side_effects_of r j); exact I.
    - intros pk. apply wgo_bind. cbn [act wgo]. split; [intros E; contradiction|]. intros; exact I. }
  assert (Gu : forall g q n, GGb (find_up g q n)).
  { induction g as [|g IH]; intros q n; cbn [find_up]; [exact I|]. act_. intros [|] _; [exact I|]. cbn [wgo]. destruct (parent q); [apply IH|exact I]. }
  assert (Gn : forall g q, GGb (none_loop R g q)).
  { induction g as [|g IH]; intros q; cbn [none_loop]; [exact I|]. act_. intros [|] _; [|apply IH]. cbn [wgo]. apply wgo_bind. cbn [act wgo].
    split; [intros E; contradiction|]. intros u0 _. destruct (parent q); [apply IH|exact I]. }
  revert p. induction f as [|f IH]; intros p; cbn [load_pkg_file]; [exact I|]. destruct (o_desc (rv_opts R)) as [n|]; [|exact I].
  act_. intros [|] _; cbn [wgo negb]; [|destruct (parent p); [apply IH|exact I]]. act_. intros [v|] _; cbn [wgo].
  - apply GG_try.
    + unfold check_entry, need_update. apply GG_bind.
      * act_. intros isf _. cbn [wgo]. destruct (negb isf); [exact I|]. act_. intros [[s t]|] _; [|exact I]. cbn [wgo].
        apply GG_try; [apply Gm|]. intros m. destruct (N.ltb m t); exact I.
      * intros u. assert (G : GGb (act (OPkgDrop (rv_cache R) p) ;;; Ret u)) by (act_; intros u0 _; exact I).
        apply GG_bind; [|intros; exact G]. destruct u as [[|]|]; try exact I. destruct (rv_debug R); [|exact I]. cbn. split; [exact I|]. intros; exact I.
    + intros [|]; cbn [negb]; [apply Gs|exact I].
  - act_. intros [|] _; cbn [wgo]; [apply Gs|]. apply GG_bind; [apply Gu|]. intros [q|]; [apply IH|apply Gn].
Qed.
Lemma any_load : forall R f p, (rv_cache R = c -> o_desc (rv_opts R) = None \/ (o_desc (rv_opts R) = Some name /\ rv_json R = js)) -> GGb (load_pkg_file R f p).
Proof.
  intros R f p H. destruct (Nat.eq_dec (rv_cache R) c) as [E|E]; [|apply other_load, E].
  destruct (H E) as [Hn|[Hn Hj]]; [destruct f; [exact I|]; cbn [load_pkg_file]; rewrite Hn; exact I|].
  eapply wgo_mono; [|apply b_load; assumption]. auto.
Qed.
Lemma any_call : forall x, fills js name c x -> GGb (call_prog x).
Proof.
  intros [R f base req|R f p] H; unfold fills in H; cbn [call_resolver call_prog] in *.
  - apply GG_bind; [|intros; exact I]. apply GG_resolve_with; [exact reads_putb|]. intros. apply any_load, H.
  - apply GG_bind; [|intros; exact I]. unfold load_side_effects. apply GG_try; [apply any_load, H|].
    intros [pk|]; [|exact I]. destruct (o_desc _); exact I.
Qed.
Lemma p0_in : In p0 (l1 ++ [d]).
Proof.
  destruct (parent p0) as [q|] eqn:Eq; [rewrite (lineage_some _ _ Eq) in El|rewrite (lineage_none _ Eq) in El];
    destruct l1 as [|a l]; cbn [app] in *; injection El as <- _; left; reflexivity.
Qed.
Lemma asked_call : forall x, asked x p0 -> rv_debug (call_resolver x) = false -> rv_cache (call_resolver x) = c ->
  o_desc (rv_opts (call_resolver x)) = Some name -> rv_json (call_resolver x) = js ->
  wgb (fun r => r = NoFuel \/ r = Done (reports x (parse_failed (join d name)))) (call_prog x).
Proof.
  intros [R f base req|R f p] Ha Hd Hc Hn Hj; cbn [call_resolver call_prog asked reports] in *.
  - destruct Ha as (Ht & Hal & Hpr & Hp). apply wgo_bind. unfold resolve, resolve_with. cbv zeta. rewrite Ht. apply wgo_bind.
    destruct f as [|f]; cbn [resolve_]; [left; reflexivity|]. apply wgo_bind.
    assert (E : forall i, alias_apply R (resolve_ R (load_pkg_file R (S f)) f) i = Ret (Resolving i)).
    { intros i. unfold alias_apply. rewrite Hal. destruct (contains _ _); reflexivity. }
    rewrite E. assert (E2 : forall i, prefer_relative_apply R (resolve_ R (load_pkg_file R (S f)) f) i = Ret (Resolving i)).
    { intros i. unfold prefer_relative_apply. cbv zeta. rewrite Hpr. destruct (_ || _); reflexivity. }
    unfold and_then. cbn [bind]. rewrite E2. cbn [bind]. apply wgo_bind. unfold pkg_step. cbv zeta. apply wgo_bind. cbn [i_path i_req].
    replace (match r_kind (parse req) with Normal => _ | _ => _ end) with p0.
    eapply wgo_mono; [|apply b_load; assumption]. intros r Hr. destruct (Hr Hd p0_in) as [-> | ->]; [left; reflexivity|]. right. reflexivity.
  - subst p. apply wgo_bind. unfold load_side_effects, try_. apply wgo_bind. eapply wgo_mono; [|apply b_load; assumption].
    intros r Hr. destruct (Hr Hd p0_in) as [-> | ->]; [left; reflexivity|right; reflexivity].
Qed.
End Broken.

Lemma fin_42 : forall js name p near d far calls sched seeds i x q, lineage p = near ++ d :: far ->
  Forall (fun e => sane_fs (fst e) /\ broken_at js name near d (fst e)) sched ->
  nth_error calls i = Some x -> asked x p -> rv_debug (call_resolver x) = false -> o_desc (rv_opts (call_resolver x)) = Some name ->
  rv_json (call_resolver x) = js -> Forall (fills js name (rv_cache (call_resolver x))) calls ->
  nth_error (fst (run_moving sched (empty_state seeds) (map call_prog calls))) i = Some q ->
  settled q = NoFuel \/ settled q = Done (reports x (parse_failed (join d name))).
Proof.
  intros js name p near d far calls sched seeds i x q El Hs Hx Ha Hd Hn Hj Hc Hq.
  set (Q := fun (j : nat) (r : outcome answer) => j = i -> r = NoFuel \/ r = Done (reports x (parse_failed (join d name)))).
  assert (H : Forall2 (fun Q p => wgo (okb js name (rv_cache (call_resolver x)) d near) (putb (rv_cache (call_resolver x)) d near) Q p)
    (map Q (seq 0 (length calls))) (fst (run_moving sched (empty_state seeds) (map call_prog calls)))).
  { apply moving_b; [exact Hs| |intros z _; reflexivity].
    assert (G : forall l n, (forall j y, nth_error l j = Some y -> nth_error calls (n + j) = Some y) ->
      Forall2 (fun Q p => wgo (okb js name (rv_cache (call_resolver x)) d near) (putb (rv_cache (call_resolver x)) d near) Q p)
        (map Q (seq n (length l))) (map call_prog l)).
    { induction l as [|y l IH]; intros n Hl; cbn [length seq map]; constructor.
      - pose proof (Hl 0 y eq_refl) as Hy. rewrite Nat.add_0_r in Hy. unfold Q. destruct (Nat.eq_dec n i) as [->|E].
        + rewrite Hx in Hy. injection Hy as <-. eapply wgo_mono; [|eapply asked_call; try eassumption; reflexivity]. intros r Hr _. exact Hr.
        + eapply wgo_mono; [|eapply any_call; [eassumption|]]; [intros r _ E'; contradiction|]. eapply Forall_forall in Hc; [exact Hc|].
          eapply nth_error_In. exact Hy.
      - apply IH. intros j z Hz. rewrite Nat.add_succ_comm. apply Hl. exact Hz. }
    apply G. intros j y Hy. exact Hy. }
  assert (Hi : nth_error (map Q (seq 0 (length calls))) i = Some (Q i)).
  { rewrite nth_error_map. replace (nth_error (seq 0 (length calls)) i) with (Some i); [reflexivity|]. symmetry.
    rewrite nth_error_nth' with (d := 0); [|rewrite seq_length; apply nth_error_Some; congruence]. rewrite seq_nth; [reflexivity|].
    apply nth_error_Some. congruence. }
  assert (W : forall (Qs : list (outcome answer -> Prop)) (l : list (prog answer)) j Q0 p0, Forall2 (fun Q p => wgo (okb js name (rv_cache (call_resolver x)) d near) (putb (rv_cache (call_resolver x)) d near) Q p) Qs l ->
    nth_error Qs j = Some Q0 -> nth_error l j = Some p0 -> wgo (okb js name (rv_cache (call_resolver x)) d near) (putb (rv_cache (call_resolver x)) d near) Q0 p0).
  { intros Qs l j Q0 p0 HF. revert j. induction HF as [|a b Qs l Hab _ IH]; intros [|j] E1 E2; try discriminate; cbn in *; [congruence|eauto]. }
  specialize (W _ _ _ _ _ H Hi Hq). destruct q as [a|m| |o k]; cbn [settled wgo] in *; [apply W; reflexivity|apply W; reflexivity|left; reflexivity|left; reflexivity].
Qed.

Definition t42 (s : string) : node := D [("r", D [("package.json", PJ s); ("d", D [("a.js", PJ "")])])]%string.
Definition R42 : resolver := mkR dflt [("ok", O [])]%string.
Definition calls42 : list call := [CResolve R42 40 (lit "/r") (lit "./d/a"); CSide R42 40 (lit "/r/d/a.js"); CSide R42 40 (lit "/r/d/a.js")].
Definition sched42 : list (fsys * nat) :=
  repeat (W (t42 "{"), 0) 9 ++ repeat (W (t42 "{{"), 1) 5 ++ repeat (W (t42 "{"), 0) 40 ++ repeat (W (t42 "{{"), 1) 40 ++ repeat (W (t42 "{{"), 2) 40.
Lemma ex42 : lineage (lit "/r/d/a.js") = [lit "/r/d/a.js"; lit "/r/d"] ++ lit "/r" :: [lit "/"] /\
  Forall (fun e => sane_fs (fst e) /\ broken_at (rv_json R42) (lit "package.json") [lit "/r/d/a.js"; lit "/r/d"] (lit "/r") (fst e)) sched42 /\
  Forall (fills (rv_json R42) (lit "package.json") 0) calls42 /\
  map settled (fst (run_moving sched42 st0 (map call_prog calls42))) =
    map Done [AResolve (Err (lit "Parse /r/package.json failed")); ASide (Err (lit "Parse /r/package.json failed")); ASide (Err (lit "Parse /r/package.json failed"))].
Proof.
  split; [vm_compute; reflexivity|]. split.
  - assert (G : forall s, rv_json R42 (lit s) = None -> forall k, (sane_fs (fst (W (t42 s), k)) /\ broken_at (rv_json R42) (lit "package.json") [lit "/r/d/a.js"; lit "/r/d"] (lit "/r") (fst (W (t42 s), k : nat)))).
    { intros s Hs k. cbn [fst]. split; [apply posix_sane|]. split; [repeat constructor|]. split; [reflexivity|]. split; [reflexivity|]. exists (lit s). eexists. split; [reflexivity|]. split; [reflexivity|exact Hs]. }
    unfold sched42. repeat (apply Forall_app; split); apply Forall_forall; intros e He; apply repeat_spec in He; subst e; apply G; reflexivity.
  - split; [|vm_compute; reflexivity]. repeat constructor; intros _; right; split; reflexivity.
Qed.
Definition bare42 : node := D [("r", D [("d", D [("a.js", PJ "")])])]%string.
Lemma fin_42_made : exists fs fs' R p, o_desc (rv_opts R) = Some (lit "package.json") /\
  broken_at (rv_json R) (lit "package.json") [] p fs' /\
  fst (fst (run_history fs st0 (ECall (CSide R 40 p) :: EFs fs' :: map ECall [CSide R 40 p; CSide R 40 p]))) =
  map Done [ASide (Ok None); ASide (Err (parse_failed (join p (lit "package.json")))); ASide (Ok None)].
Proof.
  exists (W bare42), (W (t42 "{")), R42, (lit "/r"). split; [reflexivity|]. split; [|vm_compute; reflexivity].
  split; [constructor|]. split; [reflexivity|]. split; [reflexivity|]. exists (lit "{"). eexists. split; [reflexivity|]. split; reflexivity.
Qed.
