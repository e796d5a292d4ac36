(** * Description lookup on concrete tables: a cold cache, and a file that has changed. *)
From Coq Require Import String.
From Coq Require Import List Arith NArith Bool Lia.
From Verif Require Import Str StrP Path PathP Json Types Parse Map Prog Desc Resolve Top Run FuelP RunP SpecLoad SpellP SimP LoadP.
From Verif Require LookupP.
Import ListNotations.

(** The answer for a description with the given content; [seed] is the order of its browser map. *)
Definition reorder (seed : list nat) (pk : pkg) : pkg :=
  mkPkg (p_dir pk) (p_name pk) (p_version pk) (permute seed (p_alias pk)) (p_exports pk) (p_imports pk) (p_side pk) (p_raw pk).
Definition answer_of (seed : list nat) (c : pcomp (result pkg)) : outcome (result (option pkg)) :=
  match c with
  | PRet (Ok pk) => Done (Ok (Some (reorder seed pk)))
  | PRet (Err e) => Done (Err e)
  | PPanic m => Panicked m
  | PFuel => NoFuel
  end.

Lemma abs_comps : forall p, is_abs p = true <-> exists r, components p = CRoot :: r.
Proof.
  intros p. split.
  - intros H. apply starts_with_char_spec in H. destruct H as [q ->]. rewrite components_abs. eauto.
  - intros [r H]. rewrite components_def in H. unfold head_comps in H. destruct (is_abs p); [reflexivity|].
    exfalso. destruct (lead_cur p); [discriminate|]. cbn [app] in H.
    assert (Hin : In CRoot (seg_comps (split_on c_slash (path_body p)))) by (rewrite H; left; reflexivity).
    unfold seg_comps in Hin. apply in_map_iff in Hin. destruct Hin as (x & Hx & _). unfold seg_comp in Hx. destruct (str_eqb x s_dotdot); discriminate.
Qed.
Lemma parent_abs : forall p q, parent p = Some q -> is_abs p = true -> is_abs q = true.
Proof.
  intros p q Hp Ha. apply abs_comps. apply abs_comps in Ha. destruct Ha as [r Hr]. apply parent_some in Hp. destruct Hp as (Hc & _ & H1).
  rewrite Hr in Hc, H1. destruct r as [|x r]; [contradiction H1; reflexivity|]. exists (removelast (x :: r)). exact Hc.
Qed.

Section Cold.
Variable fs : fsys.
Variable R : resolver.
Variable name : str.
Hypothesis Hname : o_desc (rv_opts R) = Some name.

(** The parsed fields recorded under the texts of [j] are those of [j]. *)
Definition exports_right (st : state) (j : json) : Prop :=
  forall v t, jget j (lit "exports") = Some v -> s_exp st (rv_cache R) (to_string v) = Some t -> build_exports v = PRet (Ok t).
Definition imports_right (st : state) (j : json) : Prop :=
  forall v t, jget j (lit "imports") = Some v -> s_imp st (rv_cache R) (to_string v) = Some t -> build_imports v = PRet (Ok t).

Lemma run_exports : forall j st, exports_right st j ->
  exists st', s_imp st' = s_imp st /\ run fs (load_exports R j) st =
    (match jget j (lit "exports") with
     | None => Done (Ok None)
     | Some v => match build_exports v with PRet (Ok t) => Done (Ok (Some t)) | PRet (Err e) => Done (Err e) | PPanic m => Panicked m | PFuel => NoFuel end
     end, st').
Proof.
  intros j st He. unfold load_exports. destruct (jget j (lit "exports")) as [v|] eqn:Ev; [|exists st; split; reflexivity].
  rewrite run_act. cbn [step fst snd]. destruct (s_exp st (rv_cache R) (to_string v)) as [t|] eqn:E.
  - exists st. rewrite (He v t Ev E). split; reflexivity.
  - unfold try_. rewrite run_bind, run_lift. destruct (build_exports v) as [[t|e]|m|]; eexists; (split; [|reflexivity]); reflexivity.
Qed.
Lemma run_imports : forall j st, imports_right st j ->
  exists st', run fs (load_imports R j) st =
    (match jget j (lit "imports") with
     | None => Done (Ok None)
     | Some v => match build_imports v with PRet (Ok t) => Done (Ok (Some t)) | PRet (Err e) => Done (Err e) | PPanic m => Panicked m | PFuel => NoFuel end
     end, st').
Proof.
  intros j st He. unfold load_imports. destruct (jget j (lit "imports")) as [v|] eqn:Ev; [|exists st; reflexivity].
  rewrite run_act. cbn [step fst snd]. destruct (s_imp st (rv_cache R) (to_string v)) as [t|] eqn:E.
  - exists st. rewrite (He v t Ev E). reflexivity.
  - unfold try_. rewrite run_bind, run_lift. destruct (build_imports v) as [[t|e]|m|]; eexists; reflexivity.
Qed.
Lemma run_parse : forall d st,
  (rv_debug R = true -> s_dbg st (rv_id R) (components (join d name)) = false) ->
  (forall s j, f_read fs (join d name) = Some s -> rv_json R s = Some j -> exports_right st j /\ imports_right st j) ->
  exists seed, out fs st (parse_and_store R d (join d name)) = answer_of seed (described fs (rv_json R) name d).
Proof.
  intros d st Hd Ht. unfold parse_and_store, parse_description_file, out, try_. rewrite !run_bind.
  set (fp := join d name) in *.
  assert (Hdbg : exists st1, run fs (dbg_check R fp) st = (Done tt, st1) /\ s_exp st1 = s_exp st /\ s_imp st1 = s_imp st).
  { unfold dbg_check. destruct (rv_debug R); [|exists st; auto]. rewrite run_act. cbn [step fst snd]. rewrite Hd by reflexivity.
    cbn [act run step]. eexists. split; [reflexivity|split; reflexivity]. }
  destruct Hdbg as (st1 & E1 & Ee & Ei). rewrite E1. rewrite !run_bind. unfold read_to_string, described. fold fp.
  rewrite run_act. cbn [step fst snd]. destruct (f_read fs fp) as [s|] eqn:Er; [|exists []; reflexivity].
  unfold try_, get_last_modified. rewrite !run_bind. cbn [act bind run step fst snd].
  destruct (f_mtime fs fp) as [| |t]; [exists []; reflexivity..|]. cbn [act bind run step fst snd].
  destruct (rv_json R s) as [j|] eqn:Ej; [|exists []; reflexivity].
  destruct (Ht s j eq_refl Ej) as [He Hi]. rewrite run_bind, run_lift.
  destruct (alias_fields_of j) as [af|m|]; [|exists []; reflexivity..]. cbn [pbind act bind run step fst snd].
  rewrite run_bind.
  match goal with |- context [run fs (load_exports R j) ?S] => destruct (run_exports j S) as (st3 & Hi3 & E3) end.
  { unfold exports_right in *. cbn. rewrite Ee. exact He. }
  rewrite E3. exists (s_ord st1 0).
  assert (Hi' : imports_right st3 j) by (unfold imports_right in *; rewrite Hi3; cbn; rewrite Ei; exact Hi).
  destruct (run_imports j st3 Hi') as (st4 & E4).
  destruct (jget j (lit "exports")) as [v|]; [destruct (build_exports v) as [[t0|e]|m|]; try reflexivity|]; cbn [pbind];
   rewrite run_bind, E4; (destruct (jget j (lit "imports")) as [w|]; [destruct (build_imports w) as [[u|e]|m|]; try reflexivity|]; cbn [pbind];
     destruct (side_effects_of fp j); reflexivity).
Qed.

(** ** The search *)
Lemma run_find_up : forall f q st, length (components q) < f -> run fs (find_up f q name) st = (Done (search fs name q), st).
Proof.
  induction f as [|f IH]; intros q st Hf; [lia|]. cbn [find_up]. rewrite run_act. cbn [step fst snd].
  destruct (f_file fs (join q name)) eqn:E.
  - unfold search, lineage. cbn [find run]. rewrite E. reflexivity.
  - destruct (parent q) as [r|] eqn:Ep.
    + rewrite IH by (pose proof (parent_shorter _ _ Ep); lia). unfold search. rewrite (lineage_some _ _ Ep). cbn [find]. rewrite E. reflexivity.
    + unfold search. rewrite (lineage_none _ Ep). cbn [find run]. rewrite E. reflexivity.
Qed.
Lemma run_none_loop : forall f q st, length (components q) < f -> Forall (fun d => f_dir fs d = true) (lineage q) ->
  out fs st (none_loop R f q) = Done (Ok None).
Proof.
  unfold out. induction f as [|f IH]; intros q st Hf Hd; [lia|]. cbn [none_loop]. rewrite run_act. cbn [step fst snd].
  destruct (parent q) as [r|] eqn:Ep.
  - rewrite (lineage_some _ _ Ep) in Hd. inversion Hd as [|? ? H1 H2]; subst. rewrite H1. cbn [act bind run step fst snd].
    apply IH; [pose proof (parent_shorter _ _ Ep); lia|exact H2].
  - rewrite (lineage_none _ Ep) in Hd. inversion Hd as [|? ? H1 H2]; subst. rewrite H1. reflexivity.
Qed.
Hypothesis Hfs : sane_fs fs.
Lemma dirs_up : forall p, f_dir fs p = true -> is_abs p = true -> Forall (fun d => f_dir fs d = true) (lineage p).
Proof.
  intros p. induction p as [p Hp|p q Hp IH] using lineage_ind; intros Hd Ha.
  - rewrite (lineage_none _ Hp). auto.
  - rewrite (lineage_some _ _ Hp). constructor; [exact Hd|].
    assert (Hq : is_abs q = true).
    { eapply parent_abs; eassumption. }
    apply IH; [|exact Hq]. eapply sf_parent; [exact Hfs|exact Hd|exact Hp|]. intros ->. discriminate.
Qed.
Definition cold (st : state) : Prop :=
  (forall k, s_pkg st (rv_cache R) k = None) /\ (forall k, s_exp st (rv_cache R) k = None) /\
  (forall k, s_imp st (rv_cache R) k = None) /\ (forall k, s_dbg st (rv_id R) k = false).
Lemma cold_right : forall st j, cold st -> exports_right st j /\ imports_right st j.
Proof. intros st j (_ & He & Hi & _). split; intros v t _ H; congruence. Qed.
Lemma search_abs : forall p d, f_dir fs p = true -> is_abs p = true -> search fs name p = Some d -> f_dir fs d = true /\ f_file fs (join d name) = true.
Proof.
  intros p d Hd Ha H. unfold search in H. apply find_some in H. destruct H as [Hin Hf]. split; [|exact Hf].
  pose proof (dirs_up p Hd Ha) as HF. rewrite Forall_forall in HF. auto.
Qed.
Lemma run_load_cold : forall f p st, cold st -> is_abs p = true -> length (components p) + 2 <= f ->
  match from_dir fs p with
  | [] => out fs st (load_pkg_file R f p) = Done (Err TAG)
  | _ => match nearest fs name p with
         | None => out fs st (load_pkg_file R f p) = Done (Ok None)
         | Some d => exists seed, out fs st (load_pkg_file R f p) = answer_of seed (described fs (rv_json R) name d)
         end
  end.
Proof.
  induction f as [|f IH]; intros p st Hc Ha Hf; [lia|]. cbn [load_pkg_file]. rewrite Hname. unfold out. rewrite run_act. cbn [step fst snd].
  destruct (f_dir fs p) eqn:Ed; cbn [negb].
  2:{ destruct (parent p) as [q|] eqn:Ep.
      - unfold nearest. rewrite (from_dir_some fs _ _ Ed Ep). apply IH; [exact Hc|eapply parent_abs; eassumption|].
        pose proof (parent_shorter _ _ Ep). lia.
      - rewrite (from_dir_none fs _ Ed Ep). reflexivity. }
  unfold nearest. rewrite (from_dir_dir fs _ Ed). unfold lineage at 1. change (find _ (lineage p)) with (search fs name p).
  rewrite run_act. cbn [step fst snd]. pose proof Hc as (Hp & _ & _ & Hdbg). rewrite Hp. rewrite run_act. cbn [step fst snd].
  destruct (f_file fs (join p name)) eqn:Ef.
  - unfold search, lineage. cbn [find]. rewrite Ef. apply run_parse; [auto|]. intros s j _ _. apply cold_right, Hc.
  - rewrite run_bind, run_find_up by lia. destruct (search fs name p) as [d|] eqn:Es.
    + destruct (search_abs p d Ed Ha Es) as [Hd' Hf'].
      destruct f as [|f]; [lia|]. cbn [load_pkg_file]. rewrite Hname, run_act. cbn [step fst snd]. rewrite Hd'. cbn [negb].
      rewrite run_act. cbn [step fst snd]. rewrite Hp, run_act. cbn [step fst snd]. rewrite Hf'.
      apply run_parse; [auto|]. intros s j _ _. apply cold_right, Hc.
    + apply run_none_loop; [lia|apply dirs_up; assumption].
Qed.
Lemma nearest_is : forall p d, is_abs p = true -> is_nearest fs name p d -> from_dir fs p <> [] /\ nearest fs name p = Some d.
Proof.
  intros p d. unfold nearest. induction p as [p Hp|p q Hp IH] using lineage_ind; intros Ha (l1 & l2 & E & Hd & Hf & Hn).
  - rewrite (lineage_none _ Hp) in E. destruct l1 as [|x [|y l1]]; try discriminate. injection E as -> _.
    rewrite (from_dir_dir fs _ Hd), (lineage_none _ Hp). split; [discriminate|]. cbn [find]. rewrite Hf. reflexivity.
  - destruct l1 as [|x l1].
    + injection E as <- _. rewrite (from_dir_dir fs _ Hd). unfold lineage. split; [discriminate|]. cbn [find]. rewrite Hf. reflexivity.
    + rewrite (lineage_some _ _ Hp) in E. injection E as <- E. inversion Hn as [|? ? Hx Hn']; subst.
      destruct (IH (parent_abs _ _ Hp Ha)) as [H1 H2]; [exists l1, l2; auto|].
      destruct (f_dir fs p) eqn:Ed; [|rewrite (from_dir_some fs _ _ Ed Hp); auto].
      rewrite (from_dir_dir fs _ Ed). split; [discriminate|]. rewrite (lineage_some _ _ Hp). cbn [find]. rewrite (Hx eq_refl).
      assert (Hq : f_dir fs q = true).
      { pose proof (dirs_up p Ed Ha) as HF. rewrite (lineage_some _ _ Hp) in HF. inversion HF as [|? ? _ HF']; subst. inversion HF'; assumption. }
      rewrite (from_dir_dir fs _ Hq) in H2. exact H2.
Qed.
Lemma nearest_ex : forall p d, is_abs p = true -> nearest fs name p = Some d -> is_nearest fs name p d.
Proof.
  intros p d. unfold nearest.
  induction p as [p Hp|p q Hp IH] using lineage_ind; intros Ha E.
  - destruct (f_dir fs p) eqn:Ed; [|rewrite (from_dir_none fs _ Ed Hp) in E; discriminate].
    rewrite (from_dir_dir fs _ Ed), (lineage_none _ Hp) in E. cbn [find] in E. destruct (f_file fs (join p name)) eqn:Ef; [|discriminate].
    injection E as <-. exists [], []. rewrite (lineage_none _ Hp). auto.
  - destruct (f_dir fs p) eqn:Ed.
    + rewrite (from_dir_dir fs _ Ed), (lineage_some _ _ Hp) in E. cbn [find] in E. destruct (f_file fs (join p name)) eqn:Ef.
      * injection E as <-. exists [], (lineage q). rewrite (lineage_some _ _ Hp). auto.
      * assert (Hq : f_dir fs q = true).
        { pose proof (dirs_up p Ed Ha) as HF. rewrite (lineage_some _ _ Hp) in HF. inversion HF as [|? ? _ HF']; subst. inversion HF'; assumption. }
        rewrite <- (from_dir_dir fs _ Hq) in E. destruct (IH (parent_abs _ _ Hp Ha) E) as (l1 & l2 & E' & Hd & Hf & Hn).
        exists (p :: l1), l2. rewrite (lineage_some _ _ Hp), E'. auto.
    + rewrite (from_dir_some fs _ _ Ed Hp) in E. destruct (IH (parent_abs _ _ Hp Ha) E) as (l1 & l2 & E' & Hd & Hf & Hn).
      exists (p :: l1), l2. rewrite (lineage_some _ _ Hp), E'. repeat split; auto. constructor; [|exact Hn]. intros H. congruence.
Qed.
Lemma from_root : forall p, is_abs p = true -> f_dir fs [c_slash] = true -> from_dir fs p <> [].
Proof.
  intros p. induction p as [p Hp|p q Hp IH] using lineage_ind; intros Ha Hr.
  - assert (Hs : same_path p [c_slash]).
    { apply parent_none in Hp. apply abs_comps in Ha. destruct Ha as [r Ha]. unfold same_path. change (components [c_slash]) with [CRoot]. destruct Hp as [Hp|Hp]; congruence. }
    rewrite from_dir_dir by (rewrite (sf_dir _ Hfs _ _ Hs); exact Hr). unfold lineage. discriminate.
  - destruct (f_dir fs p) eqn:Ed; [rewrite (from_dir_dir fs _ Ed); unfold lineage; discriminate|].
    rewrite (from_dir_some fs _ _ Ed Hp). apply IH; [eapply parent_abs; eassumption|exact Hr].
Qed.

(** ** [load_side_effects] on a cold cache *)
Definition side_answer (d : path) (c : pcomp (result pkg)) : outcome (result (option (path * option side_effects))) :=
  match c with
  | PRet (Ok pk) => Done (Ok (Some (join d name, p_side pk)))
  | PRet (Err e) => Done (Err e)
  | PPanic m => Panicked m
  | PFuel => NoFuel
  end.
Lemma described_dir : forall js d pk, described fs js name d = PRet (Ok pk) -> p_dir pk = d.
Proof.
  intros js d pk H. unfold described in H. destruct (f_read fs (join d name)) as [s|]; [|discriminate].
  destruct (f_mtime fs (join d name)) as [| |tm]; try discriminate. destruct (js s) as [j|]; [|discriminate].
  destruct (alias_fields_of j) as [af| |]; try discriminate. cbn [pbind] in H.
  match type of H with pbind ?X _ = _ => destruct X as [[ex|]| |]; try discriminate end. cbn [pbind] in H.
  match type of H with pbind ?X _ = _ => destruct X as [[im|]| |]; try discriminate end. cbn [pbind] in H.
  destruct (side_effects_of (join d name) j); [|discriminate]. injection H as <-. reflexivity.
Qed.
Lemma side_cold : forall f p d st, cold st -> is_abs p = true -> length (components p) + 2 <= f -> is_nearest fs name p d ->
  out fs st (load_side_effects R f p) = side_answer d (described fs (rv_json R) name d).
Proof.
  intros f p d st Hc Ha Hf Hn. destruct (nearest_is p d Ha Hn) as [H1 H2].
  pose proof (run_load_cold f p st Hc Ha Hf) as H. rewrite H2 in H. destruct (from_dir fs p); [contradiction H1; reflexivity|].
  destruct H as [seed H]. unfold load_side_effects, try_, out in *. rewrite run_bind.
  destruct (run fs (load_pkg_file R f p) st) as [r st']. cbn [fst] in H. subst r.
  destruct (described fs (rv_json R) name d) as [[pk|e]|m|] eqn:Ed; cbn [answer_of side_answer]; try reflexivity.
  rewrite Hname. cbn [reorder p_dir p_side run fst]. rewrite (described_dir _ _ _ Ed). reflexivity.
Qed.
Lemma side_none : forall f p st, cold st -> is_abs p = true -> f_dir fs [c_slash] = true -> length (components p) + 2 <= f ->
  (forall d, ~ is_nearest fs name p d) -> out fs st (load_side_effects R f p) = Done (Ok None).
Proof.
  intros f p st Hc Ha Hr Hf Hn. pose proof (run_load_cold f p st Hc Ha Hf) as H. pose proof (from_root p Ha Hr) as H1.
  destruct (from_dir fs p); [contradiction H1; reflexivity|].
  destruct (nearest fs name p) as [d|] eqn:E; [exfalso; eapply Hn, nearest_ex; eassumption|].
  unfold load_side_effects, try_, out in *. rewrite run_bind.
  destruct (run fs (load_pkg_file R f p) st) as [r st']. cbn [fst] in H. subst r. reflexivity.
Qed.

(** ** A recorded description that has changed *)
Definition due (p : path) (st : state) : Prop := s_file st (rv_id R) (components p) = None \/
  exists old t0 t1, s_file st (rv_id R) (components p) = Some (old, t0) /\ f_mtime fs p = MTime t1 /\ (t0 + rv_duration R <= t1)%N.
Lemma reread : forall f p st v, f_dir fs p = true ->
  s_pkg st (rv_cache R) (components p) = Some v -> f_file fs (join p name) = true -> due (join p name) st ->
  (forall s j, f_read fs (join p name) = Some s -> rv_json R s = Some j -> exports_right st j /\ imports_right st j) ->
  exists seed, out fs st (load_pkg_file R (S f) p) = answer_of seed (described fs (rv_json R) name p).
Proof.
  intros f p st v Hd Hp Hf Ht Hr. cbn [load_pkg_file]. rewrite Hname. unfold out. rewrite run_act. cbn [step fst snd].
  rewrite Hd. cbn [negb]. rewrite run_act. cbn [step fst snd]. rewrite Hp. unfold try_. rewrite run_bind. unfold check_entry. rewrite run_bind.
  assert (E : run fs (need_update R (join p name)) st = (Done (Ok true), st)).
  { unfold need_update. rewrite run_act. cbn [step fst snd]. rewrite Hf. cbn [negb]. rewrite run_act. cbn [step fst snd].
    destruct Ht as [Hs|(old & t0 & t1 & Hs & Hm & Ht)]; rewrite Hs; [reflexivity|].
    unfold try_, get_last_modified. rewrite run_bind. cbn [act bind run step fst snd]. rewrite Hm. cbn [run].
    destruct (N.ltb_spec t1 t0) as [Hlt|_]; [lia|]. cbn [run].
    destruct (N.leb_spec (rv_duration R) (t1 - t0)) as [_|Hlt]; [reflexivity|lia]. }
  rewrite E. destruct (rv_debug R) eqn:Eb.
  - cbn [act bind run step fst snd]. apply run_parse.
    + intros _. cbn. unfold upd_path. rewrite Nat.eqb_refl. replace (comps_eqb _ _) with true; [reflexivity|].
      symmetry. apply LookupP.comps_eqb_eq. reflexivity.
    + intros s j H1 H2. exact (Hr s j H1 H2).
  - cbn [act bind run step fst snd]. apply run_parse; [congruence|exact Hr].
Qed.
Lemma kept : forall f p st v, f_dir fs p = true -> s_pkg st (rv_cache R) (components p) = Some v ->
  (f_file fs (join p name) = false \/ exists old t0 t1, s_file st (rv_id R) (components (join p name)) = Some (old, t0) /\
     f_mtime fs (join p name) = MTime t1 /\ (t0 <= t1 < t0 + rv_duration R)%N) ->
  run fs (load_pkg_file R (S f) p) st = (Done (Ok v), st).
Proof.
  intros f p st v Hd Hp Ht. cbn [load_pkg_file]. rewrite Hname. rewrite run_act. cbn [step fst snd].
  rewrite Hd. cbn [negb]. rewrite run_act. cbn [step fst snd]. rewrite Hp. unfold try_. rewrite run_bind. unfold check_entry. rewrite run_bind.
  assert (E : run fs (need_update R (join p name)) st = (Done (Ok false), st)).
  { unfold need_update. rewrite run_act. cbn [step fst snd]. destruct (f_file fs (join p name)); cbn [negb]; [|reflexivity].
    destruct Ht as [Hs|(old & t0 & t1 & Hs & Hm & Ht)]; [discriminate Hs|]. rewrite run_act. cbn [step fst snd]. rewrite Hs.
    unfold try_, get_last_modified. rewrite run_bind. cbn [act bind run step fst snd]. rewrite Hm. cbn [run].
    destruct (N.ltb_spec t1 t0) as [Hlt|_]; [lia|]. cbn [run].
    destruct (N.leb_spec (rv_duration R) (t1 - t0)) as [Hlt|_]; [lia|reflexivity]. }
  rewrite E. reflexivity.
Qed.
End Cold.
