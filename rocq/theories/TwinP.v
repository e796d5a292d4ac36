(** * Resolvers and descriptions that cannot be told apart: browser objects when they are
      switched off (C25), condition lists that agree on the conditions that occur (C29). *)
From Coq Require Import String.
From Coq Require Import List Arith NArith Bool Lia Permutation.
From Verif Require Import Str StrP Path PathP Json Types Parse Map Prog Desc Resolve Top Run Exec ExecP ApiP Posix FuelP SpecRun LookupP SpecLoad SpecCache SpecJson JsonP PosixP SpellP SimP LoadP GuarP CacheP.
Import ListNotations.

Section Twin.
Variable fs : fsys.
Hypothesis Hfs : sane_fs fs.
Variables js1 js2 : str -> option json.
Variable nm : nat -> str.
Hypothesis Hinj : forall c v v', field_on fs js2 (nm c) (lit "exports") v -> field_on fs js2 (nm c) (lit "exports") v' -> to_string v = to_string v' -> v = v'.
Hypothesis Hclash : forall c v v', field_on fs js2 (nm c) (lit "exports") v -> field_on fs js2 (nm c) (lit "imports") v' -> hash_keys v' -> to_string v <> to_string v'.
Variables R1 R2 : resolver.
Hypothesis HR1 : rv_json R1 = js1.
Hypothesis HR2 : client js2 nm R2.
Hypothesis Hdesc : o_desc (rv_opts R1) = o_desc (rv_opts R2).
Hypothesis Hext : o_extensions (rv_opts R1) = o_extensions (rv_opts R2).
Hypothesis Henf : enforce R1 = enforce R2.
Hypothesis Halias : o_alias (rv_opts R1) = o_alias (rv_opts R2).
Hypothesis Hpref : o_prefer_relative (rv_opts R1) = o_prefer_relative (rv_opts R2).
Hypothesis Hsym : o_symlinks (rv_opts R1) = o_symlinks (rv_opts R2).
Hypothesis Hfiles : o_main_files (rv_opts R1) = o_main_files (rv_opts R2).
Hypothesis Hfields : o_main_fields (rv_opts R1) = o_main_fields (rv_opts R2).
Hypothesis Hdebug : rv_debug R1 = rv_debug R2.
Hypothesis Hjsonc : rv_jsonc R1 = rv_jsonc R2.
Hypothesis Htsc : o_tsconfig (rv_opts R1) = o_tsconfig (rv_opts R2).
Hypothesis Hbro : o_browser (rv_opts R1) = o_browser (rv_opts R2).

(** Related contents. *)
Definition treerel (fk : field) (c1 c2 : pcomp (result ptn)) : Prop :=
  match c1, c2 with
  | PRet (Ok t1), PRet (Ok t2) => fieldrel R1 R2 fk (Some t1) (Some t2)
  | PRet (Err e), PRet (Err e') => e = e'
  | PPanic m, PPanic m' => m = m'
  | PFuel, PFuel => True
  | _, _ => False
  end.
Definition optree (fk : field) (o1 o2 : option json) : Prop :=
  match o1, o2 with
  | Some v1, Some v2 => treerel fk (build_field fk v1) (build_field fk v2)
  | None, None => True
  | _, _ => False
  end.
Record jtwin (d : path) (j1 j2 : json) : Prop := {
  jt_alias : (alias_fields_of j1 = alias_fields_of j2 /\
               (o_browser (rv_opts R1) = false \/ forall af, alias_fields_of j1 = PRet af -> clear_keys (o_extensions (rv_opts R1)) d af)) \/
             (o_browser (rv_opts R1) = false /\ exists a1 a2, alias_fields_of j1 = PRet a1 /\ alias_fields_of j2 = PRet a2);
  jt_exp : optree FExports (jget j1 (lit "exports")) (jget j2 (lit "exports"));
  jt_imp : optree FImports (jget j1 (lit "imports")) (jget j2 (lit "imports"));
  jt_side : jget j1 (lit "sideEffects") = jget j2 (lit "sideEffects");
  jt_name : opt_str (jget j1 (lit "name")) = opt_str (jget j2 (lit "name"));
  jt_main : forall fld, In fld (o_main_fields (rv_opts R1)) -> opt_str (jget j1 fld) = opt_str (jget j2 fld)
}.
Hypothesis Hjson : forall name d s, o_desc (rv_opts R1) = Some name -> f_dir fs d = true -> f_read fs (join d name) = Some s ->
  match js1 s, js2 s with Some j1, Some j2 => jtwin d j1 j2 | None, None => True | _, _ => False end.

Definition tpk (a b : pkg) : Prop :=
  p_dir a = p_dir b /\ p_name a = p_name b /\ fieldrel R1 R2 FExports (p_exports a) (p_exports b) /\
  fieldrel R1 R2 FImports (p_imports a) (p_imports b) /\ p_side a = p_side b /\
  (forall fld, In fld (o_main_fields (rv_opts R1)) -> opt_str (jget (p_raw a) fld) = opt_str (jget (p_raw b) fld)) /\
  ((p_alias a = p_alias b /\ NoDup (map fst (p_alias a)) /\ clear_keys (o_extensions (rv_opts R1)) (p_dir a) (p_alias a)) \/
   o_browser (rv_opts R1) = false).
Definition tres {A} (V : A -> A -> Prop) (r r' : result A) : Prop :=
  match r, r' with Ok a, Ok b => V a b | Err e, Err e' => e = e' | _, _ => False end.
Definition topt (o o' : option pkg) : Prop :=
  match o, o' with None, None => True | Some a, Some b => tpk a b | _, _ => False end.
Definition tcomp {A} (V : A -> A -> Prop) (c c' : pcomp A) : Prop :=
  match c, c' with PRet a, PRet b => V a b | PPanic m, PPanic m' => m = m' | PFuel, PFuel => True | _, _ => False end.

Lemma described_twin : forall name d, o_desc (rv_opts R1) = Some name -> f_dir fs d = true ->
  tcomp (tres tpk) (described fs js1 name d) (described fs js2 name d).
Proof.
  intros name d Hn Hd. unfold described. destruct (f_read fs (join d name)) as [s|] eqn:Er; [|reflexivity].
  destruct (f_mtime fs (join d name)) as [| |tm]; try reflexivity. pose proof (Hjson name d s Hn Hd Er) as H.
  destruct (js1 s) as [j1|], (js2 s) as [j2|]; try contradiction; [|reflexivity]. destruct H as [Ha He Hi Hs Hna Hm].
  assert (Hside : side_effects_of (join d name) j1 = side_effects_of (join d name) j2) by (unfold side_effects_of; rewrite Hs; reflexivity).
  assert (Hal : tcomp (fun a b => (a = b /\ NoDup (map fst a) /\ clear_keys (o_extensions (rv_opts R1)) d a) \/ o_browser (rv_opts R1) = false)
                 (alias_fields_of j1) (alias_fields_of j2)).
  { destruct Ha as [[Ea Hc]|[Hb (a1 & a2 & E1 & E2)]].
    - rewrite <- Ea. destruct (alias_fields_of j1) as [af|m|] eqn:E; cbn; auto. destruct Hc as [Hc|Hc]; [right; exact Hc|left]. split; [reflexivity|].
      split; [eapply alias_nodup; exact E|apply Hc; reflexivity].
    - rewrite E1, E2. cbn. right. exact Hb. }
  destruct (alias_fields_of j1) as [a1|m|], (alias_fields_of j2) as [a2|m'|]; cbn [tcomp] in Hal; try contradiction; cbn [pbind]; try exact Hal; try exact I.
  unfold optree in He, Hi. change (build_field FExports) with build_exports in He. change (build_field FImports) with build_imports in Hi.
  destruct (jget j1 (lit "exports")) as [v1|], (jget j2 (lit "exports")) as [v2|]; try contradiction; cbn [pbind].
  - destruct (build_exports v1) as [[t1|e1]|m1|], (build_exports v2) as [[t2|e2]|m2|]; cbn [treerel] in He; try contradiction; cbn [pbind tcomp tres]; try exact He.
    destruct (jget j1 (lit "imports")) as [w1|], (jget j2 (lit "imports")) as [w2|]; try contradiction; cbn [pbind].
    + destruct (build_imports w1) as [[u1|e1]|m1|], (build_imports w2) as [[u2|e2]|m2|]; cbn [treerel] in Hi; try contradiction; cbn [pbind tcomp tres]; try exact Hi.
      rewrite Hside. destruct (side_effects_of (join d name) j2); cbn [pbind tcomp tres]; [|reflexivity].
      repeat split; cbn; auto.
    + rewrite Hside. destruct (side_effects_of (join d name) j2); cbn [pbind tcomp tres]; [|reflexivity]. repeat split; cbn; auto.
  - destruct (jget j1 (lit "imports")) as [w1|], (jget j2 (lit "imports")) as [w2|]; try contradiction; cbn [pbind].
    + destruct (build_imports w1) as [[u1|e1]|m1|], (build_imports w2) as [[u2|e2]|m2|]; cbn [treerel] in Hi; try contradiction; cbn [pbind tcomp tres]; try exact Hi.
      rewrite Hside. destruct (side_effects_of (join d name) j2); cbn [pbind tcomp tres]; [|reflexivity].
      repeat split; cbn; auto.
    + rewrite Hside. destruct (side_effects_of (join d name) j2); cbn [pbind tcomp tres]; [|reflexivity]. repeat split; cbn; auto.
Qed.
Lemma lookup_twin : forall p, tcomp (tres topt) (lookup_desc fs js1 (o_desc (rv_opts R1)) p) (lookup_desc fs js2 (o_desc (rv_opts R2)) p).
Proof.
  intros p. pose proof described_twin as Hdt. rewrite <- Hdesc. destruct (o_desc (rv_opts R1)) as [name|]; [|exact I]. unfold lookup_desc.
  destruct (from_dir fs p); [reflexivity|]. destruct (nearest fs name p) as [d|]; [|exact I].
  destruct (f_dir fs d) eqn:Ed; [|reflexivity]. pose proof (Hdt name d eq_refl Ed) as H.
  destruct (described fs js1 name d) as [[a|e]|m|], (described fs js2 name d) as [[b|e']|m'|]; cbn [tcomp tres] in H; try contradiction; cbn; auto.
Qed.

Definition arelT (pk pk' : pkg) : Prop :=
  o_browser (rv_opts R1) = false \/
  (Permutation (p_alias pk) (p_alias pk') /\ NoDup (map fst (p_alias pk)) /\ clear_keys (o_extensions (rv_opts R1)) (p_dir pk) (p_alias pk)).
Lemma twin_load : forall f p q, same_path p q ->
  sim fs (wxm (okc fs js2 nm) false) (lrel fs R1 R2 arelT) (fresh_load fs js1 R1 p) (load_pkg_file R2 f q).
Proof.
  intros f p q Hs. unfold sim.
  replace (ev_fs fs (fresh_load fs js1 R1 p)) with (oc (lookup_desc fs js1 (o_desc (rv_opts R1)) p)).
  2:{ unfold fresh_load. destruct (lookup_desc fs js1 _ p) as [[|]| |]; reflexivity. }
  eapply wx_mono; [|apply (load_leq fs Hfs js2 nm Hinj Hclash R2 f q HR2)].
  pose proof (lookup_twin p) as Ht.
  assert (Hl : creq (leq erel) (lookup_desc fs js2 (o_desc (rv_opts R2)) p) (lookup_desc fs js2 (o_desc (rv_opts R2)) q)).
  { destruct (o_desc (rv_opts R2)) as [n|]; [apply look_same; assumption|]. cbn. exact I. }
  assert (Hlf : forall o, lookup_desc fs js1 (o_desc (rv_opts R1)) p = PRet (Ok (Some o)) -> f_dir fs (p_dir o) = true).
  { intros o Ho. destruct (lookup_facts fs js1 _ _ _ Ho) as (n & s & j & _ & Hd & _). exact Hd. }
  destruct (lookup_desc fs js1 (o_desc (rv_opts R1)) p) as [x|m|], (lookup_desc fs js2 (o_desc (rv_opts R2)) p) as [y|m'|];
    cbn [tcomp] in Ht; try contradiction;
  destruct (lookup_desc fs js2 (o_desc (rv_opts R2)) q) as [z|m''|]; cbn [creq] in Hl; try contradiction;
  cbn [oc orel]; intros [w|mw|]; try (intros (? & E & ?); discriminate); auto.
  - intros (z' & E & Hz). injection E as <-. exists x. split; [reflexivity|].
    destruct x as [o|e], y as [o'|e'], z as [o''|e'']; cbn [tres leq] in *; try contradiction; destruct w as [o3|e3]; cbn [leq lrel] in *; try contradiction.
    + pose proof (okeq_trans _ _ _ Hl Hz) as Ho. clear Hl Hz.
      destruct o as [a|], o' as [b|]; cbn [topt] in Ht; try contradiction; destruct o3 as [c|]; cbn [okeq okrel] in *; try contradiction; auto.
      destruct Ht as (T1 & T2 & T3 & T4 & T5 & T6 & T7). destruct Ho as (H1 & H2 & H3 & H4 & H5 & H6 & H7 & H8). constructor.
      * rewrite T1. exact H1.
      * apply Hlf. reflexivity.
      * congruence.
      * rewrite <- H4. exact T3.
      * rewrite <- H5. exact T4.
      * intros fld Hf. rewrite <- H7. apply T6, Hf.
      * destruct T7 as [(E1 & E2 & E3)|E]; [right|left; exact E]. split; [rewrite E1; exact H8|]. split; [exact E2|exact E3].
    + subst e'. subst e3. exact Hl.
  - subst m'. intros (m0 & E & Hm). injection E as <-. subst m''. eexists. split; [reflexivity|exact Hm].
Qed.
Lemma aff_twin : forall fuel pk i, alias_field_apply R1 fuel pk i = alias_field_apply R2 fuel pk i.
Proof.
  intros fuel pk i. unfold alias_field_apply. rewrite Hbro. destruct (negb _); [reflexivity|]. destruct pk as [pk|]; [|reflexivity].
  induction (p_alias pk) as [|[k v] l IH]; [reflexivity|]. cbn [alias_field_loop]. rewrite <- IH.
  replace (should_deal_alias R2 pk i k) with (should_deal_alias R1 pk i k); [reflexivity|].
  unfold should_deal_alias. rewrite Hext. reflexivity.
Qed.
Lemma twin_browser : forall fuel pk pk' i j, arelT pk pk' -> same_path (p_dir pk) (p_dir pk') -> irel i j ->
  sim fs (wxm (okc fs js2 nm) false) (srel_ irel) (alias_field_apply R1 fuel (Some pk) i) (alias_field_apply R2 fuel (Some pk') j).
Proof.
  intros fuel pk pk' i j Ha Hd Hi. rewrite <- aff_twin. destruct Ha as [Hb|(H1 & H2 & H3)].
  - unfold alias_field_apply. rewrite Hb. cbn [negb]. apply sim_ret. exact Hi.
  - apply browser_sim; [|exact Hd|exact Hi]. split; [exact H1|]. split; [exact H2|right; exact H3].
Qed.
Lemma twin_sim : forall fuel base req, patterns_clear fs R1 (r_target (parse req)) ->
  sim fs (wxm (okc fs js2 nm) false) arel (resolve_with R1 (fresh_load fs js1 R1) fuel base req) (resolve R2 fuel base req).
Proof.
  intros fuel base req Ht. apply (sim_resolve_ts fs (wxm (okc fs js2 nm) false) R1 R2 (fresh_load fs js1 R1) (load_pkg_file R2 fuel) arelT); auto.
  - intros p q x H Hx. cbn in Hx. pose proof (Hx (or_introl I)) as Hx0. clear Hx. rename Hx0 into Hx. subst x. symmetry. apply (sf_file _ Hfs), H.
  - intros p q x H Hd Hx. cbn in Hx. pose proof (Hx (or_introl I)) as Hx0. clear Hx. rename Hx0 into Hx. subst x. apply (sf_kind _ Hfs). rewrite <- (sf_dir _ Hfs _ _ H). exact Hd.
  - intros p q x H Hx. cbn in Hx. subst x. symmetry. apply (sf_dir _ Hfs), H.
  - intros p q x H Hx. cbn in Hx. pose proof (Hx I) as Hx0. clear Hx. rename Hx0 into Hx. subst x. symmetry. apply (sf_exists _ Hfs), H.
  - intros p q x H Hx. cbn in Hx. pose proof (Hx I) as Hx0. clear Hx. rename Hx0 into Hx. subst x. symmetry. apply (sf_canon _ Hfs), H.
  - apply (sf_kind _ Hfs).
  - apply twin_load.
  - apply twin_browser.
  - intros p q x H Hx. cbn in Hx. pose proof (Hx (or_introl I)) as Hx0. clear Hx. subst x. symmetry. apply (sf_read _ Hfs), H.
  - intros loc c t m Hl Hc H1 H2. apply clear_one. eapply Ht; [exact Hl| |exact H1|exact H2].
    exists fuel. rewrite HR1. exact Hc.
Qed.
Lemma twin_out : forall fuel base req st, patterns_clear fs R1 (r_target (parse req)) -> Inv fs js2 nm st ->
  orel ansrel (ev_fs fs (call_fresh fs js1 (CResolve R1 fuel base req))) (out fs st (call_prog (CResolve R2 fuel base req))).
Proof.
  intros fuel base req st Hp Hi. apply (run_inv fs js2 nm); [|exact Hi]. apply wg_and.
  - cbn [call_fresh call_prog]. eapply (sim_bind fs (wxm (okc fs js2 nm) false)); [apply twin_sim, Hp|]. intros a b H. apply sim_ret. exact H.
  - apply (client_call fs Hfs js2 nm Hinj Hclash (CResolve R2 fuel base req)). exact HR2.
Qed.
End Twin.
