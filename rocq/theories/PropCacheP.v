(** * Lemmas and example worlds behind PropCache.v *)
From Coq Require Import String.
From Coq Require Import List Arith NArith Bool Lia.
From Verif Require Import Str StrP Path PathP Json Types Parse Map Prog Desc Resolve Top Run RunP Exec ExecP FuelP Posix Demo WitnessP SpecRun SpecLoad SpecCache SpecJson JsonP PosixP SpellP SimP LoadP GuarP CacheP ColdP HistP TwinP SpecMap PropMapP.
Import ListNotations.

Section Final.
Variable fs : fsys.
Hypothesis Hfs : sane_fs fs.
Variable js : str -> option json.
Hypothesis Hjs : forall s j, js s = Some j -> wf_json j.
Variable nm : nat -> str.
Hypothesis Hclash : no_clash fs js nm.
Lemma fin_inj : forall c v v', field_on fs js (nm c) (lit "exports") v -> field_on fs js (nm c) (lit "exports") v' ->
  to_string v = to_string v' -> v = v'.
Proof.
  intros c v v' (d & s & j & _ & _ & Hj & Hv) (d' & s' & j' & _ & _ & Hj' & Hv') E.
  apply to_string_inj; [eapply wf_get; [apply (Hjs _ _ Hj)|exact Hv]|eapply wf_get; [apply (Hjs _ _ Hj')|exact Hv']|exact E].
Qed.
Lemma fin_history : forall h seeds, Forall (fun c => client js nm (call_resolver c)) h ->
  Inv fs js nm (snd (run_history fs (empty_state seeds) (map ECall h))).
Proof.
  intros h seeds H. apply history_inv; [exact Hfs|exact fin_inj|exact Hclash| |apply inv_empty].
  apply Forall_map. exact H.
Qed.
Lemma fin_37 : forall h seeds seeds' c f, Forall (fun c => client js nm (call_resolver c)) h ->
  client js nm (call_resolver c) -> steady fs js c ->
  same_outcome same_answer (out fs (snd (run_history fs (empty_state seeds) (map ECall h))) (call_prog c))
                           (out fs (empty_state seeds') (call_prog (with_fuel c f))).
Proof.
  intros h seeds seeds' c f Hh Hc Hs. apply (states_agree fs Hfs js nm fin_inj Hclash); [exact Hc|exact Hs| |apply inv_empty].
  apply fin_history, Hh.
Qed.
Lemma fin_38 : forall l h sched seeds seeds' f,
  Forall (fun c => client js nm (call_resolver c)) h ->
  Forall (fun c => client js nm (call_resolver c) /\ steady fs js c) l ->
  Forall2 (fun c p => same_outcome same_answer (settled p) (out fs (empty_state seeds') (call_prog (with_fuel c f))))
          l (fst (run_sched fs sched (snd (run_history fs (empty_state seeds) (map ECall h))) (map call_prog l))).
Proof.
  intros l h sched seeds seeds' f Hh Hl. apply (sched_agree fs Hfs js nm fin_inj Hclash); [exact Hl| |apply inv_empty].
  apply fin_history, Hh.
Qed.
Lemma moved_fresh : forall c k i, call_fresh fs js (moved c k i) = call_fresh fs js c.
Proof. intros [R f base req|R f p] k i; destruct R; reflexivity. Qed.
Lemma moved_steady : forall c k i, steady fs js c -> steady fs js (moved c k i).
Proof. intros [R f base req|R f p] k i; destruct R; exact (fun x => x). Qed.
Lemma moved_client : forall c k i, client js nm (call_resolver c) -> nm k = nm (rv_cache (call_resolver c)) ->
  client js nm (call_resolver (moved c k i)).
Proof.
  intros c k i (Hd & Hj & Hb) E. unfold client. destruct c as [R f base req|R f p]; destruct R; cbn in *; rewrite E; auto.
Qed.
Lemma fin_39 : forall h seeds seeds' c k i f, Forall (fun c => client js nm (call_resolver c)) h ->
  client js nm (call_resolver c) -> steady fs js c -> nm k = nm (rv_cache (call_resolver c)) ->
  same_outcome same_answer (out fs (snd (run_history fs (empty_state seeds) (map ECall h))) (call_prog c))
                           (out fs (empty_state seeds') (call_prog (with_fuel (moved c k i) f))).
Proof.
  intros h seeds seeds' c k i f Hh Hc Hs E. destruct (with_fuel_id c) as [f0 Ef].
  apply (outcomes_agree fs js c f0 f).
  - rewrite <- Ef. apply (run_inv fs js nm); [apply (call_wg fs Hfs js nm fin_inj Hclash); assumption|apply fin_history, Hh].
  - replace (call_fresh fs js (with_fuel c f)) with (call_fresh fs js (with_fuel (moved c k i) f)).
    + apply (run_inv fs js nm); [|apply inv_empty]. apply (call_wg fs Hfs js nm fin_inj Hclash).
      * rewrite resolver_fuel. apply moved_client; assumption.
      * apply steady_fuel, moved_steady, Hs.
    + rewrite <- (moved_fresh (with_fuel c f) k i). destruct c; reflexivity.
Qed.
Lemma fin_43 : forall h seeds R f p pk, Forall (fun c => client js nm (call_resolver c)) h -> client js nm R ->
  out fs (snd (run_history fs (empty_state seeds) (map ECall h))) (load_pkg_file R f p) = Done (Ok (Some pk)) ->
  match jget (p_raw pk) (lit "exports") with
  | None => p_exports pk = None
  | Some v => exists t, build_exports v = PRet (Ok t) /\ p_exports pk = Some t
  end /\
  match jget (p_raw pk) (lit "imports") with
  | None => p_imports pk = None
  | Some v => exists t, build_imports v = PRet (Ok t) /\ p_imports pk = Some t
  end.
Proof.
  intros h seeds R f p pk Hh HR H.
  assert (Hw : wg fs js nm (orel (leq eq) (oc (lookup_desc fs js (o_desc (rv_opts R)) p))) (load_pkg_file R f p)).
  { apply wg_and; [apply load_leq; try assumption; exact fin_inj|apply client_load; try assumption; exact fin_inj]. }
  destruct (run_inv fs js nm _ _ _ Hw (fin_history h seeds Hh)) as [Hq _]. rewrite H in Hq. cbn [orel] in Hq.
  destruct Hq as (a & Ea & Hl). destruct a as [[pk0|]|e]; cbn [leq okeq] in Hl; try contradiction.
  destruct Hl as (H1 & H2 & H3 & H4 & H5 & H6 & H7 & H8). rewrite <- H4, <- H5, <- H7. clear H H1 H2 H3 H4 H5 H6 H7 H8 Hw pk.
  destruct (lookup_desc fs js (o_desc (rv_opts R)) p) as [r| |] eqn:El; try discriminate. injection Ea as ->.
  destruct (o_desc (rv_opts R)) as [name|]; [|discriminate]. unfold lookup_desc in El.
  destruct (from_dir fs p); [discriminate|]. destruct (nearest fs name p) as [d|]; [|discriminate].
  destruct (f_dir fs d); [|discriminate]. unfold described in El.
  destruct (f_read fs (join d name)) as [s|]; [|discriminate]. destruct (f_mtime fs (join d name)) as [| |tm]; try discriminate.
  destruct (js s) as [j|]; [|discriminate]. destruct (alias_fields_of j) as [af| |]; try discriminate. cbn [pbind] in El.
  destruct (jget j (lit "exports")) as [v|] eqn:Ev.
  - destruct (build_exports v) as [[t|]| |] eqn:Eb; try discriminate. cbn [pbind] in El.
    destruct (jget j (lit "imports")) as [w|] eqn:Ew.
    + destruct (build_imports w) as [[u|]| |] eqn:Ec; try discriminate. cbn [pbind] in El.
      destruct (side_effects_of (join d name) j); [|discriminate]. injection El as <-. cbn [p_raw p_exports p_imports]. rewrite Ev, Ew.
      split; eauto.
    + cbn [pbind] in El. destruct (side_effects_of (join d name) j); [|discriminate]. injection El as <-. cbn [p_raw p_exports p_imports].
      rewrite Ev, Ew. split; eauto.
  - cbn [pbind] in El. destruct (jget j (lit "imports")) as [w|] eqn:Ew.
    + destruct (build_imports w) as [[u|]| |] eqn:Ec; try discriminate. cbn [pbind] in El.
      destruct (side_effects_of (join d name) j); [|discriminate]. injection El as <-. cbn [p_raw p_exports p_imports]. rewrite Ev, Ew.
      split; eauto.
    + cbn [pbind] in El. destruct (side_effects_of (join d name) j); [|discriminate]. injection El as <-. cbn [p_raw p_exports p_imports].
      rewrite Ev, Ew. split; eauto.
Qed.
End Final.

(** ** Browser objects, condition lists *)
Section Pairs.
Variable fs : fsys.
Hypothesis Hfs : sane_fs fs.
Variable nm : nat -> str.

Lemma browser_fields_ok : forall l acc, (forall k b, In (k, JBool b) l -> b = false) -> exists a, browser_fields l acc = PRet a.
Proof.
  induction l as [|[k v] l IH]; intros acc H; cbn [browser_fields]; [eauto|].
  assert (Hl : forall k b, In (k, JBool b) l -> b = false) by (intros; eapply H; right; eassumption).
  destruct v as [|b| |x| |]; auto. rewrite (H k b) by (left; reflexivity). auto.
Qed.
Lemma browser_object_ok : forall j, browser_object j -> exists a, alias_fields_of j = PRet a.
Proof.
  intros j H. unfold alias_fields_of. destruct (jget j (lit "browser")) as [v|] eqn:E; [|eauto].
  destruct (H v E) as [_ H2]. destruct v as [| | | | |l]; cbn [as_object]; eauto. apply browser_fields_ok. exact (H2 l eq_refl).
Qed.
Lemma str_dec : forall a b : str, {a = b} + {a <> b}.
Proof. intros a b. destruct (str_eqb_spec a b); auto. Qed.
Lemma browser_opt : forall j, browser_object j -> opt_str (jget j (lit "browser")) = None.
Proof.
  intros j H. destruct (jget j (lit "browser")) as [v|] eqn:E; [|reflexivity]. destruct (H v E) as [H1 _].
  destruct v; try reflexivity. exfalso. eapply H1. reflexivity.
Qed.
Lemma but_browser_opt : forall j1 j2 k, same_but_browser j1 j2 -> opt_str (jget j1 k) = opt_str (jget j2 k).
Proof.
  intros j1 j2 k (H1 & H2 & H3). destruct (str_dec k (lit "browser")) as [->|H]; [rewrite !browser_opt by assumption; reflexivity|].
  rewrite (H3 k H). reflexivity.
Qed.
Lemma treerel_refl : forall R1 R2 fk c, o_conditions (rv_opts R1) = o_conditions (rv_opts R2) -> treerel R1 R2 fk c c.
Proof. intros R1 R2 fk [[t|e]|m|] E; cbn; auto. intros req. rewrite E. reflexivity. Qed.

Lemma fin_25 : forall js1 js2 R k i h1 h2 seeds1 seeds2 f1 f2 base req,
  (forall s j, js1 s = Some j -> wf_json j) -> (forall s j, js2 s = Some j -> wf_json j) ->
  no_clash fs js1 nm -> no_clash fs js2 nm ->
  parsers_but_browser js1 js2 -> o_browser (rv_opts R) = false ->
  client js1 nm R -> nm k = nm (rv_cache R) ->
  Forall (fun c => client js1 nm (call_resolver c)) h1 -> Forall (fun c => client js2 nm (call_resolver c)) h2 ->
  patterns_clear fs R (r_target (parse req)) ->
  same_outcome same_answer
    (out fs (snd (run_history fs (empty_state seeds1) (map ECall h1))) (call_prog (CResolve R f1 base req)))
    (out fs (snd (run_history fs (empty_state seeds2) (map ECall h2))) (call_prog (CResolve (with_parser R js2 k i) f2 base req))).
Proof.
  intros js1 js2 R k i h1 h2 seeds1 seeds2 f1 f2 base req W1 W2 C1 C2 Hp Hb Hc Hk H1 H2 Ht.
  pose proof (fin_inj fs js1 W1 nm) as I1. pose proof (fin_inj fs js2 W2 nm) as I2.
  apply (outcomes_agree fs js1 (CResolve R 0 base req) f1 f2); cbn [with_fuel].
  - apply (run_inv fs js1 nm); [|apply fin_history; assumption]. apply (call_wg fs Hfs js1 nm I1 C1); [exact Hc|].
    split; [left; exact Hb|exact Ht].
  - destruct Hc as (Hd & Hj & Hg). apply (twin_out fs Hfs js1 js2 nm I2 C2 R (with_parser R js2 k i)); try reflexivity; try assumption.
    + split; [cbn; rewrite Hk; exact Hd|]. split; [reflexivity|exact Hg].
    + intros name d s _ _ _. specialize (Hp s). destruct (js1 s) as [j1|], (js2 s) as [j2|]; try contradiction; auto.
      pose proof Hp as (B1 & B2 & B3). constructor.
      * right. split; [exact Hb|]. destruct (browser_object_ok _ B1) as [a1 E1], (browser_object_ok _ B2) as [a2 E2]. eauto.
      * unfold optree. rewrite (B3 (lit "exports")) by discriminate. destruct (jget j2 _); [apply treerel_refl; reflexivity|exact I].
      * unfold optree. rewrite (B3 (lit "imports")) by discriminate. destruct (jget j2 _); [apply treerel_refl; reflexivity|exact I].
      * apply B3. discriminate.
      * apply but_browser_opt, Hp.
      * intros fld _. apply but_browser_opt, Hp.
    + apply fin_history; assumption.
Qed.
Lemma fin_29 : forall js R l k i h1 h2 seeds1 seeds2 f1 f2 base req,
  (forall s j, js s = Some j -> wf_json j) -> no_clash fs js nm ->
  (forall name fld v c, o_desc (rv_opts R) = Some name -> fld = lit "exports" \/ fld = lit "imports" ->
     field_on fs js name fld v -> json_key c v -> (In c (o_conditions (rv_opts R)) <-> In c l)) ->
  client js nm R -> nm k = nm (rv_cache R) ->
  Forall (fun c => client js nm (call_resolver c)) h1 -> Forall (fun c => client js nm (call_resolver c)) h2 ->
  steady fs js (CResolve R f1 base req) ->
  same_outcome same_answer
    (out fs (snd (run_history fs (empty_state seeds1) (map ECall h1))) (call_prog (CResolve R f1 base req)))
    (out fs (snd (run_history fs (empty_state seeds2) (map ECall h2))) (call_prog (CResolve (with_conditions R l k i) f2 base req))).
Proof.
  intros js R l k i h1 h2 seeds1 seeds2 f1 f2 base req W C Hl Hc Hk H1 H2 Hs.
  pose proof (fin_inj fs js W nm) as I1.
  apply (outcomes_agree fs js (CResolve R 0 base req) f1 f2); cbn [with_fuel].
  - apply (run_inv fs js nm); [|apply fin_history; assumption]. apply (call_wg fs Hfs js nm I1 C); [exact Hc|exact Hs].
  - destruct Hc as (Hd & Hj & Hg). destruct Hs as [Hb Ht]. apply (twin_out fs Hfs js js nm I1 C R (with_conditions R l k i)); try reflexivity; try assumption.
    + split; [cbn; rewrite Hk; exact Hd|]. split; [exact Hj|exact Hg].
    + intros name d s En Ed Es. destruct (js s) as [j|] eqn:Ej; [|exact I].
      assert (Ht' : forall fk fld v, fld = lit "exports" \/ fld = lit "imports" -> jget j fld = Some v ->
        treerel R (with_conditions R l k i) fk (build_field fk v) (build_field fk v)).
      { intros fk fld v Hf Hv. destruct (build_field fk v) as [[t|e]|m|] eqn:E; cbn; auto. intros q. eapply C29_p; [exact E|].
        intros c Hkc. eapply Hl; [exact En|exact Hf|exists d, s, j; split; [exact Ed|split; [exact Es|split; [exact Ej|exact Hv]]]|exact Hkc]. }
      constructor; try reflexivity.
      * left. split; [reflexivity|]. destruct Hb as [Hb|Hb]; [left; exact Hb|right]. intros af Ha. eapply Hb; eassumption.
      * unfold optree. destruct (jget j (lit "exports")) as [v|] eqn:Ev; [|exact I]. eapply Ht'; [left; reflexivity|exact Ev].
      * unfold optree. destruct (jget j (lit "imports")) as [v|] eqn:Ev; [|exact I]. eapply Ht'; [right; reflexivity|exact Ev].
    + apply fin_history; assumption.
Qed.
End Pairs.

(** ** Cold caches *)
Lemma cold_empty : forall R seeds, cold R (empty_state seeds).
Proof. intros. repeat split. Qed.
Lemma C21_p : forall fs R name p f seeds, sane_fs fs -> o_desc (rv_opts R) = Some name -> is_abs p = true ->
  f_dir fs [c_slash] = true -> length (components p) + 2 <= f ->
  (forall d pk, is_nearest fs name p d -> described fs (rv_json R) name d = PRet (Ok pk) ->
     out fs (empty_state seeds) (load_side_effects R f p) = Done (Ok (Some (join d name, p_side pk)))) /\
  (forall d e, is_nearest fs name p d -> described fs (rv_json R) name d = PRet (Err e) ->
     out fs (empty_state seeds) (load_side_effects R f p) = Done (Err e)) /\
  ((forall d, ~ is_nearest fs name p d) -> out fs (empty_state seeds) (load_side_effects R f p) = Done (Ok None)).
Proof.
  intros fs R name p f seeds Hs Hn Ha Hr Hf. split; [|split].
  - intros d pk Hd Hk. rewrite (side_cold fs R name Hn Hs f p d _ (cold_empty R seeds) Ha Hf Hd). rewrite Hk. reflexivity.
  - intros d e Hd Hk. rewrite (side_cold fs R name Hn Hs f p d _ (cold_empty R seeds) Ha Hf Hd). rewrite Hk. reflexivity.
  - intros H. apply (side_none fs R name Hn Hs); auto using cold_empty.
Qed.
Lemma C21_load_p : forall fs R name p f seeds, sane_fs fs -> o_desc (rv_opts R) = Some name -> is_abs p = true ->
  f_dir fs [c_slash] = true -> length (components p) + 2 <= f ->
  (forall d pk, is_nearest fs name p d -> described fs (rv_json R) name d = PRet (Ok pk) ->
     exists seed, out fs (empty_state seeds) (load_pkg_file R f p) = Done (Ok (Some (reorder seed pk))) /\ p_dir pk = d) /\
  ((forall d, ~ is_nearest fs name p d) -> out fs (empty_state seeds) (load_pkg_file R f p) = Done (Ok None)).
Proof.
  intros fs R name p f seeds Hs Hn Ha Hr Hf.
  pose proof (run_load_cold fs R name Hn Hs f p (empty_state seeds) (cold_empty R seeds) Ha Hf) as H.
  pose proof (from_root fs Hs p Ha Hr) as H1. destruct (from_dir fs p); [contradiction H1; reflexivity|]. split.
  - intros d pk Hd Hk. destruct (nearest_is fs name Hs p d Ha Hd) as [_ E]. rewrite E in H. destruct H as [seed H]. exists seed.
    rewrite Hk in H. split; [exact H|eapply described_dir; exact Hk].
  - intros Hd. destruct (nearest fs name p) as [d|] eqn:E; [|exact H]. exfalso. eapply Hd, nearest_ex; eassumption.
Qed.

(** ** sideEffects *)
Lemma side_strings_ok : forall fp l, side_strings fp (map JStr l) = Ok l.
Proof. intros fp. induction l as [|s l IH]; [reflexivity|]. cbn [map side_strings as_str]. rewrite IH. reflexivity. Qed.
Lemma side_strings_bad : forall fp l, ~ (exists ss, l = map JStr ss) -> exists e, side_strings fp l = Err e.
Proof.
  intros fp. induction l as [|v l IH]; intros H; [contradiction H; exists []; reflexivity|]. cbn [side_strings].
  destruct (as_str v) as [s|] eqn:E; [|eauto]. destruct v; try discriminate. injection E as ->.
  destruct IH as [e He]; [|rewrite He; eauto]. intros [ss ->]. apply H. exists (s :: ss). reflexivity.
Qed.
Definition fields_build (j : json) : Prop :=
  (exists af, alias_fields_of j = PRet af) /\
  (forall v, jget j (lit "exports") = Some v -> exists t, build_exports v = PRet (Ok t)) /\
  (forall v, jget j (lit "imports") = Some v -> exists t, build_imports v = PRet (Ok t)).
Lemma described_side : forall fs js name d s t j, f_read fs (join d name) = Some s -> f_mtime fs (join d name) = MTime t -> js s = Some j ->
  fields_build j -> match side_effects_of (join d name) j with
    | Ok se => exists pk, described fs js name d = PRet (Ok pk) /\ p_side pk = se
    | Err e => described fs js name d = PRet (Err e)
    end.
Proof.
  intros fs js name d s t j Hr Hm Hj ((af & Ha) & He & Hi). unfold described. rewrite Hr, Hm, Hj, Ha. cbn [pbind].
  destruct (jget j (lit "exports")) as [v|]; [destruct (He v eq_refl) as [t0 E]; rewrite E|]; cbn [pbind];
  (destruct (jget j (lit "imports")) as [w|]; [destruct (Hi w eq_refl) as [t1 E1]; rewrite E1|]; cbn [pbind]);
  destruct (side_effects_of (join d name) j); eauto.
Qed.
Lemma C22_p : forall fs R name p f seeds d s t j, sane_fs fs -> o_desc (rv_opts R) = Some name -> is_abs p = true ->
  length (components p) + 2 <= f -> is_nearest fs name p d ->
  f_read fs (join d name) = Some s -> f_mtime fs (join d name) = MTime t -> rv_json R s = Some j -> fields_build j ->
  let answer := out fs (empty_state seeds) (load_side_effects R f p) in
  (jget j (lit "sideEffects") = None -> answer = Done (Ok (Some (join d name, None)))) /\
  (forall b, jget j (lit "sideEffects") = Some (JBool b) -> answer = Done (Ok (Some (join d name, Some (SEBool b))))) /\
  (forall l, jget j (lit "sideEffects") = Some (JArr (map JStr l)) -> answer = Done (Ok (Some (join d name, Some (SEArray l))))) /\
  (forall v, jget j (lit "sideEffects") = Some v -> (forall b, v <> JBool b) -> (forall l, v <> JArr (map JStr l)) ->
     exists e, answer = Done (Err e)).
Proof.
  intros fs R name p f seeds d s t j Hs Hn Ha Hf Hd Hr Hm Hj Hb. cbv zeta.
  rewrite (side_cold fs R name Hn Hs f p d _ (cold_empty R seeds) Ha Hf Hd).
  pose proof (described_side fs (rv_json R) name d s t j Hr Hm Hj Hb) as H. unfold side_effects_of in H.
  repeat split.
  - intros E. rewrite E in H. destruct H as (pk & -> & Hp). cbn. rewrite Hp. reflexivity.
  - intros b E. rewrite E in H. cbn [as_bool] in H. destruct H as (pk & -> & Hp). cbn. rewrite Hp. reflexivity.
  - intros l E. rewrite E in H. cbn [as_bool as_array] in H. rewrite side_strings_ok in H. destruct H as (pk & -> & Hp). cbn. rewrite Hp. reflexivity.
  - intros v E H1 H2. rewrite E in H. destruct v as [|b|n|x|l|l]; cbn [as_bool as_array] in H; try (rewrite H; cbn; eauto; fail).
    + exfalso. eapply H1. reflexivity.
    + destruct (side_strings_bad (join d name) l) as [e He]; [intros [ss ->]; eapply H2; reflexivity|].
      rewrite He in H. rewrite H. cbn. eauto.
Qed.

(** ** Errors *)
Lemma C42_p : forall fs js nm, sane_fs fs -> (forall s j, js s = Some j -> wf_json j) -> no_clash fs js nm ->
  forall h seeds R name f p d e, Forall (fun c => client js nm (call_resolver c)) h -> client js nm R ->
  o_desc (rv_opts R) = Some name -> is_abs p = true -> is_nearest fs name p d -> described fs js name d = PRet (Err e) ->
  let r := out fs (snd (run_history fs (empty_state seeds) (map ECall h))) (load_side_effects R f p) in
  r = NoFuel \/ r = Done (Err e).
Proof.
  intros fs js nm Hs W C h seeds R name f p d e Hh HR Hn Ha Hd He. cbv zeta.
  assert (Hw : wg fs js nm (orel (leq eq) (oc (lookup_desc fs js (o_desc (rv_opts R)) p))) (load_pkg_file R f p)).
  { apply wg_and; [apply load_leq; try assumption; exact (fin_inj fs js W nm)|apply client_load; try assumption; exact (fin_inj fs js W nm)]. }
  destruct (run_inv fs js nm _ _ _ Hw (fin_history fs Hs js W nm C h seeds Hh)) as [Hq _].
  unfold load_side_effects, try_, out in *. rewrite run_bind.
  destruct (run fs (load_pkg_file R f p) _) as [[r|m|] st']; cbn [fst orel] in Hq; [|exfalso|left; reflexivity].
  - destruct Hq as (a & Ea & Hl). rewrite Hn in Ea. unfold lookup_desc in Ea. destruct (nearest_is fs name Hs p d Ha Hd) as [E1 E2].
    destruct (from_dir fs p); [contradiction E1; reflexivity|]. rewrite E2 in Ea. destruct Hd as (_ & _ & _ & Hdd & _). rewrite Hdd, He in Ea.
    cbn in Ea. injection Ea as <-. destruct r as [o|e']; cbn [leq] in Hl; [contradiction|]. subst e'. right. reflexivity.
  - destruct Hq as (a & Ea & Hl). rewrite Hn in Ea. unfold lookup_desc in Ea. destruct (nearest_is fs name Hs p d Ha Hd) as [E1 E2].
    destruct (from_dir fs p); [contradiction E1; reflexivity|]. rewrite E2 in Ea. destruct Hd as (_ & _ & _ & Hdd & _). rewrite Hdd, He in Ea.
    discriminate.
Qed.

(** ** An example world *)
Local Open Scope string_scope.
Lemma js_of_in : forall t s j, js_of t s = Some j -> In j (map snd t).
Proof.
  intros t s j H. unfold js_of in H. apply imap_get_In in H. apply in_map_iff in H. destruct H as ([k v] & E & Hin).
  injection E as <- <-. apply in_map_iff. exists (k, v). auto.
Qed.
Definition wc : fsys := W (D [("r", D [("package.json", PJ "R"); ("x.js", F); ("tsconfig.json", PJ "T"); ("src", D [("y.js", F)]);
  ("node_modules", D [("p", D [("package.json", PJ "P"); ("m.js", F); ("b.js", F)])])])]).
Definition Tc : list (string * json) :=
  [("P", O [("exports", O [(".", S_ "./m.js")]); ("browser", O [("./m.js", S_ "./b.js")]); ("sideEffects", JBool false)]);
   ("R", O [("imports", O [("#a", S_ "./x.js")])]);
   ("T", O [("compilerOptions", O [("baseUrl", S_ "."); ("paths", O [("@/*", JArr [S_ "./src/*"])])])])].
(** Two resolvers on one cache, with different options; [Rc_ts] reads tsconfig.json. *)
Definition Rc_b : resolver := new_resolver (with_browser dflt true) 0 0 false (js_of Tc) (jsc_of Tc).
Definition Rc_ts : resolver := new_resolver (with_tsconfig dflt (Some (lit "/r/tsconfig.json"))) 0 1 false (js_of Tc) (jsc_of Tc).
Definition nmc : nat -> str := fun _ => lit "package.json".
Lemma wc_wf : forall s j, js_of Tc s = Some j -> wf_json j.
Proof.
  intros s j H. apply js_of_in in H. cbn [Tc map snd] in H.
  destruct H as [<-|[<-|[<-|[]]]]; cbn; repeat split; auto.
Qed.
Lemma wc_clash : forall fs, no_clash fs (js_of Tc) nmc.
Proof.
  intros fs c v v' (d & s & j & _ & _ & Hj & Hv) (d' & s' & j' & _ & _ & Hj' & Hv').
  apply js_of_in in Hj, Hj'. cbn [Tc map snd] in Hj, Hj'.
  destruct Hj as [<-|[<-|[<-|[]]]]; try discriminate; vm_compute in Hv; inversion Hv; subst v;
  destruct Hj' as [<-|[<-|[<-|[]]]]; try discriminate; vm_compute in Hv'; inversion Hv'; subst v';
  vm_compute; discriminate.
Qed.
Lemma wc_clients : client (js_of Tc) nmc Rc_b /\ client (js_of Tc) nmc Rc_ts.
Proof. repeat split; try (right; reflexivity). Qed.
Lemma wc_browser : browser_clear wc (js_of Tc) Rc_b.
Proof.
  right. intros name d s j af _ _ _ Hj Ha. apply js_of_in in Hj. cbn [Tc map snd] in Hj.
  destruct Hj as [<-|[<-|[<-|[]]]]; vm_compute in Ha; injection Ha as <-; split.
  - intros rp k v k' v' [H|[]] [H'|[]] _ _. congruence.
  - intros k t [H|[]]. injection H as _ <-. intros [E|E]; discriminate E.
  - intros rp k v k' v' [].
  - intros k t [].
  - intros rp k v k' v' [].
  - intros k t [].
Qed.
Lemma wc_steady_b : forall f base req, steady wc (js_of Tc) (CResolve Rc_b f base req).
Proof. intros. split; [apply wc_browser|]. intros loc c t m H. discriminate H. Qed.
Lemma wc_steady_ts : forall f base req, ascii_str (r_target (parse req)) -> steady wc (js_of Tc) (CResolve Rc_ts f base req).
Proof.
  intros f base req Ha. split; [left; reflexivity|]. intros loc c t m H [n Hc] Ht Hm. vm_compute in H. injection H as <-.
  destruct n as [|n]; [discriminate Hc|]. vm_compute in Hc. injection Hc as <-. vm_compute in Ht. injection Ht as <-.
  vm_compute in Hm. injection Hm as <-. split.
  - intros k v [H|[]]. injection H as <- _. apply TsP.ascii_splits; [repeat constructor|exact Ha].
  - intros k v k' v' [H|[]] [H'|[]] _ _. congruence.
Qed.
Definition hc : list call := [CResolve Rc_b 40 (lit "/r") (lit "p"); CResolve Rc_ts 40 (lit "/r") (lit "#a"); CSide Rc_b 40 (lit "/r/node_modules/p/m.js")].
Lemma hc_clients : Forall (fun c => client (js_of Tc) nmc (call_resolver c)) hc.
Proof. repeat (constructor; [split; [right; reflexivity|split; reflexivity]|]). constructor. Qed.
Definition at_path (p : string) : outcome answer := Done (AResolve (Ok (RInfo (mkInfo (lit p) (mkReq [] [] [] Relative))))).
Definition warm : state := snd (run_history wc st0 (map ECall hc)).
Definition gives (o : outcome answer) (p : string) : Prop :=
  exists i, o = Done (AResolve (Ok (RInfo i))) /\ i_path i = lit p.
Lemma hc_answers :
  gives (out wc warm (call_prog (CResolve Rc_ts 40 (lit "/r") (lit "@/y")))) "/r/src/y.js" /\
  gives (out wc warm (call_prog (CResolve Rc_b 40 (lit "/r/") (lit "p")))) "/r/node_modules/p/b.js" /\
  gives (out wc warm (call_prog (CResolve Rc_ts 40 (lit "/r") (lit "p")))) "/r/node_modules/p/m.js" /\
  out wc warm (call_prog (CSide Rc_ts 40 (lit "/r/node_modules/p"))) =
    Done (ASide (Ok (Some (lit "/r/node_modules/p/package.json", Some (SEBool false))))) /\
  s_pkg warm 0 (components (lit "/r/node_modules/p")) <> None /\
  s_exp warm 0 (to_string (O [(".", S_ "./m.js")])) <> None.
Proof.
  repeat split; try (eexists; split; [vm_compute; reflexivity|reflexivity]); try (vm_compute; reflexivity); vm_compute; discriminate.
Qed.
Definition lc : list call := [CResolve Rc_ts 40 (lit "/r") (lit "@/y"); CResolve Rc_b 40 (lit "/r") (lit "p")].
Lemma lc_ok : Forall (fun c => client (js_of Tc) nmc (call_resolver c) /\ steady wc (js_of Tc) c) lc.
Proof.
  constructor; [|constructor; [|constructor]]; (split; [cbn; repeat split; try (right; reflexivity)|]).
  - apply wc_steady_ts. vm_compute. repeat constructor.
  - apply wc_steady_b.
Qed.
Fixpoint alternate (n : nat) : list nat := match n with 0 => [] | S n => 0 :: 1 :: alternate n end.
Lemma lc_runs : exists p q, fst (run_sched wc (alternate 80) st0 (map call_prog lc)) = [p; q] /\
  gives (settled p) "/r/src/y.js" /\ gives (settled q) "/r/node_modules/p/b.js".
Proof.
  do 2 eexists. split; [vm_compute; reflexivity|]. split; (eexists; split; [vm_compute; reflexivity|reflexivity]).
Qed.

(** ** Witnesses *)
Definition w25 : fsys := W (D [("r", D [("package.json", PJ "R"); ("a.js", F)])]).
Lemma C25_w : panics (res w25 (mkR dflt [("R", O [("browser", O [("x", JBool true)])])]) "/r" "./a") /\
  ends_at (res w25 (mkR dflt [("R", O [])]) "/r" "./a") "/r/a.js" /\ o_browser dflt = false.
Proof. repeat split; [eexists; vm_compute; reflexivity|]. conc. Qed.
Definition w21 : fsys := posix_fs 60 (D [("r", D [("package.json", PJ "R"); ("a", D [])])]) [lit "r"].
Lemma C21_w : f_file w21 (lit "package.json") = true /\ f_dir w21 (lit "a") = true /\
  out w21 st0 (load_side_effects (mkR dflt [("R", O [])]) 40 (lit "a")) = Done (Err TAG) /\
  out w21 st0 (load_side_effects (mkR dflt [("R", O [])]) 40 (lit "/r/a")) = Done (Ok (Some (lit "/r/package.json", None))).
Proof. repeat split; vm_compute; reflexivity. Qed.

Lemma wc_nearest : is_nearest wc (lit "package.json") (lit "/r/node_modules/p/no/such") (lit "/r/node_modules/p").
Proof.
  exists [lit "/r/node_modules/p/no/such"; lit "/r/node_modules/p/no"], [lit "/r/node_modules"; lit "/r"; lit "/"].
  repeat split; try (vm_compute; reflexivity). repeat constructor; vm_compute; congruence.
Qed.
Lemma wc_none : forall d, ~ is_nearest wc (lit "bower.json") (lit "/r/src") d.
Proof.
  intros d (l1 & l2 & E & Hd & Hf & _).
  assert (Hin : In d (lineage (lit "/r/src"))) by (rewrite E; apply in_elt).
  vm_compute in Hin. destruct Hin as [<-|[<-|[<-|[]]]]; vm_compute in Hf; discriminate.
Qed.
(** Edits of one description. *)
Definition w40 (id : string) (t : N) : fsys := W (D [("r", D [("package.json", NFile (lit id) t); ("a.js", F); ("b.js", F)])]).
Definition T40 : list (string * json) := [("A", O [("main", S_ "./a.js")]); ("B", O [("main", S_ "./b.js")])].
Definition h40 : list event := [ECall (CResolve (mkR dflt T40) 40 (lit "/") (lit "./r")); EFs (w40 "B" 2000000001%N)].
Lemma h40_ok : (exists st, snd (fst (run_history (w40 "A" 1000000000%N) st0 h40)) = w40 "B" 2000000001%N /\
  snd (run_history (w40 "A" 1000000000%N) st0 h40) = st /\
  s_pkg st 0 (components (lit "/r")) <> None /\
  s_file st 0 (components (lit "/r/package.json")) = Some (lit "A", 1000000000%N) /\ rv_duration (mkR dflt T40) = 1000000000%N /\
  gives (out (w40 "B" 2000000001%N) st (call_prog (CResolve (mkR dflt T40) 40 (lit "/") (lit "./r")))) "/r/b.js" /\
  gives (out (w40 "B" 1000000001%N) st (call_prog (CResolve (mkR dflt T40) 40 (lit "/") (lit "./r")))) "/r/a.js" /\
  s_file st 1 (components (lit "/r/package.json")) = None /\
  gives (out (w40 "B" 1000000001%N) st (call_prog (CResolve (new_resolver dflt 0 1 false (js_of T40) (jsc_of [])) 40 (lit "/") (lit "./r")))) "/r/b.js") /\
  texts_apart (js_of T40) (fun _ => True).
Proof.
  split.
  - eexists. split; [reflexivity|]. split; [reflexivity|]. split; [vm_compute; discriminate|]. split; [vm_compute; reflexivity|].
    split; [reflexivity|]. split; [eexists; split; [vm_compute; reflexivity|reflexivity]|]. split; [eexists; split; [vm_compute; reflexivity|reflexivity]|].
    split; [vm_compute; reflexivity|]. eexists. split; [vm_compute; reflexivity|reflexivity].
  - intros s s' j j' v v' _ _ Hj _ Hv _ _. apply js_of_in in Hj. cbn [T40 map snd] in Hj.
    destruct Hj as [<-|[<-|[]]]; vm_compute in Hv; discriminate.
Qed.
(** A malformed description. *)
Definition w42 : fsys := W (D [("r", D [("package.json", PJ "bad"); ("a.js", F)])]).
Lemma w42_ok : is_nearest w42 (lit "package.json") (lit "/r/a.js") (lit "/r") /\
  described w42 (js_of Tc) (lit "package.json") (lit "/r") = PRet (Err (lit "Parse /r/package.json failed")) /\
  no_clash w42 (js_of Tc) nmc /\
  out w42 (snd (run_history w42 st0 (map ECall [CResolve Rc_b 40 (lit "/r") (lit "./a"); CSide Rc_b 40 (lit "/r")])))
    (load_side_effects Rc_b 40 (lit "/r/a.js")) = Done (Err (lit "Parse /r/package.json failed")).
Proof.
  split; [|split; [|split]].
  - exists [lit "/r/a.js"], [lit "/"]. repeat split; try (vm_compute; reflexivity). repeat constructor; vm_compute; discriminate.
  - vm_compute. reflexivity.
  - apply wc_clash.
  - vm_compute. reflexivity.
Qed.
(** The same contents without browser objects. *)
Definition Tn : list (string * json) :=
  [("P", O [("exports", O [(".", S_ "./m.js")]); ("sideEffects", JBool false)]);
   ("R", O [("imports", O [("#a", S_ "./x.js")])]);
   ("T", O [("compilerOptions", O [("baseUrl", S_ "."); ("paths", O [("@/*", JArr [S_ "./src/*"])])])])].
Lemma same_but_refl : forall j, browser_object j -> same_but_browser j j.
Proof. intros j H. split; [exact H|]. split; [exact H|]. reflexivity. Qed.
Lemma but_browser_ex : parsers_but_browser (js_of Tc) (js_of Tn).
Proof.
  intros s. unfold js_of, Tc, Tn. cbn [map fst snd imap_get].
  destruct (str_eqb (lit "P") s); [|destruct (str_eqb (lit "R") s); [|destruct (str_eqb (lit "T") s); [|exact I]]].
  - split; [|split].
    + intros v Hv. vm_compute in Hv. injection Hv as <-. split; [intros x; discriminate|]. intros l E k b Hin. injection E as <-.
      destruct Hin as [Hin|[]]. discriminate Hin.
    + intros v Hv. vm_compute in Hv. discriminate.
    + intros k Hk. unfold O. cbn [map fst snd jget imap_get].
      destruct (str_eqb (lit "exports") k); [reflexivity|]. destruct (str_eqb_spec (lit "browser") k) as [<-|]; [contradiction Hk; reflexivity|].
      reflexivity.
  - apply same_but_refl. intros v Hv. vm_compute in Hv. discriminate.
  - apply same_but_refl. intros v Hv. vm_compute in Hv. discriminate.
Qed.
Definition Ro : resolver := mkR dflt Tc.
Lemma off_ex :
  gives (out wc st0 (call_prog (CResolve Ro 40 (lit "/r") (lit "p")))) "/r/node_modules/p/m.js" /\
  gives (out wc st0 (call_prog (CResolve (with_parser Ro (js_of Tn) 3 4) 40 (lit "/r") (lit "p")))) "/r/node_modules/p/m.js" /\
  gives (out wc st0 (call_prog (CResolve Rc_b 40 (lit "/r") (lit "p")))) "/r/node_modules/p/b.js".
Proof. repeat split; (eexists; split; [vm_compute; reflexivity|reflexivity]). Qed.
(** Conditions. *)
Definition T29 : list (string * json) := [("P", O [("exports", O [("node", S_ "./m.js"); ("default", S_ "./b.js")])])].
Definition R29 : resolver := mkR (with_conds dflt [lit "node"]) T29.
Lemma cond_ex : (forall name fld v c, o_desc (rv_opts R29) = Some name -> fld = lit "exports" \/ fld = lit "imports" ->
    field_on wc (js_of T29) name fld v -> json_key c v ->
    (In c (o_conditions (rv_opts R29)) <-> In c [lit "zzz"; lit "node"; lit "node"])) /\
  gives (out wc st0 (call_prog (CResolve R29 40 (lit "/r") (lit "p")))) "/r/node_modules/p/m.js" /\
  gives (out wc st0 (call_prog (CResolve (with_conditions R29 [lit "zzz"; lit "node"; lit "node"] 1 1) 40 (lit "/r") (lit "p")))) "/r/node_modules/p/m.js" /\
  gives (out wc st0 (call_prog (CResolve (with_conditions R29 [lit "zzz"] 1 1) 40 (lit "/r") (lit "p")))) "/r/node_modules/p/b.js".
Proof.
  split; [|repeat split; (eexists; split; [vm_compute; reflexivity|reflexivity])].
  intros name fld v c _ Hf (d & s & j & _ & _ & Hj & Hv) Hk. apply js_of_in in Hj. cbn [T29 map snd] in Hj. destruct Hj as [<-|[]].
  assert (E : v = O [("node", S_ "./m.js"); ("default", S_ "./b.js")]).
  { destruct Hf as [-> | ->]; vm_compute in Hv; [injection Hv as <-; reflexivity|discriminate]. }
  subst v. assert (Hc : c = lit "node" \/ c = lit "default").
  { unfold O in Hk. cbn [map fst snd] in Hk. inversion Hk as [l x Hin E1|l k x Hin Hx E1|]; subst.
    - destruct Hin as [Hin|[Hin|[]]]; injection Hin as <- _; auto.
    - destruct Hin as [Hin|[Hin|[]]]; injection Hin as <- <-; inversion Hx. }
  cbn [R29 mkR new_resolver rv_opts o_conditions]. destruct Hc as [-> | ->]; vm_compute; split; intros H; intuition discriminate.
Qed.
(** A simpler condition: no exports field consists of keys with "#" only. *)
Lemma hash_clear : forall fs js nm, (forall s j, js s = Some j -> wf_json j) ->
  (forall c v, field_on fs js (nm c) (lit "exports") v -> ~ hash_keys v) -> no_clash fs js nm.
Proof.
  intros fs js nm Hwf H c v v' Hv Hv' Hk E. apply (H c v Hv). replace v with v'; [exact Hk|].
  destruct Hv as (d & s & j & _ & _ & H2 & H3), Hv' as (d' & s' & j' & _ & _ & H2' & H3'). symmetry.
  apply to_string_inj; [eapply wf_get; [eapply Hwf; exact H2|exact H3]|eapply wf_get; [eapply Hwf; exact H2'|exact H3']|exact E].
Qed.
Lemma hash_ex : (hash_keys (O [("#a", S_ "./a.js"); ("#b", S_ "./b.js")]) /\ ~ hash_keys (O [(".", S_ "./a.js")]) /\ ~ hash_keys (S_ "./a.js"))%string.
Proof.
  split; [|split].
  - eexists. split; [reflexivity|]. intros k x [H|[H|[]]]; injection H as <- _; eexists; reflexivity.
  - intros (l & E & H). injection E as <-. destruct (H (lit ".") (S_ "./a.js") (or_introl eq_refl)) as [r Hr]. discriminate.
  - intros (l & E & _). discriminate.
Qed.
