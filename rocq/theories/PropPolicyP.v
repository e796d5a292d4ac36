(** * Resolvers that are told the same: proofs for PropPolicy.v *)
From Coq Require Import String.
From Coq Require Import List Arith NArith Bool.
From Verif Require Import Str StrP Path PathP Json Types Parse Map Prog Desc Resolve Top Run RunP Exec ExecP Posix PosixP Demo WitnessP SpecRun SpecLoad SpellP SpecCache SpecChange SpecJson SpecMap SimP LoadP GuarP CacheP TwinP PropCacheP SpecTime SpecPolicy.
Import ListNotations.

Lemma enforce_same : forall R R', (o_enforce (rv_opts R) = Some true <-> o_enforce (rv_opts R') = Some true) -> enforce R = enforce R'.
Proof.
  intros R R' [H H']. unfold enforce. destruct (o_enforce (rv_opts R)) as [[]|], (o_enforce (rv_opts R')) as [[]|]; try reflexivity;
    try (specialize (H eq_refl); discriminate); specialize (H' eq_refl); discriminate.
Qed.
Section Told.
Variable fs : fsys.
Hypothesis Hfs : sane_fs fs.
Variable js : str -> option json.
Hypothesis W : forall s j, js s = Some j -> wf_json j.
Variable nm : nat -> str.
Hypothesis C : no_clash fs js nm.

Lemma policy_wg : forall c R', client js nm (call_resolver c) -> client js nm R' -> same_policy (call_resolver c) R' -> steady fs js c ->
  wg fs js nm (orel ansrel (ev_fs fs (call_fresh fs js c))) (call_prog (asked c R')).
Proof.
  intros c R' Hc Hc' P Hs. pose proof (fin_inj fs js W nm) as I1.
  destruct c as [R f base req|R f p]; cbn [call_resolver asked] in *; destruct P as (P1 & P2 & P3 & P4 & P5 & P6 & P7 & P8 & P9 & P10 & P11 & P12 & P13).
  - destruct Hc as (Hd & Hj & Hg). pose proof Hc' as (Hd' & Hj' & Hg'). destruct Hs as [Hb Ht]. apply wg_and.
    + cbn [call_fresh call_prog]. eapply (sim_bind fs (wxm (okc fs js nm) false)); [|intros a b H; apply sim_ret; exact H].
      apply (twin_sim fs Hfs js js nm I1 C R R'); try assumption; try (apply enforce_same; assumption); try congruence.
      intros name d s En Ed Es. destruct (js s) as [j|] eqn:Ej; [|exact I]. constructor; try reflexivity.
      * left. split; [reflexivity|]. destruct Hb as [Hb|Hb]; [left; exact Hb|right]. intros af Ha. eapply Hb; eassumption.
      * unfold optree. destruct (jget j (lit "exports")) as [v|] eqn:Ev; [|exact I]. apply treerel_refl. exact P10.
      * unfold optree. destruct (jget j (lit "imports")) as [v|] eqn:Ev; [|exact I]. apply treerel_refl. exact P10.
    + apply (client_call fs Hfs js nm I1 C (CResolve R' f base req)). exact Hc'.
  - replace (call_fresh fs js (CSide R f p)) with (call_fresh fs js (CSide R' f p)) by (unfold call_fresh, fresh_load; rewrite P6; reflexivity).
    apply (call_wg fs Hfs js nm I1 C (CSide R' f p)); [exact Hc'|exact I].
Qed.
Lemma fuel_resolver : forall c f, call_resolver (with_fuel c f) = call_resolver c.
Proof. intros []; reflexivity. Qed.
Lemma fuel_steady : forall c f, steady fs js c -> steady fs js (with_fuel c f).
Proof. intros [] f H; exact H. Qed.
Lemma asked_fuel : forall c f R', asked (with_fuel c f) R' = with_fuel (asked c R') f.
Proof. intros []; reflexivity. Qed.
Lemma fin_73 : forall c R' h1 h2 seeds1 seeds2 f1 f2, client js nm (call_resolver c) -> client js nm R' -> same_policy (call_resolver c) R' ->
  Forall (fun c => client js nm (call_resolver c)) h1 -> Forall (fun c => client js nm (call_resolver c)) h2 -> steady fs js c ->
  same_outcome same_answer
    (out fs (snd (run_history fs (empty_state seeds1) (map ECall h1))) (call_prog (with_fuel c f1)))
    (out fs (snd (run_history fs (empty_state seeds2) (map ECall h2))) (call_prog (with_fuel (asked c R') f2))).
Proof.
  intros c R' h1 h2 seeds1 seeds2 f1 f2 Hc Hc' P H1 H2 Hs.
  apply (outcomes_agree fs js c f1 f2).
  - apply (run_inv fs js nm); [|apply fin_history; assumption].
    apply (call_wg fs Hfs js nm (fin_inj fs js W nm) C); [rewrite fuel_resolver; exact Hc|apply fuel_steady, Hs].
  - apply (run_inv fs js nm); [|apply fin_history; assumption]. rewrite <- asked_fuel.
    apply policy_wg; rewrite ?fuel_resolver; auto using fuel_steady.
Qed.

(** One thread of many. *)
Lemma thread_wg : forall l h sched seeds c k z P, Forall (fun c => client js nm (call_resolver c)) h -> Forall (fun c => client js nm (call_resolver c)) l ->
  nth_error l k = Some c -> wg fs js nm P (call_prog c) ->
  nth_error (fst (run_sched fs sched (snd (run_history fs (empty_state seeds) (map ECall h))) (map call_prog l))) k = Some z -> wg fs js nm P z.
Proof.
  intros l h sched seeds c k z P Hh Hl Lk HP Ez.
  destruct (sched_inv fs js nm sched (map call_prog l) (map (fun j => if Nat.eqb j k then P else fun _ => True) (seq 0 (length l))) (snd (run_history fs (empty_state seeds) (map ECall h)))) as [H _].
  - assert (Hg : forall s l0, Forall (fun c => client js nm (call_resolver c)) l0 -> (forall j c0, nth_error l0 j = Some c0 -> s + j = k -> c0 = c) ->
      Forall2 (fun Q p => wg fs js nm Q p) (map (fun j => if Nat.eqb j k then P else fun _ => True) (seq s (length l0))) (map call_prog l0)).
    { intros s l0 H0. revert s. induction H0 as [|c0 l0 Hc H0 IH]; intros s Hk; cbn [length seq map]; constructor.
      - destruct (Nat.eqb_spec s k) as [E|E]; [|apply client_call; try assumption; exact (fin_inj fs js W nm)].
        rewrite (Hk 0 c0 eq_refl) by (rewrite Nat.add_0_r; exact E). exact HP.
      - apply IH. intros j c1 Hj E. apply (Hk (S j) c1 Hj). rewrite <- E. rewrite Nat.add_succ_r. reflexivity. }
    apply Hg; [exact Hl|]. intros j c0 Hj E. cbn in E. subst j. congruence.
  - apply fin_history; assumption.
  - assert (Hn2 : forall (Qs : list (outcome answer -> Prop)) ps j z0, Forall2 (fun Q p => wg fs js nm Q p) Qs ps -> nth_error ps j = Some z0 -> exists Q, nth_error Qs j = Some Q /\ wg fs js nm Q z0).
    { clear. intros Qs ps j z0 H. revert j. induction H as [|Q p0 Qs ps H0 H IH]; intros [|j] E; try discriminate; cbn [nth_error] in *.
      - injection E as <-. exists Q. auto.
      - apply IH, E. }
    destruct (Hn2 _ _ k z H Ez) as (Q & EQ & HQ).
    rewrite nth_error_map in EQ. assert (Lt : k < length l) by (apply nth_error_Some; congruence).
    rewrite (nth_error_nth' _ 0) in EQ by (rewrite seq_length; exact Lt). rewrite seq_nth in EQ by exact Lt. cbn in EQ. rewrite Nat.eqb_refl in EQ.
    injection EQ as <-. exact HQ.
Qed.
Lemma settled_orel : forall e z, wg fs js nm (orel ansrel e) z -> orel ansrel e (settled z).
Proof. intros e [a|m| |o k] H; cbn [settled wgx] in *; try exact H; exact I. Qed.
Lemma fin_73_threads : forall c R' l1 l2 h1 h2 sched1 sched2 seeds1 seeds2 f1 f2 k1 k2 x y, same_policy (call_resolver c) R' -> steady fs js c ->
  Forall (fun c => client js nm (call_resolver c)) h1 -> Forall (fun c => client js nm (call_resolver c)) h2 ->
  Forall (fun c => client js nm (call_resolver c)) l1 -> Forall (fun c => client js nm (call_resolver c)) l2 ->
  nth_error l1 k1 = Some (with_fuel c f1) -> nth_error l2 k2 = Some (with_fuel (asked c R') f2) ->
  nth_error (fst (run_sched fs sched1 (snd (run_history fs (empty_state seeds1) (map ECall h1))) (map call_prog l1))) k1 = Some x ->
  nth_error (fst (run_sched fs sched2 (snd (run_history fs (empty_state seeds2) (map ECall h2))) (map call_prog l2))) k2 = Some y ->
  same_outcome same_answer (settled x) (settled y).
Proof.
  intros c R' l1 l2 h1 h2 sched1 sched2 seeds1 seeds2 f1 f2 k1 k2 x y P Hs H1 H2 L1 L2 N1 N2 X Y.
  assert (Hc : client js nm (call_resolver c)) by (rewrite <- (fuel_resolver c f1); exact (proj1 (Forall_forall _ _) L1 _ (nth_error_In _ _ N1))).
  assert (Hc' : client js nm R').
  { pose proof (proj1 (Forall_forall _ _) L2 _ (nth_error_In _ _ N2)) as H. cbv beta in H. rewrite fuel_resolver in H. destruct c; exact H. }
  apply (outcomes_agree fs js c f1 f2); apply settled_orel.
  - eapply (thread_wg l1 h1 sched1 seeds1); try eassumption.
    apply (call_wg fs Hfs js nm (fin_inj fs js W nm) C); [rewrite fuel_resolver; exact Hc|apply fuel_steady, Hs].
  - eapply (thread_wg l2 h2 sched2 seeds2); try eassumption. rewrite <- asked_fuel.
    apply policy_wg; rewrite ?fuel_resolver; auto using fuel_steady.
Qed.
End Told.
Lemma fin_73_default : forall fs, sane_fs fs -> forall js, (forall s j, js s = Some j -> wf_json j) -> forall nm, no_clash fs js nm ->
  forall jc k i k' i' h1 h2 seeds1 seeds2 f1 f2 base req, nm k = lit "package.json" -> nm k' = lit "package.json" ->
  Forall (fun c => client js nm (call_resolver c)) h1 -> Forall (fun c => client js nm (call_resolver c)) h2 ->
  same_outcome same_answer
    (out fs (snd (run_history fs (empty_state seeds1) (map ECall h1))) (call_prog (CResolve (default_resolver k i false js jc) f1 base req)))
    (out fs (snd (run_history fs (empty_state seeds2) (map ECall h2))) (call_prog (CResolve (new_resolver default_options k' i' false js jc) f2 base req))).
Proof.
  intros fs Hfs js W nm C jc k i k' i' h1 h2 seeds1 seeds2 f1 f2 base req E E' H1 H2.
  apply (fin_73 fs Hfs js W nm C (CResolve (default_resolver k i false js jc) f1 base req) (new_resolver default_options k' i' false js jc)); try assumption.
  - split; [right; cbn; rewrite E; reflexivity|split; reflexivity].
  - split; [right; cbn; rewrite E'; reflexivity|split; reflexivity].
  - unfold same_policy. cbn. split; [reflexivity|]. split; [split; intros Hx; discriminate|]. repeat (split; [reflexivity|]). reflexivity.
  - split; [left; reflexivity|]. intros loc c t m Hx. discriminate.
Qed.
(** While the disk changes they differ: the description is edited half a second later. *)
Lemma fin_73_changing : exists fs fs' js jc base req p p',
  let h R := [ECall (CResolve R 40 base req); EFs fs'; ECall (CResolve R 40 base req)] in
  fst (fst (run_history fs st0 (h (default_resolver 0 0 false js jc)))) = map (fun p => Done (AResolve (Ok (RInfo (mkInfo p (mkReq [] [] [] Relative)))))) [p; p'] /\
  fst (fst (run_history fs st0 (h (new_resolver default_options 0 0 false js jc)))) = map (fun p => Done (AResolve (Ok (RInfo (mkInfo p (mkReq [] [] [] Relative)))))) [p; p] /\
  p <> p'.
Proof.
  exists (w40 "A" (seconds 1)), (w40 "B" (seconds 1 + 500000000)), (js_of T40), (jsc_of []), (lit "/"), (lit "./r"), (lit "/r/a.js"), (lit "/r/b.js").
  split; [vm_compute; reflexivity|]. split; [vm_compute; reflexivity|]. discriminate.
Qed.
Lemma ex73 : (same_policy (default_resolver 0 0 false (js_of T40) (jsc_of [])) (new_resolver default_options 1 1 false (js_of T40) (jsc_of [])) /\
  gives (out (w40 "A" (seconds 1)) st0 (call_prog (CResolve (default_resolver 0 0 false (js_of T40) (jsc_of [])) 40 (lit "/") (lit "./r")))) "/r/a.js" /\
  gives (out (w40 "A" (seconds 1)) st0 (call_prog (CResolve (new_resolver default_options 1 1 false (js_of T40) (jsc_of [])) 40 (lit "/") (lit "./r")))) "/r/a.js")%string.
Proof.
  split; [|split; (eexists; split; [vm_compute; reflexivity|reflexivity])].
  unfold same_policy. cbn. split; [reflexivity|]. split; [split; intros Hx; discriminate|]. repeat (split; [reflexivity|]). reflexivity.
Qed.
Lemma ex73t : (exists x y, fst (run_sched (w40 "A" (seconds 1)) (alternate 80) st0
    (map call_prog [CResolve (default_resolver 0 0 false (js_of T40) (jsc_of [])) 40 (lit "/") (lit "./r");
                    CResolve (new_resolver default_options 0 1 false (js_of T40) (jsc_of [])) 40 (lit "/") (lit "./r")])) = [x; y] /\
  gives (settled x) "/r/a.js" /\ gives (settled y) "/r/a.js")%string.
Proof. do 2 eexists. split; [vm_compute; reflexivity|]. split; (eexists; split; [vm_compute; reflexivity|reflexivity]). Qed.
