(** * Termination: from programs to runs, readable conditions, and examples (C16). *)
From Coq Require Import String.
From Coq Require Import List Arith NArith Bool Lia Permutation.
From Verif Require Import Str StrP Path PathP Json Types Parse ParseP Map MapP Prog Desc Resolve Top Run Exec Posix Demo RunP FuelP SpecParse PropParseP SpecMap SpecField PropMapP LookupP SpecRun SpecLoad PosixP SpellP SpecCache SimP LoadP GuarP SpecJson JsonP CacheP NoFuelP SpecTerm AnswerP ColdP TotalP TermP PropCacheP.
Import ListNotations.

Lemma stops_incl {A} : forall (s s' : A -> A -> Prop) a, (forall x y, s' x y -> s x y) -> stops s a -> stops s' a.
Proof. intros s s' a H Ha. induction Ha as [x _ IH]. constructor. intros y Hy. apply IH, H, Hy. Qed.
Lemma plain_moved : forall fs c k i, call_plain fs c -> call_plain fs (moved c k i).
Proof.
  intros fs [R f base req|R f p] k i H; [|exact H]. destruct H as (Ha & [H1 H2 H3] & Hst & Hts). split; [exact Ha|]. split; [|split; [exact Hst|]].
  2:{ intros loc Hl. destruct (Hts loc Hl) as (H0 & rank & [K1 K2 K3 K4 K5]). split; [exact H0|]. exists rank. split; assumption. }
  split.
  - intros p pk t Hd. eapply stops_incl; [|exact (H1 p pk t Hd)]. intros x y Hy. destruct Hy; [econstructor 1|econstructor 2]; eassumption.
  - exact H2.
  - intros p. eapply stops_incl; [|exact (H3 p)]. intros x y Hy. induction Hy; [econstructor 1|econstructor 2|econstructor 3]; eassumption.
Qed.

Section Runs.
Variable fs : fsys.
Hypothesis Hfs : sane_fs fs.
Variable js : str -> option json.
Hypothesis Hjs : forall s j, js s = Some j -> wf_json j.
Variable nm : nat -> str.
Hypothesis Hclash : no_clash fs js nm.
Notation Clients h := (Forall (fun c => client js nm (call_resolver c)) h).
Notation after h seeds := (snd (run_history fs (empty_state seeds) (map ECall h))).

Lemma call_end : forall c, client js nm (call_resolver c) -> call_plain fs c ->
  exists N, forall f, N <= f -> wx (okc fs js nm) ended (call_prog (with_fuel c f)).
Proof.
  intros [R f0 base req|R f0 p] HR Hp; cbn [call_resolver] in HR.
  - destruct Hp as (Ha & Hnc & Hst & Hts).
    destruct (top_end fs Hfs js nm (fin_inj fs js Hjs nm) Hclash R HR True Hnc base req (fun _ => I) Ha Hst Hts) as [N HN].
    exists N. intros f Hf. cbn [with_fuel call_prog]. apply wx_ended_bind; [apply HN; exact Hf|discriminate].
  - exists (length (components p) + 2). intros f Hf. cbn [with_fuel call_prog]. apply wx_ended_bind; [|discriminate].
    unfold load_side_effects. apply wx_ended_try; [apply load_end; [exact Hfs|exact HR|exact Hp|exact Hf]|]. intros [pk|]; [|discriminate]. destruct (o_desc _); discriminate.
Qed.
Lemma fin_16 : forall c, client js nm (call_resolver c) -> call_plain fs c ->
  exists N, forall f h seeds, N <= f -> Clients h -> out fs (after h seeds) (call_prog (with_fuel c f)) <> NoFuel.
Proof.
  intros c HR Hp. destruct (call_end c HR Hp) as [N HN]. exists N. intros f h seeds Hf Hh.
  apply (run_inv fs js nm); [|apply fin_history; assumption]. apply wg_and; [apply HN, Hf|]. apply client_call; try assumption; [exact (fin_inj fs js Hjs nm)|].
  rewrite resolver_fuel. exact HR.
Qed.
Lemma fin_16_sched : forall l, Forall (fun c => client js nm (call_resolver c) /\ call_plain fs c) l ->
  exists N, forall f h seeds sched, N <= f -> Clients h ->
  ~ In OutOfFuel (fst (run_sched fs sched (after h seeds) (map (fun c => call_prog (with_fuel c f)) l))).
Proof.
  intros l Hl.
  assert (HN : exists N, forall f, N <= f -> Forall (fun c => wg fs js nm ended (call_prog (with_fuel c f))) l).
  { induction Hl as [|c l [HR Hp] _ [N IH]]; [exists 0; constructor|]. destruct (call_end c HR Hp) as [N' HN']. exists (Nat.max N N'). intros f Hf.
    constructor; [|apply IH; lia]. apply wg_and; [apply HN'; lia|]. apply client_call; try assumption; [exact (fin_inj fs js Hjs nm)|]. rewrite resolver_fuel. exact HR. }
  destruct HN as [N HN]. exists N. intros f h seeds sched Hf Hh.
  destruct (sched_inv fs js nm sched (map (fun c => call_prog (with_fuel c f)) l) (map (fun _ => ended) l) (after h seeds)) as [H _].
  - specialize (HN f Hf). clear - HN. induction HN; cbn [map]; constructor; assumption.
  - apply fin_history; assumption.
  - intros Hin. clear Hl HN. remember (fst (run_sched fs sched (after h seeds) (map (fun c => call_prog (with_fuel c f)) l))) as r eqn:Er. clear Er.
    revert r H Hin. induction l as [|c l IH]; intros r H Hin; inversion H; subst; [destruct Hin|]. destruct Hin as [->|Hin].
    + match goal with H : wg _ _ _ _ OutOfFuel |- _ => cbn in H; apply H; reflexivity end.
    + eapply IH; eassumption.
Qed.
Lemma outcome_end {A} : forall (V : A -> A -> Prop) o o', same_outcome V o o' -> o <> NoFuel -> o' <> NoFuel -> same_end V o o'.
Proof. intros V [a|m|] [b|m'|] H H1 H2; try contradiction; exact H. Qed.
Lemma with_fuel_twice : forall c f f', with_fuel (with_fuel c f) f' = with_fuel c f'.
Proof. intros [R f0 base req|R f0 p] f f'; reflexivity. Qed.
Lemma plain_fuel : forall c f, call_plain fs c -> call_plain fs (with_fuel c f).
Proof. intros [R f0 base req|R f0 p] f H; exact H. Qed.
Lemma fin_37_ends : forall c, client js nm (call_resolver c) -> steady fs js c -> call_plain fs c ->
  exists N, forall h seeds seeds' f f', N <= f -> N <= f' -> Clients h ->
  same_end same_answer (out fs (after h seeds) (call_prog (with_fuel c f))) (out fs (empty_state seeds') (call_prog (with_fuel c f'))).
Proof.
  intros c HR Hs Hp. destruct (fin_16 c HR Hp) as [N HN]. exists N. intros h seeds seeds' f f' Hf Hf' Hh. apply outcome_end.
  - rewrite <- (with_fuel_twice c f f'). apply (fin_37 fs Hfs js Hjs nm Hclash); [exact Hh|rewrite resolver_fuel; exact HR|apply steady_fuel, Hs].
  - apply HN; assumption.
  - apply (HN f' [] seeds'); [exact Hf'|constructor].
Qed.
Lemma fin_39_ends : forall c k i, client js nm (call_resolver c) -> steady fs js c -> call_plain fs c -> nm k = nm (rv_cache (call_resolver c)) ->
  exists N, forall h seeds seeds' f f', N <= f -> N <= f' -> Clients h ->
  same_end same_answer (out fs (after h seeds) (call_prog (with_fuel c f))) (out fs (empty_state seeds') (call_prog (with_fuel (moved c k i) f'))).
Proof.
  intros c k i HR Hs Hp Hk. destruct (fin_16 c HR Hp) as [N HN].
  pose proof (plain_moved fs c k i Hp) as Hp'.
  destruct (fin_16 (moved c k i) (moved_client js nm c k i HR Hk) Hp') as [N' HN'].
  exists (Nat.max N N'). intros h seeds seeds' f f' Hf Hf' Hh. apply outcome_end.
  - replace (with_fuel (moved c k i) f') with (with_fuel (moved (with_fuel c f) k i) f') by (destruct c; reflexivity).
    apply (fin_39 fs Hfs js Hjs nm Hclash); [exact Hh|rewrite resolver_fuel; exact HR|apply steady_fuel, Hs|rewrite resolver_fuel; exact Hk].
  - apply HN; [lia|exact Hh].
  - apply (HN' f' [] seeds'); [lia|constructor].
Qed.
Lemma fin_38_ends : forall l, Forall (fun c => client js nm (call_resolver c) /\ steady fs js c /\ call_plain fs c) l ->
  exists N, forall h seeds seeds' sched f f', N <= f -> N <= f' -> Clients h ->
  Forall2 (fun c p => (exists o k, p = Do o k) \/ same_end same_answer (settled p) (out fs (empty_state seeds') (call_prog (with_fuel c f'))))
          l (fst (run_sched fs sched (after h seeds) (map (fun c => call_prog (with_fuel c f)) l))).
Proof.
  intros l Hl. destruct (fin_16_sched l) as [N HN].
  { eapply Forall_impl; [|exact Hl]. intros c (H1 & _ & H3). split; assumption. }
  assert (HN' : exists N', forall f, N' <= f -> Forall (fun c => forall seeds, out fs (empty_state seeds) (call_prog (with_fuel c f)) <> NoFuel) l).
  { clear HN. induction Hl as [|c l (HR & _ & Hp) _ [N' IH]]; [exists 0; constructor|]. destruct (fin_16 c HR Hp) as [N'' HN'']. exists (Nat.max N' N''). intros f Hf.
    constructor; [|apply IH; lia]. intros seeds. apply (HN'' f [] seeds); [lia|constructor]. }
  destruct HN' as [N' HN']. exists (Nat.max N N'). intros h seeds seeds' sched f f' Hf Hf' Hh.
  pose proof (HN f h seeds sched ltac:(lia) Hh) as Hno.
  pose proof (fin_38 fs Hfs js Hjs nm Hclash (map (fun c => with_fuel c f) l) h sched seeds seeds' f' Hh) as H.
  rewrite map_map in H. specialize (HN' f' ltac:(lia)).
  set (r := fst (run_sched fs sched (after h seeds) (map (fun c => call_prog (with_fuel c f)) l))) in *. clearbody r.
  assert (H' : Forall2 (fun c p => same_outcome same_answer (settled p) (out fs (empty_state seeds') (call_prog (with_fuel c f')))) l r).
  { assert (Hc : Forall (fun c => client js nm (call_resolver c) /\ steady fs js c) (map (fun c => with_fuel c f) l)).
    { apply Forall_map. eapply Forall_impl; [|exact Hl]. intros c (H1 & H2 & _). split; [rewrite resolver_fuel; exact H1|apply steady_fuel, H2]. }
    specialize (H Hc). clear - H. remember (map (fun c => with_fuel c f) l) as l' eqn:El. revert l El. induction H as [|c' p l' r Hp _ IH]; intros [|c l] El; try discriminate; [constructor|].
    injection El as -> ->. constructor; [rewrite <- (with_fuel_twice c f f'); exact Hp|apply IH; reflexivity]. }
  clear - H' HN' Hno. revert Hno. induction H' as [|c p l r Hp _ IH]; intros Hno; [constructor|]. inversion HN' as [|? ? Hc HN'']; subst. constructor.
  - destruct p as [a|m| |o k]; [right; apply outcome_end; [exact Hp|discriminate|apply Hc]|right; apply outcome_end; [exact Hp|discriminate|apply Hc]| |left; eauto].
    contradiction Hno. left. reflexivity.
  - apply IH; [exact HN''|]. intros Hin. apply Hno. right. exact Hin.
Qed.
End Runs.
Lemma fin_27_ends : forall fs, sane_fs fs -> forall js, (forall s j, js s = Some j -> wf_json j) ->
  forall nm, no_clash fs js nm -> forall c k i, client js nm (call_resolver c) -> steady fs js c -> call_plain fs c ->
  nm k = nm (rv_cache (call_resolver c)) ->
  exists N, forall seeds seeds' f f', N <= f -> N <= f' ->
  same_end same_answer (out fs (empty_state seeds) (call_prog (with_fuel c f))) (out fs (empty_state seeds') (call_prog (with_fuel (moved c k i) f'))).
Proof.
  intros fs Hfs js Hjs nm Hc c k i HR Hs Hp Hk. destruct (fin_39_ends fs Hfs js Hjs nm Hc c k i HR Hs Hp Hk) as [N HN]. exists N. intros seeds seeds' f f' Hf Hf'.
  apply (HN [] seeds seeds' f f' Hf Hf'). constructor.
Qed.
Lemma fin_25_ends : forall fs, sane_fs fs -> forall nm js1 js2 R k i base req,
  (forall s j, js1 s = Some j -> wf_json j) -> (forall s j, js2 s = Some j -> wf_json j) ->
  no_clash fs js1 nm -> no_clash fs js2 nm ->
  parsers_but_browser js1 js2 -> o_browser (rv_opts R) = false ->
  client js1 nm R -> nm k = nm (rv_cache R) -> patterns_clear fs R (r_target (parse req)) ->
  call_plain fs (CResolve R 0 base req) -> call_plain fs (CResolve (with_parser R js2 k i) 0 base req) ->
  exists N, forall h1 h2 seeds1 seeds2 f1 f2, N <= f1 -> N <= f2 ->
  Forall (fun c => client js1 nm (call_resolver c)) h1 -> Forall (fun c => client js2 nm (call_resolver c)) h2 ->
  same_end same_answer
    (out fs (snd (run_history fs (empty_state seeds1) (map ECall h1))) (call_prog (CResolve R f1 base req)))
    (out fs (snd (run_history fs (empty_state seeds2) (map ECall h2))) (call_prog (CResolve (with_parser R js2 k i) f2 base req))).
Proof.
  intros fs Hfs nm js1 js2 R k i base req W1 W2 C1 C2 Hp Hb Hc Hk Ht P1 P2.
  assert (Hc2 : client js2 nm (with_parser R js2 k i)) by (destruct Hc as (H1 & H2 & H3); split; [cbn; rewrite Hk; exact H1|split; [reflexivity|exact H3]]).
  destruct (fin_16 fs Hfs js1 W1 nm C1 (CResolve R 0 base req) Hc P1) as [N1 H1].
  destruct (fin_16 fs Hfs js2 W2 nm C2 (CResolve (with_parser R js2 k i) 0 base req) Hc2 P2) as [N2 H2].
  exists (Nat.max N1 N2). intros h1 h2 seeds1 seeds2 f1 f2 Hf1 Hf2 L1 L2. apply outcome_end.
  - apply (fin_25 fs Hfs nm js1 js2); assumption.
  - apply (H1 f1); [lia|exact L1].
  - apply (H2 f2); [lia|exact L2].
Qed.
Lemma fin_29_ends : forall fs, sane_fs fs -> forall nm js R l k i base req,
  (forall s j, js s = Some j -> wf_json j) -> no_clash fs js nm ->
  (forall name fld v c, o_desc (rv_opts R) = Some name -> fld = lit "exports" \/ fld = lit "imports" ->
     field_on fs js name fld v -> json_key c v -> (In c (o_conditions (rv_opts R)) <-> In c l)) ->
  client js nm R -> nm k = nm (rv_cache R) -> steady fs js (CResolve R 0 base req) ->
  call_plain fs (CResolve R 0 base req) -> call_plain fs (CResolve (with_conditions R l k i) 0 base req) ->
  exists N, forall h1 h2 seeds1 seeds2 f1 f2, N <= f1 -> N <= f2 ->
  Forall (fun c => client js nm (call_resolver c)) h1 -> Forall (fun c => client js nm (call_resolver c)) h2 ->
  same_end same_answer
    (out fs (snd (run_history fs (empty_state seeds1) (map ECall h1))) (call_prog (CResolve R f1 base req)))
    (out fs (snd (run_history fs (empty_state seeds2) (map ECall h2))) (call_prog (CResolve (with_conditions R l k i) f2 base req))).
Proof.
  intros fs Hfs nm js R l k i base req W C Hl Hc Hk Hs P1 P2.
  assert (Hc2 : client js nm (with_conditions R l k i)) by (destruct Hc as (H1 & H2 & H3); split; [cbn; rewrite Hk; exact H1|split; [exact H2|exact H3]]).
  destruct (fin_16 fs Hfs js W nm C (CResolve R 0 base req) Hc P1) as [N1 H1].
  destruct (fin_16 fs Hfs js W nm C (CResolve (with_conditions R l k i) 0 base req) Hc2 P2) as [N2 H2].
  exists (Nat.max N1 N2). intros h1 h2 seeds1 seeds2 f1 f2 Hf1 Hf2 L1 L2. apply outcome_end.
  - apply (fin_29 fs Hfs nm js R l k i); try assumption.
  - apply (H1 f1); [lia|exact L1].
  - apply (H2 f2); [lia|exact L2].
Qed.

(** ** Readable conditions *)
Lemma lookup_imports : forall fs js name p pk root, lookup_desc fs js name p = PRet (Ok (Some pk)) -> p_imports pk = Some root ->
  exists v, jget (p_raw pk) (lit "imports") = Some v /\ build_field FImports v = PRet (Ok root).
Proof.
  intros fs js [n|] p pk root H Hr; [|discriminate]. unfold lookup_desc in H. destruct (from_dir fs p); [discriminate|].
  destruct (nearest fs n p) as [d|]; [|discriminate]. destruct (f_dir fs d); [|discriminate].
  unfold described in H. destruct (f_read fs (join d n)) as [s|]; [|discriminate].
  destruct (f_mtime fs (join d n)); try discriminate. destruct (js s) as [j|]; [|discriminate].
  destruct (alias_fields_of j) as [af| |]; try discriminate. cbn [pbind] in H.
  match type of H with pbind (pbind ?X _) _ = _ => destruct X as [[ex|]| |]; try discriminate end. cbn [pbind] in H.
  destruct (jget j (lit "imports")) as [v|] eqn:Ev.
  - destruct (build_imports v) as [[t0|]| |] eqn:Et; try discriminate. cbn [pbind] in H.
    destruct (side_effects_of (join d n) j); [|discriminate]. injection H as <-. cbn [p_imports p_raw] in *. injection Hr as ->. exists v. split; [exact Ev|exact Et].
  - cbn [pbind] in H. destruct (side_effects_of (join d n) j); [|discriminate]. injection H as <-. discriminate Hr.
Qed.
Lemma imports_shape : forall rm sp t s, target_mapping FImports rm sp t = Ok s -> (exists x, s = t ++ x) \/ exists x, s = fill t x.
Proof.
  intros rm sp t s H. unfold target_mapping in H. destruct (assert_target FImports t true) as [b|e]; [|discriminate].
  destruct rm as [r|]; [destruct sp, b; try discriminate|destruct b; try discriminate]; inversion H; subst.
  - left. eauto.
  - right. rewrite fill_eq. eauto.
  - left. exists []. rewrite app_nil_r. reflexivity.
Qed.
Lemma dot_slash_kind : forall s, r_kind (parse (lit "./" ++ s)) = Relative.
Proof.
  intros s. rewrite parse_kind.
  assert (E : forall u, r_target (parse u) = fst (fst (parse_identifier u))) by (intros u; unfold parse; destruct (parse_identifier u) as [[? ?] ?]; reflexivity).
  assert (G : forall u st t q f, exists r, fst (fst (parse_loop st t q f u)) = t ++ r).
  { induction u as [|c u IH]; intros st t q f; cbn [parse_loop]; [exists []; cbn; symmetry; apply app_nil_r|].
    destruct (pstep st c); [destruct (IH PRequest (t ++ [c]) q f) as [r ->]; exists ([c] ++ r); rewrite <- app_assoc; reflexivity|apply IH|apply IH|].
    exists []. cbn. symmetry. apply app_nil_r. }
  assert (H : exists r, r_target (parse (lit "./" ++ s)) = lit "./" ++ r) by (rewrite E; exact (G s PRequest [46%N; 47%N] [] [])).
  destruct H as [r ->]. apply (get_target_kind_table (lit "./" ++ r)). right. right. right. left. eauto.
Qed.
Lemma starts_dec : forall p q r, starts_with (p ++ r) q = true -> overlap p q.
Proof.
  intros p q r H. apply starts_with_spec in H. destruct H as [x Hx]. revert q Hx. induction p as [|c p IH]; intros q Hx.
  - right. apply starts_with_nil.
  - destruct q as [|c' q]; [left; apply starts_with_nil|]. cbn [app] in Hx. injection Hx as -> Hx. destruct (IH q Hx) as [H|H]; [left|right]; cbn [starts_with]; rewrite N.eqb_refl; exact H.
Qed.
Lemma alias_flat_stops : forall o, alias_flat o -> forall t, stops (rewritten o) t.
Proof.
  intros o [H1 H2].
  assert (Hdot : forall t, o_prefer_relative o = true -> stops (rewritten o) (lit "./" ++ t)).
  { intros t Hp. constructor. intros y Hy. remember (lit "./" ++ t) as u eqn:Eu. destruct Hy as [from to u Hin Hs _|u _ Hs _].
    - subst u. contradiction (H2 Hp _ _ Hin). eapply starts_dec. exact Hs.
    - subst u. rewrite starts_with_app in Hs. discriminate. }
  assert (Hal : forall from to t, In (from, ATarget to) (o_alias o) -> stops (rewritten o) (to ++ t)).
  { intros from to t Hin. constructor. intros y Hy. remember (to ++ t) as u eqn:Eu. destruct Hy as [from' to' u Hin' Hs _|u Hp _ _]; [|apply Hdot, Hp].
    subst u. contradiction (H1 _ _ _ _ Hin Hin'). eapply starts_dec. exact Hs. }
  intros t. constructor. intros y Hy. destruct Hy as [from to t Hin Hs _|t Hp _ _]; [|apply Hdot, Hp].
  apply starts_with_spec in Hs. destruct Hs as [r ->]. rewrite replacen1_prefix. eapply Hal, Hin.
Qed.
Lemma modest_no_cycles : forall fs R, sane_fs fs -> modest fs R -> no_cycles fs R.
Proof.
  intros fs R Hfs [Hi Hb Hm].
  assert (Hdisk : forall p pk, described_by fs R p pk -> on_disk fs R (p_dir pk) (p_raw pk)).
  { intros p pk H. destruct (lookup_facts _ _ _ _ _ H) as (n & s & j & En & Hd & Hs & Hj & _ & <-). exists n, s. auto. }
  split.
  - intros p pk t Hd. constructor. intros y Hy.
    assert (Hx : forall root item l, p_imports pk = Some root -> field_process FImports root t (o_conditions (rv_opts R)) = PRet (Ok (item :: l)) -> r_kind (parse item) = Relative).
    { intros root item l Hr Hf. destruct (lookup_imports _ _ _ _ _ _ Hd Hr) as (v & Hv & Hbv).
      pose proof (field_process_from (fun t => exists r, t = lit "./" ++ r) FImports v root t _ _ (fun t Ht => Hi _ _ v t (Hdisk _ _ Hd) Hv Ht) Hbv Hf) as H.
      inversion H as [|? ? (rm & sp & t0 & [r ->] & Hmap) _]; subst. destruct (imports_shape _ _ _ _ Hmap) as [[x ->]|[x ->]].
      - rewrite <- app_assoc. apply dot_slash_kind.
      - change (fill (lit "./" ++ r) x) with (lit "./" ++ fill r x). apply dot_slash_kind. }
    remember (pk, t) as a eqn:Ea. destruct Hy as [pk0 t0 root item l Hr Hf Hk|pk0 t0 root item l pk' root' x l' item' Hr Hf Hk _ _ _ _]; injection Ea as -> ->;
      pose proof (Hx _ _ _ Hr Hf) as E; congruence.
  - intros p pk s Hbr Hd. destruct (lookup_facts _ _ _ _ _ Hd) as (n & s0 & j & En & _ & _ & _ & Hal & Hraw).
    assert (H1 : forall k t, In (k, ATarget t) (p_alias pk) -> stops (chained (p_alias pk)) t).
    { intros k t Hin. constructor. intros y Hy. unfold chained in Hy. apply imap_get_In in Hy.
      exfalso. refine (Hb (p_dir pk) (p_raw pk) (p_alias pk) k t (ATarget y) Hbr (Hdisk _ _ Hd) _ Hin Hy). rewrite Hraw. exact Hal. }
    constructor. intros y Hy. unfold chained in Hy. apply imap_get_In in Hy. eapply H1, Hy.
  - intros p. constructor. intros q Hq. constructor. intros q' Hq'. exfalso.
    assert (Hat : exists m, main_at fs R q m) by (induction Hq'; eauto). destruct Hat as (m & pk & fld & v & Hd & Hsame & _).
    destruct (lookup_facts _ _ _ _ _ Hd) as (n & s & j & En & Hdir & Hs & _).
    pose proof (Hm n p q En Hq) as Hno. rewrite (sf_read _ Hfs _ _ (same_tail_join _ _ n Hsame)) in Hno. congruence.
Qed.
(** *** Chains of tsconfig files *)
(** The directory part of a path, and the rest. *)
Fixpoint cut (p : path) : str * str :=
  match p with
  | [] => ([], [])
  | c :: r => let (a, b) := cut r in
      match a with [] => if (c =? c_slash)%N then ([c], b) else ([], c :: b) | _ => (c :: a, b) end
  end.
Lemma cut_none : forall b, ~ In c_slash b -> cut b = ([], b).
Proof.
  induction b as [|c b IH]; intros H; [reflexivity|]. cbn [cut]. rewrite IH by (intros Hi; apply H; right; exact Hi).
  destruct (N.eqb_spec c c_slash) as [->|_]; [contradiction H; left; reflexivity|reflexivity].
Qed.
Lemma cut_at : forall a b, ~ In c_slash b -> cut (a ++ c_slash :: b) = (a ++ [c_slash], b).
Proof.
  induction a as [|c a IH]; intros b H; cbn [app cut]; [rewrite cut_none by exact H; reflexivity|]. rewrite IH by exact H.
  destruct a; reflexivity.
Qed.
Definition key (p : path) : list comp * str := let (a, b) := cut p in (components a, b).
Lemma key_same : forall p q, same_tail p q -> key p = key q.
Proof.
  intros p q [->|(p0 & q0 & t & Hp & Hq & Hs & -> & ->)]; [reflexivity|]. unfold key.
  destruct (last_slash t) as [Hn|(t1 & t2 & -> & Hn)].
  - apply ends_with_char_spec in Hp. destruct Hp as [a ->]. apply ends_with_char_spec in Hq. destruct Hq as [b ->].
    rewrite <- !app_assoc. cbn [app]. rewrite !cut_at by exact Hn. rewrite Hs. reflexivity.
  - rewrite !app_assoc, !cut_at by exact Hn. rewrite <- !app_assoc, !slash_app_comps by assumption. rewrite Hs. reflexivity.
Qed.
Lemma same_key : forall p q, is_abs p = true -> key p = key q -> same_tail p q.
Proof.
  intros p q Ha Hk. unfold key in Hk. destruct (last_slash p) as [Hn|(a & b & -> & Hn)].
  { unfold is_abs in Ha. apply starts_with_char_spec in Ha. destruct Ha as [r ->]. contradiction Hn. left; reflexivity. }
  rewrite cut_at in Hk by exact Hn. destruct (last_slash q) as [Hn'|(a' & b' & -> & Hn')].
  - rewrite cut_none in Hk by exact Hn'. injection Hk as Hc _.
    assert (Habs : is_abs (a ++ [c_slash]) = true) by (destruct a; exact Ha). apply abs_comps in Habs. destruct Habs as [r Hr]. rewrite Hr in Hc. discriminate.
  - rewrite cut_at in Hk by exact Hn'. injection Hk as Hc ->. right. exists (a ++ [c_slash]), (a' ++ [c_slash]), b'.
    rewrite !ends_slash_snoc, <- !app_assoc. repeat split. exact Hc.
Qed.
Definition comp_dec : forall x y : comp, {x = y} + {x <> y}.
Proof. decide equality. apply (list_eq_dec N.eq_dec). Defined.
Definition key_dec : forall x y : list comp * str, {x = y} + {x <> y}.
Proof. decide equality; [apply (list_eq_dec N.eq_dec)|apply (list_eq_dec comp_dec)]. Defined.

Section Extends.
Variable fs : fsys.
Hypothesis Hfs : sane_fs fs.
Variable R : resolver.
Notation opts := (rv_opts R).
Lemma only_file : forall (ok : forall o, ans o -> Prop) dir r, (forall x, ok (OIsFile (join dir (r_target r))) x -> x = f_file fs (join dir (r_target r))) -> forall k c m n, r_kind r = Relative ->
  let t := r_target r in
  starts_with t (lit "./") = true \/ starts_with t (lit "../") = true ->
  (forall from to, In (from, to) (o_alias opts) -> starts_with t from = false) -> o_browser opts = false -> enforce R = false ->
  f_file fs (join dir t) = true -> forall i, let R' := moved_to R k c in
  may_give ok (resolve_ R' (load_pkg_file R' m) n (mkInfo dir r)) (Success (RInfo i)) -> get_path i = join dir t.
Proof.
  intros ok dir r Hok k c m n Hk t Ht Hal Hb He Hf i R' H.
  refine (may_wx ok _ (fun r => match r with Done (Success (RInfo i)) => get_path i = join dir t | _ => True end) _ _ H). clear H i.
  destruct n as [|n]; [exact I|]. cbn [resolve_].
  assert (Hp : get_path (mkInfo dir r) = join dir t).
  { unfold get_path. fold t. destruct Ht as [Ht|Ht]; apply starts_with_spec in Ht; destruct Ht as [x Hx]; cbn [i_req i_path]; fold t; rewrite Hx; reflexivity. }
  assert (Hloop : forall rec l, incl l (o_alias opts) -> alias_loop rec (mkInfo dir r) l = Ret (Resolving (mkInfo dir r))).
  { induction l as [|[from to] l IH]; intros Hi; cbn [alias_loop]; [reflexivity|]. cbn [i_req]. fold t. rewrite (Hal from to) by (apply Hi; left; reflexivity).
    apply IH. intros x Hx. apply Hi. right. exact Hx. }
  replace (alias_apply R' (resolve_ R' (load_pkg_file R' m) n) (mkInfo dir r)) with (@Ret stats (Resolving (mkInfo dir r))).
  2:{ unfold alias_apply. destruct (contains _ _); [reflexivity|]. symmetry. apply Hloop, incl_refl. }
  unfold and_then at 3. cbn [bind]. replace (prefer_relative_apply R' (resolve_ R' (load_pkg_file R' m) n) (mkInfo dir r)) with (@Ret stats (Resolving (mkInfo dir r))).
  2:{ unfold prefer_relative_apply. cbn [i_req]. fold t. destruct Ht as [->| ->]; [rewrite orb_true_r|]; reflexivity. }
  unfold and_then at 2. cbn [bind]. apply wx_bind. unfold and_then. apply wx_bind. unfold pkg_step. apply wx_bind. apply wx_all.
  intros [[opk|e]|x|]; try exact I. cbn [wx bind].
  assert (Hi : imports_apply R' (load_pkg_file R' m) (S n) opk (mkInfo dir r) = Ret (Resolving (mkInfo dir r))).
  { cbn [imports_apply]. destruct opk as [pk|]; [|reflexivity]. cbn [i_req]. fold t.
    destruct Ht as [Ht|Ht]; apply starts_with_spec in Ht; destruct Ht as [x Hx]; rewrite Hx; reflexivity. }
  rewrite Hi. unfold and_then. cbn [bind]. unfold alias_field_apply. change (o_browser (rv_opts R')) with (o_browser opts). rewrite Hb. cbn [negb wx].
  unfold final_step. cbn [i_req]. rewrite Hk. unfold and_then. apply wx_bind. unfold resolve_as_file. change (enforce R') with (enforce R). rewrite He. cbn [negb wx].
  rewrite Hp. intros b Hx. apply Hok in Hx. fold t in Hx. rewrite Hf in Hx. subst b. cbn [wx]. unfold get_path at 1. cbn. reflexivity.
Qed.
Lemma rel_kind : forall e, starts_with (r_target (parse e)) (lit "./") = true \/ starts_with (r_target (parse e)) (lit "../") = true -> r_kind (parse e) = Relative.
Proof.
  intros e H. rewrite parse_kind. apply get_target_kind_table. destruct H as [H|H]; apply starts_with_spec in H; destruct H as [x ->]; [right; right; right; left|right; right; right; right]; eauto.
Qed.
Lemma text_same : forall p q e, same_tail p q -> extends_text fs R p e -> extends_text fs R q e.
Proof. intros p q e H (s & j & Hs & Hj). exists s, j. rewrite <- (sf_read _ Hfs _ _ H). auto. Qed.
Lemma text_fun : forall p e e', extends_text fs R p e -> extends_text fs R p e' -> e = e'.
Proof. intros p e e' (s & j & Hs & Hj & He) (s' & j' & Hs' & Hj' & He'). congruence. Qed.
(** What a file extends by a relative path. *)
Lemma only_next : forall (ok : resolver -> forall o, ans o -> Prop) p e dir, extends_text fs R p e -> parent p = Some dir ->
  let t := r_target (parse e) in (forall R q x, same_tail (join dir t) q -> ok R (OIsFile q) x -> x = f_file fs q) ->
  starts_with t (lit "./") = true \/ starts_with t (lit "../") = true ->
  (forall from to, In (from, to) (o_alias opts) -> starts_with t from = false) -> o_browser opts = false -> enforce R = false ->
  f_file fs (join dir t) = true -> forall q q', same_tail p q -> extends_by fs R ok q q' -> same_tail (join dir t) q'.
Proof.
  intros ok p e dir He Hd t Hok Ht Hal Hb Hen Hf q q' E (e' & dir' & k & c & m & n' & i & He' & Hd' & Hm & ->).
  rewrite (text_fun _ _ _ He' (text_same _ _ _ E He)) in Hm.
  pose proof (parent_same _ _ (same_tail_path _ _ E)) as Hp. rewrite Hd, Hd' in Hp.
  apply (only_file (ok (moved_to R k c)) dir' (parse e)) in Hm; try assumption.
  - rewrite Hm. apply same_tail_join, Hp.
  - intros x. apply Hok. apply same_tail_join, Hp.
  - apply rel_kind, Ht.
  - rewrite <- (sf_file _ Hfs _ _ (same_tail_join _ _ _ Hp)). exact Hf.
Qed.
Lemma chain_ranked_by : forall (ok : resolver -> forall o, ans o -> Prop) p l, chain fs R (p :: l) ->
  (forall R q q' x, In q (p :: l) -> same_tail q q' -> ok R (OIsFile q') x -> x = f_file fs q') ->
  exists rank, ranked fs R ok p rank /\ forall q', rank q' <> None -> exists q, In q (p :: l) /\ same_tail q q'.
Proof.
  intros ok p l H. remember (p :: l) as pl eqn:Epl. revert p l Epl. induction H as [p0 Ha Hno|p0 e dir l0 Ha He Hd t Ht Hal Hb Hen Hf Hch IH]; intros p l Epl; injection Epl as <- <-;
    rename p0 into p; intros Hok; [|destruct (IH _ _ eq_refl) as (rank & Hrk & Hdom); [intros R0 q q' x Hq; apply Hok; right; exact Hq|]; clear IH].
  - exists (fun q => if key_dec (key p) (key q) then Some 0 else None).
    assert (Hsame : forall q, (if key_dec (key p) (key q) then Some 0 else None) <> None -> same_tail p q).
    { intros q Hq. destruct (key_dec (key p) (key q)) as [E|]; [|contradiction Hq; reflexivity]. apply same_key; assumption. }
    split; [|intros q Hq; exists p; split; [left; reflexivity|apply Hsame, Hq]]. split.
    + intros q q' Hq. rewrite (key_same _ _ Hq). reflexivity.
    + destruct (key_dec (key p) (key p)) as [|N]; [discriminate|contradiction N; reflexivity].
    + intros q Hq. apply Hsame in Hq. eapply same_abs; [apply same_tail_path, Hq|exact Ha].
    + intros q e Hq He. contradiction (Hno e). eapply text_same; [apply same_tail_sym, Hsame, Hq|exact He].
    + intros q q' n Hq (e & _ & _ & _ & _ & _ & _ & He & _). contradiction (Hno e). eapply text_same; [apply same_tail_sym, Hsame; rewrite Hq; discriminate|exact He].
  - destruct (rank p) as [k|] eqn:Ep; [exists rank; split; [destruct Hrk as [K1 K2 K3 K4 K5]; split; auto; congruence|]; intros q Hq; destruct (Hdom q Hq) as (q0 & H1 & H2); exists q0; split; [right; exact H1|exact H2]|].
    destruct (rank (join dir t)) as [n0|] eqn:En; [|contradiction (rk_start _ _ _ _ _ Hrk En)].
    set (rank' := fun q => if key_dec (key p) (key q) then Some (S n0) else rank q). exists rank'.
    assert (Hsame : forall q, key p = key q -> same_tail p q) by (intros q; apply same_key, Ha).
    assert (Hkeep : forall q m, rank q = Some m -> rank' q = Some m).
    { intros q m Hq. unfold rank'. destruct (key_dec (key p) (key q)) as [E|]; [|exact Hq]. rewrite (rk_spell _ _ _ _ _ Hrk _ _ (Hsame q E)) in Ep. congruence. }
    split.
    2:{ intros q Hq. unfold rank' in Hq. destruct (key_dec (key p) (key q)) as [E|]; [exists p; split; [left; reflexivity|apply Hsame, E]|].
        destruct (Hdom q Hq) as (q0 & H1 & H2). exists q0. split; [right; exact H1|exact H2]. }
    split.
    + intros q q' Hq. unfold rank'. rewrite (key_same _ _ Hq), (rk_spell _ _ _ _ _ Hrk _ _ Hq). reflexivity.
    + unfold rank'. destruct (key_dec (key p) (key p)) as [|N]; [discriminate|contradiction N; reflexivity].
    + intros q Hq. unfold rank' in Hq. destruct (key_dec (key p) (key q)) as [E|]; [|apply (rk_abs _ _ _ _ _ Hrk q Hq)].
      eapply same_abs; [apply same_tail_path, Hsame, E|exact Ha].
    + intros q e' Hq He'. unfold rank' in Hq. destruct (key_dec (key p) (key q)) as [E|]; [|apply (rk_text _ _ _ _ _ Hrk q e' Hq He')].
      rewrite (text_fun _ _ _ He' (text_same _ _ _ (Hsame q E) He)). fold t. constructor. intros y Hy. exfalso.
      destruct Hy as [from to t' Hin Hs _|t' _ H1 H2]; [rewrite (Hal _ _ Hin) in Hs; discriminate|destruct Ht; congruence].
    + intros q q' n Hq Hx. unfold rank' in Hq. destruct (key_dec (key p) (key q)) as [E|].
      * injection Hq as <-. exists n0. split; [|lia]. apply Hkeep. rewrite <- En.
        symmetry. apply (rk_spell _ _ _ _ _ Hrk). eapply (only_next ok p e dir); try eassumption; [|apply Hsame, E]. intros R0 q0 x. apply Hok. right. left. reflexivity.
      * destruct (rk_next _ _ _ _ _ Hrk q q' n Hq Hx) as (m & Hm & Hlt). exists m. split; [apply Hkeep, Hm|exact Hlt].
Qed.
Lemma chain_ranked : forall (ok : resolver -> forall o, ans o -> Prop), (forall R o x, ok R o x -> disk_answer fs o x) ->
  forall p l, chain fs R (p :: l) -> exists rank, ranked fs R ok p rank.
Proof.
  intros ok Hok p l H. destruct (chain_ranked_by ok p l H) as (rank & Hrk & _); [|exists rank; exact Hrk].
  intros R0 q q' x _ _ Hx. exact (Hok R0 _ _ Hx).
Qed.
End Extends.
Lemma modest_plain_by : forall fs R f base req (ok : resolver -> forall o, ans o -> Prop), (forall R o x, ok R o x -> disk_answer fs o x) ->
  sane_fs fs -> is_abs base = true -> modest fs R -> alias_flat (rv_opts R) ->
  (forall loc, o_tsconfig (rv_opts R) = Some loc -> exists l, chain fs R (loc :: l)) ->
  call_plain_by fs ok (CResolve R f base req).
Proof.
  intros fs R f base req ok Hok Hfs Ha Hm Hf Ht. split; [exact Ha|]. split; [apply modest_no_cycles; assumption|]. split; [apply alias_flat_stops, Hf|].
  intros loc H. split; [apply alias_flat_stops, Hf|]. destruct (Ht loc H) as [l Hl]. eapply chain_ranked; eassumption.
Qed.
Lemma modest_plain : forall fs R f base req, sane_fs fs -> is_abs base = true -> modest fs R -> alias_flat (rv_opts R) ->
  (forall loc, o_tsconfig (rv_opts R) = Some loc -> exists l, chain fs R (loc :: l)) ->
  call_plain fs (CResolve R f base req).
Proof. intros fs R f base req. apply modest_plain_by. apply true_disk. Qed.
Lemma modest_plains : forall fs R f base req, sane_fs fs -> is_abs base = true -> modest fs R -> alias_flat (rv_opts R) ->
  (forall loc, o_tsconfig (rv_opts R) = Some loc -> exists l, chain fs R (loc :: l)) ->
  call_plain fs (CResolve R f base req) /\ call_plain_by fs (fun _ => disk_answer fs) (CResolve R f base req).
Proof. intros fs R f base req H1 H2 H3 H4 H5. split; [apply modest_plain|apply modest_plain_by]; auto. Qed.

(** ** A world that meets the conditions: an alias, imports, a browser field, a main directory *)
Fixpoint nodes (n : node) : list (list str * node) :=
  ([], n) :: match n with NDir l => flat_map (fun kv => map (fun x => (fst kv :: fst x, snd x)) (nodes (snd kv))) l | _ => [] end.
Lemma lookup_nodes : forall names n x, lookup n names = Some x -> In (names, x) (nodes n).
Proof.
  induction names as [|a names IH]; intros n x H.
  - injection H as ->. destruct x; left; reflexivity.
  - destruct n as [|l|]; try discriminate. cbn [lookup] in H. destruct (imap_get l a) as [c|] eqn:E; [|discriminate]. apply imap_get_In in E.
    right. apply in_flat_map. exists (a, c). split; [exact E|]. apply in_map_iff. exists (names, x). split; [reflexivity|apply IH, H].
Qed.
Lemma posix_join : forall fuel root cwd p t, p <> [] -> t <> [] -> is_abs t = false ->
  posix_resolve fuel root cwd (join p t) =
  match posix_resolve fuel root cwd p with Some cur => walk_path fuel root cur (split_on c_slash t) | None => None end.
Proof.
  intros fuel root cwd p t Hp Ht Ha. destruct (ends_with_char p c_slash) eqn:E.
  - assert (Ej : join p t = p ++ t) by (unfold join; rewrite Ha, E; destruct p; [congruence|reflexivity]). rewrite Ej. clear Ej.
    apply ends_with_char_spec in E. destruct E as [r ->]. rewrite <- app_assoc. change ([c_slash] ++ t) with (c_slash :: t).
    assert (Habs : is_abs (r ++ c_slash :: t) = is_abs (r ++ [c_slash])) by (destruct r; reflexivity).
    rewrite !resolve_walk by (destruct r; discriminate). rewrite Habs, !split_on_sep_app, !walk_app.
    destruct (walk_path fuel root _ (split_on c_slash r)) as [c|]; [|reflexivity]. change (split_on c_slash []) with [@nil char]. rewrite walk_end.
    destruct (split_on_cons_ne c_slash t) as (h & l & ->). rewrite walk_cons. destruct (lookup root (rev c)) as [[| |]|] eqn:El; try reflexivity.
    rewrite walk_cons, El. reflexivity.
  - assert (Ej : join p t = p ++ c_slash :: t) by (unfold join; rewrite Ha, E; destruct p; [congruence|reflexivity]). rewrite Ej. clear Ej. destruct p as [|c0 p]; [congruence|].
    assert (Habs : is_abs ((c0 :: p) ++ c_slash :: t) = is_abs (c0 :: p)) by reflexivity.
    rewrite !resolve_walk by discriminate. rewrite Habs, split_on_sep_app, walk_app. reflexivity.
Qed.
Definition tree16 : node := (D [("r", D [("package.json", PJ "R"); ("x.js", F); ("src", D [("y.js", F)]);
  ("node_modules", D [("p", D [("package.json", PJ "P"); ("m.js", F); ("b.js", F); ("lib", D [("index.js", F)])])])])])%string.
Definition w16 : fsys := W tree16.
Definition T16 : list (string * json) :=
  ([("P", O [("main", S_ "lib"); ("browser", O [("./m.js", S_ "./b.js")])]);
   ("R", O [("imports", O [("#a", S_ "./x.js")])])])%string.
Definition o16 : options := with_alias (with_prefer (with_browser dflt true) true) [(lit "@", ATarget (lit "/r/src"))].
Definition R16 : resolver := new_resolver o16 0 0 false (js_of T16) (jsc_of T16).
Lemma read16 : forall p, f_read w16 (join p (lit "package.json")) = Some (lit "P") -> p <> [] ->
  posix_resolve 60 tree16 [] p = Some [lit "p"; lit "node_modules"; lit "r"].
Proof.
  intros p H Hp. cbn [f_read w16 W posix_fs] in H. unfold posix_node in H. rewrite posix_join in H; [|exact Hp|discriminate|reflexivity].
  destruct (posix_resolve 60 tree16 [] p) as [cur|]; [|discriminate].
  change (split_on c_slash (lit "package.json")) with [lit "package.json"] in H. rewrite walk_cons in H.
  destruct (lookup tree16 (rev cur)) as [[|l|]|] eqn:El; try discriminate. apply lookup_nodes in El.
  change (str_eqb (lit "package.json") [] || str_eqb (lit "package.json") s_dot)%bool with false in H.
  change (str_eqb (lit "package.json") s_dotdot) with false in H. cbv iota in H.
  assert (Hn : nodes tree16 = nodes tree16) by reflexivity. revert El. vm_compute (nodes tree16).
  intros El. repeat (destruct El as [El|El]; [|]); try contradiction; try discriminate; injection El as Er <-;
    apply (f_equal (@rev str)) in Er; rewrite rev_involutive in Er; cbn [rev app] in Er; subst cur; vm_compute in H |- *; try discriminate; reflexivity.
Qed.

Lemma main16 : forall p m, main_at w16 R16 p m -> m = lit "./lib" /\ p <> [] /\ posix_resolve 60 tree16 [] p = Some [lit "p"; lit "node_modules"; lit "r"].
Proof.
  intros p m (pk & fld & v & Hd & Hsame & Hfld & Hv & _ & _ & ->).
  destruct (lookup_facts _ _ _ _ _ Hd) as (n & s & j & En & Hdir & Hs & Hj & _ & Hraw). injection En as <-. subst j.
  assert (Hpd : p_dir pk <> []) by (intros E; rewrite E in Hdir; discriminate).
  assert (Hp : p <> []) by (intros ->; rewrite <- (sf_dir w16 (posix_sane 60 tree16 []) _ _ Hsame) in Hdir; discriminate).
  rewrite <- (sf_read w16 (posix_sane 60 tree16 []) _ _ (same_tail_join _ _ _ Hsame)) in Hs.
  change (rv_json R16) with (js_of T16) in Hj. unfold js_of in Hj. apply imap_get_In in Hj. cbn [T16 map fst snd] in Hj.
  destruct Hfld as [<-|[]]. destruct Hj as [E|[E|[]]]; injection E as <- E; rewrite <- E in Hv; [|discriminate].
  vm_compute in Hv. injection Hv as <-. split; [reflexivity|]. split; [exact Hp|]. apply read16; [exact Hs|exact Hp].
Qed.
Lemma join_ne : forall p t, t <> [] -> join p t <> [].
Proof. intros p t Ht H. unfold join in H. destruct (is_abs t); [auto|]. destruct p; [auto|]. destruct (ends_with_char _ _); discriminate. Qed.
Lemma dir16 : forall p, p <> [] -> posix_resolve 60 tree16 [] p = Some [lit "p"; lit "node_modules"; lit "r"] -> forall t, t <> [] -> is_abs t = false ->
  posix_resolve 60 tree16 [] (join p t) = walk_path 60 tree16 [lit "p"; lit "node_modules"; lit "r"] (split_on c_slash t).
Proof. intros p Hp H t Ht Ha. rewrite posix_join by assumption. rewrite H. reflexivity. Qed.
Lemma main_dir16 : forall p q, main_dir w16 R16 p q -> posix_resolve 60 tree16 [] q = Some [lit "lib"; lit "p"; lit "node_modules"; lit "r"] /\ q <> [].
Proof.
  intros p q H. induction H as [m Hm Hd|d m Hdir [IH Hne] Hm Hd|m c q Hm Hb -> Hd]; destruct (main16 _ _ Hm) as (-> & Hp & Hr).
  - split; [rewrite dir16; [reflexivity|exact Hp|exact Hr|discriminate|reflexivity]|apply join_ne; discriminate].
  - exfalso. cbn [f_dir w16 W posix_fs] in Hd. unfold posix_node in Hd. rewrite posix_join in Hd; [|exact Hne|discriminate|reflexivity]. rewrite IH in Hd. discriminate Hd.
  - exfalso. destruct Hb as (_ & pk & k & Hpk & Hsame & Hin).
    destruct (lookup_facts _ _ _ _ _ Hpk) as (n & s & j & En & Hdir & Hs & Hj & Hal & Hraw). apply js_of_in in Hj. cbn [T16 map snd] in Hj.
    generalize dependent (p_alias pk). intros af Hin Hal.
    destruct Hj as [E|[E|[]]]; rewrite <- E in Hal; vm_compute in Hal; injection Hal as <-; [|destruct Hin].
    destruct Hin as [E'|[]]. injection E' as _ <-. cbv iota in Hd. change (f_dir w16 (join p (lit "./b.js")) = true) in Hd. cbn [f_dir w16 W posix_fs] in Hd. unfold posix_node in Hd.
    rewrite dir16 in Hd; [discriminate Hd|exact Hp|exact Hr|discriminate|reflexivity].
Qed.
Lemma modest16 : modest w16 R16.
Proof.
  split.
  - intros d j v t (name & s & _ & _ & _ & Hj) Hv Ht. apply js_of_in in Hj. cbn [T16 map snd] in Hj. destruct Hj as [<-|[<-|[]]]; vm_compute in Hv; [discriminate|].
    injection Hv as <-. inversion Ht as [|?|? k x Hin Hx]; subst. destruct Hin as [E|[]]. injection E as <- <-. inversion Hx; subst. exists (lit "x.js"). reflexivity.
  - intros d j af k t v _ (name & s & _ & _ & _ & Hj) Haf Hin Hin'. apply js_of_in in Hj. cbn [T16 map snd] in Hj. destruct Hj as [<-|[<-|[]]]; vm_compute in Haf; injection Haf as <-; [|destruct Hin].
    destruct Hin as [E|[]], Hin' as [E'|[]]. injection E as <- <-. discriminate.
  - intros name p q En Hq. injection En as <-. destruct (main_dir16 _ _ Hq) as [Hr Hne]. cbn [f_read w16 W posix_fs]. unfold posix_node.
    rewrite posix_join; [|exact Hne|discriminate|reflexivity]. rewrite Hr. reflexivity.
Qed.
Lemma flat16 : alias_flat o16.
Proof.
  split.
  - intros from to from' to' [E|[]] [E'|[]]. injection E as <- <-. injection E' as <- <-. intros [H|H]; discriminate.
  - intros _ from to [E|[]]. injection E as <- <-. intros [H|H]; discriminate.
Qed.
Lemma plain16 : forall f base req, is_abs base = true -> call_plain w16 (CResolve R16 f base req).
Proof. intros f base req Ha. apply modest_plain; [apply posix_sane|exact Ha|exact modest16|exact flat16|discriminate]. Qed.
Lemma answers16 : (gives (out w16 st0 (call_prog (CResolve R16 40 (lit "/r/src") (lit "p")))) "/r/node_modules/p/lib/index.js" /\
  gives (out w16 st0 (call_prog (CResolve R16 40 (lit "/r/src") (lit "#a")))) "/r/x.js" /\
  gives (out w16 st0 (call_prog (CResolve R16 40 (lit "/r") (lit "p/m.js")))) "/r/node_modules/p/b.js" /\
  gives (out w16 st0 (call_prog (CResolve R16 40 (lit "/r") (lit "@/y")))) "/r/src/y.js")%string.
Proof. repeat split; (eexists; split; [vm_compute; reflexivity|vm_compute; reflexivity]). Qed.


(** ** A main field that names the directory itself ("") *)
Definition we : fsys := W (D [("r", D [("p", D [("package.json", PJ "E")])])])%string.
Definition Te : list (string * json) := ([("E", O [("main", S_ "")])])%string.
Definition Re : resolver := mkR dflt Te.
Lemma we_wf : forall s j, js_of Te s = Some j -> wf_json j.
Proof. intros s j H. apply js_of_in in H. destruct H as [<-|[]]. cbn. repeat split; auto. Qed.
Lemma we_clash : no_clash we (js_of Te) nmc.
Proof. intros c v v' (d & s & j & _ & _ & Hj & Hv) _. apply js_of_in in Hj. destruct Hj as [<-|[]]. discriminate Hv. Qed.
Lemma we_client : client (js_of Te) nmc Re.
Proof. split; [right; reflexivity|split; reflexivity]. Qed.
Notation oke := (okc we (js_of Te) nmc).
Lemma load_e : forall m q, same_path (lit "/r/p") q -> wx oke (fun r => r = NoFuel \/ exists pk, r = Done (Ok (Some pk)) /\ p_raw pk = O [("main", S_ "")]%string /\
  p_imports pk = None /\ p_alias pk = [] /\ same_path (lit "/r/p") (p_dir pk)) (load_pkg_file Re m q).
Proof.
  intros m q Hq. eapply wx_mono; [|apply (load_leq we (posix_sane _ _ _) (js_of Te) nmc (fin_inj we (js_of Te) we_wf nmc) we_clash Re m q we_client)].
  pose proof (look_same we (posix_sane _ _ _) (js_of Te) (lit "package.json") _ _ Hq) as Hl.
  intros [r|e|] H; [| |left; reflexivity]; cbn [orel] in H; change (o_desc (rv_opts Re)) with (Some (lit "package.json")) in H;
    destruct (lookup_desc we (js_of Te) (Some (lit "package.json")) q) as [x| |] eqn:Ex;
    remember (lookup_desc we (js_of Te) (Some (lit "package.json")) (lit "/r/p")) as y eqn:Ey; vm_compute in Ey; subst y; try contradiction; destruct H as (a & Ea & Hr); try discriminate.
  injection Ea as <-. right. cbn [creq leq] in Hl. destruct x as [[pk0|]|]; cbn [okeq] in Hl; try contradiction. destruct r as [[pk|]|]; cbn [leq okeq] in Hr; try contradiction.
  exists pk. split; [reflexivity|]. pose proof (pkgeq_trans _ _ _ Hl Hr) as (H1 & _ & _ & _ & H2 & _ & H3 & H4). cbn [p_dir p_imports p_raw p_alias] in *.
  split; [symmetry; exact H3|]. split; [symmetry; exact H2|]. split; [apply Permutation_nil; exact H4|exact H1].
Qed.
Lemma file_e : forall {q e}, same_tail e q -> f_file we e = false -> forall x, oke (OIsFile q) x -> x = false.
Proof. intros q e Ht He x Hx. pose proof (Hx (or_introl I)) as Hx0; clear Hx; rename Hx0 into Hx; change (x = f_file we q) in Hx. pose proof (sf_file we (posix_sane _ _ _) _ _ Ht) as E. congruence. Qed.
Lemma as_file_e : forall i p0, same_tail p0 (get_path i) -> f_file we p0 = false -> f_file we (p0 ++ lit ".js") = false -> f_file we (p0 ++ lit ".json") = false ->
  f_file we (p0 ++ lit ".node") = false -> wx oke (eq (Done (Resolving i))) (resolve_as_file Re i).
Proof.
  intros i p0 Ht H0 H1 H2 H3. unfold resolve_as_file. change (negb (enforce Re)) with true. cbv iota zeta. cbn [act bind]. intros x Hx. rewrite (file_e Ht H0 _ Hx).
  unfold extensions_apply. change (o_extensions (rv_opts Re)) with [lit ".js"; lit ".json"; lit ".node"]. cbn [extensions_loop bind act].
  intros x1 Hx1. rewrite (file_e (same_tail_app _ _ _ Ht) H1 _ Hx1). intros x2 Hx2. rewrite (file_e (same_tail_app _ _ _ Ht) H2 _ Hx2).
  intros x3 Hx3. rewrite (file_e (same_tail_app _ _ _ Ht) H3 _ Hx3). reflexivity.
Qed.
Lemma dir_e : forall f m i, same_path (lit "/r/p") (get_path i) -> wx oke (eq NoFuel) (resolve_as_dir Re (load_pkg_file Re m) f i).
Proof.
  induction f as [|f IH]; intros m i Hi; [reflexivity|]. cbn [resolve_as_dir act bind]. intros x Hx. change (x = f_dir we (get_path i)) in Hx. subst x.
  rewrite <- (sf_dir we (posix_sane _ _ _) _ _ Hi). change (negb (f_dir we (lit "/r/p"))) with false. cbv iota.
  apply wx_bind. eapply wx_mono; [|apply load_e, Hi]. intros r [->|(pk & -> & Hraw & Himp & Hal & Hdir)]; [reflexivity|].
  unfold and_then at 1. apply wx_bind. unfold main_field_apply. cbn [i_path with_target with_path].
  assert (Hpe : path_eqb (get_path i) (p_dir pk) = true) by (apply path_eqb_eq; congruence). rewrite Hpe. cbn [negb].
  change (o_main_fields (rv_opts Re)) with [lit "main"]. cbn [main_field_loop]. rewrite Hraw. change (opt_str (jget (O [("main", S_ "")]%string) (lit "main"))) with (Some (lit "")). cbv iota.
  change (str_eqb (lit "") s_dot || str_eqb (lit "") (lit "./"))%bool with false. cbv iota. change (starts_with (lit "") (lit "./")) with false. cbv iota.
  set (mi := with_target _ (lit "./" ++ lit "")). apply wx_bind. unfold and_then at 1. apply wx_bind. unfold and_then. apply wx_bind.
  change (alias_field_apply Re (S f) (Some pk) mi) with (Ret (Resolving mi)). cbn [wx].
  pose proof (same_tail_join _ _ (lit "./") Hi) as Ht.
  eapply wx_mono; [|apply (as_file_e mi (join (lit "/r/p") (lit "./"))); [exact Ht|reflexivity|reflexivity|reflexivity|reflexivity]].
  intros r <-. eapply wx_mono; [|apply (IH m mi)].
  - intros r <-. reflexivity.
  - change (same_path (lit "/r/p") (join (get_path i) (lit "./"))). pose proof (same_path_join _ _ (lit "./") Hi) as Hj. unfold same_path in *. rewrite <- Hj. reflexivity.
Qed.
Lemma empty_main : forall f, wx oke (eq NoFuel) (resolve Re f (lit "/r") (lit "./p")).
Proof.
  intros f. unfold resolve, resolve_with. change (o_tsconfig (rv_opts Re)) with (@None path). cbv iota. apply wx_bind.
  destruct f as [|f]; [reflexivity|]. cbn [resolve_]. apply wx_bind.
  set (i := mkInfo (lit "/r") (parse (lit "./p"))). generalize (resolve_ Re (load_pkg_file Re (S f)) f). intros rec.
  change (alias_apply Re rec i) with (Ret (Resolving i)).
  change (and_then (Ret (Resolving i)) (prefer_relative_apply Re rec)) with (Ret (Resolving i)).
  unfold and_then at 1. apply wx_bind. change (and_then (Ret (Resolving i)) (pkg_step Re (load_pkg_file Re (S f)) (S f))) with (pkg_step Re (load_pkg_file Re (S f)) (S f) i).
  unfold pkg_step. apply wx_bind. change (match r_kind (i_req i) with Normal => join (join (i_path i) MODULE) (r_target (i_req i)) | _ => get_path i end) with (lit "/r/./p").
  eapply wx_mono; [|apply load_e; reflexivity]. intros r [->|(pk & -> & Hraw & Himp & Hal & Hdir)]; [reflexivity|].
  change (imports_apply Re (load_pkg_file Re (S f)) (S f) (Some pk) i) with (Ret (Resolving i)).
  change (and_then (Ret (Resolving i)) (alias_field_apply Re (S f) (Some pk))) with (Ret (Resolving i)). cbn [wx].
  change (final_step Re (load_pkg_file Re (S f)) (S f) i) with (and_then (resolve_as_file Re i) (resolve_as_dir Re (load_pkg_file Re (S f)) (S f))).
  unfold and_then. apply wx_bind.
  eapply wx_mono; [|apply (as_file_e i (lit "/r/./p")); [left; reflexivity|reflexivity|reflexivity|reflexivity|reflexivity]].
  intros r <-. eapply wx_mono; [|apply dir_e; reflexivity]. intros r <-. reflexivity.
Qed.
Lemma empty_main_p : forall h seeds f, Forall (fun c => client (js_of Te) nmc (call_resolver c)) h ->
  out we (snd (run_history we (empty_state seeds) (map ECall h))) (call_prog (CResolve Re f (lit "/r") (lit "./p"))) = NoFuel.
Proof.
  intros h seeds f Hh. symmetry. refine (proj1 (run_inv we (js_of Te) nmc (call_prog (CResolve Re f (lit "/r") (lit "./p"))) (eq NoFuel) _ _ (fin_history we (posix_sane _ _ _) (js_of Te) we_wf nmc we_clash h seeds Hh))).
  apply wg_and; [cbn [call_prog]; apply wx_bind; eapply wx_mono; [|apply empty_main]; intros r <-; reflexivity|].
  apply client_call; [apply posix_sane|exact (fin_inj we (js_of Te) we_wf nmc)|exact we_clash|exact we_client].
Qed.
Lemma C16_empty_p : exists fs R base req, sane_fs fs /\ is_abs base = true /\ o_alias (rv_opts R) = [] /\ o_browser (rv_opts R) = false /\
  o_tsconfig (rv_opts R) = None /\ forall f, out fs st0 (call_prog (CResolve R f base req)) = NoFuel.
Proof.
  exists we, Re, (lit "/r"), (lit "./p"). split; [apply posix_sane|]. do 4 (split; [reflexivity|]). intros f. exact (empty_main_p [] _ f (Forall_nil _)).
Qed.
Lemma wf16 : forall s j, js_of T16 s = Some j -> wf_json j.
Proof. intros s j H. apply js_of_in in H. destruct H as [<-|[<-|[]]]; cbn; repeat split; auto. Qed.
Lemma clash16 : no_clash w16 (js_of T16) nmc.
Proof. intros c v v' (d & s & j & _ & _ & Hj & Hv) _. apply js_of_in in Hj. destruct Hj as [<-|[<-|[]]]; discriminate Hv. Qed.
Lemma client16 : client (js_of T16) nmc R16.
Proof. split; [right; reflexivity|split; reflexivity]. Qed.
Lemma steady16 : forall f base req, steady w16 (js_of T16) (CResolve R16 f base req).
Proof.
  intros f base req. split.
  - right. intros name d s j af _ _ _ Hj Ha. apply js_of_in in Hj. destruct Hj as [<-|[<-|[]]]; vm_compute in Ha; injection Ha as <-; split.
    + intros rp k v k' v' [H|[]] [H'|[]] _ _. congruence.
    + intros k t [H|[]]. injection H as _ <-. intros [E|E]; discriminate E.
    + intros rp k v k' v' [].
    + intros k t [].
  - intros loc c t m H. discriminate H.
Qed.

(** ** A chain of tsconfig files *)
Definition w16t : fsys := W (D [("r", D [("tsconfig.json", PJ "T"); ("common.json", PJ "C"); ("conf", D [("base.json", PJ "B")]); ("src", D [("y.js", F)])])])%string.
Definition T16t : list (string * json) :=
  ([("T", O [("extends", S_ "./conf/base.json")]);
   ("B", O [("extends", S_ "../common.json"); ("compilerOptions", O [("baseUrl", S_ "src")])]);
   ("C", O [("compilerOptions", O [("baseUrl", S_ "lib"); ("paths", O [("@/*", JArr [S_ "./*"])])])])])%string.
Definition R16t : resolver := new_resolver (with_tsconfig dflt (Some (lit "/r/tsconfig.json"))) 0 0 false (js_of []) (jsc_of T16t).
Lemma modest16t : modest w16t R16t.
Proof.
  assert (Hno : forall p pk, ~ described_by w16t R16t p pk).
  { intros p pk H. destruct (lookup_facts _ _ _ _ _ H) as (n & s & j & _ & _ & _ & Hj & _). discriminate Hj. }
  split.
  - intros d j v t (name & s & _ & _ & _ & Hj). discriminate Hj.
  - intros d j af k t v H. discriminate H.
  - intros name p q _ Hq. exfalso. assert (Hat : exists m, main_at w16t R16t p m) by (induction Hq; eauto).
    destruct Hat as (m & pk & fld & v & Hd & _). exact (Hno _ _ Hd).
Qed.
Definition l16t : list path := [lit "/r/tsconfig.json"; lit "/r/./conf/base.json"; lit "/r/./conf/../common.json"].
Lemma chain16t : chain w16t R16t l16t.
Proof.
  apply ChNext with (e := lit "./conf/base.json") (dir := lit "/r"); try reflexivity; [eexists _, _; repeat split; reflexivity|left; reflexivity|intros ? ? []|].
  apply ChNext with (e := lit "../common.json") (dir := lit "/r/./conf"); try reflexivity; [eexists _, _; repeat split; reflexivity|right; reflexivity|intros ? ? []|].
  apply ChLast; [reflexivity|]. intros e (s & j & Hs & Hj & He). vm_compute in Hs. injection Hs as <-. vm_compute in Hj. injection Hj as <-. discriminate He.
Qed.
Lemma plain16t : forall f base req, is_abs base = true -> call_plain w16t (CResolve R16t f base req).
Proof.
  intros f base req Ha. apply modest_plain; [apply posix_sane|exact Ha|exact modest16t|split; [intros ? ? ? ? []|intros ? ? ? []]|].
  intros loc E. injection E as <-. eexists. exact chain16t.
Qed.
Lemma answer16t : gives (out w16t st0 (call_prog (CResolve R16t 40 (lit "/r") (lit "@/y")))) "/r/src/y.js".
Proof. eexists. split; vm_compute; reflexivity. Qed.

(** ** C25 and C29 *)
Lemma modest_off : forall fs R, o_browser (rv_opts R) = false ->
  (forall s j, rv_json R s = Some j -> (forall fld, In fld (o_main_fields (rv_opts R)) -> jget j fld = None) /\
     forall v t, jget j (lit "imports") = Some v -> json_string t v -> exists r, t = lit "./" ++ r) -> modest fs R.
Proof.
  intros fs R Hb H. split.
  - intros d j v t (name & s & _ & _ & _ & Hj). exact (proj2 (H s j Hj) v t).
  - intros d j af k t v E. rewrite Hb in E. discriminate E.
  - intros name p q _ Hq. exfalso. assert (Hat : exists m, main_at fs R p m) by (induction Hq; eauto).
    destruct Hat as (m & pk & fld & v & Hd & _ & Hfld & Hv & _). destruct (lookup_facts _ _ _ _ _ Hd) as (n & s & j & _ & _ & _ & Hj & _ & Hraw).
    rewrite Hraw in Hv. rewrite (proj1 (H s j Hj) fld Hfld) in Hv. discriminate Hv.
Qed.
Lemma ends25 : parsers_but_browser (js_of Tc) (js_of Tn) /\ patterns_clear wc Ro (lit "p") /\
  call_plain wc (CResolve Ro 0 (lit "/r") (lit "p")) /\ call_plain wc (CResolve (with_parser Ro (js_of Tn) 3 4) 0 (lit "/r") (lit "p")).
Proof.
  split; [exact but_browser_ex|]. split; [intros loc c t m H; discriminate H|].
  split; apply modest_plain; try apply posix_sane; try reflexivity; try discriminate; try (split; [intros ? ? ? ? []|intros ? ? ? []]).
  all: apply modest_off; [reflexivity|]; intros s j Hj; apply js_of_in in Hj; cbn [Tc Tn map snd] in Hj;
    destruct Hj as [<-|[<-|[<-|[]]]]; (split; [intros fld [<-|[]]; reflexivity|]); intros v t Hv Ht; vm_compute in Hv; try discriminate Hv.
  all: injection Hv as <-; inversion Ht as [|?|? k x Hin Hx]; subst; destruct Hin as [E|[]]; injection E as <- <-; inversion Hx; subst; exists (lit "x.js"); reflexivity.
Qed.
Lemma ends29 : (forall name fld v c, o_desc (rv_opts R29) = Some name -> fld = lit "exports" \/ fld = lit "imports" ->
    field_on wc (js_of T29) name fld v -> json_key c v ->
    (In c (o_conditions (rv_opts R29)) <-> In c [lit "zzz"; lit "node"; lit "node"])) /\
  call_plain wc (CResolve R29 0 (lit "/r") (lit "p")) /\ call_plain wc (CResolve (with_conditions R29 [lit "zzz"; lit "node"; lit "node"] 1 1) 0 (lit "/r") (lit "p")).
Proof.
  split; [exact (proj1 cond_ex)|].
  split; apply modest_plain; try apply posix_sane; try reflexivity; try discriminate; try (split; [intros ? ? ? ? []|intros ? ? ? []]).
  all: apply modest_off; [reflexivity|]; intros s j Hj; apply js_of_in in Hj; cbn [T29 map snd] in Hj;
    destruct Hj as [<-|[]]; (split; [intros fld [<-|[]]; reflexivity|]); intros v t Hv Ht; vm_compute in Hv; discriminate Hv.
Qed.
