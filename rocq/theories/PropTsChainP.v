(** * Proofs for PropTsChain.v *)
From Coq Require Import String.
From Coq Require Import List Arith NArith Bool Lia.
From Verif Require Import Str StrP Path PathP Json Types Parse Map Prog Desc Resolve Top Run RunP Posix Demo SpecRun TsP WitnessP PropTsP SpecTsChain.
Import ListNotations.

Lemma chain_run : forall fs R load f st loc docs st', ts_chain fs R load f st loc docs st' ->
  run fs (parse_file_to_value R load f loc) st = (Done (Ok (merged docs)), st') /\ exists j l, docs = (loc, j) :: l.
Proof.
  induction 1 as [f st loc s j Hr Hj He|f st loc s j e dir x st1 Hr Hj He Hp H1 Hx|f st loc s j e dir i st1 docs st2 Hr Hj He Hp H1 H2 [IH (j2 & l2 & E2)]].
  - split; [|eauto]. cbn [parse_file_to_value]. rewrite run_act. cbn [step fst snd]. rewrite Hr, Hj.
    destruct (jget j (lit "extends")) as [[| | |e| |]|]; try reflexivity. exfalso. apply (He e). reflexivity.
  - split; [|eauto]. cbn [merged snd]. eapply parse_ignored; eassumption.
  - split; [|eauto]. rewrite (parse_extends fs R load f loc dir s j e st i st1 (merged docs) st2 Hr Hj He Hp H1 IH). rewrite E2. reflexivity.
Qed.
Lemma chain_exists : forall fs R load f st loc j st', run fs (parse_file_to_value R load f loc) st = (Done (Ok j), st') ->
  exists docs, ts_chain fs R load f st loc docs st' /\ merged docs = j.
Proof.
  induction f as [|f IH]; intros st loc j st' H; cbn [parse_file_to_value] in H; [discriminate|].
  rewrite run_act in H. cbn [step fst snd] in H. destruct (f_read fs loc) as [s|] eqn:Hr; [|discriminate].
  destruct (rv_jsonc R s) as [e| |j0] eqn:Hj; [discriminate|discriminate|].
  assert (D0 : (exists e, jget j0 (lit "extends") = Some (JStr e)) \/ ((forall e, jget j0 (lit "extends") <> Some (JStr e)) /\ (Done (Ok j0), st) = (Done (Ok j), st'))).
  { destruct (jget j0 (lit "extends")) as [[| | |e| |]|]; try (right; split; [intros ? ?; discriminate|exact H]). left. eauto. }
  destruct D0 as [[e He]|[He E]].
  - rewrite He in H. destruct (parent loc) as [dir|] eqn:Hp; [|discriminate]. rewrite run_bind in H.
    destruct (run fs (resolve_ R load (S f) (mkInfo dir (parse e))) st) as [[x| |] st1] eqn:H1; [|discriminate|discriminate].
    destruct x as [[i|]|i|m i].
    + unfold try_ in H. rewrite run_bind in H. destruct (run fs (parse_file_to_value R load f (get_path i)) st1) as [[[b|m]| |] st2] eqn:H2; try discriminate.
      cbn in H. inversion H; subst. destruct (IH _ _ _ _ H2) as (docs & Hc & <-). exists ((loc, j0) :: docs). split; [eapply TCNext; eassumption|].
      destruct (chain_run _ _ _ _ _ _ _ _ Hc) as (_ & j2 & l2 & ->). reflexivity.
    + discriminate.
    + cbn in H. inversion H; subst. exists [(loc, j)]. split; [eapply TCSkip; try eassumption; reflexivity|reflexivity].
    + cbn in H. inversion H; subst. exists [(loc, j)]. split; [eapply TCSkip; try eassumption; reflexivity|reflexivity].
  - inversion E; subst. exists [(loc, j)]. split; [eapply TCEnd; eassumption|reflexivity].
Qed.
Definition kb : list str := [lit "compilerOptions"; lit "baseUrl"].
Lemma sets_at : forall j b, json_nodup j -> (sets_base j b <-> json_at j kb (JStr b)).
Proof.
  intros j b Hn. unfold kb, sets_base. rewrite (json_at_get j _ _ _ Hn). split.
  - intros (o & H1 & H2). exists o. split; [exact H1|]. apply json_at_get; [exact (nodup_get _ _ _ Hn H1)|]. exists (JStr b). split; [exact H2|constructor].
  - intros (o & H1 & H2). exists o. split; [exact H1|]. apply json_at_get in H2; [|exact (nodup_get _ _ _ Hn H1)]. destruct H2 as (x & H2 & H3). inversion H3; subst. exact H2.
Qed.
Lemma sets_dec : forall j, (exists b, sets_base j b) \/ (forall b, ~ sets_base j b).
Proof.
  intros j. unfold sets_base. destruct (jget j (lit "compilerOptions")) as [o|]; [|right; intros b (o & E & _); discriminate].
  destruct (jget o (lit "baseUrl")) as [[| | |b| |]|] eqn:E; try (right; intros bb (o1 & E1 & E2); injection E1 as <-; congruence).
  left. exists b, o. auto.
Qed.
Lemma merged_nodup : forall docs, Forall (fun d => json_nodup (snd d)) docs -> json_nodup (merged docs).
Proof.
  induction docs as [|d [|d' docs] IH]; intros H; [constructor|inversion H; assumption|]. inversion H; subst. cbn [merged]. apply merge_nodup; [assumption|]. apply IH. assumption.
Qed.
Lemma declarer : forall docs b, Forall (fun d => json_nodup (snd d)) docs -> sets_base (merged docs) b ->
  exists l1 loc j l2, docs = l1 ++ (loc, j) :: l2 /\ sets_base j b /\ Forall (fun d => forall b', ~ sets_base (snd d) b') l1.
Proof.
  induction docs as [|[loc j] docs IH]; intros b Hn H; [destruct H as (o & E & _); discriminate|].
  pose proof (merged_nodup _ Hn) as Hm. inversion Hn as [|? ? Hj Hn']; subst. cbn [snd] in Hj.
  destruct docs as [|d docs]. { exists [], loc, j, []. split; [reflexivity|]. split; [exact H|constructor]. }
  pose proof (merged_nodup _ Hn') as Hm'. change (merged ((loc, j) :: d :: docs)) with (merge j (merged (d :: docs))) in H, Hm.
  destruct (sets_dec j) as [[b0 H0]|H0].
  - exists [], loc, j, (d :: docs). split; [reflexivity|]. split; [|constructor]. enough (b0 = b) by (subst; exact H0).
    pose proof H0 as H0'. apply (sets_at _ _ Hj) in H0'. apply (merge_keeps kb j (merged (d :: docs)) _ Hj Hm') in H0'; [|discriminate|intros [? ?]; discriminate].
    apply (sets_at _ _ Hm) in H0'. destruct H as (o & E1 & E2), H0' as (o' & E1' & E2'). congruence.
  - destruct (IH b Hn') as (l1 & loc' & j' & l2 & E & Hb & Hl).
    + apply (sets_at _ _ Hm) in H. apply merge_only in H; [|exact Hj|exact Hm'|intros [? ?]; discriminate].
      destruct H as [H|H]; [apply (sets_at _ _ Hj) in H; destruct (H0 b H)|apply (sets_at _ _ Hm'); exact H].
    + exists ((loc, j) :: l1), loc', j', l2. split; [rewrite E; reflexivity|]. split; [exact Hb|]. constructor; [exact H0|exact Hl].
Qed.
Lemma join_absolute : forall p q, is_abs q = true -> join p q = q.
Proof. intros p q H. unfold join. rewrite H. reflexivity. Qed.
Lemma fin_47 : forall fs R fuel loc dir b m docs st st1, rv_debug R = false ->
  o_tsconfig (rv_opts R) = Some loc -> parent loc = Some dir ->
  ts_chain fs R (load_pkg_file R fuel) fuel st loc docs st1 -> Forall (fun d => json_nodup (snd d)) docs -> ts_sets (merged docs) b m ->
  exists l1 loc' j' l2, docs = l1 ++ (loc', j') :: l2 /\ sets_base j' b /\ Forall (fun d => forall b', ~ sets_base (snd d) b') l1 /\
  forall dir', parent loc' = Some dir' -> dir' = dir \/ is_abs b = true ->
  forall base req locs r st', Forall (fun e => splits (fst e) (r_target (parse req))) m ->
  ts_locations (r_target (parse req))
    (map (fun kv => (fst kv, map (join (join dir' b)) (snd kv))) (permute (s_ord st1 0) m)) locs ->
  run fs (resolve R fuel base req) st = (r, st') ->
  exists r0, first_of (map (fun p => run fs (resolve_ R (load_pkg_file R fuel) fuel (mkInfo p empty_request))) locs)
    (run fs (resolve_ R (load_pkg_file R fuel) fuel (mkInfo base (parse req))))
    (snd (step fs st1 OOrder)) r0 st' /\ r = final_answer fs R r0.
Proof.
  intros fs R fuel loc dir b m docs st st1 Hd Ht Hp Hc Hn Hs. pose proof Hs as (o & E1 & E2 & _).
  destruct (declarer docs b Hn) as (l1 & loc' & j' & l2 & E & Hb & Hl); [exists o; auto|].
  exists l1, loc', j', l2. split; [exact E|]. split; [exact Hb|]. split; [exact Hl|].
  intros dir' Hp' Hsame base req locs r st' Hm Hloc Hrun. assert (Ej : join dir' b = join dir b).
  { destruct Hsame as [->|Ha]; [reflexivity|]. rewrite !join_absolute by exact Ha. reflexivity. }
  rewrite Ej in Hloc. eapply p_C45_paths_first; try eassumption. apply (chain_run _ _ _ _ _ _ _ _ Hc).
Qed.
Lemma ex47 : (exists st1, ts_chain (W t47) R47c (load_pkg_file R47c 40) 40 st0 (lit "/r/tsconfig.json")
    [(lit "/r/tsconfig.json", docT); (lit "/r/./mid.json", docM); (lit "/r/./base/in.json", docB)] st1) /\
  ts_sets (merged [(lit "/r/tsconfig.json", docT); (lit "/r/./mid.json", docM); (lit "/r/./base/in.json", docB)]) (lit "./lib") [(lit "~/*", [lit "*"])] /\
  sets_base docM (lit "./lib") /\ (forall b, ~ sets_base docT b) /\
  Forall json_nodup [docT; docM; docB] /\
  ends_at (res (W t47) R47c "/r" "~/x") "/r/lib/x.js".
Proof.
  split.
  { eexists. eapply TCNext; [vm_compute; reflexivity|vm_compute; reflexivity|vm_compute; reflexivity|vm_compute; reflexivity|vm_compute; reflexivity|].
    eapply TCNext; [vm_compute; reflexivity|vm_compute; reflexivity|vm_compute; reflexivity|vm_compute; reflexivity|vm_compute; reflexivity|].
    eapply TCEnd; [vm_compute; reflexivity|vm_compute; reflexivity|]. intros e. vm_compute. discriminate. }
  split. { eexists. split; [vm_compute; reflexivity|]. split; [vm_compute; reflexivity|]. split; [vm_compute; reflexivity|]. repeat constructor. intros []. }
  split; [eexists; split; vm_compute; reflexivity|]. split; [intros b (o & E & _); vm_compute in E; discriminate|].
  split; [|conc].
  repeat constructor; cbn; intuition discriminate.
Qed.
