(** * Lemmas and example worlds behind PropDebug.v *)
From Coq Require Import String.
From Coq Require Import List Arith NArith Bool Lia Sorted.
From Verif Require Import Str StrP Path PathP Json Types Parse Map Prog Desc Resolve Top Run RunP Posix Demo SpecRun SpecLoad SpecCache SpecJson PosixP CacheP SpecMap SpecTerm SpecPanic PropPanicP SpecDesc SpecChange ChangeP GrownP PropCacheP PropChangeP SpecDebug DebugP.
Import ListNotations.
Local Open Scope string_scope.
Local Open Scope list_scope.

Lemma fin_57_history : forall h fs st,
  (exists m, In (Panicked m) (fst (fst (run_history fs st h))) /\ double_read m) \/
  (fst (fst (run_history fs st h)) = fst (fst (run_history fs st (map released_event h))) /\
   same_tables (snd (run_history fs st h)) (snd (run_history fs st (map released_event h)))).
Proof. intros. apply hist_or, same_refl. Qed.

(** ** Claims about release builds, carried over *)
Lemma released_fuel : forall c f, released_call (with_fuel c f) = with_fuel (released_call c) f.
Proof. intros [] f; reflexivity. Qed.
Lemma fuel_resolver : forall c f, call_resolver (with_fuel c f) = call_resolver c.
Proof. intros [] f; reflexivity. Qed.
Lemma released_resolver : forall c, call_resolver (released_call c) = released (call_resolver c).
Proof. intros []; reflexivity. Qed.
Lemma released_steady : forall fs js c, steady fs js c -> steady fs js (released_call c).
Proof. intros fs js [] H; exact H. Qed.
Lemma released_systems : forall h fs, systems fs (map released_event h) = systems fs h.
Proof.
  intros h fs. unfold systems. f_equal. induction h as [|[c|f] h IH]; cbn [map released_event flat_map app]; [reflexivity|exact IH|f_equal; exact IH].
Qed.
Lemma released_callers : forall h, callers (map released_event h) = map released (callers h).
Proof.
  induction h as [|[c|f] h IH]; [reflexivity| |exact IH]. destruct c; cbn [map released_event released_call]; unfold callers in *; cbn [flat_map app map];
    f_equal; exact IH.
Qed.
Lemma orderly_sub : forall Rs Rs' fss fss', incl Rs' Rs -> incl fss' fss -> orderly Rs fss -> orderly Rs' fss'.
Proof.
  intros Rs Rs' fss fss' Hi Hj (H1 & H2 & H3). split; [|split].
  - intros R R' n n' HR HR'. apply H1; auto.
  - intros R name HR En. destruct (H2 R name (Hi _ HR) En) as [Ha Hr]. auto.
  - auto.
Qed.
Lemma fresh_same : forall c fs seeds, orderly [call_resolver c] [fs] ->
  out fs (empty_state seeds) (call_prog c) = out fs (empty_state seeds) (call_prog (released_call c)).
Proof. intros c fs seeds H. exact (proj2 (next_same [] c fs seeds H)). Qed.

Lemma fin_37_debug : forall fs, sane_fs fs -> forall js, (forall s j, js s = Some j -> wf_json j) ->
  forall nm, no_clash fs js nm -> forall h seeds seeds' c f, orderly (map call_resolver (c :: h)) [fs] ->
  Forall (fun c => client js nm (released (call_resolver c))) (c :: h) -> steady fs js c ->
  same_outcome same_answer (out fs (snd (run_history fs (empty_state seeds) (map ECall h))) (call_prog c))
                           (out fs (empty_state seeds') (call_prog (with_fuel c f))).
Proof.
  intros fs Hfs js Hwf nm Hnc h seeds seeds' c f Ho Hcl Hst.
  assert (Ec : callers (map ECall h) = map call_resolver h).
  { clear. induction h as [|[] h IH]; [reflexivity| |]; unfold callers in *; cbn [map flat_map app call_resolver]; f_equal; exact IH. }
  assert (Es : forall g : list call, systems fs (map ECall g) = [fs]).
  { clear. induction g as [|c g IH]; [reflexivity|exact IH]. }
  assert (Ef : forall (g : list call) st, snd (fst (run_history fs st (map ECall g))) = fs).
  { clear. induction g as [|c g IH]; intros st; [reflexivity|]. cbn [map run_history]. destruct (run fs (call_prog c) st) as [o s].
    specialize (IH s). destruct (run_history fs s (map ECall g)) as [[? ?] ?]. exact IH. }
  assert (Em : map released_event (map ECall h) = map ECall (map released_call h)) by (rewrite !map_map; reflexivity).
  pose proof (next_same (map ECall h) c fs seeds) as Hn. rewrite Ec, Es, Em in Hn. specialize (Hn Ho).
  pose proof (Ef h (empty_state seeds)) as E1. pose proof (Ef (map released_call h) (empty_state seeds)) as E2.
  pose proof (fin_37 fs Hfs js Hwf nm Hnc (map released_call h) seeds seeds' (released_call c) f) as H.
  destruct (run_history fs (empty_state seeds) (map ECall h)) as [[os f1] st], (run_history fs (empty_state seeds) (map ECall (map released_call h))) as [[os' f2] st'].
  cbn [fst snd] in *. subst f1 f2. destruct Hn as [_ ->].
  rewrite (fresh_same (with_fuel c f) fs seeds'), released_fuel.
  2:{ rewrite fuel_resolver. eapply orderly_sub; [| |exact Ho]; [|apply incl_refl]. intros R [<-|[]]. left. reflexivity. }
  inversion Hcl as [|? ? Hc Hh]; subst. apply H.
  - apply Forall_map. revert Hh. apply Forall_impl. intros a Ha. rewrite released_resolver. exact Ha.
  - rewrite released_resolver. exact Hc.
  - apply released_steady, Hst.
Qed.

Lemma member_orderly : forall js nm own dur Rs fss, (forall c, is_abs (nm c) = false) ->
  Forall (fun fs => sane_fs fs /\ forall k, all_readable js (nm k) fs) fss ->
  Forall (fun R => SpecChange.member js nm own dur (released R)) Rs -> orderly Rs fss.
Proof.
  intros js nm own dur Rs fss Hrel Hf Hm. rewrite Forall_forall in *.
  assert (Hn : forall R n, In R Rs -> o_desc (rv_opts R) = Some n -> n = nm (rv_cache R)).
  { intros R n HR En. destruct (Hm R HR) as [[[E|E] _] _]; cbn [released rv_opts rv_cache] in E; congruence. }
  assert (Hw : forall R, In R Rs -> own (rv_id R) = rv_cache R) by (intros R HR; destruct (Hm R HR) as (_ & H & _); exact H).
  split; [|split].
  - intros R R' n n' HR HR' Ei En En'. assert (Ec : rv_cache R = rv_cache R') by (rewrite <- (Hw R HR), <- (Hw R' HR'), Ei; reflexivity).
    split; [exact Ec|]. rewrite (Hn R n HR En), (Hn R' n' HR' En'), Ec. reflexivity.
  - intros R name HR En. rewrite (Hn R name HR En). split; [apply Hrel|]. intros fs Hfs. destruct (Hm R HR) as [(_ & Ej & _) _]. cbn [released rv_json] in Ej.
    rewrite Ej. apply (Hf fs Hfs).
  - intros fs Hfs. apply sf_empty, (Hf fs Hfs).
Qed.
Lemma fin_41_debug : forall js, (forall s j, js s = Some j -> wf_json j) ->
  forall nm, (forall c, is_abs (nm c) = false) -> forall own dur fs0 h seeds seeds' c f,
  texts_apart js (written_on (fun n => exists k, n = nm k) (systems fs0 h)) ->
  Forall (fun fs => sane_fs fs /\ forall k, all_readable js (nm k) fs) (systems fs0 h) ->
  ForallOrdPairs (fun fs fs' => forall k, noticeable (nm k) dur fs fs') (systems fs0 h) ->
  Forall (fun R => SpecChange.member js nm own dur (released R)) (call_resolver c :: callers h) ->
  let '(_, fs, st) := run_history fs0 (empty_state seeds) h in
  steady fs js c ->
  same_outcome same_answer (out fs st (call_prog c)) (out fs (empty_state seeds') (call_prog (with_fuel c f))).
Proof.
  intros js Hwf nm Hrel own dur fs0 h seeds seeds' c f Hap Hf Hp Hm.
  pose proof (member_orderly js nm own dur _ _ Hrel Hf Hm) as Ho. pose proof (next_same h c fs0 seeds Ho) as Hn.
  assert (HIn : In (snd (fst (run_history fs0 (empty_state seeds) h))) (systems fs0 h)).
  { clear. generalize (empty_state seeds). revert fs0. induction h as [|[c|f] h IH]; intros fs0 st; cbn [run_history]; [left; reflexivity| |right; apply IH].
    destruct (run fs0 (call_prog c) st) as [o s]. specialize (IH fs0 s). destruct (run_history fs0 s h) as [[? ?] ?]. exact IH. }
  inversion Hm as [|? ? Hc Hh]; subst.
  pose proof (changes_agree js Hwf nm Hrel own dur fs0 (map released_event h) seeds seeds' (released_call c) f) as H.
  rewrite released_systems, released_callers, released_resolver in H.
  assert (Hh' : Forall (SpecChange.member js nm own dur) (map released (callers h))) by (apply Forall_map; exact Hh).
  specialize (H Hap Hf Hp Hh' Hc).
  destruct (run_history fs0 (empty_state seeds) h) as [[os f1] st], (run_history fs0 (empty_state seeds) (map released_event h)) as [[os' f2] st'].
  destruct Hn as [<- ->]. intros Hst. rewrite (fresh_same (with_fuel c f) f1 seeds'), released_fuel.
  2:{ rewrite fuel_resolver. eapply orderly_sub; [| |exact Ho]; [intros R [<-|[]]; left; reflexivity|]. intros x [<-|[]]. exact HIn. }
  apply H, released_steady, Hst.
Qed.
Lemma fin_15_debug : forall ascii h fs seeds, orderly (callers h) (systems fs h) -> history_tidy ascii fs (map released_event h) ->
  served_tidy ascii fs (map released_event h) (fst (fst (run_history fs (empty_state seeds) h))).
Proof. intros ascii h fs seeds Ho Ht. rewrite (proj1 (same_answers h fs seeds Ho)). apply fin_15, Ht. Qed.

(** ** Example: a debug build reads a description again after an edit *)
Definition Rd : resolver := new_resolver dflt 0 0 true (js_of T41) (jsc_of T41).
Definition askd (base req : string) : call := CResolve Rd 40 (lit base) (lit req).
Definition h57 : list event := [ECall (askd "/" "./r"); ECall (askd "/r" "q"); EFs (W t41b); ECall (askd "/" "./r"); ECall (askd "/r" "q")].
Lemma h57_orderly : orderly (callers h57) (systems (W t41a) h57).
Proof.
  apply (member_orderly (js_of T41) (fun _ => lit "package.json") (fun _ => 0) 1000000000%N).
  - reflexivity.
  - change (systems (W t41a) h57) with [W t41a; W t41b]. pose proof t41_good as Hg. inversion Hg as [|? ? Ha Hg']; subst. inversion Hg' as [|? ? Hb _]; subst.
    repeat constructor; try apply posix_sane; intros; apply good_readable; auto using t41_name.
  - repeat (constructor; [split; [split; [right; reflexivity|split; reflexivity]|split; [reflexivity|vm_compute; discriminate]]|]). constructor.
Qed.
Lemma ex57 : rv_debug Rd = true /\ exists a e b q, fst (fst (run_history (W t41a) st0 h57)) = [a; Done (AResolve (Err e)); b; q] /\
  gives a "/r/a.js" /\ gives b "/r/b.js" /\ gives q "/r/node_modules/q/q.js" /\
  s_dbg (snd (run_history (W t41a) st0 h57)) 0 (components (lit "/r/package.json")) = true.
Proof.
  split; [reflexivity|]. do 4 eexists. split; [vm_compute; reflexivity|].
  repeat (split; [eexists; split; [reflexivity|reflexivity]|]). vm_compute; reflexivity.
Qed.
(** ** Two calls at once *)
Definition cs57 : list call := [askd "/" "./r"; askd "/" "./r"].
Definition sched57 : list nat := repeat 0 6 ++ repeat 1 60 ++ repeat 0 60.
Lemma race57 : orderly (map call_resolver cs57) [W t41a] /\
  (exists m, map settled (fst (run_sched (W t41a) sched57 st0 (map call_prog cs57))) = [out (W t41a) st0 (call_prog (askd "/" "./r")); Panicked m] /\ double_read m) /\
  gives (out (W t41a) st0 (call_prog (askd "/" "./r"))) "/r/a.js" /\
  exists a b, map settled (fst (run_sched (W t41a) sched57 st0 (map call_prog (map released_call cs57)))) = [a; b] /\ gives a "/r/a.js" /\ gives b "/r/a.js".
Proof.
  split; [|split; [|split]].
  - pose proof h57_orderly as H. eapply orderly_sub; [| |exact H]; [intros R [<-|[<-|[]]]; left; reflexivity|intros x [<-|[]]; left; reflexivity].
  - exists (lit "Had try to parse same package.json, /./r/package.json"). split; [vm_compute; reflexivity|]. exists (lit "/./r/package.json"). reflexivity.
  - eexists. split; [vm_compute; reflexivity|reflexivity].
  - do 2 eexists. split; [vm_compute; reflexivity|]. split; (eexists; split; [reflexivity|reflexivity]).
Qed.
Lemma race57_any : exists fs cs sched, orderly (map call_resolver cs) [fs] /\
  (exists a m, map settled (fst (run_sched fs sched st0 (map call_prog cs))) = [a; Panicked m] /\ gives a "/r/a.js" /\ double_read m) /\
  exists a b, map settled (fst (run_sched fs sched st0 (map call_prog (map released_call cs)))) = [a; b] /\ gives a "/r/a.js" /\ gives b "/r/a.js".
Proof.
  exists (W t41a), cs57, sched57. destruct race57 as (H1 & (m & H2 & Hm) & H3 & H4). split; [exact H1|]. split; [|exact H4].
  eexists. exists m. split; [exact H2|]. split; [exact H3|exact Hm].
Qed.
(** ** The conditions of C15, C37 and C41 *)
Lemma tidy41 : forall s j, js_of T41 s = Some j -> tidy true j.
Proof.
  intros s j H. apply js_of_in in H. destruct H as [<-|[<-|[<-|[]]]]; (constructor; [constructor| | |]); intros *;
    match goal with |- jget ?a ?b = Some _ -> _ => let v := eval vm_compute in (jget a b) in change (jget a b) with v end; intros E; try discriminate E; injection E as <-.
  all: try (intros H; eapply strings_ok; [|exact H]; vm_compute; reflexivity).
  fv.
Qed.
Lemma call57_tidy : forall root base req, forallb (fun c => N.ltb c 128) (lit req) = true -> negb (starts_with_char (r_target (parse (lit req))) c_at) = true ->
  call_tidy true (W root) (released_call (askd base req)).
Proof.
  intros root base req Ha Hs. split; [reflexivity|]. split; [intros d j (n & s & _ & _ & _ & Hj); exact (tidy41 s j Hj)|].
  split; [exact (sf_kind _ (posix_sane _ _ _))|]. split; [apply Forall_forall; intros c Hc _; rewrite forallb_forall in Ha; apply N.ltb_lt, Ha, Hc|].
  split; [intros (r & E & _); rewrite E in Hs; discriminate|]. split; [intros from to []|intros l E; discriminate E].
Qed.
Lemma h57_tidy : history_tidy true (W t41a) (map released_event h57).
Proof.
  unfold h57. cbn [map released_event]. do 2 (apply HtCall; [apply call57_tidy; reflexivity|]). apply HtFs.
  do 2 (apply HtCall; [apply call57_tidy; reflexivity|]). apply HtNil.
Qed.
Lemma members57 : Forall (fun R => SpecChange.member (js_of T41) (fun _ => lit "package.json") (fun _ => 0) 1000000000%N (released R)) (call_resolver (askd "/" "./r") :: callers h57).
Proof. repeat (constructor; [split; [split; [right; reflexivity|split; reflexivity]|split; [reflexivity|vm_compute; discriminate]]|]). constructor. Qed.
Lemma noticeable57 : ForallOrdPairs (fun fs fs' => noticeable (lit "package.json") 1000000000%N fs fs') (systems (W t41a) h57).
Proof.
  change (systems (W t41a) h57) with (map W [t41a; t41b]).
  eapply ord_map; [apply sorted_pairs; apply (Sorted_StronglySorted (R := grown (lit "package.json") 1000000000%N)); [intros x y z H1 H2; eapply grown_trans; eassumption|exact t41_grown]|].
  intros x y Hx Hy Hxy. apply grown_noticeable; [exact t41_name|exact Hxy|]. destruct Hx as [<-|[<-|[]]]; eexists; reflexivity.
Qed.
Lemma cond57 : history_tidy true (W t41a) (map released_event h57) /\ no_clash (W t41a) (js_of T41) (fun _ => lit "package.json") /\
  (forall s j, js_of T41 s = Some j -> wf_json j) /\ texts_apart (js_of T41) (written_on (fun n => exists k : nat, n = lit "package.json") (systems (W t41a) h57)) /\
  (forall fs, steady fs (js_of T41) (askd "/" "./r")) /\ Forall sane_fs (systems (W t41a) h57) /\
  Forall (fun R => SpecChange.member (js_of T41) (fun _ => lit "package.json") (fun _ => 0) 1000000000%N (released R)) (call_resolver (askd "/" "./r") :: callers h57) /\
  ForallOrdPairs (fun fs fs' => noticeable (lit "package.json") 1000000000%N fs fs') (systems (W t41a) h57).
Proof.
  split; [exact h57_tidy|]. split.
  { intros c v v' (d & s & j & _ & _ & H2 & H3) (d' & s' & j' & _ & _ & H2' & H3').
    intros Hk. exact (T41_apart (fun _ => True) s s' j j' v v' I I H2 H2' H3 H3' Hk). }
  split; [exact T41_wf|]. split; [exact (T41_apart _)|]. split; [intros fs; split; [left; reflexivity|intros loc c t m H; discriminate H]|].
  split; [repeat (constructor; [apply posix_sane|]); constructor|]. split; [exact members57|exact noticeable57].
Qed.
