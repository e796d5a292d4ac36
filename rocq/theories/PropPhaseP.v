(** * Lemmas and the example behind PropPhase.v *)
From Coq Require Import String.
From Coq Require Import List Arith NArith Bool Lia Sorted.
From Verif Require Import Str StrP Path PathP Json Types Parse Map Prog Desc Resolve Top Run RunP Posix Demo SpecRun SpecLoad SpecCache SpecJson SpecTerm PosixP SpellP SimP LoadP GuarP CacheP SpecChange HistP GrownP ChangeP LookupP PropCacheP PropTermP PropChangeP ChangeEndP PropChangeEndP SpecPhase PhaseP.
Import ListNotations.
Local Open Scope string_scope.
Local Open Scope list_scope.

Section Disk.
Variable js : str -> option json.
Hypothesis Hwf : forall s j, js s = Some j -> wf_json j.
Variable name : str.
Variable dur : N.
Hypothesis Hn : file_name name.
Lemma name_rel : forall _ : nat, is_abs name = false.
Proof. intros _. apply (name_split name 0%N Hn (NLink []) (NLink []) (GrLink _ _ [])). Qed.
Lemma disk_texts : forall fuel cwd ts l, Forall (good_tree js name) ts -> l = map (fun t => posix_fs fuel t cwd) ts ->
  texts_apart js (text_in name ts) -> texts_apart js (written_on (fun n => exists _ : nat, n = name) l).
Proof.
  intros fuel cwd ts l Hg -> Hap.
  assert (Ht : forall s, written_on (fun n => exists _ : nat, n = name) (map (fun t => posix_fs fuel t cwd) ts) s -> text_in name ts s).
  { intros s (fs & d & n & Hin & [_ ->] & E). apply in_map_iff in Hin. destruct Hin as (root & <- & Hin).
    rewrite Forall_forall in Hg. destruct (read_named js name fuel root cwd d s Hn (Hg root Hin) E) as [t1 Ht]. exists root, t1. auto. }
  intros s s' j j' v v' Hs1 Hs2. apply Hap; apply Ht; assumption.
Qed.
Lemma phases_disk : forall fuel cwd t0 ts fs0 h fs st own seeds seeds' c f, phases fs0 (empty_state seeds) h fs st -> texts_apart js (text_in name (t0 :: ts)) ->
  (exists l, lookup t0 cwd = Some (NDir l)) -> phase_systems fs0 h = map (fun t => posix_fs fuel t cwd) (t0 :: ts) ->
  Sorted (grown name dur) (t0 :: ts) -> Forall (good_tree js name) (t0 :: ts) ->
  Forall (member js (fun _ => name) own dur) (phase_callers h) -> member js (fun _ => name) own dur (call_resolver c) -> steady fs js c ->
  same_outcome same_answer (out fs st (call_prog c)) (out fs (empty_state seeds') (call_prog (with_fuel c f))).
Proof.
  intros fuel cwd t0 ts fs0 h fs st own seeds seeds' c f Hph Hap Hcwd Hsys Hs Hg Hm Hc Hst.
  destruct (disk_systems js name dur Hn fuel cwd t0 ts _ Hcwd Hsys Hs Hg) as [H1 H2].
  apply (phases_agree js Hwf (fun _ => name) name_rel own dur fs0 h fs st seeds seeds' c f Hph); auto.
  exact (disk_texts fuel cwd _ _ Hg Hsys Hap).
Qed.
Lemma phases_last : forall fs st h fs' st', phases fs st h fs' st' -> forall d, fs' = last (phase_systems fs h) d.
Proof.
  unfold phase_systems. intros fs st h fs' st' H. induction H as [fs st|fs st cs sched ps st1 h fs' st' Hr Ho Hp IH|fs st fs1 h fs' st' Hp IH]; intros d; cbn [flat_map app]; [reflexivity|apply IH|].
  rewrite (IH d). reflexivity.
Qed.
Lemma phases_disk_end : forall fuel cwd t own c, member js (fun _ => name) own dur (call_resolver c) -> steady (posix_fs fuel t cwd) js c ->
  call_plain_by (posix_fs fuel t cwd) (fun _ => disk_answer (posix_fs fuel t cwd)) c ->
  exists N, forall t0 ts fs0 h fs st seeds seeds' f f', N <= f -> N <= f' -> phases fs0 (empty_state seeds) h fs st -> texts_apart js (text_in name (t0 :: ts)) ->
  (exists l, lookup t0 cwd = Some (NDir l)) -> phase_systems fs0 h = map (fun t => posix_fs fuel t cwd) (t0 :: ts) -> last (t0 :: ts) t0 = t ->
  Sorted (grown name dur) (t0 :: ts) -> Forall (good_tree js name) (t0 :: ts) ->
  Forall (member js (fun _ => name) own dur) (phase_callers h) ->
  same_end same_answer (out fs st (call_prog (with_fuel c f))) (out fs (empty_state seeds') (call_prog (with_fuel c f'))).
Proof.
  intros fuel cwd t own c HR Hst Hp.
  destruct (phases_end js Hwf (fun _ => name) name_rel own dur _ (posix_sane fuel t cwd) c HR Hst Hp) as [N HN].
  exists N. intros t0 ts fs0 h fs st seeds seeds' f f' Hf Hf' Hph Hap Hcwd Hsys Hl Hs Hg Hm.
  destruct (disk_systems js name dur Hn fuel cwd t0 ts _ Hcwd Hsys Hs Hg) as [H1 H2].
  assert (fs = posix_fs fuel t cwd) as ->.
  { rewrite (phases_last _ _ _ _ _ Hph (posix_fs fuel t0 cwd)), Hsys, (last_map (fun t => posix_fs fuel t cwd)), Hl. reflexivity. }
  apply (HN fs0 h st seeds seeds' f f' Hf Hf' Hph); auto. exact (disk_texts fuel cwd _ _ Hg Hsys Hap).
Qed.
End Disk.

(** Sequential histories are phases of one call each. *)
Lemma step_one {A} : forall fs (p : prog A) st, exists k, run_sched fs (repeat 0 k) st [p] =
  ([match fst (run fs p st) with Done a => Ret a | Panicked m => Panic m | NoFuel => OutOfFuel end], snd (run fs p st)).
Proof.
  intros fs. induction p as [a|m| |o k IH]; intros st; [exists 0; reflexivity..|]. cbn [run]. destruct (step fs st o) as [x st'] eqn:E.
  destruct (IH x st') as [n Hn]. exists (S n). cbn [repeat run_sched step_nth thread_step]. rewrite E. exact Hn.
Qed.
Lemma history_phases : forall h fs st, exists ph, let '(_, fs', st') := run_history fs st h in
  phases fs st ph fs' st' /\ phase_systems fs ph = systems fs h /\ phase_callers ph = callers h.
Proof.
  induction h as [|[c|fs1] h IH]; intros fs st; cbn [run_history].
  - exists []. repeat split. constructor.
  - destruct (step_one fs (call_prog c) st) as [k Hk]. destruct (run fs (call_prog c) st) as [o st1] eqn:E. cbn [fst snd] in Hk.
    destruct (IH fs st1) as [ph Hph]. destruct (run_history fs st1 h) as [[os fs'] st']. destruct Hph as (H1 & H2 & H3).
    exists (PCalls [c] (repeat 0 k) :: ph). split; [|split].
    + eapply PhCalls; [exact Hk| |exact H1]. constructor; [|constructor]. destruct o; exact I.
    + exact H2.
    + cbn [phase_callers flat_map map app]. change (flat_map _ ph) with (phase_callers ph). rewrite H3. destruct c; reflexivity.
  - destruct (IH fs1 st) as [ph Hph]. destruct (run_history fs1 st h) as [[os fs'] st']. destruct Hph as (H1 & H2 & H3).
    exists (PFs fs1 :: ph). split; [constructor; exact H1|]. split; [|exact H3]. unfold phase_systems, systems in *. cbn [flat_map app]. f_equal. exact H2.
Qed.

(** ** The race of [C40_concurrent_refuted] inside a history *)
Definition race : list nat := repeat 0 9 ++ repeat 1 60 ++ repeat 0 60.
Definition alternate : list nat := flat_map (fun _ => [0; 1]) (repeat tt 100).
Definition h65 : list phase := [PCalls [ask "/" "./r"; ask "/r" "q"] alternate; PFs (W t41b); PCalls [ask "/" "./r"; ask "/" "./r"] race].
Definition st65 : state := snd (run_sched (W t41b) race (snd (run_sched (W t41a) alternate st0 (map call_prog [ask "/" "./r"; ask "/r" "q"]))) (map call_prog [ask "/" "./r"; ask "/" "./r"])).
Lemma over65 : forall fs s st cs, forallb (fun p => match p with Do _ _ => false | _ => true end) (fst (run_sched fs s st (map call_prog cs))) = true ->
  Forall over (fst (run_sched fs s st (map call_prog cs))).
Proof. intros fs s st cs H. rewrite forallb_forall in H. apply Forall_forall. intros p Hp. specialize (H p Hp). destruct p; [exact I..|discriminate]. Qed.
Lemma phases65 : phases (W t41a) st0 h65 (W t41b) st65.
Proof.
  unfold h65, st65. eapply PhCalls; [apply surjective_pairing|apply over65; vm_compute; reflexivity|]. apply PhFs.
  eapply PhCalls; [apply surjective_pairing|apply over65; vm_compute; reflexivity|]. apply PhNil.
Qed.
Lemma members65 : Forall (member (js_of T41) (fun _ => lit "package.json") (fun _ => 0) 1000000000%N) (phase_callers h65).
Proof. repeat (constructor; [split; [split; [right; reflexivity|split; reflexivity]|split; [reflexivity|vm_compute; discriminate]]|]). constructor. Qed.
Lemma answers65 : (exists st p q st', snd (run_sched (W t41a) alternate st0 (map call_prog [ask "/" "./r"; ask "/r" "q"])) = st /\
   run_sched (W t41b) race st (map call_prog [ask "/" "./r"; ask "/" "./r"]) = ([p; q], st') /\ gives (settled p) "/r/b.js" /\ gives (settled q) "/r/a.js") /\
  gives (out (W t41b) st65 (call_prog (ask "/" "./r"))) "/r/b.js".
Proof.
  split; [|eexists; split; [vm_compute; reflexivity|reflexivity]].
  do 4 eexists. split; [reflexivity|]. split; [vm_compute; reflexivity|]. split; eexists; (split; [vm_compute; reflexivity|reflexivity]).
Qed.
(** While a call of a phase has not ended, other calls may answer from what is no longer there. *)
Lemma waiting65 : exists cs sched ps st' c, run_sched (W t41b) sched (snd (run_sched (W t41a) alternate st0 (map call_prog [ask "/" "./r"; ask "/r" "q"]))) (map call_prog cs) = (ps, st') /\
  ~ Forall over ps /\ gives (out (W t41b) st' (call_prog c)) "/r/a.js" /\ gives (out (W t41b) st0 (call_prog c)) "/r/b.js".
Proof.
  exists [ask "/" "./r"], (repeat 0 9). do 2 eexists. exists (ask "/" "./r"). split; [apply surjective_pairing|]. split.
  - intros H. assert (E : forallb (fun p => match p with Do _ _ => false | _ => true end) (fst (run_sched (W t41b) (repeat 0 9)
      (snd (run_sched (W t41a) alternate st0 (map call_prog [ask "/" "./r"; ask "/r" "q"]))) (map call_prog [ask "/" "./r"]))) = true).
    { apply forallb_forall. intros p Hp. rewrite Forall_forall in H. specialize (H p Hp). destruct p; [reflexivity..|contradiction]. }
    vm_compute in E. discriminate E.
  - split; eexists; (split; [vm_compute; reflexivity|reflexivity]).
Qed.
