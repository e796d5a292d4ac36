(** * Lemmas and the examples behind PropReach.v *)
From Coq Require Import String.
From Coq Require Import List Arith NArith Bool Lia.
From Verif Require Import Str StrP Path Json Types Parse Map Prog Desc Resolve Top Run RunP Posix Demo SpecRun SpecLoad SpecCache SpecJson SpecTerm PosixP SpellP SimP LoadP GuarP CacheP ReachP PropCacheP PropTermP.
Import ListNotations.

Section Final.
Variable fs : fsys.
Hypothesis Hfs : sane_fs fs.
Variable js : str -> option json.
Hypothesis Hjs : forall s j, js s = Some j -> wf_json j.
Variable nm : nat -> str.
Hypothesis Hclash : no_clash fs js nm.
Notation Clients h := (Forall (fun c => client js nm (call_resolver c)) h).
Notation after h seeds := (snd (run_history fs (empty_state seeds) (map ECall h))).
Notation Inj := (fin_inj fs js Hjs nm).

Lemma reach_agree : forall e o o', orel ansrel e o -> o <> NoFuel -> orelT ansrel e o' -> same_end same_answer o o'.
Proof.
  intros e [a|m|] o' H Hn H'; [| |contradiction Hn; reflexivity]; cbn [orel] in H; destruct H as (x & -> & Hx); cbn [orelT] in H'; destruct H' as (y & -> & Hy); cbn [same_end].
  - eapply answers_agree; eassumption.
  - exists x. split; assumption.
Qed.
Lemma absolute_fuel : forall c f, call_absolute c -> call_absolute (with_fuel c f).
Proof. intros [R f0 base req|R f0 p] f H; exact H. Qed.
(** What a call that ended somewhere has without tables. *)
Lemma ended_fresh : forall c h seeds, client js nm (call_resolver c) -> steady fs js c -> Clients h ->
  orel ansrel (ev_fs fs (call_fresh fs js c)) (out fs (after h seeds) (call_prog c)).
Proof.
  intros c h seeds HR Hs Hh. apply (run_inv fs js nm); [apply (call_wg fs Hfs js nm Inj Hclash); assumption|apply fin_history; assumption].
Qed.
Lemma orel_ended : forall {A B} (V : A -> B -> Prop) e o, orel V e o -> o <> NoFuel -> e <> NoFuel.
Proof. intros A B V e [b|m|] H Hn; [| |contradiction Hn; reflexivity]; cbn [orel] in H; destruct H as (x & -> & _); discriminate. Qed.
Lemma fin_59 : forall c, client js nm (call_resolver c) -> steady fs js c -> call_absolute c ->
  forall h0 seeds0, Clients h0 -> out fs (after h0 seeds0) (call_prog c) <> NoFuel ->
  exists N, forall f h seeds, N <= f -> Clients h ->
  same_end same_answer (out fs (after h0 seeds0) (call_prog c)) (out fs (after h seeds) (call_prog (with_fuel c f))).
Proof.
  intros c HR Hs Ha h0 seeds0 Hh0 He. pose proof (ended_fresh c h0 seeds0 HR Hs Hh0) as H0.
  destruct (call_reach fs Hfs js nm Inj Hclash c HR Hs Ha (orel_ended _ _ _ H0 He)) as [N HN]. exists N. intros f h seeds Hf Hh.
  eapply reach_agree; [exact H0|exact He|]. apply (run_inv fs js nm); [apply HN, Hf|apply fin_history; assumption].
Qed.
Lemma fresh_ends : forall c, client js nm (call_resolver c) -> steady fs js c -> call_absolute c -> ev_fs fs (call_fresh fs js c) <> NoFuel ->
  exists N, forall f h seeds, N <= f -> Clients h -> out fs (after h seeds) (call_prog (with_fuel c f)) <> NoFuel.
Proof.
  intros c HR Hs Ha He. destruct (call_reach fs Hfs js nm Inj Hclash c HR Hs Ha He) as [N HN]. exists N. intros f h seeds Hf Hh.
  assert (H : orelT ansrel (ev_fs fs (call_fresh fs js c)) (out fs (after h seeds) (call_prog (with_fuel c f)))).
  { apply (run_inv fs js nm); [apply HN, Hf|apply fin_history; assumption]. }
  destruct (ev_fs fs (call_fresh fs js c)) as [x|m|]; [| |contradiction He; reflexivity]; cbn [orelT] in H; destruct H as (y & -> & _); discriminate.
Qed.
(** Calls of a list, each of which ended somewhere. *)
Lemma fin_59_sched : forall l, Forall (fun c => client js nm (call_resolver c) /\ steady fs js c /\ call_absolute c /\
    exists h0 seeds0, Clients h0 /\ out fs (after h0 seeds0) (call_prog c) <> NoFuel) l ->
  exists N, forall f h seeds sched, N <= f -> Clients h ->
  Forall2 (fun c p => (exists o k, p = Do o k) \/ forall h0 seeds0, Clients h0 -> out fs (after h0 seeds0) (call_prog c) <> NoFuel ->
      same_end same_answer (out fs (after h0 seeds0) (call_prog c)) (settled p))
    l (fst (run_sched fs sched (after h seeds) (map (fun c => call_prog (with_fuel c f)) l))).
Proof.
  intros l Hl.
  assert (HN : exists N, forall f, N <= f -> Forall (fun c => wg fs js nm (orelT ansrel (ev_fs fs (call_fresh fs js c))) (call_prog (with_fuel c f))) l).
  { induction Hl as [|c l (HR & Hs & Ha & h0 & seeds0 & Hh0 & He) _ [N IH]]; [exists 0; constructor|].
    destruct (call_reach fs Hfs js nm Inj Hclash c HR Hs Ha (orel_ended _ _ _ (ended_fresh c h0 seeds0 HR Hs Hh0) He)) as [N' HN'].
    exists (Nat.max N N'). intros f Hf. constructor; [apply HN'; lia|apply IH; lia]. }
  destruct HN as [N HN]. exists N. intros f h seeds sched Hf Hh.
  destruct (sched_inv fs js nm sched (map (fun c => call_prog (with_fuel c f)) l) (map (fun c => orelT ansrel (ev_fs fs (call_fresh fs js c))) l) (after h seeds)) as [H _].
  - specialize (HN f Hf). clear - HN. induction HN; cbn [map]; constructor; assumption.
  - apply fin_history; assumption.
  - clear HN. revert H. generalize (fst (run_sched fs sched (after h seeds) (map (fun c => call_prog (with_fuel c f)) l))).
    induction Hl as [|c l (HR & Hs & _ & h1 & seeds1 & Hh1 & He1) _ IH]; intros r H; inversion H as [|? p ? r' Hp Hr]; subst; constructor; [|apply IH, Hr].
    pose proof (orel_ended _ _ _ (ended_fresh c h1 seeds1 HR Hs Hh1) He1) as Hev.
    destruct p as [a|m| |o k]; [right|right|right|left; eauto]; intros h0 seeds0 Hh0 He; cbn [settled wg] in *;
      (eapply reach_agree; [apply ended_fresh; assumption|exact He|exact Hp]).
Qed.
End Final.

(** A package whose main field names its own directory: one request never ends, another does. *)
Lemma C59_ex_p : (sane_fs we /\ (forall s j, js_of Te s = Some j -> wf_json j) /\ no_clash we (js_of Te) nmc /\ client (js_of Te) nmc Re) /\
  (let c := CResolve Re 20 (lit "/r") (lit "./p/package.json") in
   steady we (js_of Te) c /\ call_absolute c /\ gives (out we st0 (call_prog c)) "/r/p/package.json") /\
  forall h seeds f, Forall (fun c => client (js_of Te) nmc (call_resolver c)) h ->
  out we (snd (run_history we (empty_state seeds) (map ECall h))) (call_prog (CResolve Re f (lit "/r") (lit "./p"))) = NoFuel.
Proof.
  split; [exact (conj (posix_sane _ _ _) (conj we_wf (conj we_clash we_client)))|]. split; [|exact empty_main_p].
  split; [split; [left; reflexivity|intros loc c t m H; discriminate H]|]. split; [split; [reflexivity|discriminate]|].
  eexists. split; vm_compute; reflexivity.
Qed.
