(** * Calls during which only files other than the description files change (C62) *)
From Coq Require Import String.
From Coq Require Import List Arith NArith Bool Lia.
From Verif Require Import Str Path Json Types Parse Map Prog Desc Resolve Top Run SpecLoad SpecCache SpecJson SpecNode SpecDesc SpecWorld SpecFull SpecStale SimP LoadP GuarP CacheP JsonP PropCacheP FullP SoundP AllowP MoveP EndP SpecEnd.
Import ListNotations.

(** The answers that may be given in [w]. *)
Definition told (w : world) : forall o, ans o -> Prop := fun o =>
  match o return ans o -> Prop with
  | OIsFile p => w_file w p
  | OIsDir p => w_dir w p
  | OExists p => w_exists w p
  | ORead p => w_read w p
  | OMtime p => w_mtime w p
  | OCanon p => w_canon w p
  | _ => fun _ => True
  end.
Lemma told_step : forall w fs st o, within (standing fs) w -> told w o (fst (step fs st o)).
Proof. intros w fs st o (H1 & H2 & H3 & H4 & H5 & H6). destruct o; cbn [told step fst]; auto; [apply H1|apply H2|apply H3|apply H4|apply H5|apply H6]; reflexivity. Qed.
Lemma wx_ok {A} : forall (ok ok' : forall o, ans o -> Prop) Q (p : prog A), (forall o x, ok' o x -> ok o x) -> wx ok Q p -> wx ok' Q p.
Proof. intros ok ok' Q p H. induction p as [a|m| |o k IH]; cbn [wx]; auto. Qed.

Section Calm.
Variable fs : fsys.
Hypothesis Hfs : sane_fs fs.
Variable js : str -> option json.
Variable nm : nat -> str.
Hypothesis Hinj : forall c v v', field_on fs js (nm c) (lit "exports") v -> field_on fs js (nm c) (lit "exports") v' -> to_string v = to_string v' -> v = v'.
Hypothesis Hclash : forall c v v', field_on fs js (nm c) (lit "exports") v -> field_on fs js (nm c) (lit "imports") v' -> hash_keys v' -> to_string v <> to_string v'.
Notation Inv := (Inv fs js nm).
Notation GC := (Gx fs js nm False).
Definition okw (w : world) (o : op) (x : ans o) : Prop := okx fs js nm False o x /\ told w o x.
Definition task {A} (x : world * (outcome A -> Prop)) (p : prog A) : Prop := wx (okw (fst x)) (snd x) p /\ GC p.
Lemma task_call : forall w c, client js nm (call_resolver c) -> keyed c -> task (w, allowed (some_desc fs) w c) (call_prog c).
Proof.
  intros w c Hc Hk. split; [|apply client_call; assumption]. cbn [fst snd]. apply (allowed_by w (wxm (okw w) false)).
  - repeat (split; [intros p x [_ Hx]; exact Hx|]). intros p x [_ Hx]; exact Hx.
  - exact Hk.
  - apply (loaded_right fs (wxm (okw w) false)). intros p. pose proof Hc as (_ & Hj & _). rewrite Hj.
    eapply wx_ok; [|apply (load_leq fs Hfs js nm Hinj Hclash (ex := False)); exact Hc]. intros o x [Hx _]; exact Hx.
  - intros En p pk (o & Ho & Hr). unfold has_desc, lookup_desc in Ho. rewrite En in Ho. injection Ho as <-. inversion Hr.
Qed.
Lemma task_step {A} : forall (x : world * (outcome A -> Prop)) fs' st p, calm nm fs fs' -> within (standing fs') (fst x) -> task x p -> Inv st ->
  task x (fst (thread_step fs' st p)) /\ Inv (snd (thread_step fs' st p)).
Proof.
  intros x fs' st [a|m| |o k] Hc Hw [H1 H2] Hi; cbn [thread_step]; try (split; [split|]; assumption).
  destruct H2 as [Hput HG]. destruct (calm_step fs js nm fs' st o Hc Hi Hput) as [Hx Hi']. pose proof (told_step (fst x) fs' st o Hw) as Ht.
  destruct (step fs' st o) as [y st']. cbn [fst snd] in *. split; [|exact Hi']. split; [apply H1; split; assumption|apply HG, Hx].
Qed.
Lemma tasks_step {A} : forall (l : list (prog A)) xs i fs' st, calm nm fs fs' -> (forall x, nth_error xs i = Some x -> within (standing fs') (fst x)) ->
  Forall2 task xs l -> Inv st -> Forall2 task xs (fst (step_nth fs' st i l)) /\ Inv (snd (step_nth fs' st i l)).
Proof.
  induction l as [|p l IH]; intros xs i fs' st Hc Hw Hl Hi; cbn [step_nth]; [destruct i; auto|].
  inversion Hl as [|x ? xs' ? Hp Hl']; subst. destruct i as [|i]; cbn [step_nth].
  - destruct (task_step x fs' st p Hc (Hw x eq_refl) Hp Hi) as [H1 H2]. destruct (thread_step fs' st p). cbn [fst snd] in *. split; [constructor|]; assumption.
  - destruct (IH xs' i fs' st Hc Hw Hl' Hi) as [H1 H2]. destruct (step_nth fs' st i l). cbn [fst snd] in *. split; [constructor|]; assumption.
Qed.
Lemma tasks_run {A} : forall sched (l : list (prog A)) xs st, Forall (fun e => calm nm fs (fst e) /\ forall x, nth_error xs (snd e) = Some x -> within (standing (fst e)) (fst x)) sched ->
  Forall2 task xs l -> Inv st -> Forall2 task xs (fst (run_moving sched st l)).
Proof.
  induction sched as [|[fs' i] sched IH]; intros l xs st Hs Hl Hi; cbn [run_moving]; [exact Hl|]. inversion Hs as [|? ? [H1 H2] Hs']; subst. cbn [fst snd] in *.
  destruct (tasks_step l xs i fs' st H1 H2 Hl Hi) as [H3 H4]. destruct (step_nth fs' st i l). cbn [fst snd] in *. apply IH; assumption.
Qed.
End Calm.
Lemma task_settled : forall fs js nm w Q (c : call) D p, task fs js nm (w, Q) p -> Q = allowed D w c -> allowed D w c (SpecCache.settled p).
Proof. intros fs js nm w Q c D p [Hp _] ->. cbn [fst snd] in Hp. destruct p as [a|m| |o k]; cbn [wx SpecCache.settled] in *; try exact Hp. destruct c; [left; reflexivity|apply SaBound]. Qed.
Fixpoint tasks (D : resolver -> path -> reading -> Prop) (sched : list (fsys * nat)) (i : nat) (l : list call) : list (world * (outcome answer -> Prop)) :=
  match l with [] => [] | c :: l => (among (during sched i), allowed D (among (during sched i)) c) :: tasks D sched (S i) l end.
Lemma tasks_at : forall D sched l i j, nth_error (tasks D sched i l) j =
  match nth_error l j with Some c => Some (among (during sched (i + j)), allowed D (among (during sched (i + j))) c) | None => None end.
Proof.
  intros D sched. induction l as [|c l IH]; intros i [|j]; cbn [tasks nth_error]; try reflexivity; [rewrite Nat.add_0_r; reflexivity|].
  rewrite IH. destruct (nth_error l j); [|reflexivity]. replace (S i + j) with (i + S j) by lia. reflexivity.
Qed.
Lemma fin_62_calm : forall fs, sane_fs fs -> forall js, (forall s j, js s = Some j -> wf_json j) -> forall nm, no_clash fs js nm ->
  forall h seeds l sched i c p, calm_history nm fs h js -> Forall (fun c => client js nm (call_resolver c) /\ keyed c) l -> Forall (fun e => calm nm fs (fst e)) sched ->
  nth_error l i = Some c -> nth_error (fst (run_moving sched (snd (run_history fs (empty_state seeds) h)) (map call_prog l))) i = Some p ->
  allowed (some_desc fs) (among (during sched i)) c (SpecCache.settled p).
Proof.
  intros fs Hfs js Hjs nm Hclash h seeds l sched i c p Hh Hl Hs Hc Hp.
  pose proof (fin_inj fs js Hjs nm) as Hinj. set (xs := tasks (some_desc fs) sched 0 l).
  assert (H : Forall2 (task fs js nm) xs (fst (run_moving sched (snd (run_history fs (empty_state seeds) h)) (map call_prog l)))).
  { apply tasks_run.
    - apply Forall_forall. intros [fs' j] Hin. cbn [fst snd]. split; [exact (proj1 (Forall_forall _ _) Hs _ Hin)|]. intros x Hx. unfold xs in Hx. rewrite tasks_at in Hx.
      destruct (nth_error l j); [|discriminate]. injection Hx as <-. cbn [fst Nat.add]. apply standing_among, Hin.
    - unfold xs. clear - Hl Hfs Hinj Hclash. generalize 0. induction Hl as [|c l [H1 H2] Hl IH]; intros n; cbn [tasks map]; constructor; [|apply IH]. apply task_call; assumption.
    - apply calm_hist; try assumption; [intros q; repeat split|apply inv_empty]. }
  assert (Hx : nth_error xs i = Some (among (during sched i), allowed (some_desc fs) (among (during sched i)) c)) by (unfold xs; rewrite tasks_at, Hc; reflexivity).
  pose proof (forall2_nth _ _ _ H i _ _ Hx Hp) as Ht. eapply task_settled; [exact Ht|reflexivity].
Qed.
