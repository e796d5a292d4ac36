(** * Texts matter only as what the parsers make of them: proofs for PropJsonText.v *)
From Coq Require Import String.
From Coq Require Import List Arith NArith Bool Lia.
From Verif Require Import Str StrP Path Json Types Parse Map Prog Desc Resolve Top Run SpecRun SpecCache SpecDesc SimP LoadP GuarP JsonText SpecJsonText JsonTextP SpecRetell.
Import ListNotations.

Section Retell.
Variable js : str -> option json.
Variable jc : str -> jsonc_res.
Definition told (x y : option str) : Prop :=
  match x, y with Some s, Some t => js s = js t /\ jc s = jc t | None, None => True | _, _ => False end.
Definition plain (o : op) : Prop := match o with ORead _ | OFileGet _ _ => False | _ => True end.
(** Two programs that do the same after readings that are [told] the same. *)
Inductive twin {A} : prog A -> prog A -> Prop :=
| TwRet : forall a, twin (Ret a) (Ret a)
| TwPanic : forall m, twin (Panic m) (Panic m)
| TwFuel : twin OutOfFuel OutOfFuel
| TwRead : forall p k k', (forall x y, told x y -> twin (k x) (k' y)) -> twin (Do (ORead p) k) (Do (ORead p) k')
| TwFile : forall r p k k', (forall x y, option_map snd x = option_map snd y -> twin (k x) (k' y)) -> twin (Do (OFileGet r p) k) (Do (OFileGet r p) k')
| TwPut : forall r p s s' t k k', (forall x, twin (k x) (k' x)) -> twin (Do (OFilePut r p s t) k) (Do (OFilePut r p s' t) k')
| TwDo : forall o k k', plain o -> (forall x, twin (k x) (k' x)) -> twin (Do o k) (Do o k').
Lemma twin_bind {A B} : forall (p p' : prog A) (f f' : A -> prog B), twin p p' -> (forall a, twin (f a) (f' a)) -> twin (bind p f) (bind p' f').
Proof.
  intros p p' f f' H Hf. induction H as [a|m| |p k k' _ IH|r p k k' _ IH|r p s s' t k k' _ IH|o k k' Ho _ IH]; cbn [bind]; try constructor; auto.
Qed.
Definition same (st st' : state) : Prop :=
  s_pkg st = s_pkg st' /\ s_exp st = s_exp st' /\ s_imp st = s_imp st' /\ s_dbg st = s_dbg st' /\ s_ord st = s_ord st' /\
  forall r k, option_map snd (s_file st r k) = option_map snd (s_file st' r k).
Definition told_fs (fs fs' : fsys) : Prop := forall p,
  f_file fs p = f_file fs' p /\ f_dir fs p = f_dir fs' p /\ f_exists fs p = f_exists fs' p /\ f_mtime fs p = f_mtime fs' p /\
  f_canon fs p = f_canon fs' p /\ told (f_read fs p) (f_read fs' p).
Lemma put_same : forall st st' r p s s' t, same st st' -> same (snd (step (mkFs (fun _ => false) (fun _ => false) (fun _ => false) (fun _ => None) (fun _ => MErr) (fun _ => None)) st (OFilePut r p s t)))
  (snd (step (mkFs (fun _ => false) (fun _ => false) (fun _ => false) (fun _ => None) (fun _ => MErr) (fun _ => None)) st' (OFilePut r p s' t))).
Proof.
  intros st st' r p s s' t (H1 & H2 & H3 & H4 & H5 & H6). cbn [step snd]. unfold same, set_file. cbn. repeat (split; [assumption|]). intros r0 k. unfold upd_path.
  destruct (Nat.eqb r0 r && comps_eqb k (components p)); [reflexivity|apply H6].
Qed.
Lemma step_plain : forall fs fs' st st' o, told_fs fs fs' -> same st st' -> plain o -> fst (step fs st o) = fst (step fs' st' o) /\ same (snd (step fs st o)) (snd (step fs' st' o)).
Proof.
  intros fs fs' st st' o Hf Hs Ho. pose proof Hs as (H1 & H2 & H3 & H4 & H5 & H6).
  destruct o; try contradiction; cbn [step fst snd].
  all: try (split; [|assumption]; try reflexivity; destruct (Hf p) as (E1 & E2 & E3 & E4 & E5 & _); congruence).
  all: try (split; [congruence|assumption]).
  all: try (split; [reflexivity|]; unfold same; cbn; repeat split; try assumption; congruence).
  - split; [reflexivity|]. apply (put_same st st' r p s s t Hs).
  - split; [congruence|]. unfold same, set_ord. cbn. rewrite H5. repeat split; assumption.
Qed.
Lemma step_twin {A} : forall (p p' : prog A), twin p p' -> forall fs fs' st st', told_fs fs fs' -> same st st' ->
  twin (fst (thread_step fs st p)) (fst (thread_step fs' st' p')) /\ same (snd (thread_step fs st p)) (snd (thread_step fs' st' p')).
Proof.
  intros p p' H fs fs' st st' Hf Hs. destruct H as [a|m| |p k k' Hk|r p k k' Hk|r p s s' t k k' Hk|o k k' Ho Hk]; cbn [thread_step].
  1-3: split; [constructor|exact Hs].
  - cbn [step]. split; [apply Hk, Hf|exact Hs].
  - cbn [step]. split; [apply Hk, Hs|exact Hs].
  - split; [apply Hk|]. exact (put_same st st' r p s s' t Hs).
  - destruct (step_plain fs fs' st st' o Hf Hs Ho) as [E1 E2]. destruct (step fs st o) as [x st1], (step fs' st' o) as [x' st1']. cbn [fst snd] in *. subst x'. split; [apply Hk|exact E2].
Qed.
Lemma run_step {A} : forall fs (p : prog A) st, run fs p st = match p with Do _ _ => run fs (fst (thread_step fs st p)) (snd (thread_step fs st p)) | _ => run fs p st end.
Proof. intros fs [a|m| |o k] st; try reflexivity. cbn [run thread_step]. destruct (step fs st o). reflexivity. Qed.
Lemma run_twin {A} : forall (p p' : prog A), twin p p' -> forall fs fs' st st', told_fs fs fs' -> same st st' ->
  fst (run fs p st) = fst (run fs' p' st') /\ same (snd (run fs p st)) (snd (run fs' p' st')).
Proof.
  intros p p' H. induction H as [a|m| |p k k' Hk IH|r p k k' Hk IH|r p s s' t k k' Hk IH|o k k' Ho Hk IH]; intros fs fs' st st' Hf Hs.
  1-3: split; [reflexivity|exact Hs].
  - cbn [run step]. apply IH; [apply Hf|exact Hf|exact Hs].
  - cbn [run step]. apply IH; [apply Hs|exact Hf|exact Hs].
  - cbn [run]. pose proof (put_same st st' r p s s' t Hs) as Hs'. cbn [step snd] in *. apply IH; assumption.
  - cbn [run]. destruct (step_plain fs fs' st st' o Hf Hs Ho) as [E1 E2]. destruct (step fs st o) as [x st1], (step fs' st' o) as [x' st1']. cbn [fst snd] in *. subst x'. apply IH; assumption.
Qed.
Lemma history_twin : forall h h' fs fs' st st', told_fs fs fs' -> same st st' ->
  Forall2 (fun e e' => match e, e' with ECall c, ECall c' => c = c' /\ twin (call_prog c) (call_prog c) | EFs f, EFs f' => told_fs f f' | _, _ => False end) h h' ->
  fst (fst (run_history fs st h)) = fst (fst (run_history fs' st' h')).
Proof.
  intros h h' fs fs' st st' Hf Hs H. revert fs fs' st st' Hf Hs. induction H as [|e e' h h' He _ IH]; intros fs fs' st st' Hf Hs; [reflexivity|].
  destruct e as [c|f], e' as [c'|f']; try contradiction; cbn [run_history].
  - destruct He as [<- Hc]. destruct (run_twin _ _ Hc fs fs' st st' Hf Hs) as [E1 E2]. destruct (run fs (call_prog c) st) as [o st1], (run fs' (call_prog c) st') as [o' st1']. cbn [fst snd] in *. subst o'.
    specialize (IH fs fs' st1 st1' Hf E2). destruct (run_history fs st1 h) as [[os a] b], (run_history fs' st1' h') as [[os' a'] b']. cbn [fst snd] in *. congruence.
  - apply IH; assumption.
Qed.
Lemma nth_twin {A} : forall (l l' : list (prog A)), Forall2 twin l l' -> forall i fs fs' st st', told_fs fs fs' -> same st st' ->
  Forall2 twin (fst (step_nth fs st i l)) (fst (step_nth fs' st' i l')) /\ same (snd (step_nth fs st i l)) (snd (step_nth fs' st' i l')).
Proof.
  intros l l' H. induction H as [|p p' l l' Hp Hl IH]; intros i fs fs' st st' Hf Hs; [destruct i; split; [constructor|exact Hs|constructor|exact Hs]|]. destruct i as [|i]; cbn [step_nth].
  - destruct (step_twin p p' Hp fs fs' st st' Hf Hs) as [H1 H2]. destruct (thread_step fs st p), (thread_step fs' st' p'). split; [constructor|]; assumption.
  - destruct (IH i fs fs' st st' Hf Hs) as [H1 H2]. destruct (step_nth fs st i l), (step_nth fs' st' i l'). split; [constructor|]; assumption.
Qed.
Lemma moving_twin {A} : forall sched sched', Forall2 (fun e e' => told_fs (fst e) (fst e') /\ snd e = snd e') sched sched' -> forall (l l' : list (prog A)) st st', Forall2 twin l l' -> same st st' ->
  map SpecCache.settled (fst (run_moving sched st l)) = map SpecCache.settled (fst (run_moving sched' st' l')).
Proof.
  intros sched sched' H. induction H as [|[fs i] [fs' i'] r r' [Hf Hi] _ IH]; intros l l' st st' Hl Hs; cbn [run_moving].
  - cbn [fst]. induction Hl as [|p p' l l' Hp _ IHl]; [reflexivity|]. cbn [map]. rewrite IHl. f_equal. destruct Hp; reflexivity.
  - cbn [fst snd] in *. subst i'. destruct (nth_twin l l' Hl i fs fs' st st' Hf Hs) as [H1 H2]. destruct (step_nth fs st i l), (step_nth fs' st' i l'). apply IH; assumption.
Qed.

(** ** The calls *)
Section Calls.
Variable R : resolver.
Hypothesis Hjs : rv_json R = js.
Hypothesis Hjc : rv_jsonc R = jc.
Notation T p := (twin p p).
Lemma twin_op {B} : forall o (k : ans o -> prog B), plain o -> (forall x, T (k x)) -> T (bind (act o) k).
Proof. intros o k Ho Hk. cbn [act bind]. apply TwDo; assumption. Qed.
Lemma twin_try {A B} : forall (p : prog (result A)) (f : A -> prog (result B)), T p -> (forall a, T (f a)) -> T (try_ p f).
Proof. intros p f Hp Hf. apply twin_bind; [exact Hp|]. intros [a|e]; [apply Hf|constructor]. Qed.
Lemma twin_lift {A} : forall c : pcomp A, T (lift c). Proof. intros [| |]; constructor. Qed.
Ltac op := apply twin_op; [exact I|].
Lemma twin_modified : forall p, T (get_last_modified p).
Proof. intros p. unfold get_last_modified. op. intros [| |]; constructor. Qed.
Lemma twin_update : forall p, T (need_update R p).
Proof.
  intros p. unfold need_update. op. intros [|]; cbn [negb]; [|constructor]. cbn [act bind]. apply TwFile. intros [[s t]|] [[s' t']|] E; try discriminate; [|constructor].
  cbn in E. injection E as ->. apply twin_try; [apply twin_modified|]. intros n. destruct (N.ltb n t'); constructor.
Qed.
Lemma twin_check : forall d p, T (check_entry R d p).
Proof.
  intros d p. unfold check_entry. apply twin_bind; [apply twin_update|]. intros u. apply twin_bind; [destruct u as [[|]|]; try constructor; destruct (rv_debug R); [|constructor]|].
  - apply TwDo; [exact I|]. constructor.
  - intros _. op. constructor.
Qed.
Lemma twin_store : forall p fp, T (parse_and_store R p fp).
Proof.
  intros p fp. unfold parse_and_store, parse_description_file. apply twin_try.
  2:{ intros pk. op. constructor. }
  apply twin_bind.
  { unfold dbg_check. destruct (rv_debug R); [|constructor]. op. intros [|]; [constructor|]. apply TwDo; [exact I|]. constructor. }
  intros _. unfold read_to_string. cbn [act bind]. apply TwRead. intros [s|] [s'|] Ht; try contradiction; [|constructor]. destruct Ht as [Ht _].
  unfold get_last_modified, try_. cbn [act bind]. apply TwDo; [exact I|]. intros [| |t]; [constructor|constructor|]. cbn [act bind]. apply TwPut. intros _. cbn [bind].
  rewrite Hjs, <- Ht. destruct (js s) as [j|]; [|constructor].
  apply twin_bind; [apply twin_lift|]. intros af. apply TwDo; [exact I|]. intros seed. cbn [bind].
  apply twin_try; [|intros ex; apply twin_try; [|intros im]].
  - unfold load_exports. destruct (jget j (lit "exports")) as [v|]; [|constructor]. op. intros [t0|]; [constructor|]. apply twin_try; [apply twin_lift|]. intros t0. op. constructor.
  - unfold load_imports. destruct (jget j (lit "imports")) as [v|]; [|constructor]. op. intros [t0|]; [constructor|]. apply twin_try; [apply twin_lift|]. intros t0. op. constructor.
  - cbv zeta. destruct (side_effects_of fp j); constructor.
Qed.
Lemma twin_find : forall f p n, T (find_up f p n).
Proof. induction f as [|f IH]; intros p n; cbn [find_up]; [constructor|]. op. intros [|]; [constructor|]. destruct (parent p); [apply IH|constructor]. Qed.
Lemma twin_none : forall f p, T (none_loop R f p).
Proof. induction f as [|f IH]; intros p; cbn [none_loop]; [constructor|]. op. intros [|]; [|apply IH]. op. intros _. destruct (parent p); [apply IH|constructor]. Qed.
Lemma twin_load : forall f p, T (load_pkg_file R f p).
Proof.
  induction f as [|f IH]; intros p; cbn [load_pkg_file]; [constructor|]. destruct (o_desc (rv_opts R)) as [name|]; [|constructor].
  op. intros [|]; cbn [negb]; [|destruct (parent p); [apply IH|constructor]]. op. intros [v|].
  - apply twin_try; [apply twin_check|]. intros [|]; cbn [negb]; [apply twin_store|constructor].
  - op. intros [|]; [apply twin_store|]. apply twin_bind; [apply twin_find|]. intros [d|]; [apply IH|apply twin_none].
Qed.
Lemma twin_resolve : forall f base req, T (resolve R f base req).
Proof.
  intros f base req. apply (closed_resolve_text (fun A p => twin p p)); try (intros; constructor; fail).
  - intros A B p g Hp Hg. apply twin_bind; assumption.
  - intros o Ho. apply TwDo; [destruct o; try exact I; contradiction|]. constructor.
  - apply twin_load.
  - intros A p e k He Hk. cbn [act bind]. apply TwRead. intros [s|] [s'|] Ht; try contradiction; [|exact He]. rewrite Hjc. destruct Ht as [_ <-]. apply Hk.
Qed.
End Calls.
Lemma twin_call : forall c, rv_json (call_resolver c) = js -> rv_jsonc (call_resolver c) = jc -> twin (call_prog c) (call_prog c).
Proof.
  intros [R f base req|R f p] H1 H2; cbn [call_prog call_resolver] in *.
  - apply twin_bind; [apply twin_resolve; assumption|]. constructor.
  - apply twin_bind; [|constructor]. unfold load_side_effects. apply twin_try; [apply twin_load; assumption|]. intros [pk|]; [|constructor]. destruct (o_desc _); constructor.
Qed.
End Retell.

Lemma retold_told : forall float jc x y, retold float jc x y -> told (from_str float) jc x y.
Proof.
  intros float jc [s|] [t|] H; try exact H. destruct H as [H1 H2]. split; [|exact H2]. destruct (from_str float s) as [v|] eqn:Es.
  - apply reads_document, H1, reads_document in Es. symmetry. exact Es.
  - destruct (from_str float t) as [v|] eqn:Et; [|reflexivity]. apply reads_document, H1, reads_document in Et. congruence.
Qed.
Lemma retold_told_fs : forall float jc fs fs', retold_fs float jc fs fs' -> told_fs (from_str float) jc fs fs'.
Proof. intros float jc fs fs' H p. destruct (H p) as (H1 & H2 & H3 & H4 & H5 & H6). repeat (split; [assumption|]). apply retold_told, H6. Qed.
Lemma same_refl : forall st, same st st. Proof. intros st. repeat split. Qed.
Lemma fin_64_history : forall float jc h h' fs fs' st, retold_fs float jc fs fs' -> Forall2 (retold_event float jc) h h' ->
  Forall (fun e => match e with ECall c => rv_json (call_resolver c) = from_str float /\ rv_jsonc (call_resolver c) = jc | _ => True end) h ->
  fst (fst (run_history fs st h)) = fst (fst (run_history fs' st h')).
Proof.
  intros float jc h h' fs fs' st Hf Hh Hc. apply (history_twin (from_str float) jc); [apply retold_told_fs, Hf|apply same_refl|].
  induction Hh as [|e e' h h' He _ IH]; [constructor|]. inversion Hc as [|? ? Hc1 Hc2]; subst. constructor; [|apply IH, Hc2].
  destruct e as [c|f], e' as [c'|f']; try exact He; [|apply retold_told_fs, He]. destruct Hc1. split; [exact He|apply twin_call; assumption].
Qed.
Lemma fin_64_moving : forall float jc sched sched' l st, Forall2 (fun e e' => retold_fs float jc (fst e) (fst e') /\ snd e = snd e') sched sched' ->
  Forall (fun c => rv_json (call_resolver c) = from_str float /\ rv_jsonc (call_resolver c) = jc) l ->
  map SpecCache.settled (fst (run_moving sched st (map call_prog l))) = map SpecCache.settled (fst (run_moving sched' st (map call_prog l))).
Proof.
  intros float jc sched sched' l st Hs Hl. apply (moving_twin (from_str float) jc); [| |apply same_refl].
  - induction Hs as [|e e' r r' [H1 H2] _ IH]; constructor; [split; [apply retold_told_fs, H1|exact H2]|exact IH].
  - induction Hl as [|c l [H1 H2] _ IH]; constructor; [apply twin_call; assumption|exact IH].
Qed.
