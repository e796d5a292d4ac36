(** * Debug builds against release builds: proofs for PropDebug.v *)
From Coq Require Import String.
From Coq Require Import List Arith NArith Bool Lia.
From Verif Require Import Str StrP Path PathP Json Types Parse Map Prog Desc Resolve Top Run Exec ExecP SpecApi ApiP SpecLoad SimP LoadP GuarP SpecDesc SpecCache SpecChange RunP CacheP SpecDebug.
Import ListNotations.

(** ** Relations between the resolutions with two loaders *)
Section Closed2.
Variable P0 : forall A, prog A -> prog A -> Prop.
Notation P p q := (P0 _ p q).
Hypothesis rel_refl : forall A (p : prog A), P p p.
Hypothesis rel_bind : forall A B (p q : prog A) (f g : A -> prog B), P p q -> (forall a, P (f a) (g a)) -> P (bind p f) (bind q g).
Lemma rel_try {A B} : forall (p q : prog (result A)) (f g : A -> prog (result B)), P p q -> (forall a, P (f a) (g a)) -> P (try_ p f) (try_ q g).
Proof. intros. unfold try_. apply rel_bind; [assumption|]. intros [a|e]; [auto|apply rel_refl]. Qed.
Lemma rel_and_then : forall p q f g, P p q -> (forall i, P (f i) (g i)) -> P (and_then p f) (and_then q g).
Proof. intros. unfold and_then. apply rel_bind; [assumption|]. intros [r|i|e i]; [apply rel_refl|auto|apply rel_refl]. Qed.
Ltac same := match goal with |- P0 _ ?p ?q => constr_eq p q; apply rel_refl end.
Ltac g1 := first [same|lazymatch goal with
  | |- P0 _ (try_ _ _) _ => apply rel_try; [|intros ?]
  | |- P0 _ (and_then _ _) _ => apply rel_and_then; [|intros ?]
  | |- P0 _ (bind _ _) _ => apply rel_bind; [|intros ?]
  | |- P0 _ (let _ := _ in _) _ => cbv zeta
  | |- P0 _ (match ?x with _ => _ end) _ => destruct x
  | |- P0 _ _ _ => match goal with H : forall _, P0 _ _ _ |- _ => apply H end
  end].
Ltac g := repeat g1; auto.
Variable R : resolver.
Variables load load' : path -> prog (result (option pkg)).
Hypothesis Hload : forall p, P (load p) (load' p).
Lemma rel_imports : forall fuel o i, P (imports_apply R load fuel o i) (imports_apply R load' fuel o i).
Proof. induction fuel as [|f IH]; intros o i; cbn [imports_apply]; g. Qed.
Lemma rel_mfl : forall rad rad' fuel pk i l mi, (forall i, P (rad i) (rad' i)) -> P (main_field_loop R rad fuel pk i l mi) (main_field_loop R rad' fuel pk i l mi).
Proof. intros rad rad' fuel pk i l mi H. revert mi. induction l as [|f l IH]; intros mi; cbn [main_field_loop]; g. Qed.
Lemma rel_mf : forall rad rad' fuel o i, (forall i, P (rad i) (rad' i)) -> P (main_field_apply R rad fuel o i) (main_field_apply R rad' fuel o i).
Proof. intros. unfold main_field_apply. g. apply rel_mfl; auto. Qed.
Lemma rel_mfil : forall fuel o i l mi, P (main_file_loop R load fuel o i l mi) (main_file_loop R load' fuel o i l mi).
Proof. intros fuel o i l. induction l as [|f l IH]; intros mi; cbn [main_file_loop]; g; apply rel_imports. Qed.
Lemma rel_dir : forall fuel i, P (resolve_as_dir R load fuel i) (resolve_as_dir R load' fuel i).
Proof.
  induction fuel as [|f IH]; intros i; cbn [resolve_as_dir]; [apply rel_refl|]. g; [apply rel_mf; auto|apply rel_mfil].
Qed.
Lemma rel_level : forall fuel i, P (modules_level R load fuel i) (modules_level R load' fuel i).
Proof. intros. unfold modules_level. g; try apply rel_imports; try apply rel_dir. Qed.
Lemma rel_modules : forall fuel i, P (resolve_as_modules R load fuel i) (resolve_as_modules R load' fuel i).
Proof. induction fuel as [|f IH]; intros i; cbn [resolve_as_modules]; [apply rel_refl|]. apply rel_bind; [apply rel_level|intros a]. g. Qed.
Lemma rel_al : forall rec rec' i l, (forall i, P (rec i) (rec' i)) -> P (alias_loop rec i l) (alias_loop rec' i l).
Proof. intros rec rec' i l H. induction l as [|[k v] l IH]; cbn [alias_loop]; g. Qed.
Lemma rel_resolve_ : forall fuel i, P (resolve_ R load fuel i) (resolve_ R load' fuel i).
Proof.
  induction fuel as [|f IH]; intros i; cbn [resolve_]; [apply rel_refl|].
  apply rel_bind; [|intros a; g]. apply rel_and_then; [apply rel_and_then; [apply rel_and_then|]|].
  - unfold alias_apply. destruct (contains (i_path i) MODULE); [apply rel_refl|]. apply rel_al. exact IH.
  - intros. unfold prefer_relative_apply. g.
  - intros. unfold pkg_step. repeat first [same|apply rel_imports|apply Hload|g1].
  - intros. unfold final_step. repeat first [same|apply rel_dir|apply rel_modules|g1].
Qed.
Ltac h1 := first [same|lazymatch goal with
  | |- P0 _ (resolve_ _ _ _ _) _ => apply rel_resolve_
  | |- P0 _ (try_ _ _) _ => apply rel_try; [|intros ?]
  | |- P0 _ (bind _ _) _ => apply rel_bind; [|intros ?]
  | |- P0 _ (let _ := _ in _) _ => cbv zeta
  | |- P0 _ (match ?x with _ => _ end) _ => destruct x
  | IH : forall _, P0 _ (parse_file_to_value _ _ _ _) _ |- P0 _ (parse_file_to_value _ _ _ _) _ => apply IH
  end].
Lemma rel_parse : forall fuel l, P (parse_file_to_value R load fuel l) (parse_file_to_value R load' fuel l).
Proof. induction fuel as [|f IH]; intros l; cbn [parse_file_to_value]; repeat h1. Qed.
Lemma rel_tpl : forall fuel s l, P (ts_paths_loop R load fuel s l) (ts_paths_loop R load' fuel s l).
Proof. intros fuel s l. induction l as [|p l IH]; cbn [ts_paths_loop]; repeat h1; exact IH. Qed.
Lemma rel_tel : forall fuel i l, P (ts_entries_loop R load fuel i l) (ts_entries_loop R load' fuel i l).
Proof. intros fuel i l. induction l as [|[k v] l IH]; cbn [ts_entries_loop]; repeat first [apply rel_tpl|h1]; exact IH. Qed.
Lemma rel_ts : forall fuel i l, P (resolve_with_tsconfig R load fuel i l) (resolve_with_tsconfig R load' fuel i l).
Proof. intros. unfold resolve_with_tsconfig, create_match_list. repeat first [apply rel_parse|apply rel_tel|h1]. Qed.
End Closed2.

(** ** A debug program and its release version *)
Inductive er {A} : prog A -> prog A -> Prop :=
| ErRet a : er (Ret a) (Ret a)
| ErPanic m : er (Panic m) (Panic m)
| ErFuel : er OutOfFuel OutOfFuel
| ErDo o k k' : (forall x, er (k x) (k' x)) -> er (Do o k) (Do o k')
| ErHas r p k q m : double_read m -> k true = Panic m -> er (k false) q -> er (Do (ODbgHas r p) k) q
| ErAdd r p k q : (forall x, er (k x) q) -> er (Do (ODbgAdd r p) k) q
| ErDel r p k q : (forall x, er (k x) q) -> er (Do (ODbgDel r p) k) q.
Lemma er_refl {A} : forall p : prog A, er p p.
Proof. induction p; constructor; auto. Qed.
Lemma er_bind_post {A B} : forall (p q : prog A) (f g : A -> prog B) tr Q, er p q -> sat anyok (fun _ => True) tr Q p ->
  (forall t a, Q t a -> er (f a) (g a)) -> er (bind p f) (bind q g).
Proof.
  intros p q f g tr Q H. revert tr. induction H as [a|m| |o k k' H IH|r p k q m Hm E H IH|r p k q H IH|r p k q H IH]; intros tr Hs Hf; cbn [bind].
  - cbn [sat] in Hs. eapply Hf. exact Hs.
  - constructor.
  - constructor.
  - constructor. intros x. destruct Hs as [_ Hs]. eapply IH; [apply (Hs x I)|exact Hf].
  - econstructor; [exact Hm|rewrite E; reflexivity|]. destruct Hs as [_ Hs]. eapply IH; [apply (Hs false I)|exact Hf].
  - constructor. intros x. destruct Hs as [_ Hs]. eapply IH; [apply (Hs x I)|exact Hf].
  - constructor. intros x. destruct Hs as [_ Hs]. eapply IH; [apply (Hs x I)|exact Hf].
Qed.
Lemma sat_any {A} : forall (p : prog A) tr, sat anyok (fun _ => True) tr (fun _ _ => True) p.
Proof. induction p; intros tr; cbn [sat]; auto. Qed.
Lemma er_bind {A B} : forall (p q : prog A) (f g : A -> prog B), er p q -> (forall a, er (f a) (g a)) -> er (bind p f) (bind q g).
Proof. intros p q f g H Hf. eapply er_bind_post with (tr := []); [exact H|apply sat_any|]. intros t a _. apply Hf. Qed.
Lemma er_try {A B} : forall (p q : prog (result A)) (f g : A -> prog (result B)), er p q -> (forall a, er (f a) (g a)) -> er (try_ p f) (try_ q g).
Proof. apply (rel_try (fun A => @er A)); [intros; apply er_refl|intros; apply er_bind; assumption]. Qed.

Section L.
Variable R : resolver.
Notation R' := (released R).
Lemma er_dbg : forall fp, er (dbg_check R fp) (dbg_check R' fp).
Proof.
  intros fp. unfold dbg_check. cbn [released rv_debug]. destruct (rv_debug R); [|constructor]. cbn [act bind].
  eapply ErHas; [exists fp; reflexivity|reflexivity|]. apply ErAdd. intros []. constructor.
Qed.
Lemma er_check : forall d p, er (check_entry R d p) (check_entry R' d p).
Proof.
  intros d p. unfold check_entry. apply er_bind; [apply er_refl|]. intros u. apply er_bind.
  - destruct u as [[|]|]; try apply er_refl. cbn [released rv_debug]. destruct (rv_debug R); [|constructor]. apply ErDel. intros []. constructor.
  - intros _. apply er_refl.
Qed.
Lemma er_store : forall p fp, er (parse_and_store R p fp) (parse_and_store R' p fp).
Proof.
  intros p fp. unfold parse_and_store. apply er_try; [|intros; apply er_refl]. unfold parse_description_file.
  apply er_bind; [apply er_dbg|]. intros _. apply er_refl.
Qed.
Lemma er_load : forall f p, er (load_pkg_file R f p) (load_pkg_file R' f p).
Proof.
  induction f as [|f IH]; intros p; cbn [load_pkg_file]; [constructor|]. change (o_desc (rv_opts R')) with (o_desc (rv_opts R)).
  destruct (o_desc (rv_opts R)) as [name|]; [|constructor]. apply er_bind; [apply er_refl|]. intros [|]; cbn [negb].
  2:{ destruct (parent p); [apply IH|constructor]. }
  cbv zeta. apply er_bind; [apply er_refl|]. intros [v|].
  - apply er_try; [apply er_check|]. intros [|]; cbn [negb]; [apply er_store|constructor].
  - apply er_bind; [apply er_refl|]. intros [|]; [apply er_store|]. apply er_bind; [apply er_refl|]. intros [d|]; [apply IH|apply er_refl].
Qed.
Lemma er_stats : forall load load', (forall p, er (load p) (load' p)) -> forall fuel i,
  er (match o_tsconfig (rv_opts R) with Some location => resolve_with_tsconfig R load fuel i location | None => resolve_ R load fuel i end)
     (match o_tsconfig (rv_opts R) with Some location => resolve_with_tsconfig R load' fuel i location | None => resolve_ R load' fuel i end).
Proof.
  intros load load' H fuel i. destruct (o_tsconfig (rv_opts R)) as [loc|].
  - apply (rel_ts (fun A => @er A)); [intros; apply er_refl|intros; apply er_bind; assumption|exact H].
  - apply (rel_resolve_ (fun A => @er A)); [intros; apply er_refl|intros; apply er_bind; assumption|exact H].
Qed.
Lemma er_resolve : forall fuel base req, er (resolve R fuel base req) (resolve R' fuel base req).
Proof.
  intros fuel base req. unfold resolve, resolve_with. cbv zeta. eapply er_bind_post with (tr := []) (Q := fin R).
  - exact (er_stats _ _ (er_load fuel) fuel (mkInfo base (parse req))).
  - assert (W : forall t p, sat anyok no_canon t (fin R) p -> sat anyok (fun _ => True) t (fin R) p).
    { intros t p H. eapply sat_mono; [|apply (sat_weaken anyok no_canon (fun _ => True) p t (fin R)); [auto|exact H]]. intros t' a [Ha _]. exact Ha. }
    apply W. destruct (o_tsconfig (rv_opts R)); [apply sat_tsconfig|apply sat_resolve_any].
  - intros t [[i|]|i|e i] Hf; try apply er_refl. cbn [fin] in Hf. destruct Hf as (_ & Ht & _).
    unfold normalize_result. rewrite Ht. cbn [str_eqb negb]. rewrite !andb_false_r. apply er_refl.
Qed.
End L.
Lemma er_call : forall c, er (call_prog c) (call_prog (released_call c)).
Proof.
  intros [R f base req|R f p]; cbn [call_prog released_call].
  - apply er_bind; [apply er_resolve|]. intros; apply er_refl.
  - apply er_bind; [|intros; apply er_refl]. unfold load_side_effects. apply er_try; [apply er_load|]. intros; apply er_refl.
Qed.

(** ** Release programs do not ask for the record *)
Definition asks (o : op) : Prop := match o with ODbgHas _ _ => True | _ => False end.
Fixpoint quiet {A} (p : prog A) : Prop :=
  match p with Do o k => ~ asks o /\ forall x, quiet (k x) | _ => True end.
Lemma quiet_bind {A B} : forall (p : prog A) (f : A -> prog B), quiet p -> (forall a, quiet (f a)) -> quiet (bind p f).
Proof. induction p as [a|m| |o k IH]; intros f Hp Hf; cbn [bind quiet] in *; auto. destruct Hp as [Ho Hk]. split; auto. Qed.
Lemma quiet_act : forall o, ~ asks o -> quiet (act o).
Proof. intros o H. split; [exact H|]. intros x. exact I. Qed.
Lemma quiet_try {A B} : forall (p : prog (result A)) (f : A -> prog (result B)), quiet p -> (forall a, quiet (f a)) -> quiet (try_ p f).
Proof. intros. apply quiet_bind; [assumption|]. intros [a|e]; [auto|exact I]. Qed.
Lemma quiet_lift {A} : forall c : pcomp A, quiet (lift c). Proof. intros [| |]; exact I. Qed.
Ltac q1 := lazymatch goal with
  | |- quiet (Ret _) => exact I
  | |- quiet (Panic _) => exact I
  | |- quiet OutOfFuel => exact I
  | |- quiet (lift _) => apply quiet_lift
  | |- quiet (act _) => apply quiet_act; intros HH; exact HH
  | |- quiet (try_ _ _) => apply quiet_try; [|intros ?]
  | |- quiet (bind _ _) => apply quiet_bind; [|intros ?]
  | |- quiet (match ?x with _ => _ end) => destruct x
  end.
Section Q.
Variable R : resolver.
Hypothesis Hr : rv_debug R = false.
Lemma quiet_exports : forall j, quiet (load_exports R j).
Proof. intros. unfold load_exports. cbv zeta. repeat q1. Qed.
Lemma quiet_imports : forall j, quiet (load_imports R j).
Proof. intros. unfold load_imports. cbv zeta. repeat q1. Qed.
Lemma quiet_parse : forall p fp, quiet (parse_description_file R p fp).
Proof.
  intros. unfold parse_description_file, dbg_check, read_to_string, get_last_modified. rewrite Hr. cbv zeta.
  repeat (q1 || apply quiet_exports || apply quiet_imports).
Qed.
Lemma quiet_store : forall p fp, quiet (parse_and_store R p fp).
Proof. intros. unfold parse_and_store. repeat (apply quiet_parse || q1). Qed.
Lemma quiet_up : forall f p n, quiet (find_up f p n).
Proof. induction f as [|f IH]; intros p n; cbn [find_up]; repeat (apply IH || q1). Qed.
Lemma quiet_none : forall f p, quiet (none_loop R f p).
Proof. induction f as [|f IH]; intros p; cbn [none_loop]; repeat (apply IH || q1). Qed.
Lemma quiet_check : forall d p, quiet (check_entry R d p).
Proof. intros. unfold check_entry, need_update, get_last_modified. rewrite Hr. repeat q1. Qed.
Lemma quiet_load : forall f p, quiet (load_pkg_file R f p).
Proof.
  induction f as [|f IH]; intros p; cbn [load_pkg_file]; cbv zeta; repeat (apply IH || apply quiet_store || apply quiet_up || apply quiet_none || apply quiet_check || q1).
Qed.
Lemma quiet_resolve : forall f base req, quiet (resolve R f base req).
Proof.
  intros. apply (closed_resolve_with (fun A => @quiet A)); try (intros; exact I).
  - intros; apply quiet_bind; assumption.
  - intros o Ho. apply quiet_act. destruct o; try (intros HH; exact HH). contradiction.
  - apply quiet_load.
Qed.
End Q.
Lemma quiet_call : forall c, quiet (call_prog (released_call c)).
Proof.
  intros [R f base req|R f p]; cbn [call_prog released_call].
  - apply quiet_bind; [apply quiet_resolve; reflexivity|]. intros; exact I.
  - apply quiet_bind; [|intros; exact I]. unfold load_side_effects. apply quiet_try; [apply quiet_load; reflexivity|].
    intros [pk|]; [|exact I]. destruct (o_desc (rv_opts (released R))); exact I.
Qed.

(** ** Executions *)
Lemma step_same : forall fs st st' o, same_tables st st' -> ~ asks o ->
  fst (step fs st o) = fst (step fs st' o) /\ same_tables (snd (step fs st o)) (snd (step fs st' o)).
Proof.
  intros fs st st' o (H1 & H2 & H3 & H4 & H5) Ho. unfold same_tables.
  destruct o; cbn [step fst snd asks] in *; try tauto; cbn; rewrite ?H1, ?H2, ?H3, ?H4, ?H5; auto 10.
Qed.
Lemma same_refl : forall st, same_tables st st. Proof. intros. unfold same_tables. auto 10. Qed.
Definition sim {A} (p q : prog A) : Prop := (er p q /\ quiet q) \/ exists m, p = Panic m /\ double_read m.
Lemma sim_follows {A} : forall p q : prog A, sim p q -> follows p q.
Proof.
  intros p q [[H _]|(m & -> & H)]; [|right; exact H]. destruct H; cbn [follows]; auto.
Qed.
Lemma sim_step {A} : forall fs st st' (p q : prog A), sim p q -> same_tables st st' ->
  (sim (fst (thread_step fs st p)) q /\ same_tables (snd (thread_step fs st p)) st') \/
  (sim (fst (thread_step fs st p)) (fst (thread_step fs st' q)) /\ same_tables (snd (thread_step fs st p)) (snd (thread_step fs st' q))).
Proof.
  intros fs st st' p q [[H Hq]|(m & -> & H)] Hs.
  2:{ left. split; [right; exists m; auto|exact Hs]. }
  destruct H as [a|m| |o k k' H|r p k q m Hm E H|r p k q H|r p k q H]; cbn [thread_step fst snd].
  1,2,3: left; split; [left; split; [constructor|exact I]|exact Hs].
  - right. destruct Hq as [Ho Hk]. destruct (step_same fs st st' o Hs Ho) as [E1 E2].
    destruct (step fs st o) as [x s], (step fs st' o) as [x' s']. cbn [fst snd] in *. subst x'. split; [left; split; auto|exact E2].
  - left. cbn [step fst snd]. destruct (s_dbg st r (components p)); (split; [|exact Hs]).
    + right. exists m. auto.
    + left. auto.
  - left. cbn [step fst snd]. split; [left; auto|exact Hs].
  - left. cbn [step fst snd]. split; [left; auto|exact Hs].
Qed.
Lemma sim_step_nth {A} : forall fs st st' (ps qs : list (prog A)) i, Forall2 sim ps qs -> same_tables st st' ->
  (Forall2 sim (fst (step_nth fs st i ps)) qs /\ same_tables (snd (step_nth fs st i ps)) st') \/
  (Forall2 sim (fst (step_nth fs st i ps)) (fst (step_nth fs st' i qs)) /\ same_tables (snd (step_nth fs st i ps)) (snd (step_nth fs st' i qs))).
Proof.
  intros fs st st' ps qs i H Hs. revert i. induction H as [|p q ps qs Hpq H IH]; intros i; cbn [step_nth].
  - left. destruct i; (split; [constructor|exact Hs]).
  - destruct i as [|i]; cbn [step_nth].
    + destruct (sim_step fs st st' p q Hpq Hs) as [[H1 H2]|[H1 H2]].
      * left. destruct (thread_step fs st p). cbn [fst snd] in *. split; [constructor; assumption|assumption].
      * right. destruct (thread_step fs st p), (thread_step fs st' q). cbn [fst snd] in *. split; [constructor; assumption|assumption].
    + destruct (IH i) as [[H1 H2]|[H1 H2]].
      * left. destruct (step_nth fs st i ps). cbn [fst snd] in *. split; [constructor; assumption|assumption].
      * right. destruct (step_nth fs st i ps), (step_nth fs st' i qs). cbn [fst snd] in *. split; [constructor; assumption|assumption].
Qed.
Lemma sim_moving {A} : forall sched st st' (ps qs : list (prog A)), Forall2 sim ps qs -> same_tables st st' ->
  exists sched', part sched' sched /\ Forall2 sim (fst (run_moving sched st ps)) (fst (run_moving sched' st' qs)) /\
    same_tables (snd (run_moving sched st ps)) (snd (run_moving sched' st' qs)).
Proof.
  induction sched as [|[fs i] sched IH]; intros st st' ps qs H Hs.
  - exists []. split; [constructor|]. auto.
  - cbn [run_moving]. destruct (sim_step_nth fs st st' ps qs i H Hs) as [[H1 H2]|[H1 H2]].
    + destruct (step_nth fs st i ps) as [ps1 st1]. cbn [fst snd] in *. destruct (IH _ _ _ _ H1 H2) as (sched' & Hp & H').
      exists sched'. split; [constructor; exact Hp|exact H'].
    + destruct (step_nth fs st i ps) as [ps1 st1]. destruct (step_nth fs st' i qs) as [qs1 st1'] eqn:E. cbn [fst snd] in *.
      destruct (IH _ _ _ _ H1 H2) as (sched' & Hp & H'). exists ((fs, i) :: sched'). split; [apply PKeep; exact Hp|].
      cbn [run_moving]. rewrite E. exact H'.
Qed.
Lemma sim_calls : forall cs, Forall2 sim (map call_prog cs) (map call_prog (map released_call cs)).
Proof. induction cs as [|c cs IH]; constructor; [left; split; [apply er_call|apply quiet_call]|exact IH]. Qed.
Lemma follow_moving : forall sched st cs, exists sched', part sched' sched /\
  Forall2 follows (fst (run_moving sched st (map call_prog cs))) (fst (run_moving sched' st (map call_prog (map released_call cs)))) /\
  same_tables (snd (run_moving sched st (map call_prog cs))) (snd (run_moving sched' st (map call_prog (map released_call cs)))).
Proof.
  intros. destruct (sim_moving sched st st _ _ (sim_calls cs) (same_refl st)) as (sched' & Hp & H & Ht).
  exists sched'. split; [exact Hp|]. split; [|exact Ht]. induction H; constructor; [apply sim_follows; assumption|assumption].
Qed.

(** ** Runs *)
(** No question about the record is answered with yes. *)
Fixpoint wc {A} (fs : fsys) (Q : outcome A -> state -> Prop) (p : prog A) (st : state) : Prop :=
  match p with
  | Ret a => Q (Done a) st
  | Panic m => Q (Panicked m) st
  | OutOfFuel => Q NoFuel st
  | Do o k => match o with ODbgHas r x => s_dbg st r (components x) = false | _ => True end /\
      wc fs Q (k (fst (step fs st o))) (snd (step fs st o))
  end.
Lemma wc_mono {A} : forall fs (p : prog A) (Q Q' : outcome A -> state -> Prop) st, (forall r s, Q r s -> Q' r s) -> wc fs Q p st -> wc fs Q' p st.
Proof. intros fs p Q Q' st H. revert st. induction p as [a|m| |o k IH]; intros st; cbn [wc]; auto. intros [Ha Hk]. split; auto. Qed.
Lemma wc_bind {A B} : forall fs (p : prog A) (f : A -> prog B) (Q : outcome B -> state -> Prop) st,
  wc fs (fun r s => match r with Done a => wc fs Q (f a) s | Panicked m => Q (Panicked m) s | NoFuel => Q NoFuel s end) p st ->
  wc fs Q (bind p f) st.
Proof. intros fs p f Q. induction p as [a|m| |o k IH]; intros st; cbn [wc bind]; auto. intros [Ha Hk]. split; auto. Qed.
Lemma wc_run {A} : forall fs (p : prog A) Q st, wc fs Q p st -> Q (fst (run fs p st)) (snd (run fs p st)).
Proof.
  intros fs p Q. induction p as [a|m| |o k IH]; intros st H; cbn [run]; auto. destruct H as [_ H].
  destruct (step fs st o) as [x s]. cbn [fst snd] in *. apply IH, H.
Qed.
Lemma er_run {A} : forall fs (p q : prog A), er p q -> quiet q -> forall Q st st', same_tables st st' -> wc fs Q p st ->
  fst (run fs p st) = fst (run fs q st') /\ same_tables (snd (run fs p st)) (snd (run fs q st')).
Proof.
  intros fs p q H. induction H as [a|m| |o k k' H IH|r p k q m Hm E H IH|r p k q H IH|r p k q H IH]; intros Hq Q st st' Hs Hw; cbn [run].
  1,2,3: cbn [fst snd]; auto.
  - destruct Hq as [Ho Hk]. destruct Hw as [_ Hw]. destruct (step_same fs st st' o Hs Ho) as [E1 E2].
    destruct (step fs st o) as [x s], (step fs st' o) as [x' s']. cbn [fst snd] in *. subst x'. eapply IH; eauto.
  - destruct Hw as [E' Hw]. cbn [step fst snd] in *. rewrite E' in *. eapply IH; eauto.
  - destruct Hw as [_ Hw]. cbn [step fst snd] in *. eapply IH; eauto.
  - destruct Hw as [_ Hw]. cbn [step fst snd] in *. eapply IH; eauto.
Qed.
(** Without any condition: the same, or the check stopped the call. *)
Lemma er_run_or {A} : forall fs (p q : prog A), er p q -> quiet q -> forall st st', same_tables st st' ->
  (exists m, fst (run fs p st) = Panicked m /\ double_read m) \/
  (fst (run fs p st) = fst (run fs q st') /\ same_tables (snd (run fs p st)) (snd (run fs q st'))).
Proof.
  intros fs p q H. induction H as [a|m| |o k k' H IH|r p k q m Hm E H IH|r p k q H IH|r p k q H IH]; intros Hq st st' Hs; cbn [run].
  1,2,3: right; cbn [fst snd]; auto.
  - destruct Hq as [Ho Hk]. destruct (step_same fs st st' o Hs Ho) as [E1 E2].
    destruct (step fs st o) as [x s], (step fs st' o) as [x' s']. cbn [fst snd] in *. subst x'. eapply IH; eauto.
  - cbn [step]. destruct (s_dbg st r (components p)).
    + left. exists m. rewrite E. cbn [run fst]. auto.
    + eapply IH; eauto.
  - cbn [step]. eapply IH; eauto.
  - cbn [step]. eapply IH; eauto.
Qed.
Lemma hist_or : forall h fs st st', same_tables st st' ->
  (exists m, In (Panicked m) (fst (fst (run_history fs st h))) /\ double_read m) \/
  (fst (fst (run_history fs st h)) = fst (fst (run_history fs st' (map released_event h))) /\
   same_tables (snd (run_history fs st h)) (snd (run_history fs st' (map released_event h)))).
Proof.
  induction h as [|[c|fs'] h IH]; intros fs st st' Hs; cbn [map released_event run_history].
  - right. cbn [fst snd]. auto.
  - destruct (er_run_or fs _ _ (er_call c) (quiet_call c) st st' Hs) as [(m & E & Hm)|[E1 E2]];
      destruct (run fs (call_prog c) st) as [o s].
    + left. exists m. cbn [fst] in E. subst o. destruct (run_history fs s h) as [[os f] s2]. cbn [fst snd]. split; [left; reflexivity|exact Hm].
    + destruct (run fs (call_prog (released_call c)) st') as [o' s']. cbn [fst snd] in *. subst o'.
      specialize (IH fs s s' E2). destruct (run_history fs s h) as [[os f] s2], (run_history fs s' (map released_event h)) as [[os' f'] s2'].
      cbn [fst snd] in *. destruct IH as [(m & Hi & Hm)|[<- Ht]]; [left; exists m; split; [right; exact Hi|exact Hm]|right; auto].
  - apply IH, Hs.
Qed.

(** ** Where the check never stops a call *)
Lemma quiet_wc {A} : forall fs (p : prog A) (Q : outcome A -> state -> Prop) st, quiet p -> Q (fst (run fs p st)) (snd (run fs p st)) -> wc fs Q p st.
Proof.
  intros fs p Q. induction p as [a|m| |o k IH]; intros st Hq H; cbn [run wc] in *; auto. destruct Hq as [Ho Hk].
  split; [destruct o; auto; destruct (Ho I)|]. destruct (step fs st o) as [x s]. cbn [fst snd]. apply IH; auto.
Qed.
Definition held (st st' : state) : Prop := s_pkg st' = s_pkg st /\ s_dbg st' = s_dbg st.
Lemma exports_held : forall fs R j st t, exp_part j = PRet (Ok t) -> exists t' st', run fs (load_exports R j) st = (Done (Ok t'), st') /\ held st st'.
Proof.
  intros fs R j st t E. unfold load_exports, exp_part in *. destruct (jget j (lit "exports")) as [v|]; [|exists None, st; split; [reflexivity|split; reflexivity]].
  cbv zeta. rewrite run_act. cbn [step fst snd]. destruct (s_exp st (rv_cache R) (to_string v)) as [t0|]; [exists (Some t0), st; split; [reflexivity|split; reflexivity]|].
  unfold try_. rewrite run_bind, run_lift. destruct (build_exports v) as [[t1|e]|m|]; try discriminate. cbn [oc act bind run step fst snd].
  eexists. eexists. split; [reflexivity|split; reflexivity].
Qed.
Lemma imports_held : forall fs R j st t, imp_part j = PRet (Ok t) -> exists t' st', run fs (load_imports R j) st = (Done (Ok t'), st') /\ held st st'.
Proof.
  intros fs R j st t E. unfold load_imports, imp_part in *. destruct (jget j (lit "imports")) as [v|]; [|exists None, st; split; [reflexivity|split; reflexivity]].
  cbv zeta. rewrite run_act. cbn [step fst snd]. destruct (s_imp st (rv_cache R) (to_string v)) as [t0|]; [exists (Some t0), st; split; [reflexivity|split; reflexivity]|].
  unfold try_. rewrite run_bind, run_lift. destruct (build_imports v) as [[t1|e]|m|]; try discriminate. cbn [oc act bind run step fst snd].
  eexists. eexists. split; [reflexivity|split; reflexivity].
Qed.
Lemma parse_held : forall fs R d name st pk0, rv_debug R = false -> described fs (rv_json R) name d = PRet (Ok pk0) ->
  exists pk st', run fs (parse_description_file R d (join d name)) st = (Done (Ok pk), st') /\ held st st'.
Proof.
  intros fs R d name st pk0 Hdbg Hd. unfold parse_description_file, dbg_check. rewrite Hdbg. cbn [bind].
  rewrite !run_bind. unfold read_to_string. rewrite run_act. cbn [step fst snd].
  unfold described in Hd. destruct (f_read fs (join d name)) as [s|]; [|discriminate].
  destruct (f_mtime fs (join d name)) as [| |t] eqn:Et; try discriminate.
  unfold try_, get_last_modified. rewrite !run_bind. cbn [act bind run step fst snd]. rewrite Et. cbn [act bind run step fst snd].
  destruct (rv_json R s) as [j|] eqn:Ej; [|discriminate]. rewrite run_bind, run_lift.
  destruct (alias_fields_of j) as [af|m|]; try discriminate. cbn [pbind act bind run step fst snd oc] in *. rewrite run_bind.
  fold (exp_part j) in Hd. destruct (exp_part j) as [[ex|e]|m|] eqn:Ex; try discriminate. cbn [pbind] in Hd.
  match goal with |- context [run fs (load_exports R j) ?S] => destruct (exports_held fs R j S ex Ex) as (t3 & st3 & E3 & Hp3 & Hf3) end.
  rewrite E3. rewrite run_bind. fold (imp_part j) in Hd. destruct (imp_part j) as [[im|e]|m|] eqn:Im; try discriminate. cbn [pbind] in Hd.
  destruct (imports_held fs R j st3 im Im) as (t4 & st4 & E4 & Hp4 & Hf4). rewrite E4.
  destruct (side_effects_of (join d name) j) as [se|e]; [|discriminate]. cbn [run].
  eexists. eexists. split; [reflexivity|]. unfold held. rewrite Hp4, Hp3, Hf4, Hf3. split; reflexivity.
Qed.
Section Inv.
Variable Rs : list resolver.
Hypothesis Hone : forall R R' n n', In R Rs -> In R' Rs -> rv_id R = rv_id R' -> o_desc (rv_opts R) = Some n -> o_desc (rv_opts R') = Some n' ->
  rv_cache R = rv_cache R' /\ n = n'.
Hypothesis Hrel : forall R name, In R Rs -> o_desc (rv_opts R) = Some name -> is_abs name = false.
(** A description on record has an entry in the table. *)
Definition noted (st : state) : Prop := forall i k, s_dbg st i k = true ->
  exists R d name, In R Rs /\ rv_id R = i /\ o_desc (rv_opts R) = Some name /\ d <> [] /\ k = components (join d name) /\
    s_pkg st (rv_cache R) (components d) <> None.
Section Disk.
Variable fs : fsys.
Hypothesis Hempty : f_dir fs [] = false.
Definition keeps {A} (p : prog A) : Prop := forall st, noted st -> wc fs (fun _ s => noted s) p st.
Lemma keeps_ret {A} : forall a : A, keeps (Ret a). Proof. intros a st H. exact H. Qed.
Lemma keeps_bind {A B} : forall (p : prog A) (f : A -> prog B), keeps p -> (forall a, keeps (f a)) -> keeps (bind p f).
Proof.
  intros p f Hp Hf st Hs. apply wc_bind. eapply wc_mono; [|apply Hp, Hs]. intros [a|m|] s H; auto. apply Hf, H.
Qed.
Lemma keeps_try {A B} : forall (p : prog (result A)) (f : A -> prog (result B)), keeps p -> (forall a, keeps (f a)) -> keeps (try_ p f).
Proof. intros. apply keeps_bind; [assumption|]. intros [a|e]; [auto|apply keeps_ret]. Qed.
Lemma keeps_act : forall o, ~ asks o -> match o with ODbgAdd _ _ => False | _ => True end -> keeps (act o).
Proof.
  intros o Ha Ho st Hs. cbn [act wc]. split; [destruct o; auto; destruct (Ha I)|].
  destruct o; cbn [step snd] in *; try contradiction; try exact Hs.
  - intros i k E. destruct (Hs i k E) as (R & d & n & H1 & H2 & H3 & H4 & H5 & H6). exists R, d, n. repeat (split; [assumption|]).
    cbn [s_pkg set_pkg]. unfold upd_path. destruct (_ && _); [discriminate|exact H6].
  - intros i k E. cbn [s_dbg set_dbg] in E. unfold upd_path in E. destruct (_ && _) in E; [discriminate|]. apply Hs, E.
Qed.
Section Res.
Variable R : resolver.
Hypothesis HR : In R Rs.
Hypothesis Hread : forall name, o_desc (rv_opts R) = Some name -> all_readable (rv_json R) name fs.
(** Reading a description that is not on record. *)
Lemma keeps_store : forall p name st, o_desc (rv_opts R) = Some name -> f_dir fs p = true -> f_file fs (join p name) = true ->
  noted st -> (rv_debug R = true -> s_dbg st (rv_id R) (components (join p name)) = false) ->
  wc fs (fun _ s => noted s) (parse_and_store R p (join p name)) st.
Proof.
  intros p name st En Hd Hf Hs Hn. destruct (Hread name En p Hd Hf) as [pk Hpk]. assert (Hp : p <> []) by congruence.
  destruct (parse_held fs (released R) p name) with (st := set_dbg st (upd_path (s_dbg st) (rv_id R) (components (join p name)) true)) (pk0 := pk)
    as (pk1 & st1 & E1 & H1 & H2); [reflexivity|exact Hpk|].
  destruct (parse_held fs (released R) p name st pk eq_refl Hpk) as (pk2 & st2 & E2 & H3 & H4).
  pose proof (quiet_parse (released R) eq_refl p (join p name)) as Hq.
  change (wc fs (fun _ s => noted s) (bind (bind (dbg_check R (join p name)) (fun _ => parse_description_file (released R) p (join p name)))
    (fun r => match r with Ok pk => act (OPkgPut (rv_cache R) p (Some pk)) ;;; Ret (Ok (Some pk)) | Err e => Ret (Err e) end)) st).
  apply wc_bind, wc_bind. unfold dbg_check. destruct (rv_debug R) eqn:Hdb.
  - cbn [act bind wc step fst snd]. rewrite (Hn eq_refl). split; [reflexivity|]. cbn [act bind wc step fst snd]. split; [exact I|].
    apply quiet_wc; [exact Hq|]. rewrite E1. cbn [fst snd act bind wc step]. split; [exact I|].
    intros i k E. cbn [s_dbg s_pkg set_pkg] in *. rewrite H1. rewrite H2 in E. cbn [s_dbg s_pkg set_dbg] in *. unfold upd_path in *.
    destruct (Nat.eqb i (rv_id R) && comps_eqb k (components (join p name))) eqn:Eb.
    + apply andb_true_iff in Eb. destruct Eb as [Ei Ek]. apply Nat.eqb_eq in Ei. destruct (comps_eqb_spec k (components (join p name))) as [->|]; [|discriminate].
      exists R, p, name. repeat (split; [auto|]). rewrite Nat.eqb_refl. destruct (comps_eqb_spec (components p) (components p)); [discriminate|congruence].
    + destruct (Hs i k E) as (R0 & d & n & G1 & G2 & G3 & G4 & G5 & G6). exists R0, d, n. repeat (split; [assumption|]). match goal with |- (if ?b then _ else _) <> None => destruct b end; [discriminate|exact G6].
  - cbn [wc]. apply quiet_wc; [exact Hq|]. rewrite E2. cbn [fst snd act bind wc step]. split; [exact I|].
    intros i k E. cbn [s_dbg s_pkg set_pkg] in *. rewrite H3. rewrite H4 in E. unfold upd_path.
    destruct (Hs i k E) as (R0 & d & n & G1 & G2 & G3 & G4 & G5 & G6). exists R0, d, n. repeat (split; [assumption|]). match goal with |- (if ?b then _ else _) <> None => destruct b end; [discriminate|exact G6].
Qed.
Ltac k1 := lazymatch goal with
  | |- keeps (Ret _) => apply keeps_ret
  | |- keeps OutOfFuel => intros ? ?; assumption
  | |- keeps (act _) => apply keeps_act; [intros HH; exact HH|exact I]
  | |- keeps (try_ _ _) => apply keeps_try; [|intros ?]
  | |- keeps (bind _ _) => apply keeps_bind; [|intros ?]
  | |- keeps (match ?x with _ => _ end) => destruct x
  end.
Lemma keeps_up : forall f p n, keeps (find_up f p n).
Proof. induction f as [|f IH]; intros p n; cbn [find_up]; repeat (apply IH || k1). Qed.
Lemma keeps_none : forall f p, keeps (none_loop R f p).
Proof. induction f as [|f IH]; intros p; cbn [none_loop]; repeat (apply IH || k1). Qed.
Lemma wc_act {A} : forall o (f : ans o -> prog A) Q st, ~ asks o -> wc fs Q (f (fst (step fs st o))) (snd (step fs st o)) -> wc fs Q (bind (act o) f) st.
Proof. intros o f Q st Ha H. cbn [act bind wc]. split; [destruct o; auto; destruct (Ha I)|exact H]. Qed.
(** The check of an entry ends with "update" for existing files only, and then clears the record. *)
Lemma wc_check : forall p dfp st, noted st ->
  wc fs (fun r s => noted s /\ (r = Done (Ok true) -> f_file fs dfp = true /\ (rv_debug R = true -> s_dbg s (rv_id R) (components dfp) = false)))
    (check_entry R p dfp) st.
Proof.
  intros p dfp st Hs. unfold check_entry. apply wc_bind.
  assert (Hu : wc fs (fun r s => s = st /\ (r = Done (Ok true) -> f_file fs dfp = true)) (need_update R dfp) st).
  { unfold need_update. apply wc_act; [intros HH; exact HH|]. cbn [step fst snd]. destruct (f_file fs dfp); cbn [negb].
    2:{ cbn [wc]. split; [reflexivity|]. intros HH. discriminate HH. }
    apply wc_act; [intros HH; exact HH|]. cbn [step fst snd]. destruct (s_file st (rv_id R) (components dfp)) as [[x t]|]; [|split; auto].
    unfold try_, get_last_modified. apply wc_bind. apply wc_act; [intros HH; exact HH|]. cbn [step fst snd].
    destruct (f_mtime fs dfp) as [| |now]; cbn [wc]; auto. destruct (N.ltb now t); cbn [wc]; auto. }
  eapply wc_mono; [|exact Hu]. intros [u|m|] s [-> H]; cbn [wc]; [|split; [exact Hs|discriminate]..].
  destruct u as [[|]|e].
  - destruct (rv_debug R) eqn:Hd.
    + apply wc_act; [intros HH; exact HH|]. apply wc_act; [intros HH; exact HH|]. cbn [wc step fst snd]. split.
      * pose proof (keeps_act (ODbgDel (rv_id R) dfp) (fun HH => HH) I st Hs) as K. exact (proj2 K).
      * intros _. split; [apply H; reflexivity|]. intros _. cbn [s_dbg set_dbg]. unfold upd_path. rewrite Nat.eqb_refl.
        destruct (comps_eqb_spec (components dfp) (components dfp)); [reflexivity|congruence].
    + cbn [bind]. apply wc_act; [intros HH; exact HH|]. cbn [wc step fst snd]. split; [exact Hs|]. intros _. split; [apply H; reflexivity|discriminate].
  - cbn [bind]. apply wc_act; [intros HH; exact HH|]. cbn [wc step fst snd]. split; [exact Hs|discriminate].
  - cbn [bind]. apply wc_act; [intros HH; exact HH|]. cbn [wc step fst snd]. split; [exact Hs|discriminate].
Qed.
Lemma keeps_load : forall f p, keeps (load_pkg_file R f p).
Proof.
  induction f as [|f IH]; intros p; cbn [load_pkg_file]; [intros st Hs; exact Hs|].
  case_eq (o_desc (rv_opts R)); [intros name En|intros En; apply keeps_ret].
  intros st Hs. apply wc_act; [intros HH; exact HH|]. cbn [step fst snd]. destruct (f_dir fs p) eqn:Hd; cbn [negb].
  2:{ destruct (parent p); [apply IH, Hs|exact Hs]. }
  cbv zeta. apply wc_act; [intros HH; exact HH|]. cbn [step fst snd]. destruct (s_pkg st (rv_cache R) (components p)) as [v|] eqn:Ep.
  - unfold try_. apply wc_bind. eapply wc_mono; [|apply (wc_check p (join p name) st Hs)].
    intros [[[|]|e]|m|] s [H1 H2]; cbn [negb wc]; try exact H1. destruct (H2 eq_refl) as [H3 H4]. apply keeps_store; auto.
  - apply wc_act; [intros HH; exact HH|]. cbn [step fst snd]. destruct (f_file fs (join p name)) eqn:Hf.
    + apply keeps_store; auto. intros _. destruct (s_dbg st (rv_id R) (components (join p name))) eqn:Eb; [|reflexivity]. exfalso.
      destruct (Hs _ _ Eb) as (R0 & d & n & G1 & G2 & G3 & G4 & G5 & G6). destruct (Hone R0 R n name G1 HR G2 G3 En) as [C1 ->].
      rewrite C1 in G6. pose proof (Hrel _ _ G1 G3) as Ha.
      rewrite !components_join in G5 by (auto; congruence). apply app_inv_tail in G5. rewrite <- G5 in G6. congruence.
    + apply wc_bind. eapply wc_mono; [|apply (keeps_up f p name st Hs)]. intros [[d|]|m|] s H; auto; [apply IH, H|apply keeps_none, H].
Qed.
Lemma keeps_resolve : forall f base req, keeps (resolve R f base req).
Proof.
  intros. apply (closed_resolve_with (fun A => @keeps A)); try (intros A ? st Hs; exact Hs); try (intros A st Hs; exact Hs).
  - intros; apply keeps_bind; assumption.
  - intros o Ho. apply keeps_act; destruct o; try exact I; try contradiction; intros HH; exact HH.
  - apply keeps_load.
Qed.
End Res.
Lemma keeps_call : forall c, In (call_resolver c) Rs -> (forall name, o_desc (rv_opts (call_resolver c)) = Some name -> all_readable (rv_json (call_resolver c)) name fs) ->
  keeps (call_prog c).
Proof.
  intros [R f base req|R f p]; cbn [call_prog call_resolver]; intros HR Hread.
  - apply keeps_bind; [apply keeps_resolve; assumption|]. intros; apply keeps_ret.
  - apply keeps_bind; [|intros; apply keeps_ret]. unfold load_side_effects. apply keeps_try; [apply keeps_load; assumption|].
    intros [pk|]; [|apply keeps_ret]. destruct (o_desc (rv_opts R)); [apply keeps_ret|]. intros st Hs. exact Hs.
Qed.
End Disk.
Lemma hist_same : forall h fs st st', incl (callers h) Rs ->
  (forall R name f, In R Rs -> In f (systems fs h) -> o_desc (rv_opts R) = Some name -> all_readable (rv_json R) name f) ->
  (forall f, In f (systems fs h) -> f_dir f [] = false) -> noted st -> same_tables st st' ->
  fst (fst (run_history fs st h)) = fst (fst (run_history fs st' (map released_event h))) /\
  same_tables (snd (run_history fs st h)) (snd (run_history fs st' (map released_event h))).
Proof.
  induction h as [|[c|fs'] h IH]; intros fs st st' Hc Hr He Hn Hs; cbn [map released_event run_history].
  - cbn [fst snd]. auto.
  - assert (Hcr : In (call_resolver c) Rs). { apply Hc. destruct c; left; reflexivity. }
    assert (Hch : incl (callers h) Rs). { intros R HR. apply Hc. destruct c; right; exact HR. }
    assert (Hk : keeps fs (call_prog c)).
    { apply keeps_call; [apply He; left; reflexivity|exact Hcr|]. intros name En. apply (Hr _ _ _ Hcr); [left; reflexivity|exact En]. }
    destruct (er_run fs _ _ (er_call c) (quiet_call c) _ st st' Hs (Hk st Hn)) as [E1 E2].
    pose proof (wc_run _ _ _ _ (Hk st Hn)) as Hn'. cbv beta in Hn'.
    destruct (run fs (call_prog c) st) as [o s], (run fs (call_prog (released_call c)) st') as [o' s']. cbn [fst snd] in *. subst o'.
    destruct (IH fs s s' Hch Hr He Hn' E2) as [H1 H2].
    destruct (run_history fs s h) as [[os f] s2], (run_history fs s' (map released_event h)) as [[os' f'] s2']. cbn [fst snd] in *. subst. auto.
  - apply IH; auto.
    + intros R name f HR Hf. apply Hr; [exact HR|]. right. exact Hf.
    + intros f Hf. apply He. right. exact Hf.
Qed.
End Inv.
Lemma same_answers : forall h fs seeds, orderly (callers h) (systems fs h) ->
  fst (fst (run_history fs (empty_state seeds) h)) = fst (fst (run_history fs (empty_state seeds) (map released_event h))) /\
  same_tables (snd (run_history fs (empty_state seeds) h)) (snd (run_history fs (empty_state seeds) (map released_event h))).
Proof.
  intros h fs seeds (H1 & H2 & H3). apply (hist_same (callers h)).
  - exact H1.
  - intros R name HR En. exact (proj1 (H2 R name HR En)).
  - apply incl_refl.
  - intros R name f HR Hf En. exact (proj2 (H2 R name HR En) f Hf).
  - exact H3.
  - intros i k E. discriminate.
  - apply same_refl.
Qed.
Lemma hist_app : forall h1 h2 fs st, run_history fs st (h1 ++ h2) =
  let '(os, fs1, st1) := run_history fs st h1 in let '(os2, fs2, st2) := run_history fs1 st1 h2 in (os ++ os2, fs2, st2).
Proof.
  induction h1 as [|[c|f] h1 IH]; intros h2 fs st; cbn [app run_history].
  - destruct (run_history fs st h2) as [[os f] s]. reflexivity.
  - destruct (run fs (call_prog c) st) as [o s]. rewrite IH. destruct (run_history fs s h1) as [[os f] s1].
    destruct (run_history f s1 h2) as [[os2 f2] s2]. reflexivity.
  - apply IH.
Qed.
Lemma hist_fs : forall h fs st st', snd (fst (run_history fs st h)) = snd (fst (run_history fs st' (map released_event h))).
Proof.
  induction h as [|[c|f] h IH]; intros fs st st'; cbn [map released_event run_history]; [reflexivity| |apply IH].
  destruct (run fs (call_prog c) st) as [o s], (run fs (call_prog (released_call c)) st') as [o' s']. specialize (IH fs s s').
  destruct (run_history fs s h) as [[? ?] ?], (run_history fs s' (map released_event h)) as [[? ?] ?]. exact IH.
Qed.
Lemma hist_length : forall h fs st st', length (fst (fst (run_history fs st h))) = length (fst (fst (run_history fs st' (map released_event h)))).
Proof.
  induction h as [|[c|f] h IH]; intros fs st st'; cbn [map released_event run_history]; [reflexivity| |apply IH].
  destruct (run fs (call_prog c) st) as [o s], (run fs (call_prog (released_call c)) st') as [o' s']. specialize (IH fs s s').
  destruct (run_history fs s h) as [[? ?] ?], (run_history fs s' (map released_event h)) as [[? ?] ?]. cbn [fst snd length] in *. congruence.
Qed.
(** The next call of a history. *)
Lemma next_same : forall h c fs0 seeds, orderly (call_resolver c :: callers h) (systems fs0 h) ->
  let '(_, fs, st) := run_history fs0 (empty_state seeds) h in
  let '(_, fs', st') := run_history fs0 (empty_state seeds) (map released_event h) in
  fs = fs' /\ out fs st (call_prog c) = out fs st' (call_prog (released_call c)).
Proof.
  intros h c fs0 seeds (H1 & H2 & H3).
  assert (Hc : incl (callers (h ++ [ECall c])) (call_resolver c :: callers h)).
  { unfold callers. rewrite flat_map_app. apply incl_app; [apply incl_tl, incl_refl|]. intros R HR. left. destruct c; destruct HR as [<-|[]]; reflexivity. }
  assert (Hsy : systems fs0 (h ++ [ECall c]) = systems fs0 h).
  { unfold systems. rewrite flat_map_app. cbn [flat_map app]. rewrite app_nil_r. reflexivity. }
  destruct (hist_same (call_resolver c :: callers h)) with (h := h ++ [ECall c]) (fs := fs0) (st := empty_state seeds) (st' := empty_state seeds) as [H _].
  - exact H1.
  - intros R name HR En. exact (proj1 (H2 R name HR En)).
  - exact Hc.
  - rewrite Hsy. intros R name f HR Hf En. exact (proj2 (H2 R name HR En) f Hf).
  - rewrite Hsy. exact H3.
  - intros i k E. discriminate.
  - apply same_refl.
  - rewrite map_app in H. rewrite !hist_app in H. cbn [map released_event run_history] in H.
    pose proof (hist_fs h fs0 (empty_state seeds) (empty_state seeds)) as E. pose proof (hist_length h fs0 (empty_state seeds) (empty_state seeds)) as L.
    destruct (run_history fs0 (empty_state seeds) h) as [[os f] st], (run_history fs0 (empty_state seeds) (map released_event h)) as [[os' f'] st'].
    cbn [fst snd] in E, L. subst f'. split; [reflexivity|]. unfold out.
    destruct (run f (call_prog c) st) as [o s], (run f (call_prog (released_call c)) st') as [o' s']. cbn [fst snd] in *.
    apply app_inj_tail in H. exact (proj2 H).
Qed.
