(** * A program logic for demonic executions. *)
From Coq Require Import String.
From Coq Require Import List Arith NArith Bool Lia.
From Verif Require Import Str StrP Path PathP Json Types Parse Map Prog Desc Resolve Top Run Exec SpecApi.
Import ListNotations.

Section Sat.
Variable ok : forall o, ans o -> Prop.
Variable allowed : op -> Prop.
Definition okev (e : ev) : Prop := ok (projT1 e) (projT2 e).
Definition allev (e : ev) : Prop := allowed (projT1 e).

(** [sat tr Q p]: after trace [tr], every execution of [p] whose answers satisfy [ok] performs
    only [allowed] operations, and if it returns [a] with total trace [tr'] then [Q tr' a]. *)
Fixpoint sat {A} (tr : list ev) (Q : list ev -> A -> Prop) (p : prog A) : Prop :=
  match p with
  | Ret a => Q tr a
  | Panic _ | OutOfFuel => True
  | Do o k => allowed o /\ forall x, ok o x -> sat (tr ++ [mkev o x]) Q (k x)
  end.
Lemma sat_mono {A} : forall (p : prog A) tr (Q Q' : list ev -> A -> Prop),
  (forall t a, Q t a -> Q' t a) -> sat tr Q p -> sat tr Q' p.
Proof.
  induction p as [a|m| |o k IH]; intros tr Q Q' HQ; cbn [sat]; auto.
  intros [Ho H]. split; [exact Ho|]. intros x Hx. eapply IH; [exact HQ|]. apply H, Hx.
Qed.
Lemma sat_bind {A B} : forall (p : prog A) (f : A -> prog B) tr Q,
  sat tr (fun t a => sat t Q (f a)) p -> sat tr Q (bind p f).
Proof.
  induction p as [a|m| |o k IH]; intros f tr Q; cbn [sat bind]; auto.
  intros [Ho H]. split; [exact Ho|]. intros x Hx. apply IH, H, Hx.
Qed.
Lemma sat_act {B} : forall o (f : ans o -> prog B) tr Q, allowed o ->
  (forall x, ok o x -> sat (tr ++ [mkev o x]) Q (f x)) -> sat tr Q (bind (act o) f).
Proof. intros o f tr Q Ho H. cbn [bind act sat]. auto. Qed.
Lemma sat_lift {A} : forall (p : pcomp A) tr (Q : list ev -> A -> Prop),
  (forall a, p = PRet a -> Q tr a) -> sat tr Q (lift p).
Proof. intros [a|m|] tr Q H; cbn [lift sat]; auto. Qed.
Lemma sat_exec {A} : forall (p : prog A) tr r, exec p tr r -> Forall okev tr ->
  forall tr0 Q, sat tr0 Q p -> Forall allev tr /\ forall a, r = Done a -> Q (tr0 ++ tr) a.
Proof.
  induction 1 as [a|m| |o k x tr r Hex IH]; intros HF tr0 Q Hs; try (split; [constructor|discriminate]).
  - split; [constructor|]. intros a' Ea. inversion Ea; subst. rewrite app_nil_r. exact Hs.
  - inversion HF as [|? ? Hx HF']; subst. cbn [sat] in Hs. destruct Hs as [Ho Hs]. specialize (Hs x Hx).
    destruct (IH HF' _ _ Hs) as [H1 H2]. split; [constructor; assumption|].
    intros a' Ea. specialize (H2 a' Ea). rewrite <- app_assoc in H2. exact H2.
Qed.
End Sat.

Definition anyok (o : op) (x : ans o) : Prop := True.
Lemma anyok_all : forall tr, Forall (okev anyok) tr.
Proof. intros tr. apply Forall_forall. intros e _. exact I. Qed.

(** A sequential run is an execution whose file-system answers are those of [fs]. *)
Definition fs_ok (fs : fsys) (o : op) : ans o -> Prop :=
  match o return ans o -> Prop with
  | OIsFile p => fun x => x = f_file fs p
  | OIsDir p => fun x => x = f_dir fs p
  | OExists p => fun x => x = f_exists fs p
  | ORead p => fun x => x = f_read fs p
  | OMtime p => fun x => x = f_mtime fs p
  | OCanon p => fun x => x = f_canon fs p
  | _ => fun _ => True
  end.
Lemma step_fs_ok : forall fs st o, fs_ok fs o (fst (step fs st o)).
Proof. intros fs st []; cbn; auto. Qed.
Lemma run_exec {A} : forall (p : prog A) fs st, exists tr,
  exec p tr (out fs st p) /\ Forall (okev (fs_ok fs)) tr.
Proof.
  unfold out. induction p as [a|m| |o k IH]; intros fs st; cbn [run fst].
  - exists []. split; constructor.
  - exists []. split; constructor.
  - exists []. split; constructor.
  - pose proof (step_fs_ok fs st o) as Hok. destruct (step fs st o) as [x st'].
    destruct (IH x fs st') as [tr [H1 H2]]. exists (mkev o x :: tr).
    split; constructor; auto.
Qed.
(** The trace of a sequential run. *)
Fixpoint run_tr {A} (fs : fsys) (p : prog A) (st : state) : list ev :=
  match p with
  | Do o k => let (x, st') := step fs st o in mkev o x :: run_tr fs (k x) st'
  | _ => []
  end.
Lemma run_tr_exec {A} : forall (p : prog A) fs st, exec p (run_tr fs p st) (out fs st p).
Proof.
  unfold out. induction p as [a|m| |o k IH]; intros fs st; cbn [run run_tr fst]; try constructor.
  destruct (step fs st o) as [x st']. constructor. apply IH.
Qed.
(** Threads of an interleaved execution are executions of their programs. *)
Inductive steps_to {A} : prog A -> list ev -> prog A -> Prop :=
| StRefl : forall p, steps_to p [] p
| StStep : forall o k x tr q, steps_to (k x) tr q -> steps_to (Do o k) (mkev o x :: tr) q.
Lemma steps_to_trans {A} : forall (p : prog A) tr q, steps_to p tr q -> forall tr' r,
  steps_to q tr' r -> steps_to p (tr ++ tr') r.
Proof.
  induction 1 as [p|o k x tr q H IH]; intros tr' r H'; cbn [app]; [exact H'|].
  constructor. apply IH, H'.
Qed.
Lemma steps_to_exec {A} : forall (p : prog A) tr q, steps_to p tr q -> forall tr' r,
  exec q tr' r -> exec p (tr ++ tr') r.
Proof.
  induction 1 as [p|o k x tr q H IH]; intros tr' r H'; cbn [app]; [exact H'|].
  constructor. apply IH, H'.
Qed.
Lemma thread_steps {A} : forall fs st (p : prog A) q st', thread_step fs st p = (q, st') ->
  exists tr, steps_to p tr q /\ Forall (okev (fs_ok fs)) tr.
Proof.
  intros fs st [a|m| |o k] q st' H; cbn [thread_step] in H;
    try (inversion H; subst; exists []; split; constructor).
  pose proof (step_fs_ok fs st o) as Hok. destruct (step fs st o) as [x st1]. inversion H; subst.
  exists [mkev o x]. split; repeat constructor. exact Hok.
Qed.
Lemma step_nth_steps {A} : forall fs (l : list (prog A)) i st l' st', step_nth fs st i l = (l', st') ->
  Forall2 (fun p q => exists tr, steps_to p tr q /\ Forall (okev (fs_ok fs)) tr) l l'.
Proof.
  assert (Hrefl : forall fs (l : list (prog A)),
    Forall2 (fun p q => exists tr, steps_to p tr q /\ Forall (okev (fs_ok fs)) tr) l l).
  { intros fs l. induction l; constructor; auto. exists []. split; constructor. }
  induction l as [|p l IH]; intros i st l' st' H; cbn [step_nth] in H.
  - destruct i; inversion H; subst; constructor.
  - destruct i as [|i]; cbn [step_nth] in H.
    + destruct (thread_step fs st p) as [q st1] eqn:E. inversion H; subst.
      constructor; [eapply thread_steps; eassumption|apply Hrefl].
    + destruct (step_nth fs st i l) as [r st1] eqn:E. inversion H; subst.
      constructor; [exists []; split; constructor|eapply IH; eassumption].
Qed.
Lemma run_sched_steps {A} : forall fs sched (l : list (prog A)) st l' st', run_sched fs sched st l = (l', st') ->
  Forall2 (fun p q => exists tr, steps_to p tr q /\ Forall (okev (fs_ok fs)) tr) l l'.
Proof.
  induction sched as [|i sched IH]; intros l st l' st' H; cbn [run_sched] in H.
  - inversion H; subst. clear H. induction l'; constructor; auto. exists []. split; constructor.
  - destruct (step_nth fs st i l) as [l1 st1] eqn:E. apply step_nth_steps in E. apply IH in H.
    clear IH. revert l' H. induction E as [|p q l l1 [tr [H1 H2]] E IH]; intros l' H.
    + inversion H; constructor.
    + inversion H as [|? r ? l2 [tr' [H3 H4]] H5]; subst. constructor; [|apply IH, H5].
      exists (tr ++ tr'). split; [eapply steps_to_trans; eassumption|apply Forall_app; auto].
Qed.

(** ** The complete resolver, with a generic invariant on infos and errors *)
(** What the resolver asks by itself; everything else is asked by the loader, or at the end. *)
Definition probe (o : op) : Prop := match o with OIsFile _ | OIsDir _ | OExists _ => True | _ => False end.
Section Generic.
Variable ok : forall o, ans o -> Prop.
Variable allowed : op -> Prop.
Hypothesis Hall : forall o, probe o -> allowed o.
Notation sat := (sat ok allowed).
Variable R : resolver.
Variable load : path -> prog (result (option pkg)).
Variable J : info -> Prop.          (* invariant of the info carried along *)
Variable EP : str -> Prop.          (* errors that may occur *)
Variable pkgok : pkg -> Prop.       (* descriptions that may be met *)

Definition opkgok (o : option pkg) : Prop := match o with Some pk => pkgok pk | None => True end.
Hypothesis Hload : forall p tr, sat tr (fun _ r => match r with Ok o => opkgok o | Err e => EP e end) (load p).
Hypothesis EP_tag : EP TAG.
Hypothesis EP_pkg : forall pk e, pkgok pk -> p_exports pk <> None \/ p_imports pk <> None -> EP e.
Hypothesis J_path : forall i p, J i -> J (with_path i p).
Hypothesis J_nil : forall i, J i -> J (with_target i []).
Hypothesis J_rel : forall i x, J i -> J (with_target i (lit "./" ++ x)).
Hypothesis J_any : (forall i t, J i -> J (with_target i t)) \/
  (o_alias (rv_opts R) = [] /\ o_browser (rv_opts R) = false).
Hypothesis J_field : forall pk i, pkgok pk -> J i ->
  (forall d s fk root req l, (match fk with FExports => p_exports pk | FImports => p_imports pk end) = Some root ->
     field_process fk root req (o_conditions (rv_opts R)) = PRet (Ok l) -> In s l -> J (mkInfo d (parse s))) \/
  ((r_kind (i_req i) = Normal -> p_exports pk = None) /\
   (starts_with_char (r_target (i_req i)) c_hash = true -> p_imports pk = None)).

(** What is known of a selected file. *)
Definition sel (tr : list ev) (i : info) : Prop :=
  In (mkev (OIsFile (i_path i)) true) tr /\ r_target (i_req i) = [] /\
  (enforce R = true -> exists q ext, In ext (o_extensions (rv_opts R)) /\ i_path i = q ++ ext).
Definition good (tr : list ev) (s : stats) : Prop :=
  match s with
  | Success (RInfo i) => J i /\ sel tr i
  | Success RIgnored => True
  | Resolving i => J i
  | SError e i => EP e /\ J i
  end.

Lemma sat_and_then : forall p f tr, sat tr good p -> (forall i t, J i -> sat t good (f i)) ->
  sat tr good (and_then p f).
Proof.
  intros p f tr Hp Hf. unfold and_then. apply sat_bind. eapply sat_mono; [|exact Hp].
  intros t [r|i|e i] H; [exact H|apply Hf, H|exact H].
Qed.
Lemma in_snoc {A} : forall (x : A) l, In x (l ++ [x]).
Proof. intros. apply in_app_iff. right. left. reflexivity. Qed.
Lemma sat_extensions : forall p i exts tr, J i -> incl exts (o_extensions (rv_opts R)) ->
  sat tr good (extensions_loop p i exts).
Proof.
  induction exts as [|e r IH]; intros tr HJ Hin; cbn [extensions_loop]; [exact HJ|].
  apply sat_act; [apply Hall; exact I|]. intros b _. destruct b.
  - cbn [good]. split; [apply J_nil, J_path, HJ|]. repeat split.
    + apply in_snoc.
    + intros _. exists p, e. split; [apply Hin; left; reflexivity|reflexivity].
  - apply IH; [exact HJ|]. intros x Hx. apply Hin. right. exact Hx.
Qed.
Lemma sat_as_file : forall i tr, J i -> sat tr good (resolve_as_file R i).
Proof.
  intros i tr HJ. unfold resolve_as_file, extensions_apply. destruct (enforce R) eqn:Ee; cbn [negb].
  - apply sat_extensions; [exact HJ|apply incl_refl].
  - apply sat_act; [apply Hall; exact I|]. intros b _. destruct b.
    + split; [apply J_nil, J_path, HJ|]. repeat split; [apply in_snoc|congruence].
    + apply sat_extensions; [exact HJ|apply incl_refl].
Qed.
Lemma sat_alias_field_loop : forall fuel pk i l tr, J i -> o_browser (rv_opts R) = true ->
  sat tr good (alias_field_loop R fuel pk i l).
Proof.
  induction l as [|[k v] r IH]; intros tr HJ Hb; cbn [alias_field_loop]; [exact HJ|].
  destruct (should_deal_alias R pk i k); [|apply IH; assumption].
  apply sat_bind, sat_lift. intros [t|] _; [|exact I].
  cbn. destruct J_any as [H|[_ H]]; [|congruence]. apply H, J_path, HJ.
Qed.
Lemma sat_alias_field : forall fuel opk i tr, J i -> sat tr good (alias_field_apply R fuel opk i).
Proof.
  intros fuel opk i tr HJ. unfold alias_field_apply. case_eq (o_browser (rv_opts R)); intros Eb; cbn [negb]; [|exact HJ].
  destruct opk; [apply sat_alias_field_loop; assumption|exact HJ].
Qed.
Definition haspk (pk : pkg) : Prop := pkgok pk /\ (p_exports pk <> None \/ p_imports pk <> None).
Lemma EP_has : forall pk e, haspk pk -> EP e.
Proof. intros pk e [H1 H2]. eapply EP_pkg; eassumption. Qed.
Lemma sat_exports_loop : forall pk i l tr, haspk pk -> J i -> (forall d s, In s l -> J (mkInfo d (parse s))) ->
  sat tr good (exports_loop pk i l).
Proof.
  induction l as [|x r IH]; intros tr Hk' HJ Hp; cbn [exports_loop].
  - split; [apply (EP_has pk), Hk'|exact HJ].
  - assert (Hp' : forall d s, In s r -> J (mkInfo d (parse s))) by (intros d s Hs; apply Hp; right; exact Hs).
    apply sat_act; [apply Hall; exact I|]. intros b _. destruct b; [|apply IH; assumption].
    apply sat_bind, sat_lift. intros [] _; [apply Hp; left; reflexivity|apply IH; assumption].
Qed.
Lemma sat_exports : forall opk i tr, opkgok opk -> J i -> sat tr good (exports_apply R opk i).
Proof.
  intros [pk|] i tr Hk HJ; cbn [exports_apply]; [|exact HJ]. cbn [opkgok] in Hk.
  destruct (negb (kind_eqb (r_kind (i_req i)) Normal)) eqn:Ek; [exact HJ|].
  destruct (negb (is_in_module pk) && negb (is_resolve_self pk i)); [exact HJ|].
  destruct (p_exports pk) as [root|] eqn:Ex; [|exact HJ].
  assert (Hk' : haspk pk) by (split; [exact Hk|left; congruence]).
  destruct (J_field pk i Hk HJ) as [Hp|[Hn _]].
  2:{ exfalso. assert (E : r_kind (i_req i) = Normal) by (destruct (r_kind (i_req i)); [discriminate..|reflexivity]).
      specialize (Hn E). congruence. }
  apply sat_bind. unfold exports_subpath. apply sat_bind.
  match goal with |- sat tr ?Q0 _ => assert (HQ : forall x, sat tr Q0 (Ret x)) end.
  2:{ destruct (starts_with_char _ c_at); [|apply HQ]. destruct (find_char _ c_slash) as [[? ?]|]; [apply HQ|exact I]. }
  intros x. cbn [sat].
  assert (HQ : forall t o, sat t good match o with Some t0 =>
      l <- lift (field_process FExports root (exports_remaining i t0) (o_conditions (rv_opts R))) ;;
      match l with Ok l0 => exports_loop pk i l0 | Err e => Ret (SError e i) end
    | None => Ret (SError TAG i) end).
  2:{ destruct (find_char x c_slash) as [[? ?]|]; [apply HQ|].
      apply sat_act; [apply Hall; exact I|]. intros e _. destruct (_ || _); apply HQ. }
  intros t [s|].
  - apply sat_bind, sat_lift. intros [l|e] El; [apply sat_exports_loop; try assumption; intros d s0 Hs; exact (Hp d s0 FExports root _ l Ex El Hs)|].
    split; [apply (EP_has pk), Hk'|exact HJ].
  - split; [exact EP_tag|exact HJ].
Qed.
Lemma sat_imports_check : forall i t tr pk, haspk pk -> J i -> sat tr good (imports_check i t).
Proof.
  intros i t tr pk Hk' HJ. unfold imports_check. apply sat_act; [apply Hall; exact I|]. intros b _. destruct b.
  - apply sat_bind, sat_lift. intros [] _; [exact HJ|]. split; [apply (EP_has pk), Hk'|exact HJ].
  - split; [apply (EP_has pk), Hk'|exact HJ].
Qed.
Lemma sat_imports : forall fuel opk i tr, opkgok opk -> J i -> sat tr good (imports_apply R load fuel opk i).
Proof.
  induction fuel as [|f IH]; intros opk i tr Hk HJ; cbn [imports_apply]; [exact I|].
  destruct opk as [pk|]; [|exact HJ]. cbn [opkgok] in Hk.
  destruct (starts_with_char (r_target (i_req i)) c_hash) eqn:Eh; cbn [negb]; [|exact HJ].
  destruct (p_imports pk) as [root|] eqn:Ex; [|exact HJ].
  assert (Hk' : haspk pk) by (split; [exact Hk|right; congruence]).
  destruct (J_field pk i Hk HJ) as [Hp|[_ Hn]].
  2:{ specialize (Hn Eh). congruence. }
  apply sat_bind, sat_lift. intros [l|e] El; [|split; [apply (EP_has pk), Hk'|exact HJ]].
  destruct l as [|item l]; [split; [apply (EP_has pk), Hk'|exact HJ]|].
  assert (Hp' : forall d, J (mkInfo d (parse item))) by (intros d; exact (Hp d item FImports root _ _ Ex El (or_introl eq_refl))).
  clear Hp. rename Hp' into Hp.
  assert (Hc : forall d t, sat t good (imports_check (mkInfo d (parse item)) (r_target (i_req i)))).
  { intros d t. eapply sat_imports_check; [exact Hk'|apply Hp]. }
  destruct (r_kind (parse item)); try apply Hc.
  - apply IH; [exact Hk|apply Hp].
  - apply sat_bind. eapply sat_mono; [|apply Hload]. intros t [opk'|e] Hl.
    2:{ split; [exact Hl|apply Hp]. }
    assert (Hcont : sat t good (and_then (and_then (and_then
        (exports_apply R opk' {| i_path := join (p_dir pk) MODULE; i_req := parse item |})
        (imports_apply R load f opk')) (alias_field_apply R (S f) opk'))
        (fun i2 => imports_check i2 (r_target (i_req i))))).
    { apply sat_and_then.
      - apply sat_and_then.
        + apply sat_and_then; [apply sat_exports; [exact Hl|apply Hp]|]. intros; apply IH; assumption.
        + intros; apply sat_alias_field; assumption.
      - intros; eapply sat_imports_check; [exact Hk'|assumption]. }
    destruct opk' as [pk'|]; [|exact Hcont].
    destruct (negb (contains (p_dir pk') MODULE)); [apply Hp|exact Hcont].
Qed.
Lemma sat_extract : forall s tr (Q : list ev -> info -> Prop), good tr s ->
  (forall i, J i -> Q tr i) -> sat tr Q (extract_info s).
Proof. intros [r|i|e i] tr Q H HQ; cbn [extract_info sat]; [exact I|apply HQ, H|apply HQ, H]. Qed.
Lemma sat_main_field_loop : forall rad fuel pk i fields mi tr,
  (forall i t, J i -> sat t good (rad i)) -> J i -> J mi ->
  sat tr good (main_field_loop R rad fuel pk i fields mi).
Proof.
  induction fields as [|fld r IH]; intros mi tr Hrad HJ Hmi; cbn [main_field_loop]; [exact HJ|].
  destruct (opt_str (jget (p_raw pk) fld)) as [main|]; [|apply IH; assumption].
  destruct (_ || _); [exact HJ|]. apply sat_bind.
  eapply sat_mono with (Q := good).
  - intros t s Hs. destruct (is_success s) eqn:Es; [exact Hs|].
    apply sat_bind. eapply sat_extract; [exact Hs|]. intros i' Hi'. apply IH; assumption.
  - assert (Hmi' : J (if starts_with main (lit "./") then with_target mi main else with_target mi (lit "./" ++ main))).
    { destruct (starts_with main (lit "./")) eqn:E; [|apply J_rel, Hmi].
      apply starts_with_spec in E. destruct E as [x ->]. apply J_rel, Hmi. }
    apply sat_and_then; [apply sat_and_then; [apply sat_alias_field, Hmi'|intros; apply sat_as_file; assumption]|exact Hrad].
Qed.
Lemma info_eta : forall i, mkInfo (i_path i) (i_req i) = i.
Proof. intros []. reflexivity. Qed.
Lemma sat_main_field : forall rad fuel opk i tr,
  (forall i t, J i -> sat t good (rad i)) -> J i -> sat tr good (main_field_apply R rad fuel opk i).
Proof.
  intros rad fuel [pk|] i tr Hrad HJ; cbn [main_field_apply]; [|exact HJ].
  destruct (negb _); [exact HJ|]. rewrite info_eta. apply sat_main_field_loop; assumption.
Qed.
Lemma sat_main_file_loop : forall fuel opk i files mi tr, opkgok opk -> J i -> J mi ->
  sat tr good (main_file_loop R load fuel opk i files mi).
Proof.
  induction files as [|fl r IH]; intros mi tr Hk HJ Hmi; cbn [main_file_loop]; [exact HJ|].
  apply sat_bind. eapply sat_mono with (Q := good).
  - intros t s Hs. destruct (is_success s) eqn:Es; [exact Hs|].
    apply sat_bind. eapply sat_extract; [exact Hs|]. intros i' Hi'. apply IH; assumption.
  - apply sat_and_then; [apply sat_and_then; [apply sat_and_then|]|].
    + apply sat_exports; [exact Hk|apply J_rel, Hmi].
    + intros; apply sat_imports; assumption.
    + intros; apply sat_alias_field; assumption.
    + intros; apply sat_as_file; assumption.
Qed.
Lemma sat_main_file : forall fuel opk i tr, opkgok opk -> J i -> sat tr good (main_file_apply R load fuel opk i).
Proof. intros. unfold main_file_apply. rewrite info_eta. apply sat_main_file_loop; assumption. Qed.
Lemma sat_as_dir : forall fuel i tr, J i -> sat tr good (resolve_as_dir R load fuel i).
Proof.
  induction fuel as [|f IH]; intros i tr HJ; cbn [resolve_as_dir]; [exact I|].
  apply sat_act; [apply Hall; exact I|]. intros d _. destruct d; cbn [negb]; [|split; [exact EP_tag|exact HJ]].
  apply sat_bind. eapply sat_mono; [|apply Hload]. intros t [opk|e] Hl; [|split; [exact Hl|exact HJ]].
  assert (HJ' : J (with_target (with_path i (get_path i)) [])) by (apply J_nil, J_path, HJ).
  apply sat_and_then; [apply sat_main_field; assumption|]. intros; apply sat_main_file; assumption.
Qed.
Definition good_level (tr : list ev) (x : stats + stats) : Prop :=
  match x with inl s | inr s => good tr s end.
Lemma sat_modules_level : forall fuel i tr, J i -> sat tr good_level (modules_level R load fuel i).
Proof.
  intros fuel i tr HJ. unfold modules_level. apply sat_act; [apply Hall; exact I|]. intros d _.
  destruct d; cbn [negb]; [|exact HJ].
  destruct (module_name (r_target (i_req i))) as [mname|]; [|exact I].
  apply sat_bind. eapply sat_mono; [|apply Hload]. intros t [opk|e] Hl; [|split; [exact Hl|exact HJ]].
  set (mi := mkInfo (join (i_path i) MODULE) (i_req i)).
  assert (Hmi : J mi) by (apply (J_path i), HJ).
  cbv zeta. apply sat_act; [apply Hall; exact I|]. intros md _.
  destruct (negb md && negb _).
  - apply sat_bind. eapply sat_mono; [|apply sat_as_file, Hmi]. intros t' s Hs. cbn beta.
    destruct (is_success s); [exact Hs|exact HJ].
  - apply sat_bind. eapply sat_mono with (Q := good).
    + intros t' [r|i1|e i1] Hs; [exact Hs|exact Hs|]. cbn beta iota. destruct (str_eqb e TAG); [exact HJ|exact Hs].
    + apply sat_and_then; [apply sat_and_then; [apply sat_and_then; [apply sat_and_then|]|]|].
      * apply sat_exports; assumption.
      * intros; apply sat_imports; assumption.
      * intros i1 t1 Hi1. apply sat_alias_field. destruct (r_kind (i_req i1)); try exact Hi1. apply J_rel, Hi1.
      * intros; apply sat_as_file; assumption.
      * intros; apply sat_as_dir; assumption.
Qed.
Lemma sat_as_modules : forall fuel i tr, J i -> sat tr good (resolve_as_modules R load fuel i).
Proof.
  induction fuel as [|f IH]; intros i tr HJ; cbn [resolve_as_modules]; [exact I|].
  apply sat_bind. eapply sat_mono; [|apply sat_modules_level, HJ]. intros t [s|s] Hs; [exact Hs|].
  apply sat_bind. eapply sat_mono with (Q := good).
  - intros t' [r|i1|e i1] Hs'; [exact Hs'|split; [exact EP_tag|exact Hs']|exact Hs'].
  - apply sat_and_then; [exact Hs|]. intros i1 t1 Hi1.
    destruct (parent (i_path i)); [apply IH, J_path, Hi1|exact Hi1].
Qed.
(** What [_resolve] returns for the info [i]. *)
Definition final_good (i : info) (tr : list ev) (s : stats) : Prop :=
  match s with
  | Success (RInfo i') => J i' /\ sel tr i'
  | Success RIgnored => True
  | Resolving _ => False
  | SError e _ => exists e0, EP e0 /\ e = if str_eqb e0 TAG then resolve_failed_message i else e0
  end.
Lemma sat_alias_loop : forall rec i l tr,
  (forall i t, J i -> sat t (final_good i) (rec i)) -> J i -> incl l (o_alias (rv_opts R)) ->
  sat tr good (alias_loop rec i l).
Proof.
  induction l as [|[from to] r IH]; intros tr Hrec HJ Hin; cbn [alias_loop]; [exact HJ|].
  assert (Hin' : incl r (o_alias (rv_opts R))) by (intros x Hx; apply Hin; right; exact Hx).
  destruct (starts_with _ from); [|apply IH; assumption].
  destruct to as [t|]; [|exact I].
  destruct (_ || _); [apply IH; assumption|].
  apply sat_bind. eapply sat_mono; [|apply Hrec].
  - intros t' s Hs. cbn beta. destruct s as [[i'|]|i'|e i']; cbn [is_success]; try (apply IH; assumption); exact Hs.
  - destruct J_any as [H|[Ha _]].
    + apply (H i). exact HJ.
    + exfalso. specialize (Hin (from, ATarget t) (or_introl eq_refl)). rewrite Ha in Hin. destruct Hin.
Qed.
Lemma sat_resolve_ : forall fuel i tr, J i -> sat tr (final_good i) (resolve_ R load fuel i).
Proof.
  induction fuel as [|f IH]; intros i tr HJ; cbn [resolve_]; [exact I|].
  apply sat_bind. eapply sat_mono with (Q := good).
  - intros t [[i'|]|i'|e i'] Hs; [exact Hs|exact I|exact I|]. destruct Hs as [He _]. exists e. auto.
  - apply sat_and_then; [apply sat_and_then; [apply sat_and_then|]|].
    + unfold alias_apply. destruct (contains (i_path i) MODULE); [exact HJ|].
      apply sat_alias_loop; [exact IH|exact HJ|apply incl_refl].
    + intros i1 t1 Hi1. unfold prefer_relative_apply.
      destruct (_ || _); [exact Hi1|]. destruct (o_prefer_relative (rv_opts R)); [|exact Hi1].
      apply sat_bind. eapply sat_mono; [|apply IH; apply (J_rel i1), Hi1].
      intros t' [[i'|]|i'|e i'] Hs; cbn beta iota; cbn [is_success]; try exact Hi1; exact Hs.
    + intros i1 t1 Hi1. unfold pkg_step. apply sat_bind. eapply sat_mono; [|apply Hload].
      intros t' [opk|e] Hl; [|split; [exact Hl|exact Hi1]].
      apply sat_and_then; [apply sat_imports; assumption|]. intros; apply sat_alias_field; assumption.
    + intros i1 t1 Hi1. unfold final_step. destruct (r_kind (i_req i1));
        try (apply sat_as_modules; exact Hi1);
        (apply sat_and_then; [apply sat_as_file, Hi1|]; intros; apply sat_as_dir; assumption).
Qed.
End Generic.

(** ** The description loader *)
Section Loader.
Variable ok : forall o, ans o -> Prop.
Variable allowed : op -> Prop.
Hypothesis Hall : forall o, (forall p, o <> OCanon p) -> allowed o.
Notation sat := (sat ok allowed).
Variable R : resolver.
Variable pkgok : pkg -> Prop.
Hypothesis Hget : forall c p pk, ok (OPkgGet c p) (Some (Some pk)) -> pkgok pk.
Definition loaded_tree (fk : field) (j : json) (o : option ptn) : Prop := forall t, o = Some t ->
  exists v, jget j (match fk with FExports => lit "exports" | FImports => lit "imports" end) = Some v /\
    (build_field fk v = PRet (Ok t) \/
     match fk with FExports => ok (OExpGet (rv_cache R) (to_string v)) (Some t) | FImports => ok (OImpGet (rv_cache R) (to_string v)) (Some t) end).
Hypothesis Hparse : forall p s pk, ok (ORead p) (Some s) -> rv_json R s = Some (p_raw pk) ->
  loaded_tree FExports (p_raw pk) (p_exports pk) -> loaded_tree FImports (p_raw pk) (p_imports pk) -> pkgok pk.
(** [TAG] is only returned when the search fell off the top of the path. *)
Definition fell_off (p : path) : Prop :=
  is_abs p = true -> exists q, components q = [CRoot] /\ ok (OIsDir q) false.
Definition lres (p : path) (r : result (option pkg)) : Prop :=
  match r with Ok o => opkgok pkgok o | Err e => desc_err e \/ e = TAG /\ fell_off p end.

Lemma sat_try {A B} : forall (p : prog (result A)) (f : A -> prog (result B)) tr Q,
  sat tr (fun t r => match r with Ok a => sat t Q (f a) | Err e => Q t (Err e) end) p ->
  sat tr Q (try_ p f).
Proof.
  intros p f tr Q H. unfold try_. apply sat_bind. eapply sat_mono; [|exact H].
  intros t [a|e] Ha; exact Ha.
Qed.
Definition errT {A} (r : result A) : Prop := match r with Ok _ => True | Err e => desc_err e end.
Lemma sat_lastmod : forall p tr (Q : list ev -> result N -> Prop), (forall t r, errT r -> Q t r) -> sat tr Q (get_last_modified p).
Proof.
  intros p tr Q HQ. unfold get_last_modified. apply sat_act; [apply Hall; discriminate|].
  intros [] _; apply HQ; constructor || exact I.
Qed.
Lemma sat_need_update : forall p tr (Q : list ev -> result bool -> Prop), (forall t r, errT r -> Q t r) -> sat tr Q (need_update R p).
Proof.
  intros p tr Q HQ. unfold need_update. apply sat_act; [apply Hall; discriminate|].
  intros [] _; cbn [negb]; [|apply HQ; exact I]. apply sat_act; [apply Hall; discriminate|].
  intros [[s t0]|] _; [|apply HQ; exact I]. apply sat_try, sat_lastmod. intros t [n|e] He; [|apply HQ, He].
  destruct (N.ltb n t0); apply HQ; [constructor|exact I].
Qed.
Lemma sat_read : forall p tr (Q : list ev -> result str -> Prop), (forall t r, errT r -> (forall s, r = Ok s -> ok (ORead p) (Some s)) -> Q t r) -> sat tr Q (read_to_string R p).
Proof.
  intros p tr Q HQ. unfold read_to_string. apply sat_act; [apply Hall; discriminate|].
  intros [s|] Hs; [|apply HQ; [constructor|discriminate]]. apply sat_try, sat_lastmod. intros t [n|e] He; [|apply HQ; [exact He|discriminate]].
  apply sat_act; [apply Hall; discriminate|]. intros [] _. apply HQ; [exact I|]. intros s' [= <-]. exact Hs.
Qed.
Lemma exports_keys_errT : forall m root r, exports_keys m root = PRet r -> errT r.
Proof.
  induction m as [|[k v] m IH]; intros root r H; cbn [exports_keys] in H.
  - inversion H; subst. exact I.
  - destruct (Nat.eqb (blen k) 1); [eapply IH, H|].
    destruct (negb (starts_with k (lit "./"))); [inversion H; subst; constructor|].
    destruct (walk root (skipn 2 k) v); cbn [pbind] in H; try discriminate. eapply IH, H.
Qed.
Lemma imports_keys_errT : forall m root r, imports_keys m root = PRet r -> errT r.
Proof.
  induction m as [|[k v] m IH]; intros root r H; cbn [imports_keys] in H.
  - inversion H; subst. exact I.
  - destruct (negb (starts_with_char k c_hash)); [inversion H; subst; constructor|].
    destruct (Nat.eqb (blen k) 1); [inversion H; subst; constructor|].
    destruct (starts_with k (lit "#/")); [inversion H; subst; constructor|].
    destruct (walk root (skipn 1 k) v); cbn [pbind] in H; try discriminate. eapply IH, H.
Qed.
Lemma build_exports_errT : forall j r, build_exports j = PRet r -> errT r.
Proof.
  intros j r H. unfold build_exports in H. destruct (from_json j) as [[s|m|a]|m|]; cbn [pbind] in H; try discriminate.
  - inversion H; subst. exact I.
  - destruct (_ && _); [inversion H; subst; constructor|].
    destruct (forallb _ m); [inversion H; subst; exact I|]. eapply exports_keys_errT, H.
  - inversion H; subst. exact I.
Qed.
Lemma build_imports_errT : forall j r, build_imports j = PRet r -> errT r.
Proof.
  intros j r H. unfold build_imports in H. destruct (from_json j) as [[s|m|a]|m|]; cbn [pbind] in H; try discriminate.
  eapply imports_keys_errT, H.
Qed.
Lemma sat_load_exports : forall j tr,
  sat tr (fun _ r => errT r /\ match r with Ok o => loaded_tree FExports j o | Err _ => True end) (load_exports R j).
Proof.
  intros j tr. unfold load_exports. destruct (jget j (lit "exports")) as [v|] eqn:Ev; [|split; [exact I|intros t [=]]].
  apply sat_act; [apply Hall; discriminate|]. intros [t|] Ht; [split; [exact I|intros t' [= <-]; exists v; auto]|].
  apply sat_try, sat_lift. intros [t|e] He; [|split; [apply build_exports_errT in He; exact He|exact I]].
  apply sat_act; [apply Hall; discriminate|]. intros [] _. split; [exact I|intros t' [= <-]; exists v; auto].
Qed.
Lemma sat_load_imports : forall j tr,
  sat tr (fun _ r => errT r /\ match r with Ok o => loaded_tree FImports j o | Err _ => True end) (load_imports R j).
Proof.
  intros j tr. unfold load_imports. destruct (jget j (lit "imports")) as [v|] eqn:Ev; [|split; [exact I|intros t [=]]].
  apply sat_act; [apply Hall; discriminate|]. intros [t|] Ht; [split; [exact I|intros t' [= <-]; exists v; auto]|].
  apply sat_try, sat_lift. intros [t|e] He; [|split; [apply build_imports_errT in He; exact He|exact I]].
  apply sat_act; [apply Hall; discriminate|]. intros [] _. split; [exact I|intros t' [= <-]; exists v; auto].
Qed.
Lemma side_strings_err : forall fp l e, side_strings fp l = Err e -> exists v, e = side_err fp v.
Proof.
  induction l as [|v l IH]; intros e H; cbn [side_strings] in H; [discriminate|].
  destruct (as_str v); [|inversion H; eauto].
  destruct (side_strings fp l) as [t|e']; inversion H; subst. apply IH. reflexivity.
Qed.
Lemma side_effects_err : forall fp j e, side_effects_of fp j = Err e -> exists v, e = side_err fp v.
Proof.
  intros fp j e H. unfold side_effects_of in H. destruct (jget j _) as [v|]; [|discriminate].
  destruct (as_bool v); [discriminate|]. destruct (as_array v) as [l|]; [|inversion H; eauto].
  destruct (side_strings fp l) as [t|e'] eqn:E; inversion H; subst. eapply side_strings_err, E.
Qed.
Lemma sat_parse_store : forall p dfp q tr, sat tr (fun _ => lres q) (parse_and_store R p dfp).
Proof.
  intros p dfp q tr. unfold parse_and_store. apply sat_try.
  assert (Hs : forall t, sat t (fun _ r => match r with Ok pk => pkgok pk | Err e => desc_err e end)
            (parse_description_file R p dfp)).
  { intros t. unfold parse_description_file. apply sat_bind.
    assert (Hd : forall t0 (Q : list ev -> unit -> Prop), (forall t1, Q t1 tt) -> sat t0 Q (dbg_check R dfp)).
    { intros t0 Q HQ. unfold dbg_check. destruct (rv_debug R); [|apply HQ].
      apply sat_act; [apply Hall; discriminate|]. intros [] _; [exact I|].
      split; [apply Hall; discriminate|]. intros [] _. apply HQ. }
    apply Hd. intros t1. apply sat_bind, sat_read. intros t2 [s|e] He Hs; [|constructor]. specialize (Hs s eq_refl).
    destruct (rv_json R s) as [j|] eqn:Ej; [|constructor].
    apply sat_bind, sat_lift. intros af _. apply sat_act; [apply Hall; discriminate|]. intros seed _.
    apply sat_try. eapply sat_mono; [|apply sat_load_exports]. intros t3 [ex|e] [He1 Hex]; [|exact He1].
    apply sat_try. eapply sat_mono; [|apply sat_load_imports]. intros t4 [im|e] [He2 Him]; [|exact He2].
    cbv zeta. destruct (side_effects_of dfp j) as [se|e] eqn:Ese.
    - cbn [sat]. eapply Hparse; cbn [p_raw p_exports p_imports]; eauto.
    - apply side_effects_err in Ese. destruct Ese as [v ->]. constructor. }
  eapply sat_mono; [|apply Hs]. intros t [pk|e] Hpk; [|left; exact Hpk].
  apply sat_act; [apply Hall; discriminate|]. intros [] _. exact Hpk.
Qed.
Lemma is_abs_components : forall p, is_abs p = true <-> exists l, components p = CRoot :: l.
Proof.
  intros p. split.
  - intros H. apply starts_with_char_spec in H. destruct H as [r ->]. rewrite components_abs. eauto.
  - intros [l H]. destruct (is_abs p) eqn:E; [reflexivity|]. rewrite components_def in H. unfold head_comps in H.
    rewrite E in H. destruct (lead_cur p); [discriminate|]. cbn [app] in H. unfold seg_comps in H.
    destruct (filter keep _) as [|x r]; [discriminate|]. cbn [map] in H. unfold seg_comp in H.
    destruct (str_eqb x s_dotdot); discriminate.
Qed.
Lemma parent_abs : forall p q, parent p = Some q -> is_abs p = true -> is_abs q = true.
Proof.
  intros p q H Ha. apply parent_some in H. destruct H as [E [_ Hn]].
  apply is_abs_components in Ha. destruct Ha as [l El]. apply is_abs_components.
  rewrite El in E, Hn. destruct l as [|x l]; [congruence|]. rewrite E. cbn [removelast]. eauto.
Qed.
Lemma sat_find_up : forall fuel p n tr,
  sat tr (fun _ r => match r with Some q => is_abs p = true -> is_abs q = true | None => True end) (find_up fuel p n).
Proof.
  induction fuel as [|f IH]; intros p n tr; cbn [find_up]; [exact I|].
  apply sat_act; [apply Hall; discriminate|]. intros [] _; [intros H; exact H|].
  destruct (parent p) as [q|] eqn:E; [|exact I].
  eapply sat_mono; [|apply IH]. intros t [q'|] Hq; [|exact I]. intros Ha. apply Hq. eapply parent_abs; eassumption.
Qed.
Lemma sat_none_loop : forall fuel p tr, sat tr (fun _ r => r = Ok None) (none_loop R fuel p).
Proof.
  induction fuel as [|f IH]; intros p tr; cbn [none_loop]; [exact I|].
  apply sat_act; [apply Hall; discriminate|]. intros [] _; [|apply IH].
  apply sat_act; [apply Hall; discriminate|]. intros [] _. destruct (parent p); [apply IH|reflexivity].
Qed.
Lemma lres_abs : forall p q r, (is_abs p = true -> is_abs q = true) -> lres q r -> lres p r.
Proof.
  intros p q [o|e] Ha H; [exact H|]. destruct H as [H|[H1 H2]]; [left; exact H|].
  right. split; [exact H1|]. intros Hp. apply H2, Ha, Hp.
Qed.
Lemma sat_check : forall p dfp tr (Q : list ev -> result bool -> Prop), (forall t r, errT r -> Q t r) -> sat tr Q (check_entry R p dfp).
Proof.
  intros p dfp tr Q HQ. unfold check_entry. apply sat_bind, sat_need_update. intros t u Hu. apply sat_bind.
  assert (Hd : forall t, sat t (fun _ _ => True) (match u with Ok true => if rv_debug R then act (ODbgDel (rv_id R) dfp) else Ret tt | _ => Ret tt end)).
  { intros t0. destruct u as [[|]|]; try exact I. destruct (rv_debug R); [|exact I]. split; [apply Hall; discriminate|]. intros [] _. exact I. }
  eapply sat_mono; [|apply Hd]. intros t1 _ _. split; [apply Hall; discriminate|]. intros x _. apply HQ, Hu.
Qed.
Lemma sat_load : forall fuel p tr, sat tr (fun _ => lres p) (load_pkg_file R fuel p).
Proof.
  induction fuel as [|f IH]; intros p tr; cbn [load_pkg_file]; [exact I|].
  destruct (o_desc (rv_opts R)) as [name|]; [|exact I].
  apply sat_act; [apply Hall; discriminate|]. intros d Hd. destruct d; cbn [negb].
  2:{ destruct (parent p) as [q|] eqn:Eq.
      - eapply sat_mono; [|apply IH]. intros t r Hr. eapply lres_abs; [|exact Hr]. intros Ha. eapply parent_abs; eassumption.
      - right. split; [reflexivity|]. intros Ha. exists p. split; [|exact Hd].
        apply parent_none in Eq. destruct Eq as [E|E]; [|exact E].
        apply components_nil_iff in E. subst. discriminate. }
  apply sat_act; [apply Hall; discriminate|]. intros [v|] Hv.
  - apply sat_try, sat_check. intros t [u|e] He; [|left; exact He]. destruct u; cbn [negb].
    + apply sat_parse_store.
    + cbn. destruct v as [pk|]; [|exact I]. eapply Hget; exact Hv.
  - apply sat_act; [apply Hall; discriminate|]. intros isf _. destruct isf; [apply sat_parse_store|].
    apply sat_bind. eapply sat_mono; [|apply sat_find_up]. intros t [dir|] Hdir.
    + eapply sat_mono; [|apply IH]. intros t1 r Hr. eapply lres_abs; [|exact Hr]. exact Hdir.
    + eapply sat_mono; [|apply sat_none_loop]. intros t1 r ->. exact I.
Qed.
End Loader.

(** The loader when no file exists and no description is cached. *)
Definition nofile_ok (o : op) : ans o -> Prop :=
  match o return ans o -> Prop with
  | OIsFile _ => fun x => x = false
  | OPkgGet _ _ => fun x => x = None \/ x = Some None
  | _ => fun _ => True
  end.
Lemma sat_load_nofile : forall R fuel p tr,
  sat nofile_ok (fun _ => True) tr (fun _ r => r = Ok None \/ r = Err TAG) (load_pkg_file R fuel p).
Proof.
  induction fuel as [|f IH]; intros p tr; cbn [load_pkg_file]; [exact I|].
  destruct (o_desc (rv_opts R)) as [name|]; [|left; reflexivity].
  apply sat_act; [exact I|]. intros d _. destruct d; cbn [negb].
  2:{ destruct (parent p); [apply IH|right; reflexivity]. }
  apply sat_act; [exact I|]. intros v Hv. cbn in Hv. destruct v as [v|].
  - assert (v = None) by (destruct Hv as [Hv|Hv]; congruence). subst v.
    apply sat_try. unfold check_entry. apply sat_bind. unfold need_update. apply sat_act; [exact I|]. intros isf Hf. cbn in Hf. subst isf.
    cbn. split; [exact I|]. intros x _. left. reflexivity.
  - apply sat_act; [exact I|]. intros isf Hf. cbn in Hf. subst isf. apply sat_bind.
    assert (Hup : forall fu q t, sat nofile_ok (fun _ => True) t (fun _ r => r = None) (find_up fu q name)).
    { induction fu as [|fu IHf]; intros q t; cbn [find_up]; [exact I|].
      apply sat_act; [exact I|]. intros isf Hf. cbn in Hf. subst isf. destruct (parent q); [apply IHf|reflexivity]. }
    eapply sat_mono; [|apply Hup]. intros t r ->.
    eapply sat_mono; [|apply sat_none_loop; auto]. intros; left; assumption.
Qed.

(** ** The public [resolve] *)
Lemma failed_msg_not_tag : forall i, resolve_failed_message i <> TAG.
Proof. intros i H. vm_compute in H. discriminate. Qed.
