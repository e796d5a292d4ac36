(** * Every error has its reason (C13) *)
From Coq Require Import String.
From Coq Require Import List Arith NArith Bool Lia.
From Verif Require Import Str StrP Path PathP Json Types Parse ParseP Map Prog Desc Resolve Top Run Exec SpecApi SpecExports SpecError ExecP ApiP.
Import ListNotations.

Section Err.
Variable R : resolver.
Notation blame := (blame R).
Notation sat := (sat anyok (fun _ => True)).
Definition ext (t t' : list ev) : Prop := exists d, t' = t ++ d.
Lemma ext_refl : forall t, ext t t.
Proof. intros t. exists []. symmetry. apply app_nil_r. Qed.
Lemma ext_trans : forall a b c, ext a b -> ext b c -> ext a c.
Proof. intros a b c [d ->] [d' ->]. exists (d ++ d'). symmetry. apply app_assoc. Qed.
Lemma ext_snoc : forall t e, ext t (t ++ [e]).
Proof. intros t e. exists [e]. reflexivity. Qed.
Lemma ext_in : forall t t' e, ext t t' -> In e t -> In e t'.
Proof. intros t t' e [d ->] H. apply in_app_iff. left. exact H. Qed.
Lemma described_ext : forall t t' pk, ext t t' -> described t pk -> described t' pk.
Proof. intros t t' pk E [(c & p & H)|(c & p & H)]; [left|right]; exists c, p; eapply ext_in; eassumption. Qed.
Lemma refused_ext : forall t t' i, ext t t' -> refused t i -> refused t' i.
Proof. intros t t' i E [H|H]; [left; eapply ext_in; eassumption|right; exact H]. Qed.
Lemma has_read_ext : forall t t' p j, ext t t' -> has_read R t p j -> has_read R t' p j.
Proof. intros t t' p j E (s & H1 & H2). exists s. split; [eapply ext_in; eassumption|exact H2]. Qed.
Lemma blame_ext : forall t t' e, ext t t' -> blame t e -> blame t' e.
Proof.
  intros t t' e E H. pose proof (fun e0 => ext_in t t' e0 E) as Hin. destruct H.
  - apply BOpen. destruct H as [H|[H|H]]; auto.
  - apply BNoTime. auto.
  - eapply BCompare; eauto.
  - eapply BParse; eauto.
  - eapply BSide; eauto. eapply has_read_ext; eauto.
  - eapply BExportsKeys; eauto. eapply has_read_ext; eauto.
  - eapply BImportsKeys; eauto. eapply has_read_ext; eauto.
  - eapply BExportsField; eauto. eapply described_ext; eauto.
  - eapply BImportsField; eauto. eapply described_ext; eauto.
  - eapply BExportsDenied; eauto; [eapply described_ext; eauto|]. eapply Forall_impl; [|eassumption]. intros c. apply refused_ext, E.
  - eapply BImportsDenied; eauto; [eapply described_ext; eauto|]. destruct H2 as [H2|[i H2]]; [left; exact H2|right; exists i; eapply refused_ext; eauto].
  - eapply BNormalize; eauto.
  - eapply BTsParse; eauto.
  - eapply BTsIgnored; eauto.
Qed.
Lemma sat_ext {A} : forall (p : prog A) tr Q, sat tr Q p -> sat tr (fun t a => Q t a /\ ext tr t) p.
Proof.
  intros p tr Q H. eapply sat_mono; [|apply (sat_weaken anyok (fun _ => True) (fun _ => True)); [auto|exact H]].
  intros t a [H1 (d & -> & _)]. split; [exact H1|]. exists d. reflexivity.
Qed.
Lemma sat_seq {A B} : forall (p : prog A) (f : A -> prog B) tr Q Q', sat tr Q p ->
  (forall t a, ext tr t -> Q t a -> sat t Q' (f a)) -> sat tr Q' (bind p f).
Proof.
  intros p f tr Q Q' Hp Hf. apply sat_bind. eapply sat_mono; [|apply sat_ext, Hp]. intros t a [H1 H2]. apply Hf; assumption.
Qed.
Lemma sat_op {B} : forall o (f : ans o -> prog B) tr Q, (forall x, sat (tr ++ [mkev o x]) Q (f x)) -> sat tr Q (bind (act o) f).
Proof. intros o f tr Q H. apply sat_act; [exact I|]. intros x _. apply H. Qed.
Lemma last_in : forall t (e : ev), In e (t ++ [e]).
Proof. intros t e. apply in_app_iff. right. left. reflexivity. Qed.

(** ** The loader *)
Definition opd (t : list ev) (o : option pkg) : Prop := match o with Some pk => described t pk | None => True end.
Definition lgood (t : list ev) (r : result (option pkg)) : Prop :=
  match r with Ok o => opd t o | Err e => e = TAG \/ blame t e end.
Definition egood {A} (t : list ev) (r : result A) : Prop := match r with Ok _ => True | Err e => blame t e end.
Lemma opd_ext : forall t t' o, ext t t' -> opd t o -> opd t' o.
Proof. intros t t' [pk|] E H; [eapply described_ext; eassumption|exact I]. Qed.

Lemma last_modified : forall p tr, sat tr (fun t r => match r with Ok n => In (mkev (OMtime p) (MTime n)) t | Err e => blame t e /\ (In (mkev (OMtime p) MErr) t \/ In (mkev (OMtime p) MNoTime) t) end) (get_last_modified p).
Proof.
  intros p tr. unfold get_last_modified. apply sat_op. intros [| |n]; cbn [ExecP.sat].
  - split; [|left; apply last_in]. apply BOpen. right. left. apply last_in.
  - split; [|right; apply last_in]. apply BNoTime. apply last_in.
  - apply last_in.
Qed.
Lemma e_need_update : forall p tr, sat tr egood (need_update R p).
Proof.
  intros p tr. unfold need_update. apply sat_op. intros [|]; cbn [negb]; [|exact I].
  apply sat_op. intros [[s t0]|]; [|exact I]. unfold try_. eapply sat_seq; [apply last_modified|].
  intros t [n|e] E H; [|exact (proj1 H)]. destruct (N.ltb_spec n t0) as [Hlt|Hle]; [|exact I].
  eapply BCompare; [exact H| |exact Hlt]. eapply ext_in; [exact E|]. apply last_in.
Qed.
Lemma e_read : forall p tr, sat tr (fun t r => match r with Ok s => In (mkev (ORead p) (Some s)) t | Err e => blame t (open_failed p) end) (read_to_string R p).
Proof.
  intros p tr. unfold read_to_string. apply sat_op. intros [s|]; [|cbn [ExecP.sat]; apply BOpen; left; apply last_in].
  unfold try_. eapply sat_seq; [apply last_modified|]. intros t [n|e] E H.
  - apply sat_op. intros []. cbn [ExecP.sat]. apply (ext_in _ _ _ (ext_snoc _ _)). apply (ext_in _ _ _ E). apply last_in.
  - cbn [ExecP.sat]. apply BOpen. destruct H as [_ [H|H]]; auto.
Qed.
Lemma e_exports : forall j p tr, has_read R tr p j -> sat tr egood (load_exports R j).
Proof.
  intros j p tr Hr. unfold load_exports. destruct (jget j (lit "exports")) as [v|] eqn:Ev; [|exact I].
  apply sat_op. intros [t|]; [exact I|]. unfold try_. apply sat_bind, sat_lift. intros [t|e] He.
  - apply sat_op. intros []. exact I.
  - eapply BExportsKeys; [eapply has_read_ext; [apply ext_snoc|exact Hr]|exact Ev|exact He].
Qed.
Lemma e_imports : forall j p tr, has_read R tr p j -> sat tr egood (load_imports R j).
Proof.
  intros j p tr Hr. unfold load_imports. destruct (jget j (lit "imports")) as [v|] eqn:Ev; [|exact I].
  apply sat_op. intros [t|]; [exact I|]. unfold try_. apply sat_bind, sat_lift. intros [t|e] He.
  - apply sat_op. intros []. exact I.
  - eapply BImportsKeys; [eapply has_read_ext; [apply ext_snoc|exact Hr]|exact Ev|exact He].
Qed.
Lemma side_strings_in : forall fp l e, side_strings fp l = Err e -> exists v, In v l /\ as_str v = None /\ e = side_err fp v.
Proof.
  induction l as [|v l IH]; intros e H; cbn [side_strings] in H; [discriminate|].
  destruct (as_str v) eqn:Ev; [|injection H as <-; exists v; split; [left; reflexivity|split; [exact Ev|reflexivity]]].
  destruct (side_strings fp l) as [t|e']; [discriminate|]. injection H as <-. destruct (IH e' eq_refl) as (w & Hw & H2). exists w. split; [right; exact Hw|exact H2].
Qed.
Lemma e_side : forall t fp j e, has_read R t fp j -> side_effects_of fp j = Err e -> blame t e.
Proof.
  intros t fp j e Hr H. unfold side_effects_of in H. destruct (jget j (lit "sideEffects")) as [w|] eqn:Ew; [|discriminate].
  destruct (as_bool w) eqn:Eb; [discriminate|]. destruct (as_array w) as [l|] eqn:Ea.
  - destruct (side_strings fp l) as [x|e'] eqn:El; [discriminate|]. injection H as <-. destruct (side_strings_in _ _ _ El) as (v & Hv & Hs & ->).
    eapply BSide; [exact Hr|exact Ew|]. right. exists l. auto.
  - injection H as <-. eapply BSide; [exact Hr|exact Ew|]. left. auto.
Qed.
Lemma e_store : forall p dfp tr, sat tr lgood (parse_and_store R p dfp).
Proof.
  intros p dfp tr. unfold parse_and_store, try_. eapply sat_seq with (Q := egood).
  2:{ intros t [pk|e] _ H; [|right; exact H]. apply sat_op. intros []. cbn [ExecP.sat lgood opd]. right. exists (rv_cache R), p. apply last_in. }
  unfold parse_description_file. eapply sat_seq with (Q := fun _ _ => True).
  { unfold dbg_check. destruct (rv_debug R); [|exact I]. apply sat_op. intros [|]; [exact I|]. split; [exact I|]. intros x _. exact I. }
  intros t _ _ _. eapply sat_seq; [apply e_read|]. intros t1 [s|e] _ H; [|exact H].
  destruct (rv_json R s) as [j|] eqn:Ej; [|eapply BParse; eassumption].
  assert (Hr : has_read R t1 dfp j) by (exists s; auto).
  apply sat_bind, sat_lift. intros af _. apply sat_op. intros seed.
  pose proof (has_read_ext _ _ _ _ (ext_snoc t1 (mkev OOrder seed)) Hr) as Hr1.
  unfold try_. eapply sat_seq; [eapply e_exports, Hr1|]. intros t2 [ex|e] E2 H2; [|exact H2].
  pose proof (has_read_ext _ _ _ _ E2 Hr1) as Hr2. eapply sat_seq; [eapply e_imports, Hr2|]. intros t3 [im|e] E3 H3; [|exact H3].
  pose proof (has_read_ext _ _ _ _ E3 Hr2) as Hr3. destruct (side_effects_of dfp j) as [se|e] eqn:Es; [exact I|]. eapply e_side; eassumption.
Qed.
Lemma e_find_up : forall fuel p n tr, sat tr (fun _ _ => True) (find_up fuel p n).
Proof.
  induction fuel as [|f IH]; intros p n tr; cbn [find_up]; [exact I|]. apply sat_op. intros [|]; [exact I|]. destruct (parent p); [apply IH|exact I].
Qed.
Lemma e_none : forall fuel p tr, sat tr lgood (none_loop R fuel p).
Proof.
  induction fuel as [|f IH]; intros p tr; cbn [none_loop]; [exact I|]. apply sat_op. intros [|]; [|apply IH].
  apply sat_op. intros []. destruct (parent p); [apply IH|exact I].
Qed.
Lemma e_check : forall d p tr, sat tr egood (check_entry R d p).
Proof.
  intros d p tr. unfold check_entry. eapply sat_seq; [apply e_need_update|]. intros t u E H.
  eapply sat_seq with (Q := fun _ _ => True); [destruct u as [[|]|]; try exact I; destruct (rv_debug R); [split; [exact I|intros x _; exact I]|exact I]|].
  intros t1 _ E1 _. apply sat_op. intros x. cbn [ExecP.sat]. destruct u as [b|e]; [exact I|].
  eapply blame_ext; [|exact H]. eapply ext_trans; [exact E1|apply ext_snoc].
Qed.
Lemma e_load : forall fuel p tr, sat tr lgood (load_pkg_file R fuel p).
Proof.
  induction fuel as [|f IH]; intros p tr; cbn [load_pkg_file]; [exact I|].
  destruct (o_desc (rv_opts R)) as [name|]; [|exact I]. apply sat_op. intros [|]; cbn [negb].
  2:{ destruct (parent p); [apply IH|left; reflexivity]. }
  apply sat_op. intros [v|].
  - unfold try_. eapply sat_seq; [apply e_check|]. intros t [u|e] E H; [|right; exact H].
    destruct u; cbn [negb].
    + apply e_store.
    + cbn [ExecP.sat lgood]. destruct v as [pk|]; [|exact I]. left. exists (rv_cache R), p. eapply ext_in; [exact E|]. apply last_in.
  - apply sat_op. intros [|]; [apply e_store|]. eapply sat_seq; [apply e_find_up|]. intros t [d|] _ _; [apply IH|apply e_none].
Qed.

(** ** Resolution *)
Section Steps.
Variable load : path -> prog (result (option pkg)).
Hypothesis Hload : forall p tr, sat tr lgood (load p).
Definition good (t : list ev) (s : stats) : Prop :=
  match s with
  | SError e _ => e = TAG \/ blame t e
  | Success (RInfo i) => In (mkev (OIsFile (i_path i)) true) t
  | _ => True
  end.
Definition fgood (i : info) (t : list ev) (s : stats) : Prop :=
  match s with
  | SError e _ => e = resolve_failed_message i \/ blame t e
  | Success (RInfo i') => In (mkev (OIsFile (i_path i')) true) t
  | Success RIgnored => True
  | Resolving _ => False
  end.
Lemma s_then : forall p f tr, sat tr good p -> (forall i t, ext tr t -> sat t good (f i)) -> sat tr good (and_then p f).
Proof.
  intros p f tr Hp Hf. unfold and_then. eapply sat_seq; [exact Hp|]. intros t [r|i|e i] E H; [exact H|apply Hf, E|exact H].
Qed.
Lemma s_extensions : forall p i exts tr, sat tr good (extensions_loop p i exts).
Proof.
  induction exts as [|e r IH]; intros tr; cbn [extensions_loop]; [exact I|]. apply sat_op. intros [|]; [|apply IH]. cbn. apply last_in.
Qed.
Lemma s_file : forall i tr, sat tr good (resolve_as_file R i).
Proof.
  intros i tr. unfold resolve_as_file, extensions_apply. destruct (negb (enforce R)); [|apply s_extensions].
  apply sat_op. intros [|]; [|apply s_extensions]. cbn. apply last_in.
Qed.
Lemma s_alias_field : forall fuel opk i tr, sat tr good (alias_field_apply R fuel opk i).
Proof.
  intros fuel opk i tr. unfold alias_field_apply. destruct (negb _); [exact I|]. destruct opk as [pk|]; [|exact I].
  assert (H : forall l, sat tr good (alias_field_loop R fuel pk i l)); [|apply H].
  intros l. induction l as [|[k v] l IH]; cbn [alias_field_loop]; [exact I|].
  destruct (should_deal_alias R pk i k); [|apply IH]. apply sat_bind, sat_lift. intros [t|] _; exact I.
Qed.
Lemma s_exports_loop : forall pk i tree u l tr, described tr pk -> p_exports pk = Some tree ->
  (exists l0, field_process FExports tree u (conds R) = PRet (Ok (l0 ++ l)) /\ Forall (fun c => refused tr (mkInfo (p_dir pk) (parse c))) l0) ->
  sat tr good (exports_loop pk i l).
Proof.
  intros pk i tree u l. induction l as [|x r IH]; intros tr Hd He (l0 & Hf & Hl0); cbn [exports_loop].
  - right. rewrite app_nil_r in Hf. eapply BExportsDenied; eassumption.
  - assert (Hnext : forall t, ext tr t -> refused t (mkInfo (p_dir pk) (parse x)) -> sat t good (exports_loop pk i r)).
    { intros t E Hx. apply IH; [eapply described_ext; eassumption|exact He|]. exists (l0 ++ [x]). rewrite <- app_assoc. split; [exact Hf|].
      apply Forall_app. split; [eapply Forall_impl; [|exact Hl0]; intros c; apply refused_ext, E|]. constructor; [exact Hx|constructor]. }
    apply sat_op. intros [|].
    + apply sat_bind, sat_lift. intros [|] Hc; [exact I|]. apply Hnext; [apply ext_snoc|]. right. exact Hc.
    + apply Hnext; [apply ext_snoc|]. left. apply last_in.
Qed.
Lemma s_exports : forall opk i tr, opd tr opk -> sat tr good (exports_apply R opk i).
Proof.
  intros [pk|] i tr Hd; cbn [exports_apply]; [|exact I]. cbn [opd] in Hd.
  destruct (negb (kind_eqb _ _)); [exact I|]. destruct (_ && _); [exact I|].
  destruct (p_exports pk) as [tree|] eqn:Ex; [|exact I].
  eapply sat_seq with (Q := fun _ _ => True).
  - unfold exports_subpath. eapply sat_seq with (Q := fun _ _ => True).
    + destruct (starts_with_char _ _); [|exact I]. destruct (find_char _ _) as [[? ?]|]; exact I.
    + intros t x _ _. destruct (find_char x c_slash) as [[? ?]|]; [exact I|]. apply sat_op. intros e. destruct (_ || _); exact I.
  - intros t [s|] E _; [|left; reflexivity]. apply sat_bind, sat_lift. intros [l|e] Hf.
    + eapply s_exports_loop; [eapply described_ext; eassumption|exact Ex|]. exists []. split; [exact Hf|constructor].
    + right. eapply BExportsField; [eapply described_ext; eassumption|exact Ex|exact Hf].
Qed.
Lemma s_imports_check : forall i t tr pk tree l, described tr pk -> p_imports pk = Some tree ->
  field_process FImports tree t (conds R) = PRet (Ok l) -> sat tr good (imports_check i t).
Proof.
  intros i t tr pk tree l Hd Hp Hf. unfold imports_check. apply sat_op.
  assert (Hno : forall x, refused (tr ++ [mkev (OIsFile (get_path i)) x]) i -> blame (tr ++ [mkev (OIsFile (get_path i)) x]) (not_exported t)).
  { intros x Hx. eapply BImportsDenied; [eapply described_ext; [apply ext_snoc|exact Hd]|exact Hp|exact Hf|]. right. exists i. exact Hx. }
  intros [|].
  - apply sat_bind, sat_lift. intros [|] Hc; [exact I|]. right. apply Hno. right. exact Hc.
  - right. apply Hno. left. apply last_in.
Qed.
Lemma s_imports : forall fuel opk i tr, opd tr opk -> sat tr good (imports_apply R load fuel opk i).
Proof.
  induction fuel as [|f IH]; intros opk i tr Hd; cbn [imports_apply]; [exact I|].
  destruct opk as [pk|]; [|exact I]. destruct (negb _); [exact I|]. destruct (p_imports pk) as [tree|] eqn:Ex; [|exact I].
  apply sat_bind, sat_lift. intros [l|e] Hf; [|right; eapply BImportsField; eassumption].
  destruct l as [|item l]; [right; eapply BImportsDenied; try eassumption; left; reflexivity|].
  assert (Hc : forall d t, ext tr t -> sat t good (imports_check d (r_target (i_req i)))).
  { intros d t E. eapply s_imports_check; [eapply described_ext; [exact E|exact Hd]|exact Ex|exact Hf]. }
  destruct (r_kind (parse item)); try (apply Hc, ext_refl).
  - apply IH. exact Hd.
  - eapply sat_seq; [apply Hload|]. intros t [opk'|e] E Hl; [|exact Hl]. cbn [lgood] in Hl.
    assert (Hcont : sat t good (and_then (and_then (and_then
        (exports_apply R opk' {| i_path := join (p_dir pk) MODULE; i_req := parse item |})
        (imports_apply R load f opk')) (alias_field_apply R (S f) opk'))
        (fun i2 => imports_check i2 (r_target (i_req i))))).
    { apply s_then.
      - apply s_then; [apply s_then; [apply s_exports, Hl|]|].
        + intros i1 t1 E1. apply IH. eapply opd_ext; eassumption.
        + intros i1 t1 E1. apply s_alias_field.
      - intros i1 t1 E1. apply Hc. eapply ext_trans; eassumption. }
    destruct opk' as [pk'|]; [|exact Hcont]. destruct (negb _); [exact I|exact Hcont].
Qed.
Lemma s_extract : forall s tr, sat tr (fun _ _ => True) (extract_info s).
Proof. intros [r|i|e i] tr; exact I. Qed.
Lemma s_main_field : forall rad fuel opk i tr, (forall i t, sat t good (rad i)) -> sat tr good (main_field_apply R rad fuel opk i).
Proof.
  intros rad fuel [pk|] i tr Hrad; cbn [main_field_apply]; [|exact I]. destruct (negb _); [exact I|].
  generalize (mkInfo (i_path i) (i_req i)). revert tr. induction (o_main_fields (rv_opts R)) as [|fld r IH]; intros tr mi; cbn [main_field_loop]; [exact I|].
  destruct (opt_str (jget (p_raw pk) fld)) as [main|]; [|apply IH]. destruct (_ || _); [exact I|].
  eapply sat_seq with (Q := good).
  - apply s_then; [apply s_then; [apply s_alias_field|intros; apply s_file]|intros; apply Hrad].
  - intros t s E Hs. destruct (is_success s); [exact Hs|]. eapply sat_seq; [apply s_extract|]. intros t1 mi1 _ _. apply IH.
Qed.
Lemma s_main_file : forall fuel opk i tr, opd tr opk -> sat tr good (main_file_apply R load fuel opk i).
Proof.
  intros fuel opk i. unfold main_file_apply. generalize (mkInfo (i_path i) (i_req i)).
  induction (o_main_files (rv_opts R)) as [|fl r IH]; intros mi tr Hd; cbn [main_file_loop]; [exact I|].
  eapply sat_seq with (Q := good).
  - apply s_then; [apply s_then; [apply s_then; [apply s_exports, Hd|]|intros; apply s_alias_field]|intros; apply s_file].
    intros i1 t1 E1. apply s_imports. eapply opd_ext; eassumption.
  - intros t s E Hs. destruct (is_success s); [exact Hs|]. eapply sat_seq; [apply s_extract|]. intros t1 mi1 E1 _. apply IH.
    eapply opd_ext; [exact E1|]. eapply opd_ext; eassumption.
Qed.
Lemma s_dir : forall fuel i tr, sat tr good (resolve_as_dir R load fuel i).
Proof.
  induction fuel as [|f IH]; intros i tr; cbn [resolve_as_dir]; [exact I|]. apply sat_op. intros [|]; cbn [negb]; [|left; reflexivity].
  eapply sat_seq; [apply Hload|]. intros t [opk|e] E Hl; [|exact Hl].
  apply s_then; [apply s_main_field, IH|]. intros i1 t1 E1. apply s_main_file. eapply opd_ext; eassumption.
Qed.
Definition lvgood (t : list ev) (x : stats + stats) : Prop := match x with inl s | inr s => good t s end.
Lemma s_level : forall fuel i tr, sat tr lvgood (modules_level R load fuel i).
Proof.
  intros fuel i tr. unfold modules_level. apply sat_op. intros [|]; cbn [negb]; [|exact I].
  destruct (module_name (r_target (i_req i))) as [mname|]; [|exact I].
  eapply sat_seq; [apply Hload|]. intros t [opk|e] E Hl; [|exact Hl]. cbv zeta. apply sat_op. intros md.
  assert (Hd : opd (t ++ [mkev (OIsDir (join (join (i_path i) MODULE) mname)) md]) opk) by (eapply opd_ext; [apply ext_snoc|exact Hl]).
  destruct (_ && _).
  - eapply sat_seq; [apply s_file|]. intros t1 s E1 Hs. destruct (is_success s); [exact Hs|exact I].
  - eapply sat_seq with (Q := good).
    + apply s_then; [apply s_then; [apply s_then; [apply s_then; [apply s_exports, Hd|]|intros; apply s_alias_field]|intros; apply s_file]|intros; apply s_dir].
      intros i1 t1 E1. apply s_imports. eapply opd_ext; eassumption.
    + intros t1 [r|i1|e i1] E1 Hs; [exact Hs|exact I|]. destruct (str_eqb e TAG); [exact I|exact Hs].
Qed.
Lemma s_modules : forall fuel i tr, sat tr good (resolve_as_modules R load fuel i).
Proof.
  induction fuel as [|f IH]; intros i tr; cbn [resolve_as_modules]; [exact I|].
  eapply sat_seq; [apply s_level|]. intros t [s|s] E Hs; [exact Hs|]. eapply sat_seq with (Q := good).
  - apply s_then; [exact Hs|]. intros i1 t1 E1. destruct (parent (i_path i)); [apply IH|exact I].
  - intros t1 [r|i1|e i1] E1 Hs1; [exact Hs1|left; reflexivity|exact Hs1].
Qed.
Lemma s_resolve : forall fuel i tr, sat tr (fgood i) (resolve_ R load fuel i).
Proof.
  induction fuel as [|f IH]; intros i tr; cbn [resolve_]; [exact I|]. eapply sat_seq with (Q := good).
  - apply s_then; [apply s_then; [apply s_then|]|].
    + unfold alias_apply. destruct (contains (i_path i) MODULE); [exact I|].
      revert tr. induction (o_alias (rv_opts R)) as [|[from to] r IHl]; intros tr; cbn [alias_loop]; [exact I|].
      destruct (starts_with _ from); [|apply IHl]. destruct to as [t|]; [|exact I]. destruct (_ || _); [apply IHl|].
      eapply sat_seq; [apply IH|]. intros t1 s E1 Hs. destruct s as [[i1|]|i1|e i1]; cbn [is_success]; try apply IHl; exact Hs.
    + intros i1 t1 E1. unfold prefer_relative_apply. destruct (_ || _); [exact I|]. destruct (o_prefer_relative (rv_opts R)); [|exact I].
      eapply sat_seq; [apply IH|]. intros t2 s E2 Hs. destruct s as [[i2|]|i2|e i2]; cbn [is_success]; try exact I; exact Hs.
    + intros i1 t1 E1. unfold pkg_step. eapply sat_seq; [apply Hload|]. intros t2 [opk|e] E2 Hl; [|exact Hl].
      apply s_then; [apply s_imports, Hl|intros; apply s_alias_field].
    + intros i1 t1 E1. unfold final_step. destruct (r_kind (i_req i1)); try apply s_modules; (apply s_then; [apply s_file|intros; apply s_dir]).
  - intros t [[i'|]|i'|e i'] E Hs; [exact Hs|exact I|exact I|]. cbn [ExecP.sat fgood]. destruct (str_eqb_spec e TAG) as [->|Hn]; [left; reflexivity|].
    right. destruct Hs as [Hs|Hs]; [contradiction|exact Hs].
Qed.

(** ** tsconfig *)
Lemma s_parse_file : forall fuel loc tr, o_tsconfig (rv_opts R) <> None -> sat tr egood (parse_file_to_value R load fuel loc).
Proof.
  induction fuel as [|f IH]; intros loc tr Ht; cbn [parse_file_to_value]; [exact I|]. apply sat_op. intros [s|].
  2:{ cbn [ExecP.sat egood]. apply BOpen. left. apply last_in. }
  destruct (rv_jsonc R s) as [e| |j] eqn:Ej; [|exact I|].
  { cbn [ExecP.sat egood]. eapply BTsParse; [exact Ht|apply last_in|exact Ej]. }
  destruct (jget j (lit "extends")) as [[]|] eqn:Ee; try exact I. destruct (parent loc); [|exact I].
  eapply sat_seq; [apply s_resolve|]. intros t [[i'|]|i'|e i'] E Hs; try exact I.
  - unfold try_. eapply sat_seq; [apply IH, Ht|]. intros t1 [b|e] _ H; [exact I|exact H].
  - cbn [ExecP.sat egood]. eapply BTsIgnored; [exact Ht|eapply ext_in; [exact E|apply last_in]|exact Ej|exact Ee].
Qed.
Lemma s_entries : forall fuel i l tr, sat tr (fgood i) (ts_entries_loop R load fuel i l).
Proof.
  intros fuel i l. induction l as [|[pat ps] r IH]; intros tr; cbn [ts_entries_loop]; [apply s_resolve|].
  eapply sat_seq with (Q := fun _ _ => True).
  - destruct (str_eqb pat _); [exact I|]. apply sat_lift. auto.
  - intros t [star|] E _; [|apply IH]. eapply sat_seq with (Q := fun t o => match o with Some s => fgood i t s | None => True end).
    + clear IH. revert t E. induction ps as [|p ps IHp]; intros t E; cbn [ts_paths_loop]; [exact I|].
      eapply sat_seq; [apply s_resolve|]. intros t1 s E1 Hs. destruct s as [[i1|]|i1|e i1]; cbn [is_success]; try (apply IHp; eapply ext_trans; eassumption); exact Hs.
    + intros t1 [s|] E1 Hs; [exact Hs|apply IH].
Qed.
Lemma s_top : forall fuel base req tr, sat tr (fun t r => match r with Err e => e = generic_failure base req \/ blame t e | Ok _ => True end)
  (resolve_with R load fuel base req).
Proof.
  intros fuel base req tr. unfold resolve_with. cbv zeta. eapply sat_seq with (Q := fgood (mkInfo base (parse req))).
  - destruct (o_tsconfig (rv_opts R)) as [loc|] eqn:Et; [|apply s_resolve]. unfold resolve_with_tsconfig.
    eapply sat_seq; [apply s_parse_file; rewrite Et; discriminate|]. intros t [j|e] E Hj; [|right; exact Hj].
    apply sat_bind, sat_lift. intros ti _. eapply sat_seq with (Q := fun _ _ => True).
    + unfold create_match_list. destruct (parent loc); [|exact I]. destruct (ts_base ti); [|exact I]. destruct (ts_paths ti); [|exact I]. apply sat_op. intros x. exact I.
    + intros. apply s_entries.
  - intros t [[i|]|i|e i] E Hs; try exact I.
    + unfold normalize_result. destruct (_ && _); [exact I|]. unfold try_. eapply sat_seq with (Q := fun t r => match r with Ok _ => True | Err e => blame t e end).
      * unfold normalize_path. destruct (o_symlinks (rv_opts R)); [|exact I]. apply sat_op. intros [q|]; [exact I|].
        cbn [ExecP.sat]. eapply BNormalize; [eapply ext_in; [apply ext_snoc|exact Hs]|apply last_in].
      * intros t1 [p|e] E1 H; [exact I|right; exact H].
    + cbn [ExecP.sat]. destruct Hs as [->|Hs]; [|right; exact Hs]. left. unfold resolve_failed_message, generic_failure. cbn [i_req i_path].
      rewrite parse_display. reflexivity.
Qed.
End Steps.
Lemma every_error : forall fuel base req tr e, exec (resolve R fuel base req) tr (Done (Err e)) ->
  e = generic_failure base req \/ blame tr e.
Proof.
  intros fuel base req tr e H.
  destruct (sat_exec _ _ _ _ _ H (anyok_all tr) [] _ (s_top (load_pkg_file R fuel) (e_load fuel) fuel base req [])) as [_ H2].
  exact (H2 _ eq_refl).
Qed.
End Err.
