(** * Tables filled by any calls on any file systems: proofs for PropStale.v *)
From Coq Require Import String.
From Coq Require Import List Arith NArith Bool Lia Permutation.
From Verif Require Import Str StrP Path PathP Json Types Parse Map Prog Desc Resolve Top Run RunP SpecRun SpecLoad SpecCache SpecChange SpecDesc SpecWorld SpecFull SpecStale SpellP SimP LoadP GuarP CacheP ExecP SoundP AllowP.
Import ListNotations.

Section S.
Variable seen : world -> Prop.
Variable crew : resolver -> Prop.
Notation kept := (kept seen crew).
Notation noted := (noted seen crew).
Notation grown_from := (grown_from seen crew).
Notation scanned := (scanned seen crew).
Notation consulted := (consulted seen crew).

Record stale (st : state) : Prop := {
  sl_pkg : forall c p v, s_pkg st c (components p) = Some v -> kept c p v;
  sl_exp : forall c k t, s_exp st c k = Some t -> grown_from c k t;
  sl_imp : forall c k, s_imp st c k = None;
  sl_file : forall i p s t, s_file st i (components p) = Some (s, t) -> noted i p t
}.
Lemma kept_same : forall c p q v, components p = components q -> kept c p v -> kept c q v.
Proof.
  intros c p q v E H. destruct H as [R w name d pk H1 H2 H3 H4 H5 H6 H7 H8|R w name d H1 H2 H3 H4 H5 H6 H7];
    (assert (Hs : same_path d q) by (unfold same_path in *; etransitivity; eassumption)); [eapply KpRead|eapply KpBare]; eassumption.
Qed.
Lemma noted_same : forall i p q t, components p = components q -> noted i p t -> noted i q t.
Proof. intros i p q t E (R & w & x & H1 & H2 & H3 & H4 & H5). exists R, w, x. split; [exact H1|]. split; [exact H2|]. split; [exact H3|]. split; [unfold same_path in *; etransitivity; eassumption|exact H5]. Qed.
Lemma stale_empty : forall seeds, stale (empty_state seeds).
Proof. intros. constructor; cbn; try discriminate. reflexivity. Qed.

(** ** Admissible answers and good entries *)
Section Fs.
Variables w vw : world.
Hypothesis Hin : within w vw.
Hypothesis Hseen : seen vw.
Let If : forall p x, w_file w p x -> w_file vw p x := proj1 Hin.
Let Id : forall p x, w_dir w p x -> w_dir vw p x := proj1 (proj2 Hin).
Let Ir : forall p x, w_read w p x -> w_read vw p x := proj1 (proj2 (proj2 (proj2 Hin))).
Let Im : forall p x, w_mtime w p x -> w_mtime vw p x := proj1 (proj2 (proj2 (proj2 (proj2 Hin)))).
Definition sok (o : op) : ans o -> Prop :=
  match o return ans o -> Prop with
  | OIsFile p => w_file w p
  | OIsDir p => w_dir w p
  | OExists p => w_exists w p
  | ORead p => w_read w p
  | OMtime p => w_mtime w p
  | OCanon p => w_canon w p
  | OPkgGet c p => fun x => match x with Some v => kept c p v | None => True end
  | OExpGet c k => fun x => match x with Some t => grown_from c k t | None => True end
  | OImpGet c k => fun x => x = None
  | OFileGet i p => fun x => match x with Some (_, t) => noted i p t | None => True end
  | _ => fun _ => True
  end.
Definition sput (o : op) : Prop :=
  match o with OPkgPut c p v => kept c p v | OExpPut c k t => grown_from c k t | OFilePut i p _ t => noted i p t | _ => True end.
Lemma step_stale : forall fs, within (standing fs) w -> forall st o, stale st -> sput o -> sok o (fst (step fs st o)) /\ stale (snd (step fs st o)).
Proof.
  intros fs (F1 & F2 & F3 & F4 & F5 & F6) st o Hst Hput. pose proof Hst as [Hp He Hi Hf]. destruct o; cbn [step fst snd sok sput] in *;
    try (split; [first [apply F1|apply F2|apply F3|apply F4|apply F5|apply F6]; reflexivity|exact Hst]); try (split; [exact I|constructor; assumption]).
  - split; [|exact Hst]. destruct (s_pkg st c (components p)) as [v|] eqn:E; [apply Hp; exact E|exact I].
  - split; [exact I|]. constructor; cbn; auto. intros c0 q v0. unfold upd_path. destruct (Nat.eqb_spec c0 c) as [->|]; cbn [andb]; [|apply Hp].
    destruct (comps_eqb_spec (components q) (components p)) as [E|]; [|apply Hp]. injection 1 as <-. eapply kept_same; [symmetry; exact E|exact Hput].
  - split; [|exact Hst]. destruct (s_exp st c k) as [t|] eqn:E; [apply He; exact E|exact I].
  - split; [exact I|]. constructor; cbn; auto. intros c0 k0 v0. unfold upd_str. destruct (Nat.eqb_spec c0 c) as [->|]; cbn [andb]; [|apply He].
    destruct (str_eqb_spec k0 k) as [->|]; [|apply He]. injection 1 as <-. exact Hput.
  - split; [apply Hi|exact Hst].
  - split; [|exact Hst]. destruct (s_file st r (components p)) as [[s t]|] eqn:E; [eapply Hf; exact E|exact I].
  - split; [exact I|]. constructor; cbn; auto. intros r0 q s0 t0. unfold upd_path. destruct (Nat.eqb_spec r0 r) as [->|]; cbn [andb]; [|apply Hf].
    destruct (comps_eqb_spec (components q) (components p)) as [E|]; [|apply Hf]. injection 1 as <- <-. eapply noted_same; [symmetry; exact E|exact Hput].
Qed.
(** Every outcome under such answers, with good entries all along. *)
Fixpoint sg {A} (Q : outcome A -> Prop) (p : prog A) : Prop :=
  match p with
  | Ret a => Q (Done a)
  | Panic m => Q (Panicked m)
  | OutOfFuel => Q NoFuel
  | Do o k => sput o /\ forall x, sok o x -> sg Q (k x)
  end.
Lemma sg_mono {A} : forall (p : prog A) (Q Q' : outcome A -> Prop), (forall r, Q r -> Q' r) -> sg Q p -> sg Q' p.
Proof. intros p Q Q' H. induction p as [a|m| |o k IH]; cbn [sg]; auto. intros [Ho Hk]. split; auto. Qed.
Lemma sg_bind {A B} : forall (p : prog A) (f : A -> prog B) (Q : outcome B -> Prop),
  sg (fun r => match r with Done a => sg Q (f a) | Panicked m => Q (Panicked m) | NoFuel => Q NoFuel end) p -> sg Q (bind p f).
Proof. intros p f Q. induction p as [a|m| |o k IH]; cbn [sg bind]; auto. intros [Ho Hk]. split; auto. Qed.
Lemma sg_act {A} : forall o (f : ans o -> prog A) Q, sput o -> (forall x, sok o x -> sg Q (f x)) -> sg Q (bind (act o) f).
Proof. intros o f Q Ho Hf. cbn [act bind sg]. auto. Qed.
Lemma sg_wx {A} : forall (p : prog A) Q, sg Q p -> wx sok Q p.
Proof. intros p Q. induction p as [a|m| |o k IH]; cbn [sg wx]; auto. intros [Ho Hk] x Hx. auto. Qed.
Lemma sg_and {A} : forall (p : prog A) Q, wx sok Q p -> sg (fun _ => True) p -> sg Q p.
Proof. intros p Q. induction p as [a|m| |o k IH]; cbn [sg wx]; auto. intros Hx [Ho Hk]. split; auto. Qed.
Lemma run_stale {A} : forall fs, within (standing fs) w -> forall (p : prog A) Q st, sg Q p -> stale st -> Q (out fs st p) /\ stale (snd (run fs p st)).
Proof.
  unfold out. intros fs Hfs. induction p as [a|m| |o k IH]; intros Q st Hw Hi; cbn [run sg fst snd] in *; auto.
  destruct Hw as [Hput Hk]. destruct (step_stale fs Hfs st o Hi Hput) as [Hx Hi']. destruct (step fs st o) as [x st'].
  cbn [fst snd] in *. apply IH; auto.
Qed.
Lemma thread_stale {A} : forall fs, within (standing fs) w -> forall (p : prog A) Q st, sg Q p -> stale st -> sg Q (fst (thread_step fs st p)) /\ stale (snd (thread_step fs st p)).
Proof.
  intros fs Hfs [a|m| |o k] Q st Hw Hi; cbn [thread_step fst snd]; auto.
  cbn [sg] in Hw. destruct Hw as [Hput Hk]. destruct (step_stale fs Hfs st o Hi Hput) as [Hx Hi'].
  destruct (step fs st o) as [x st']. cbn [fst snd] in *. auto.
Qed.

(** ** The loader *)
Variable R : resolver.
Hypothesis HR : crew R.
Section Name.
Variable name : str.
Hypothesis Hname : o_desc (rv_opts R) = Some name.

Lemma sg_modified : forall p, sg (fun r => match r with
    | Done (Ok t) => w_mtime w p (MTime t)
    | Done (Err e) => (w_mtime w p MErr /\ e = open_failed p) \/ (w_mtime w p MNoTime /\ e = lit "Get modified time of " ++ p ++ lit " failed")
    | _ => False end) (get_last_modified p).
Proof. intros p. apply sg_act; [exact I|]. intros [| |t] Hx; cbn [sok] in Hx; cbn [sg]; auto. Qed.
(** With an entry: what is checked before it is used. *)
Definition checked_entry (p : path) (r : outcome (result bool)) : Prop :=
  match r with
  | Done (Ok true) => w_file w (join p name) true
  | Done (Ok false) => w_file w (join p name) false \/ w_file w (join p name) true /\
      exists t now, noted (rv_id R) (join p name) t /\ w_mtime w (join p name) (MTime now) /\ (t <= now)%N /\ (now - t < rv_duration R)%N
  | Done (Err e) => w_file w (join p name) true /\ exists t, noted (rv_id R) (join p name) t /\
      ((exists now, w_mtime w (join p name) (MTime now) /\ (now < t)%N /\ e = lit "Compare SystemTime failed in " ++ join p name) \/
       (w_mtime w (join p name) MErr /\ e = open_failed (join p name)) \/
       (w_mtime w (join p name) MNoTime /\ e = lit "Get modified time of " ++ join p name ++ lit " failed"))
  | _ => False
  end.
Lemma sg_check : forall p, sg (checked_entry p) (check_entry R p (join p name)).
Proof.
  intros p. unfold check_entry. apply sg_bind. eapply sg_mono with (Q := checked_entry p).
  - intros [u|m|] Hu; [|contradiction|contradiction]. apply sg_bind. eapply sg_mono with (Q := fun r => r = Done tt).
    + intros r ->. apply sg_act; [exact I|]. intros _ _. exact Hu.
    + destruct u as [[|]|e]; try reflexivity. destruct (rv_debug R); [|reflexivity]. cbn. split; [exact I|]. intros [] _. reflexivity.
  - unfold need_update. apply sg_act; [exact I|]. intros [|] Ef; cbn [sok negb] in *; [|cbn; auto].
    apply sg_act; [exact I|]. intros [[s t]|] Ht; cbn [sok] in Ht; [|exact Ef]. unfold try_. apply sg_bind. eapply sg_mono; [|apply sg_modified].
    intros [[now|e]|m|] H; try contradiction.
    + destruct (N.ltb_spec now t) as [Hl|Hl]; cbn [sg checked_entry].
      * split; [exact Ef|]. exists t. split; [exact Ht|]. left. exists now. auto.
      * destruct (N.leb_spec (rv_duration R) (now - t)) as [Hd|Hd]; [exact Ef|]. right. split; [exact Ef|]. exists t, now. auto.
    + cbn [sg checked_entry]. split; [exact Ef|]. exists t. split; [exact Ht|]. right. exact H.
Qed.
Definition scans (p : path) (r : outcome (result pkg)) : Prop :=
  match r with
  | Done (Ok pk) => scanned w R name p (Has (Some pk))
  | Done (Err e) => scanned w R name p (Bad e)
  | Panicked _ => scanned w R name p Fell
  | NoFuel => True
  end.
Lemma holds_in : forall p j, holds w R name p j -> holds vw R name p j.
Proof. intros p j (s & t & H1 & H2 & H3). exists s, t. split; [apply Ir, H1|]. split; [apply Im, H2|exact H3]. Qed.
Lemma scanned_in : forall p x, scanned w R name p x -> scanned vw R name p x.
Proof.
  intros p x H. destruct H; [apply ScUnread|eapply ScGarbled|eapply ScBrowser|eapply ScExports|eapply ScExportsFell|eapply ScImports|eapply ScImportsFell|eapply ScSide|eapply ScDone|apply ScTwice]; eauto using holds_in.
  destruct H as [H|(y & H & Hy)]; eauto.
Qed.
Lemma bare_in : forall q, bare w name q -> bare vw name q.
Proof. intros q H. eapply Forall_impl; [|exact H]. intros x. apply If. Qed.
Lemma sg_exports : forall p j, w_dir w p true -> holds w R name p j -> sg (fun r => match r with
    | Done x => exports_read seen crew R j (PRet x) | Panicked m => exists m, exports_read seen crew R j (PPanic m) | NoFuel => True end) (load_exports R j).
Proof.
  intros p j Hd Hj. unfold load_exports, exports_read. destruct (jget j (lit "exports")) as [x|] eqn:Ev; [|reflexivity]. apply sg_act; [exact I|]. intros [t|] Ht; cbn [sok] in Ht.
  - right. exists t. auto.
  - destruct (build_exports x) as [[t|e]|m|] eqn:Eb; cbn [lift try_ bind pbind].
    + apply sg_act; [|intros _ _; left; reflexivity]. exists R, vw, name, p, j, (lit "exports"), x. auto 13 using holds_in.
    + left. reflexivity.
    + exists m. left. reflexivity.
    + exact I.
Qed.
Lemma sg_imports : forall p j, w_dir w p true -> holds w R name p j -> sg (fun r => match r with
    | Done x => imports_read j (PRet x) | Panicked m => exists m, imports_read j (PPanic m) | NoFuel => True end) (load_imports R j).
Proof.
  intros p j Hd Hj. unfold load_imports, imports_read. destruct (jget j (lit "imports")) as [x|] eqn:Ev; [|reflexivity]. apply sg_act; [exact I|]. intros y Hy; cbn [sok] in Hy. subst y.
  destruct (build_imports x) as [[t|e]|m|] eqn:Eb; cbn [lift try_ bind pbind].
  - apply sg_act; [|intros _ _; reflexivity]. exists R, vw, name, p, j, (lit "imports"), x. auto 13 using holds_in.
  - reflexivity.
  - exists m. reflexivity.
  - exact I.
Qed.
Lemma sg_parse : forall p, w_dir w p true -> sg (scans p) (parse_description_file R p (join p name)).
Proof.
  intros p Hdir. unfold parse_description_file. apply sg_bind. eapply sg_mono with (Q := fun r => match r with Done _ => True | Panicked _ => rv_debug R = true | NoFuel => False end).
  2:{ unfold dbg_check. destruct (rv_debug R) eqn:Ed; [|exact I]. apply sg_act; [exact I|]. intros [|] _; [reflexivity|]. cbn. auto. }
  intros [[]|m|] Hd; [clear Hd|exact (ScTwice _ _ _ _ _ _ Hd)|contradiction]. apply sg_bind.
  eapply sg_mono with (Q := fun r => match r with
    | Done (Ok s) => w_read w (join p name) (Some s) /\ exists t, w_mtime w (join p name) (MTime t)
    | Done (Err e) => w_read w (join p name) None \/ (exists x, w_mtime w (join p name) x /\ forall t, x <> MTime t)
    | _ => False end).
  2:{ unfold read_to_string. apply sg_act; [exact I|]. intros [s|] Es; cbn [sok] in Es; [|left; exact Es].
      unfold try_. apply sg_bind. eapply sg_mono; [|apply sg_modified]. intros [[t|e]|m|] H; try contradiction.
      - apply sg_act; [|intros _ _; cbn [sg]; eauto]. exists R, vw, (join p name). repeat split; eauto.
      - cbn [sg]. right. destruct H as [[H _]|[H _]]; eexists; (split; [exact H|discriminate]). }
  intros [[s|e]|m|] Hs; try contradiction; [|exact (ScUnread _ _ _ _ _ _ Hs)]. destruct Hs as [Hs [t Ht]].
  destruct (rv_json R s) as [j|] eqn:Ej; [|eapply ScGarbled; eassumption].
  assert (Hj : holds w R name p j) by (exists s, t; auto). clear Hs Ht Ej.
  destruct (alias_fields_of j) as [af|m|] eqn:Ea; cbn [lift bind]; [|eapply ScBrowser; eassumption|exact I].
  apply sg_act; [exact I|]. intros seed _. unfold try_. apply sg_bind. eapply sg_mono; [|eapply sg_exports; eassumption].
  intros [[ex|e]|m|] Hex; [|eapply ScExports; eassumption|destruct Hex as [m' Hex]; eapply ScExportsFell; eassumption|exact I].
  apply sg_bind. eapply sg_mono; [|eapply sg_imports; eassumption].
  intros [[im|e]|m|] Him; [|eapply ScImports; eassumption|destruct Him as [m' Him]; eapply ScImportsFell; eassumption|exact I].
  cbv zeta. destruct (side_effects_of (join p name) j) as [se|e] eqn:Es; [|eapply ScSide; eassumption].
  eapply ScDone; try eassumption. apply Permutation_sym, permute_perm.
Qed.
Definition looks (p : path) (r : outcome (result (option pkg))) : Prop := loaded (consulted w R) p r.
Lemma sg_store : forall p, w_dir w p true -> w_file w (join p name) true -> sg (looks p) (parse_and_store R p (join p name)).
Proof.
  intros p Hd Hf. unfold parse_and_store, try_. apply sg_bind. eapply sg_mono; [|apply sg_parse, Hd].
  intros [[pk|e]|m|] H; cbn [scans] in H; [|cbn; eapply CsRead; eassumption|cbn; eapply CsRead; eassumption|exact I].
  apply sg_act; [|intros _ _; cbn; eapply CsRead; eassumption]. eapply KpRead; eauto using scanned_in. reflexivity.
Qed.
Lemma sg_find : forall f q, sg (fun r => match r with
    | Done (Some d) => exists l1 l2, lineage q = l1 ++ d :: l2 /\ Forall (fun x => w_file w (join x name) false) l1 /\ w_file w (join d name) true
    | Done None => bare w name q | NoFuel => True | Panicked _ => False end) (find_up f q name).
Proof.
  unfold bare. induction f as [|f IH]; intros q; cbn [find_up]; [exact I|]. apply sg_act; [exact I|]. intros [|] Ef; cbn [sok] in Ef.
  - cbn [sg]. exists [], (tl (lineage q)). split; [reflexivity|]. split; [constructor|exact Ef].
  - destruct (parent q) as [q'|] eqn:Ep.
    + eapply sg_mono; [|apply IH]. rewrite (lineage_some _ _ Ep). intros [[d|]|m|]; auto.
      intros (l1 & l2 & -> & H1 & H2). exists (q :: l1), l2. split; [reflexivity|]. split; [constructor|]; auto.
    + cbn [sg]. rewrite (lineage_none _ Ep). constructor; [exact Ef|constructor].
Qed.
Lemma sg_none : forall f q, bare w name q ->
  sg (fun r => match r with Done x => x = Ok None /\ Forall (fun q => w_dir w q true) (lineage q) | NoFuel => True | Panicked _ => False end) (none_loop R f q).
Proof.
  unfold bare. induction f as [|f IH]; intros q Hb; cbn [none_loop]; [exact I|]. apply sg_act; [exact I|]. intros [|] Ed; cbn [sok] in Ed; [|apply IH, Hb]. apply sg_act; [eapply KpBare; eauto using bare_in; reflexivity|]. intros _ _. destruct (parent q) as [q'|] eqn:Ep.
  - rewrite (lineage_some _ _ Ep) in Hb |- *. inversion Hb as [|? ? H1 H2]; subst. eapply sg_mono; [|apply IH, H2]. intros [x|m|]; auto. intros [-> H]. auto.
  - cbn [sg]. rewrite (lineage_none _ Ep). auto.
Qed.
Lemma sg_load_named : forall f p, sg (looks p) (load_pkg_file R f p).
Proof.
  induction f as [|f IH]; intros p; cbn [load_pkg_file]; [exact I|]. rewrite Hname. apply sg_act; [exact I|]. intros [|] Ed; cbn [sok negb] in *.
  2:{ destruct (parent p) as [q|] eqn:Ep; [|cbn; eapply CsTop; eassumption]. eapply sg_mono; [|apply IH].
      intros [[o|e]|m|] H; cbn [looks loaded] in *; try exact I; eapply CsUp; eassumption. }
  cbv zeta. apply sg_act; [exact I|]. intros [u|] Hv; cbn [sok] in Hv.
  - unfold try_. apply sg_bind. eapply sg_mono; [|apply sg_check]. intros [[[|]|e]|m|] H; cbn [checked_entry] in H; try contradiction; cbn [negb].
    + apply sg_store; assumption.
    + cbn [sg looks loaded]. destruct H as [H|(H & t & now & H1 & H2 & H3 & H4)]; [eapply CsGone|eapply CsKept]; eassumption.
    + cbn [sg looks loaded]. destruct H as (H & t & H1 & [(now & H2 & H3 & ->)|[[H2 ->]|[H2 ->]]]); [eapply CsClock|eapply CsMeta|eapply CsNoTime]; eassumption.
  - apply sg_act; [exact I|]. intros [|] Ef; cbn [sok] in Ef; [apply sg_store; assumption|].
    apply sg_bind. eapply sg_mono; [|apply sg_find]. intros [[d|]|m|] H; try contradiction; [| |exact I].
    + destruct H as (l1 & l2 & E & H1 & H2).
      eapply sg_mono; [|apply IH]. intros [[o|e]|m|] H; cbn [looks loaded] in *; try exact I; eapply CsFound; eassumption.
    + eapply sg_mono; [|apply sg_none; exact H]. intros [x|m|] Hx; try contradiction; [|exact I]. destruct Hx as [-> Hx]. cbn. eapply CsNone; eassumption.
Qed.
End Name.
Lemma sg_load : forall f p, sg (loaded (consulted w R) p) (load_pkg_file R f p).
Proof.
  intros f p. destruct (o_desc (rv_opts R)) as [name|] eqn:En; [exact (sg_load_named name En f p)|].
  destruct f as [|f]; cbn [load_pkg_file]; [exact I|]. rewrite En. cbn. apply CsOff, En.
Qed.
Lemma consulted_off : o_desc (rv_opts R) = None -> forall p pk, ~ consulted w R p (Has (Some pk)).
Proof.
  intros En p pk H. remember (Has (Some pk)) as x eqn:Ex. induction H; try congruence.
Qed.
End Fs.
Lemma sg_call : forall w v, within w v -> seen v -> forall c, crew (call_resolver c) -> sg w (fun _ => True) (call_prog c).
Proof.
  intros w v Hin Hv [R f base req|R f p] Hc; cbn [call_resolver call_prog] in *.
  - apply sg_bind. eapply sg_mono with (Q := fun _ => True); [intros [a|m|] _; exact I|].
    apply (closed_resolve_with (fun A => @sg w A (fun _ => True))); try (intros; exact I).
    + intros A B p g Hp Hg. apply sg_bind. eapply sg_mono; [|exact Hp]. intros [a|m|] _; auto.
    + intros o Ho. cbn [act sg]. split; [destruct o; try exact I; contradiction|auto].
    + intros q. eapply sg_mono; [|eapply sg_load; eassumption]. auto.
  - apply sg_bind. unfold load_side_effects, try_. apply sg_bind. eapply sg_mono; [|eapply sg_load; eassumption].
    intros [[[pk|]|e]|m|] _; try exact I. destruct (o_desc (rv_opts R)); exact I.
Qed.
Lemma sg_allowed : forall w v, within w v -> seen v -> forall c, crew (call_resolver c) -> keyed c -> sg w (allowed (consulted w) w c) (call_prog c).
Proof.
  intros w v Hin Hv c Hc Hk. apply sg_and; [|eapply sg_call; eassumption].
  apply (allowed_by w (wxm (sok w) false)).
  - repeat (split; [intros p x Hx; exact Hx|]). intros p x Hx; exact Hx.
  - exact Hk.
  - intros p. eapply sg_wx, sg_load; eassumption.
  - apply consulted_off.
Qed.
Lemma history_stale : forall h fs st, (forall x, In x (systems fs h) -> seen (standing x)) -> (forall R, In R (callers h) -> crew R) -> stale st ->
  seen (standing (snd (fst (run_history fs st h)))) /\ stale (snd (run_history fs st h)).
Proof.
  induction h as [|[c|fs'] h IH]; intros fs st Hs Hc Hi; cbn [run_history].
  - split; [apply Hs; left; reflexivity|exact Hi].
  - assert (Hr : crew (call_resolver c)) by (apply Hc; cbn; destruct c; left; reflexivity).
    destruct (run_stale (standing fs) fs (within_refl _) _ _ st (sg_call _ _ (within_refl _) (Hs fs (or_introl eq_refl)) c Hr) Hi) as [_ Hi'].
    destruct (run fs (call_prog c) st) as [o st']. cbn [snd] in Hi'. specialize (IH fs st' Hs).
    destruct (run_history fs st' h) as [[os fs''] st'']. cbn [fst snd] in *. apply IH; [|exact Hi']. intros R H. apply Hc. cbn. destruct c; right; exact H.
  - apply IH; auto. intros w Hw. apply Hs. right. exact Hw.
Qed.

(** ** Threads, each with what it may be told *)
Definition task (A : Type) : Type := world * (outcome A -> Prop).
Definition meets {A} (x : task A) (p : prog A) : Prop := sg (fst x) (snd x) p.
Lemma step_nth_stale {A} : forall fs (l : list (prog A)) xs i st, (forall x, nth_error xs i = Some x -> within (standing fs) (fst x)) -> Forall2 meets xs l -> stale st ->
  Forall2 meets xs (fst (step_nth fs st i l)) /\ stale (snd (step_nth fs st i l)).
Proof.
  intros fs. induction l as [|p l IH]; intros xs i st Hx Hl Hi; cbn [step_nth]; [destruct i; auto|].
  inversion Hl as [|x ? xs' ? Hp Hl']; subst. destruct i as [|i]; cbn [step_nth].
  - destruct (thread_stale (fst x) fs (Hx x eq_refl) p (snd x) st Hp Hi) as [H1 H2]. destruct (thread_step fs st p). cbn [fst snd] in *. split; [constructor|]; assumption.
  - destruct (IH xs' i st Hx Hl' Hi) as [H1 H2]. destruct (step_nth fs st i l). cbn [fst snd] in *. split; [constructor|]; assumption.
Qed.
Lemma moving_stale {A} : forall sched (l : list (prog A)) xs st, Forall (fun e => forall x, nth_error xs (snd e) = Some x -> within (standing (fst e)) (fst x)) sched ->
  Forall2 meets xs l -> stale st -> Forall2 meets xs (fst (run_moving sched st l)) /\ stale (snd (run_moving sched st l)).
Proof.
  induction sched as [|[fs i] sched IH]; intros l xs st Hs Hl Hi; cbn [run_moving]; [auto|]. inversion Hs as [|? ? Hfs Hs']; subst. cbn [fst snd] in Hfs.
  destruct (step_nth_stale fs l xs i st Hfs Hl Hi) as [H1 H2]. destruct (step_nth fs st i l). cbn [fst snd] in *. apply IH; assumption.
Qed.
Lemma sched_stale {A} : forall fs sched (l : list (prog A)) xs st, Forall (fun x => within (standing fs) (fst x)) xs -> Forall2 meets xs l -> stale st ->
  Forall2 meets xs (fst (run_sched fs sched st l)) /\ stale (snd (run_sched fs sched st l)).
Proof.
  intros fs. induction sched as [|i sched IH]; intros l xs st Hx Hl Hi; cbn [run_sched]; [auto|].
  destruct (step_nth_stale fs l xs i st) as [H1 H2]; auto.
  { intros x E. apply nth_error_In in E. eapply Forall_forall in Hx; eassumption. }
  destruct (step_nth fs st i l). cbn [fst snd] in *. apply IH; auto.
Qed.
Definition task_of (w : world) (c : call) : task answer := (w, allowed (consulted w) w c).
Lemma task_settled : forall w c p, meets (task_of w c) p -> allowed (consulted w) w c (settled p).
Proof.
  intros w c p H. assert (Hn : allowed (consulted w) w c NoFuel) by (destruct c; [left; reflexivity|apply SaBound]).
  destruct p as [a|m| |o k]; cbn [settled]; [exact H|exact H|exact Hn|exact Hn].
Qed.
Lemma sched_allowed : forall fs v l sched st, within (standing fs) v -> seen v -> (forall c, In c l -> crew (call_resolver c)) -> Forall keyed l -> stale st ->
  Forall2 (fun c p => allowed (consulted (standing fs)) (standing fs) c (settled p)) l (fst (run_sched fs sched st (map call_prog l))).
Proof.
  intros fs v l sched st Hin Hv Hc Hk Hi. set (xs := map (task_of (standing fs)) l).
  assert (Hl : Forall2 meets xs (map call_prog l)).
  { unfold xs. clear xs. induction l as [|c l IH]; [constructor|]. inversion Hk; subst. constructor; [eapply sg_allowed; eauto; apply Hc; left; reflexivity|].
    apply IH; [intros; apply Hc; right; assumption|assumption]. }
  destruct (sched_stale fs sched (map call_prog l) xs st) as [H _]; auto.
  { unfold xs. apply Forall_map, Forall_forall. intros c _. apply within_refl. }
  unfold xs in H. revert H. clear. generalize (fst (run_sched fs sched st (map call_prog l))).
  induction l as [|c l IH]; intros ps H; inversion H as [|Q p Qs ps' Hp Hps]; subst; [constructor|]. constructor; [apply task_settled, Hp|apply IH, Hps].
Qed.
End S.

(** ** Final statements *)
Lemma fin_61 : forall fs0 h seeds c, keyed c ->
  let '(_, fs, st) := run_history fs0 (empty_state seeds) h in
  allowed (consulted (each (fun x => In x (systems fs0 h))) (fun R => In R (call_resolver c :: callers h)) (standing fs)) (standing fs) c (out fs st (call_prog c)).
Proof.
  intros fs0 h seeds c Hk. set (seen := each (fun x => In x (systems fs0 h))). set (crew := fun R => In R (call_resolver c :: callers h)).
  destruct (history_stale seen crew h fs0 (empty_state seeds)) as [Hs Hi]; [intros x Hx; exists x; auto|intros R H; right; exact H|apply stale_empty|].
  destruct (run_history fs0 (empty_state seeds) h) as [[os fs] st]. cbn [fst snd] in *.
  apply (run_stale seen crew (standing fs) fs (within_refl _) _ _ st (sg_allowed seen crew _ _ (within_refl _) Hs c (or_introl eq_refl) Hk) Hi).
Qed.
Lemma fin_61_sched : forall fs0 h seeds l sched, Forall keyed l ->
  let '(_, fs, st) := run_history fs0 (empty_state seeds) h in
  Forall2 (fun c p => allowed (consulted (each (fun x => In x (systems fs0 h))) (fun R => In R (map call_resolver l ++ callers h)) (standing fs)) (standing fs) c (settled p)) l
    (fst (run_sched fs sched st (map call_prog l))).
Proof.
  intros fs0 h seeds l sched Hk. set (seen := each (fun x => In x (systems fs0 h))). set (crew := fun R => In R (map call_resolver l ++ callers h)).
  destruct (history_stale seen crew h fs0 (empty_state seeds)) as [Hs Hi]; [intros x Hx; exists x; auto|intros R H; apply in_or_app; right; exact H|apply stale_empty|].
  destruct (run_history fs0 (empty_state seeds) h) as [[os fs] st]. cbn [fst snd] in *.
  eapply sched_allowed; [apply within_refl|exact Hs| |exact Hk|exact Hi]. intros c Hc. apply in_or_app. left. apply in_map. exact Hc.
Qed.
