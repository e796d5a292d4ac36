(** * Every outcome is one that the reference of SpecFull.v allows

    For any reading of "every outcome" (SimP.v) in which the file system answers as it stands, for
    any loader that gives descriptions of the kind the reference is told to use. *)
From Coq Require Import String.
From Coq Require Import List Arith NArith Bool Lia Permutation.
From Verif Require Import Str StrP Path PathP Json Types Parse ParseP Map FieldP Prog Desc Resolve Top Run Exec ExecP ApiP Posix FuelP RunP SpecRun SpecMap SpecParse SpecExports SpecLoad SpecCache SpecNode SpecWorld SpecFull TsP LookupP LookupTopP CheckP PropMapP PosixP SpellP SimP LoadP CacheP ExportsP PanicP NodeP FullP.
Import ListNotations.

(** Programs without operations. *)
Definition calm {A} (p : prog A) : Prop := match p with Do _ _ => False | _ => True end.
Lemma calm_bind {A B} : forall (p : prog A) (f : A -> prog B), calm p -> (forall a, calm (f a)) -> calm (bind p f).
Proof. intros [a|m| |o k] f Hp Hf; cbn [bind calm] in *; auto. Qed.
Lemma calm_lift {A} : forall c : pcomp A, calm (lift c).
Proof. intros [a|m|]; exact I. Qed.
Lemma calm_alias : forall R f opk i, calm (alias_field_apply R f opk i).
Proof.
  intros R f opk i. unfold alias_field_apply. destruct (negb _); [exact I|]. destruct opk as [pk|]; [|exact I].
  generalize (p_alias pk) at 1. induction l as [|[k v] l IH]; cbn [alias_field_loop]; [exact I|]. destruct (should_deal_alias R pk i k); [|exact IH].
  apply calm_bind; [apply calm_lift|]. intros []; exact I.
Qed.
(** The answers that may be given in [w]. *)
Definition answered (w : world) (M : modality) : Prop :=
  (forall p x, md_ok M (OIsFile p) x -> w_file w p x) /\ (forall p x, md_ok M (OIsDir p) x -> w_dir w p x) /\ (forall p x, md_ok M (OExists p) x -> w_exists w p x) /\
  (forall p x, md_ok M (ORead p) x -> w_read w p x) /\ (forall p x, md_ok M (OCanon p) x -> w_canon w p x).
Lemma plain_answered : forall fs M, plain_answers fs M -> answered (standing fs) M.
Proof. intros fs M (H1 & H2 & H3 & H4 & H5). split; [|split; [|split; [|split]]]; intros p x Hx; symmetry; revert p x Hx; assumption. Qed.
Lemma plan_exports : forall R opk d r pk tree, r_kind r = Normal -> governed opk (r_target r) pk tree -> exports_apply R opk (mkInfo (join d MODULE) r) =
  (sp <- exports_subpath pk (mkInfo (join d MODULE) r) ;;
   match sp with
   | None => Ret (SError TAG (mkInfo (join d MODULE) r))
   | Some s => l <- lift (field_process FExports tree (exports_request s (r_query r) (r_fragment r)) (o_conditions (rv_opts R))) ;;
       match l with Err e => Ret (SError e (mkInfo (join d MODULE) r)) | Ok l => exports_loop pk (mkInfo (join d MODULE) r) l end
   end).
Proof.
  intros R opk d r pk tree Hn (-> & H2 & H3). unfold exports_apply. cbn [i_req]. rewrite Hn. cbn [kind_eqb negb].
  assert (E : (negb (is_in_module pk) && negb (is_resolve_self pk (mkInfo (join d MODULE) r)))%bool = false).
  { unfold is_in_module. destruct H3 as [-> |H3]; [reflexivity|]. apply (own_spec (Some pk) (join d MODULE) r) in H3. rewrite H3, andb_false_r. reflexivity. }
  rewrite E, H2. unfold exports_remaining, exports_request. cbn [i_req]. destruct (r_query r), (r_fragment r); reflexivity.
Qed.
(** The answer that a fate may lead to. *)
Definition ended (w : world) (R : resolver) (a : fate) (o : outcome (result rresult)) : Prop :=
  exists y, returned w R a y /\ match y with Some x => o = Done x | None => exists m, o = Panicked m end.

Section Sound.
Variables (w : world) (R : resolver) (M : modality) (load : path -> prog (result (option pkg))).
Variable desc : path -> reading -> Prop.
Variable order : list (str * list str) -> list (str * list str) -> Prop.
Definition loaded (p : path) (o : outcome (result (option pkg))) : Prop :=
  match o with
  | Done (Ok opk) => desc p (Has opk)
  | Done (Err e) => desc p (Bad e)
  | Panicked _ => desc p Fell
  | NoFuel => True
  end.
Hypothesis HM : answered w M.
Hypothesis Hload : forall p, md_go M _ (loaded p) (load p).
Hypothesis Hord : forall x m, md_ok M OOrder x -> order m (permute x m).
Notation opts := (rv_opts R).
Notation go Q p := (md_go M _ Q p).

(** ** Rules *)
Lemma go_bind {A B} : forall (Q : outcome A -> Prop) (Q' : outcome B -> Prop) p f, go Q p -> (forall a, Q (Done a) -> go Q' (f a)) ->
  (forall m, Q (Panicked m) -> Q' (Panicked m)) -> (Q NoFuel -> Q' NoFuel) -> go Q' (bind p f).
Proof. intros Q Q' p f H Hd Hp Hn. apply md_bind. eapply md_mono; [|exact H]. intros [a|m|] HQ; auto. Qed.
Lemma go_ret {A B} : forall (P : A -> Prop) (S : A -> outcome B -> Prop) b y, P y -> S y (Done b) -> go (sound P S) (Ret b).
Proof. intros P S b y Hy Hs. apply md_done. right. eauto. Qed.
Lemma go_fell {A B} : forall (P : A -> Prop) (S : A -> outcome B -> Prop) m y, P y -> S y (Panicked m) -> go (sound P S) (Panic m).
Proof. intros P S m y Hy Hs. apply md_panicked. right. eauto. Qed.
Lemma go_imp {A B} : forall (P Q : A -> Prop) (S : A -> outcome B -> Prop) p, (forall y, P y -> Q y) -> go (sound P S) p -> go (sound Q S) p.
Proof. intros P Q S p H. apply md_mono. intros o. apply sound_imp, H. Qed.
Lemma go_calm {A} : forall fs (p : prog A), calm p -> go (fun o => o = ev_fs fs p) p.
Proof. intros fs [a|m| |o k] H; [apply md_done|apply md_panicked|apply md_nofuel|destruct H]; reflexivity. Qed.
(** One reading after another, in which neither a result nor the bound stops the first. *)
Lemma go_sound {A B C D} : forall (P : A -> Prop) (S : A -> outcome B -> Prop) (P' : C -> Prop) (S' : C -> outcome D -> Prop) p f, go (sound P S) p ->
  (forall y b, P y -> S y (Done b) -> go (sound P' S') (f b)) -> (forall y m, P y -> S y (Panicked m) -> sound P' S' (Panicked m)) ->
  (forall y, P y -> S y NoFuel -> sound P' S' NoFuel) -> go (sound P' S') (bind p f).
Proof.
  intros P S P' S' p f H Hd Hp Hn. eapply go_bind; [exact H| | |]; [intros b|intros m|]; intros [E|(y & Hy & Hs)]; try discriminate; eauto. left. reflexivity.
Qed.
Lemma go_then {A C} : forall (P : A -> Prop) (S : A -> outcome stats -> Prop) (P' : C -> Prop) (S' : C -> outcome stats -> Prop) p f, go (sound P S) p ->
  (forall y i, P y -> S y (Done (Resolving i)) -> go (sound P' S') (f i)) ->
  (forall y o, P y -> S y o -> (forall i, o <> Done (Resolving i)) -> sound P' S' o) -> go (sound P' S') (and_then p f).
Proof.
  intros P S P' S' p f H Hd Hp. unfold and_then. eapply go_sound; [exact H| | |].
  - intros y [x|i|e i] Hy Hs; [apply md_done; eapply Hp; [exact Hy|exact Hs|discriminate]|eapply Hd; eassumption|apply md_done; eapply Hp; [exact Hy|exact Hs|discriminate]].
  - intros y m Hy Hs. eapply Hp; [exact Hy|exact Hs|discriminate].
  - intros y Hy Hs. left. reflexivity.
Qed.
Lemma go_moves : forall (P : move -> Prop) Q p f, go (sound P moved) p -> (forall d r, P (Moves d r) -> go (sound (Q d r) moved) (f (mkInfo d r))) ->
  go (sound (fun z => exists y, P y /\ after Q y z) moved) (and_then p f).
Proof.
  intros P Q p f H Hf. eapply go_then; [exact H| |].
  - intros y i Hy Hs. destruct y as [d r|e| |]; cbn [moved] in Hs; [|destruct Hs; discriminate|discriminate|destruct Hs; discriminate].
    injection Hs as ->. eapply go_imp; [|apply Hf, Hy]. intros z Hz. exists (Moves d r). split; [exact Hy|apply AfMoves, Hz].
  - intros y o Hy Hs Hn. right. exists y. split; [|exact Hs]. exists y. split; [exact Hy|].
    destruct y as [d r|e| |]; cbn [moved] in Hs; [destruct (Hn _ Hs)|apply AfStops|apply AfDrops|apply AfFalls].
Qed.
(** Questions to the file system. *)
Lemma go_isfile {A} : forall (Q : outcome A -> Prop) p k, (forall x, w_file w p x -> go Q (k x)) -> go Q (bind (act (OIsFile p)) k).
Proof. destruct HM as (Mf & _). intros Q p k H. apply md_act; [exact I|]. intros x Hx. apply H, Mf, Hx. Qed.
Lemma go_isdir {A} : forall (Q : outcome A -> Prop) p k, (forall x, w_dir w p x -> go Q (k x)) -> go Q (bind (act (OIsDir p)) k).
Proof. destruct HM as (_ & Md & _). intros Q p k H. apply md_act; [exact I|]. intros x Hx. apply H, Md, Hx. Qed.
Lemma go_exists {A} : forall (Q : outcome A -> Prop) p k, (forall x, w_exists w p x -> go Q (k x)) -> go Q (bind (act (OExists p)) k).
Proof. destruct HM as (_ & _ & Me & _). intros Q p k H. apply md_act; [exact I|]. intros x Hx. apply H, Me, Hx. Qed.
Lemma go_read {A} : forall (Q : outcome A -> Prop) p k, (forall x, w_read w p x -> go Q (k x)) -> go Q (bind (act (ORead p)) k).
Proof. destruct HM as (_ & _ & _ & Mr & _). intros Q p k H. apply md_act; [exact I|]. intros x Hx. apply H, Mr, Hx. Qed.
Lemma go_canon {A} : forall (Q : outcome A -> Prop) p k, (forall x, w_canon w p x -> go Q (k x)) -> go Q (bind (act (OCanon p)) k).
Proof. destruct HM as (_ & _ & _ & _ & Mc). intros Q p k H. apply md_act; [exact I|]. intros x Hx. apply H, Mc, Hx. Qed.
Lemma go_load {A B} : forall (P : A -> Prop) (S : A -> outcome B -> Prop) p f, (forall opk, desc p (Has opk) -> go (sound P S) (f (Ok opk))) ->
  (forall e, desc p (Bad e) -> go (sound P S) (f (Err e))) -> (forall m, desc p Fell -> sound P S (Panicked m)) -> go (sound P S) (bind (load p) f).
Proof. intros P S p f H1 H2 H3. eapply go_bind; [apply Hload| | |]; [intros [opk|e]; [apply H1|apply H2]|exact H3|intros _; left; reflexivity]. Qed.

(** ** Fields *)
Lemma swapped_go : forall fu opk d r, go (sound (swapped R opk d r) moved) (alias_field_apply R fu opk (mkInfo d r)).
Proof.
  intros fu opk d r. set (fs0 := mkFs (fun _ => false) (fun _ => false) (fun _ => false) (fun _ => None) (fun _ => MErr) (fun _ => None)).
  eapply md_mono; [|apply (go_calm fs0), calm_alias]. intros o ->. apply swapped_sound.
Qed.
(** The subpath handed to the exports field. *)
Definition subpath (pk : pkg) (d : path) (r : request) (x : option (option str)) : Prop :=
  match x with
  | None => starts_with_char (r_target r) c_at = true /\ ~ In c_slash (r_target r)
  | Some (Some s) => inquires w r d pk s
  | Some None => exists n, bare_parts (r_target r) n (lit ".") /\ w_exists w (join (join d MODULE) n) false /\ p_name pk <> Some n
  end.
Definition subbed (x : option (option str)) (o : outcome (option str)) : Prop := match x with Some y => o = Done y | None => exists m, o = Panicked m end.
Lemma subpath_go : forall pk d r, go (sound (subpath pk d r) subbed) (exports_subpath pk (mkInfo (join d MODULE) r)).
Proof.
  intros pk d r. unfold exports_subpath. cbn [i_req i_path]. destruct (bare_total (r_target r)) as [(n & s & H)|[H1 H2]].
  2:{ rewrite H1, (proj2 (find_char_none _ _) H2). eapply (go_fell _ _ _ None); [split; assumption|eexists; reflexivity]. }
  assert (Hx : s = lit "." -> n = r_target r -> go (sound (subpath pk d r) subbed) (e <- act (OExists (join (join d MODULE) (r_target r))) ;; (if (e || opt_str_eqb (p_name pk) (r_target r))%bool then Ret (Some s_dot) else Ret None))).
  { intros Es En. subst s n. apply go_exists. intros x Hx. destruct (opt_str_eqb (p_name pk) (r_target r)) eqn:Eo.
    - rewrite orb_true_r. eapply (go_ret _ _ _ (Some (Some (lit ".")))); [|reflexivity]. exists (r_target r). split; [exact H|]. intros _. right.
      destruct (p_name pk) as [y|]; [|discriminate]. cbn in Eo. apply str_eqb_eq in Eo. congruence.
    - rewrite orb_false_r. destruct x.
      + eapply (go_ret _ _ _ (Some (Some (lit ".")))); [|reflexivity]. exists (r_target r). split; [exact H|]. intros _. left. exact Hx.
      + eapply (go_ret _ _ _ (Some None)); [|reflexivity]. exists (r_target r). split; [exact H|]. split; [exact Hx|]. intros E. rewrite E in Eo. cbn in Eo. rewrite str_eqb_refl in Eo. discriminate. }
  assert (Hs : (exists x, s = lit "./" ++ x) -> go (sound (subpath pk d r) subbed) (Ret (Some s))).
  { intros [x ->]. eapply (go_ret _ _ _ (Some (Some (lit "./" ++ x)))); [|reflexivity]. exists n. split; [exact H|]. intros E. destruct x; discriminate E. }
  revert Hx Hs. generalize (sound (subpath pk d r) subbed). generalize (r_target r) H. clear. intros t H Q Hx Hs.
  destruct H as [n Hn Hf|n s Hn Hf|a n Hn Hf Hn'|a n s Hn Hf Hn'].
  - rewrite Hf. cbn [bind]. rewrite (proj2 (find_char_none _ _) Hn). apply Hx; reflexivity.
  - rewrite starts_char_slash, Hf. cbn [bind]. rewrite find_char_first by exact Hn. apply Hs. eexists. reflexivity.
  - rewrite starts_char_slash, Hf, find_char_first by exact Hn. cbn [bind]. rewrite (proj2 (find_char_none _ _) Hn'). apply Hx; reflexivity.
  - rewrite starts_char_slash, Hf, find_char_first by exact Hn. cbn [bind]. rewrite find_char_first by exact Hn'. apply Hs. eexists. reflexivity.
Qed.
Definition chosen (pk : pkg) (l : list str) (x : option str) : Prop := match x with Some c => first_fit w pk l c | None => Forall (unfit w pk) l end.
Definition choice (pk : pkg) (i : info) (x : option str) (o : outcome stats) : Prop :=
  match x with Some c => o = Done (Resolving (mkInfo (p_dir pk) (parse c))) | None => o = Done (SError (not_exported (r_target (i_req i))) i) end.
Lemma choice_go : forall pk i l, go (sound (chosen pk l) (choice pk i)) (exports_loop pk i l).
Proof.
  intros pk i l. induction l as [|c l IH]; cbn [exports_loop]; [eapply (go_ret _ _ _ None); [constructor|reflexivity]|].
  assert (Hskip : unfit w pk c -> go (sound (chosen pk (c :: l)) (choice pk i)) (exports_loop pk i l)).
  { intros Hc. eapply go_imp; [|exact IH]. intros [x|]; cbn [chosen].
    - intros (l1 & l2 & -> & H1 & H2). exists (c :: l1), l2. split; [reflexivity|]. split; [constructor; assumption|exact H2].
    - intros H. constructor; assumption. }
  apply go_isfile. intros [|] Hf; [|apply Hskip; left; exact Hf]. cbn [i_req]. destruct (check_total (r_target (parse c))) as [[] Ec]; rewrite Ec; cbn [lift bind]; [|apply Hskip; right; exact Ec].
  eapply (go_ret _ _ _ (Some c)); [|reflexivity]. exists [], l. split; [reflexivity|]. split; [constructor|]. split; [exact Hf|exact Ec].
Qed.
Lemma exported_go : forall d r opk, r_kind r = Normal -> go (sound (exported w R d r opk) moved) (exports_apply R opk (mkInfo (join d MODULE) r)).
Proof.
  intros d r opk Hn. destruct (ruled_dec opk (r_target r)) as [(pk & tree & Hg)|Hg].
  2:{ rewrite (not_governed_apply R r Hn opk (mkInfo (join d MODULE) r) eq_refl Hg). eapply go_ret; [apply XpFree, Hg|reflexivity]. }
  rewrite (plan_exports R opk d r pk tree Hn Hg). eapply go_sound; [apply subpath_go| | |].
  - intros [[s|]|] b Hx Hb; cbn [subbed] in Hb; [| |destruct Hb; discriminate]; injection Hb as ->; cbn [subpath] in Hx.
    + pose proof (field_process_fine FExports tree (exports_request s (r_query r) (r_fragment r)) (o_conditions opts)) as Hf.
      destruct (field_process FExports tree (exports_request s (r_query r) (r_fragment r)) (o_conditions opts)) as [[l|e]|m|] eqn:Ef; cbn [lift bind]; [| |destruct (Hf m eq_refl)|apply md_nofuel; left; reflexivity].
      * eapply md_mono; [|apply choice_go]. intros o [E|([c|] & Hc & Ho)]; [left; exact E|right..]; cbn [chosen choice] in *.
        -- exists (Moves (p_dir pk) (parse c)). split; [eapply XpHit; eassumption|exact Ho].
        -- exists (Stops (unexported (r_target r))). split; [eapply XpNone; eassumption|]. eexists. exact Ho.
      * eapply go_ret; [eapply XpErr; eassumption|]. eexists. reflexivity.
    + destruct Hx as (n & H1 & H2 & H3). eapply go_ret; [eapply XpUnknown; eassumption|]. eexists. reflexivity.
  - intros [x|] m Hx Hb; cbn [subbed] in Hb; [discriminate|]. destruct Hx as [H1 H2]. right. exists Falls. split; [eapply XpFall; eassumption|]. exists m. reflexivity.
  - intros _ _ _. left. reflexivity.
Qed.
Lemma checked_go : forall d r t, go (sound (checked w t d r) moved) (imports_check (mkInfo d r) t).
Proof.
  intros d r t. unfold imports_check. apply go_isfile. intros [|] Hf; cbn [i_req].
  - destruct (check_total (r_target r)) as [[] Ec]; rewrite Ec; cbn [lift bind].
    + eapply go_ret; [apply CkGood; assumption|reflexivity].
    + eapply go_ret; [apply CkBad; auto|]. eexists. reflexivity.
  - eapply go_ret; [apply CkBad; auto|]. eexists. reflexivity.
Qed.
Lemma imported_go : forall f opk d r, go (sound (imported w R desc opk d r) moved) (imports_apply R load f opk (mkInfo d r)).
Proof.
  induction f as [|f IH]; intros opk d r; [apply md_nofuel; left; reflexivity|].
  assert (Hfree : (forall pk tree, opk = Some pk -> p_imports pk <> Some tree) -> go (sound (imported w R desc opk d r) moved) (imports_apply R load (S f) opk (mkInfo d r))).
  { intros Hn. assert (E : imports_apply R load (S f) opk (mkInfo d r) = Ret (Resolving (mkInfo d r))).
    { cbn [imports_apply]. destruct opk as [pk|]; [|reflexivity]. destruct (negb _); [reflexivity|]. destruct (p_imports pk) as [tree|] eqn:E; [destruct (Hn pk tree eq_refl E)|reflexivity]. }
    rewrite E. eapply go_ret; [apply ImNone, Hn|reflexivity]. }
  destruct (starts_with_char (r_target r) c_hash) eqn:Hh.
  2:{ rewrite imports_not_hash by exact Hh. eapply go_ret; [apply ImOther, Hh|reflexivity]. }
  destruct opk as [pk|]; [|apply Hfree; discriminate].
  destruct (p_imports pk) as [tree|] eqn:Et; [|apply Hfree; intros; congruence]. clear Hfree.
  cbn [imports_apply i_req]. rewrite Hh, Et. cbn [negb]. pose proof (field_process_fine FImports tree (r_target r) (o_conditions opts)) as Hf.
  destruct (field_process FImports tree (r_target r) (o_conditions opts)) as [[[|c l]|e]|m|] eqn:Ef; [| | |destruct (Hf m eq_refl)|apply md_nofuel; left; reflexivity]; cbn [lift bind].
  - eapply go_ret; [eapply ImEmpty; eassumption|]. eexists. reflexivity.
  - assert (Hi : first_item R pk r c) by (split; [exact Hh|exists tree, l; split; assumption]).
    assert (Hpath : path_kind (r_kind (parse c)) -> go (sound (imported w R desc (Some pk) d r) moved) (imports_check (mkInfo (p_dir pk) (parse c)) (r_target r))).
    { intros Hc. eapply go_imp; [|apply checked_go]. intros y Hy. eapply ImPath; eassumption. }
    destruct (r_kind (parse c)) eqn:Hc; [apply Hpath; unfold path_kind; auto..| |]; clear Hpath.
    all: try (eapply go_imp; [|apply IH]; intros y Hy; eapply ImHash; eassumption).
    change (get_path (mkInfo (join (p_dir pk) MODULE) (parse c))) with (item_place pk c).
    apply go_load.
    2:{ intros e He. eapply go_ret; [eapply ImBroken; eassumption|]. eexists. reflexivity. }
    2:{ intros m Hm. right. exists Falls. split; [eapply ImFallen; eassumption|]. eexists. reflexivity. }
    intros opk' Hd.
    assert (Hgo : (forall pk', opk' = Some pk' -> contains (p_dir pk') MODULE = true) -> go (sound (imported w R desc (Some pk) d r) moved)
      (and_then (and_then (and_then (exports_apply R opk' (mkInfo (join (p_dir pk) MODULE) (parse c))) (imports_apply R load f opk'))
        (alias_field_apply R (S f) opk')) (fun i2 => imports_check i2 (r_target r)))).
    { intros Hin. eapply go_imp; [|apply go_moves; [apply go_moves; [apply go_moves; [apply exported_go, Hc|intros d0 r0 _; apply IH]|intros d0 r0 _; apply swapped_go]|intros d0 r0 _; apply checked_go]].
      cbn beta. intros x (z & (y & (y0 & Hy0 & Hy) & Hz) & Hx).
      inversion Hy as [d1 r1 y1 Hy1|e1| |]; subst.
      * eapply ImPackage; eassumption.
      * inversion Hz; subst. inversion Hx; subst. eapply ImHalt; try eassumption. intros ? ?; discriminate.
      * inversion Hz; subst. inversion Hx; subst. eapply ImHalt; try eassumption. intros ? ?; discriminate.
      * inversion Hz; subst. inversion Hx; subst. eapply ImHalt; try eassumption. intros ? ?; discriminate. }
    destruct opk' as [pk'|]; [|apply Hgo; discriminate].
    destruct (contains (p_dir pk') MODULE) eqn:Ec; cbn [negb]; [apply Hgo; intros pk0 E0; congruence|].
    eapply go_ret; [eapply ImOutside; eassumption|reflexivity].
  - eapply go_ret; [eapply ImErr; eassumption|]. eexists. reflexivity.
Qed.

(** ** Directories *)
(** A file, or nothing yet. *)
Definition filed (d : path) (r : request) (x : option path) (o : outcome stats) : Prop :=
  match x with
  | Some q => o = Done (Success (RInfo (mkInfo q (mkReq [] (r_query r) (r_fragment r) Relative))))
  | None => o = Done (Resolving (mkInfo d r))
  end.
Definition there_is (p : path) (x : option path) : Prop := match x with Some q => file_for w R p q | None => no_file_for w R p end.
Lemma filed_go : forall d r, go (sound (there_is (get_path (mkInfo d r))) (filed d r)) (resolve_as_file R (mkInfo d r)).
Proof.
  intros d r. unfold resolve_as_file, enforce, there_is, file_for, no_file_for, file_candidates. set (p := get_path (mkInfo d r)).
  set (tail := map (fun ext => p ++ ext) (o_extensions opts)).
  set (P := fun (l : list path) (x : option path) => match x with
    | Some q => exists l1 l2, l = l1 ++ q :: l2 /\ Forall (fun x => w_file w x false) l1 /\ w_file w q true
    | None => Forall (fun x => w_file w x false) l end).
  assert (Hstep : forall q l x, w_file w q false -> P l x -> P (q :: l) x).
  { intros q l [y|] Hq; cbn [P]; [|intros H; constructor; assumption]. intros (l1 & l2 & -> & H1 & H2). exists (q :: l1), l2. split; [reflexivity|]. split; [constructor; assumption|exact H2]. }
  assert (Hhit : forall q l, w_file w q true -> P (q :: l) (Some q)) by (intros q l Hq; exists [], l; auto).
  assert (He : go (sound (P tail) (filed d r)) (extensions_apply R p (mkInfo d r))).
  { unfold extensions_apply, tail. induction (o_extensions opts) as [|e l IH]; cbn [extensions_loop map]; [eapply (go_ret _ _ _ None); [constructor|reflexivity]|].
    apply go_isfile. intros [|] Hf.
    - eapply (go_ret _ _ _ (Some (append_ext p e))); [apply Hhit, Hf|reflexivity].
    - eapply go_imp; [|exact IH]. intros x Hx. apply Hstep; assumption. }
  change (go (sound (P ((match o_enforce opts with Some true => [] | _ => [p] end) ++ tail)) (filed d r))
    (if negb (match o_enforce opts with Some b => b | None => false end) then b <- act (OIsFile p) ;; (if b then Ret (Success (RInfo (with_target (with_path (mkInfo d r) p) []))) else extensions_apply R p (mkInfo d r)) else extensions_apply R p (mkInfo d r))).
  assert (Hp : go (sound (P ([p] ++ tail)) (filed d r)) (b <- act (OIsFile p) ;; (if b then Ret (Success (RInfo (with_target (with_path (mkInfo d r) p) []))) else extensions_apply R p (mkInfo d r)))).
  { apply go_isfile. intros [|] Hf; [eapply (go_ret _ _ _ (Some p)); [apply Hhit, Hf|reflexivity]|]. eapply go_imp; [|exact He]. intros x Hx. apply Hstep; assumption. }
  destruct (o_enforce opts) as [[]|]; cbn [negb]; [exact He|exact Hp|exact Hp].
Qed.
Lemma indexes_go : forall fu opk i files pos r, go (sound (indexes w R opk pos r files) (stood i)) (main_file_loop R load (S fu) opk i files (mkInfo pos r)).
Proof.
  intros fu opk i files. induction files as [|f l IH]; intros pos r; [eapply go_ret; [apply IxNone|reflexivity]|]. cbn [main_file_loop].
  assert (E : and_then (and_then (and_then (exports_apply R opk (with_target (mkInfo pos r) (lit "./" ++ f))) (imports_apply R load (S fu) opk)) (alias_field_apply R (S fu) opk)) (resolve_as_file R) =
    and_then (alias_field_apply R (S fu) opk (mkInfo pos (req_with_target r (lit "./" ++ f)))) (resolve_as_file R)).
  { assert (E1 : exports_apply R opk (with_target (mkInfo pos r) (lit "./" ++ f)) = Ret (Resolving (with_target (mkInfo pos r) (lit "./" ++ f)))).
    { destruct opk; [|reflexivity]. unfold exports_apply, with_target, req_with_target. cbn [i_req r_kind]. rewrite kind_dot. reflexivity. }
    rewrite E1. cbn [and_then bind]. rewrite imports_not_hash by reflexivity. reflexivity. }
  rewrite E. eapply (go_sound (fun x => match x with None => swapped R opk pos (req_with_target r (lit "./" ++ f)) Drops
      | Some (d1, r1, y) => swapped R opk pos (req_with_target r (lit "./" ++ f)) (Moves d1 r1) /\ there_is (get_path (mkInfo d1 r1)) y end)
    (fun x o => match x with None => o = Done (Success RIgnored) | Some (d1, r1, y) => filed d1 r1 y o end)).
  - eapply go_then; [apply swapped_go| |].
    + intros [d1 r1|e| |] j Hy Hs; cbn [moved] in Hs; [|inversion Hy|discriminate|inversion Hy]. injection Hs as ->.
      eapply md_mono; [|apply filed_go]. intros o [E'|(x & Hx & Ho)]; [left; exact E'|]. right. exists (Some (d1, r1, x)). auto.
    + intros [d1 r1|e| |] o Hy Hs Hn; cbn [moved] in Hs; [destruct (Hn _ Hs)|inversion Hy| |inversion Hy]. right. exists None. auto.
  - intros [[[d1 r1] [q|]]|] b Hy Hs; cbn [filed] in Hs.
    + destruct Hy as [Hy Hq]. injection Hs as ->. cbn [is_success]. eapply go_ret; [eapply IxFile; eassumption|]. split; [reflexivity|discriminate].
    + destruct Hy as [Hy Hq]. injection Hs as ->. cbn [is_success extract_info bind]. eapply go_imp; [|apply IH]. intros x Hx. eapply IxMiss; eassumption.
    + injection Hs as ->. cbn [is_success]. eapply go_ret; [apply IxDrop, Hy|]. split; [reflexivity|discriminate].
  - intros [[[d1 r1] [q|]]|] m Hy Hs; cbn [filed] in Hs; discriminate.
  - intros [[[d1 r1] [q|]]|] Hy Hs; cbn [filed] in Hs; discriminate.
Qed.
Definition dirs_go (n : nat) : Prop := forall d r, no_file_for w R (get_path (mkInfo d r)) ->
  go (sound (place w R desc r (get_path (mkInfo d r))) (sights d r)) (resolve_as_dir R load n (mkInfo d r)).
(** Where something leads, and what is seen there. *)
Inductive view :=
| Ended (y : move)
| Seen (d : path) (r : request) (x : sight).
Definition viewed (P : move -> Prop) (v : view) : Prop :=
  match v with Ended y => P y /\ halts y | Seen d r x => P (Moves d r) /\ place w R desc r (get_path (mkInfo d r)) x end.
Definition shown (v : view) (o : outcome stats) : Prop := match v with Ended y => moved y o | Seen d r x => sights d r x o end.
Lemma view_go : forall n, dirs_go n -> forall P p, go (sound P moved) p -> go (sound (viewed P) shown) (and_then (and_then p (resolve_as_file R)) (resolve_as_dir R load n)).
Proof.
  intros n Hn P p Hp.
  eapply (go_then (fun x => match x with inl y => P y /\ halts y | inr (d, r, x) => P (Moves d r) /\ there_is (get_path (mkInfo d r)) x end)
    (fun x o => match x with inl y => moved y o | inr (d, r, x) => filed d r x o end)).
  - eapply go_then; [exact Hp| |].
    + intros [d1 r1|e| |] j Hy Hs; cbn [moved] in Hs; [|destruct Hs; discriminate|discriminate|destruct Hs; discriminate]. injection Hs as ->.
      eapply md_mono; [|apply filed_go]. intros o [E'|(x & Hx & Ho)]; [left; exact E'|]. right. exists (inr (d1, r1, x)). auto.
    + intros y o Hy Hs Hne. right. exists (inl y). split; [|exact Hs]. split; [exact Hy|]. intros d r ->. destruct (Hne _ Hs).
  - intros [y|[[d r] [q|]]] i Hy Hs; cbn [filed] in Hs; [|discriminate|].
    + destruct Hy as [_ Hh]. destruct y as [d r|e| |]; cbn [moved] in Hs; [destruct (Hh d r eq_refl)|destruct Hs; discriminate|discriminate|destruct Hs; discriminate].
    + injection Hs as ->. destruct Hy as [Hy Hf]. eapply md_mono; [|apply Hn, Hf]. intros o [E'|(x & Hx & Ho)]; [left; exact E'|]. right. exists (Seen d r x). split; [split; assumption|exact Ho].
  - intros [y|[[d r] [q|]]] o Hy Hs Hne; cbn [filed] in Hs; [right; exists (Ended y); auto| |destruct (Hne _ Hs)].
    destruct Hy as [Hy Hf]. right. exists (Seen d r (Sees (Finds q (r_query r) (r_fragment r)))). split; [split; [exact Hy|apply PlFile, Hf]|]. rewrite Hs. split; [reflexivity|discriminate].
Qed.
Lemma leads_go : forall n, dirs_go n -> forall fu pk i fields ms, main_plan (p_raw pk) fields ms -> forall pos r,
  go (sound (leads w R desc pk pos r ms) (stood i)) (main_field_loop R (resolve_as_dir R load n) fu pk i fields (mkInfo pos r)).
Proof.
  intros n Hn fu pk i fields ms H. induction H as [|f l ms Hf H IH|f l m Hj Hm|f l m ms Hj H1 H2 H IH]; intros pos r; cbn [main_field_loop].
  - eapply go_ret; [apply LdNone|reflexivity].
  - destruct (jget (p_raw pk) f) as [[| | |s| |]|] eqn:E; cbn [opt_str as_str]; try apply IH. destruct (Hf s eq_refl).
  - rewrite Hj. cbn [opt_str as_str]. destruct Hm as [-> | ->]; (eapply go_ret; [apply LdNone|reflexivity]).
  - rewrite Hj. cbn [opt_str as_str].
    assert (E : (str_eqb m s_dot || str_eqb m (lit "./"))%bool = false) by (apply orb_false_iff; split; apply str_eqb_neq; assumption).
    rewrite E. replace (if starts_with m (lit "./") then with_target (mkInfo pos r) m else with_target (mkInfo pos r) (lit "./" ++ m)) with (mkInfo pos (req_with_target r (dotted m))) by (unfold dotted; destruct (starts_with m (lit "./")); reflexivity).
    eapply go_sound; [apply (view_go n Hn (swapped R (Some pk) pos (req_with_target r (dotted m)))), swapped_go| | |].
    + intros v b Hv Hs. destruct v as [y|d1 r1 x]; cbn [viewed shown] in *; destruct Hv as [Hy Hx].
      { destruct y as [d1 r1|e| |]; [destruct (Hx _ _ eq_refl)|inversion Hy| |inversion Hy]. cbn [moved] in Hs. injection Hs as ->. cbn [is_success]. eapply go_ret; [apply LdDrop, Hy|]. split; [reflexivity|discriminate]. }
      destruct Hx as [q Hq|a H3 H4 H5|H3 H4 H5|H3 H4|e H3 H4 H5|H3 H4 H5]; cbn [sights] in Hs.
      * destruct Hs as [Hs _]. cbn [tells] in Hs. injection Hs as ->. cbn [is_success]. eapply go_ret; [eapply LdFile; eassumption|]. split; [reflexivity|discriminate].
      * destruct Hs as [Hs Hne]. assert (Eb : is_success b = true) by (destruct a as [q qu fr| |e|]; cbn [tells] in Hs; [injection Hs as ->; reflexivity|injection Hs as ->; reflexivity|destruct (Hne e eq_refl)|destruct Hs; discriminate]).
        rewrite Eb. eapply go_ret; [eapply LdDir; eassumption|]. split; assumption.
      * injection Hs as ->. cbn [is_success extract_info bind]. eapply go_imp; [|apply IH]. intros x Hx. eapply LdDrift; eassumption.
      * injection Hs as ->. cbn [is_success extract_info bind]. eapply go_imp; [|apply IH]. intros x Hx. eapply LdMiss; [eassumption| |eassumption]. split; [exact H3|left; exact H4].
      * injection Hs as ->. cbn [is_success extract_info bind]. eapply go_imp; [|apply IH]. intros x Hx. eapply LdMiss; [eassumption| |eassumption]. split; [exact H3|right; eauto].
      * destruct Hs as [[x Hs] _]. discriminate.
    + intros v m0 Hv Hs. destruct v as [y|d1 r1 x]; cbn [viewed shown] in *; destruct Hv as [Hy Hx].
      { destruct y as [d1 r1|e| |]; cbn [moved] in Hs; [discriminate|destruct Hs; discriminate|discriminate|inversion Hy]. }
      destruct Hx as [q Hq|a H3 H4 H5|H3 H4 H5|H3 H4|e H3 H4 H5|H3 H4 H5]; cbn [sights] in Hs; try discriminate.
      * destruct Hs as [Hs _]. discriminate.
      * right. exists (Some a). split; [eapply LdDir; eassumption|exact Hs].
      * right. exists (Some Crashes). split; [eapply LdFall; eassumption|exact Hs].
    + intros v _ _. left. reflexivity.
Qed.
Lemma dirs_all_go : forall n, dirs_go n.
Proof.
  induction n as [|n IH]; intros d r Hq; [apply md_nofuel; left; reflexivity|]. cbn [resolve_as_dir]. set (dir := get_path (mkInfo d r)) in *.
  apply go_isdir. intros [|] Ed; cbn [negb].
  2:{ eapply go_ret; [apply PlNothing; assumption|reflexivity]. }
  apply go_load.
  2:{ intros e He. eapply go_ret; [eapply PlBroken; eassumption|reflexivity]. }
  2:{ intros m Hm. right. exists (Sees Crashes). split; [apply PlFallen; assumption|]. split; [exists m; reflexivity|discriminate]. }
  intros opk Ho. change (with_target (with_path (mkInfo d r) dir) []) with (mkInfo dir (req_with_target r [])). set (i := mkInfo dir (req_with_target r [])).
  assert (Hst : forall p, go (sound (stands w R desc r dir) (stood i)) p -> go (sound (place w R desc r dir) (sights d r)) p).
  { intros p. apply md_mono. intros o [E|([a|] & Hx & Hs)]; [left; exact E|right; exists (Sees a)|right; exists Hollow].
    - split; [apply PlDir; assumption|exact Hs].
    - split; [apply PlHollow; assumption|exact Hs]. }
  apply Hst. clear Hst.
  assert (Hix : (forall x, indexes w R opk dir (req_with_target r []) (o_main_files opts) x -> stands w R desc r dir x) ->
    go (sound (stands w R desc r dir) (stood i)) (main_file_apply R load (S n) opk i)).
  { intros HP. eapply go_imp; [exact HP|]. apply indexes_go. }
  destruct opk as [pk|].
  2:{ cbn [main_field_apply and_then bind]. apply Hix. intros x Hx. eapply StNone; eassumption. }
  cbn [main_field_apply]. change (i_path i) with dir. destruct (same_dec dir (p_dir pk)) as [Hs|Hs].
  2:{ rewrite (same_eqb _ _ Hs). cbn [negb and_then bind]. apply Hix. intros x Hx. eapply StOther; eassumption. }
  rewrite (proj2 (path_eqb_eq _ _) Hs). cbn [negb]. destruct (main_plan_total (p_raw pk) (o_main_fields opts)) as [ms Hms].
  eapply go_then; [apply (leads_go n IH (S n) pk i _ ms Hms)| |].
  - intros [a|] j Hy Hst; cbn [stood] in Hst.
    + destruct Hst as [Hst _]. destruct (tells_res _ _ Hst).
    + injection Hst as ->. apply Hix. intros x Hx. eapply StOwn; eassumption.
  - intros [a|] o Hy Hst Hne; cbn [stood] in Hst; [|destruct (Hne _ Hst)]. right. exists (Some a). split; [eapply StMain; eassumption|exact Hst].
Qed.
Lemma place_go : forall n d r, go (sound (place w R desc r (get_path (mkInfo d r))) (sights d r)) (and_then (resolve_as_file R (mkInfo d r)) (resolve_as_dir R load n)).
Proof.
  intros n d r. eapply go_then; [apply filed_go| |].
  - intros [q|] i Hx Hs; cbn [filed] in Hs; [discriminate|]. injection Hs as ->. apply dirs_all_go, Hx.
  - intros [q|] o Hx Hs Hne; cbn [filed] in Hs; [|destruct (Hne _ Hs)]. right. exists (Sees (Finds q (r_query r) (r_fragment r))). split; [apply PlFile, Hx|]. rewrite Hs. split; [reflexivity|discriminate].
Qed.

(** ** The climb *)
Lemma tells_success : forall a s, tells a (Done s) -> (forall e, a <> Fails e) -> is_success s = true.
Proof. intros [q qu fr| |e|] s H Hn; cbn [tells] in H; [injection H as ->; reflexivity|injection H as ->; reflexivity|destruct (Hn e eq_refl)|destruct H; discriminate]. Qed.
Notation root d := (join d MODULE).
Lemma fields_go : forall f opk d r, go (sound (fun z => exists y, passed w R desc opk d r y /\ after (fun d r => swapped R opk d (dotted_request r)) y z) moved)
  (and_then (and_then (exports_apply R opk (mkInfo (root d) r)) (imports_apply R load f opk)) (fun i => alias_field_apply R f opk (there i))).
Proof.
  intros f opk d r. apply go_moves; [|intros d0 r0 _; rewrite there_dotted; apply swapped_go]. destruct (normal_dec r) as [Hn|Hn].
  - eapply go_imp; [|apply go_moves; [apply exported_go, Hn|intros d0 r0 _; apply imported_go]]. cbn beta. intros z (y & Hy & Hz). eapply PsBare; eassumption.
  - rewrite not_normal_exports by exact Hn. cbn [and_then bind]. eapply go_imp; [|apply imported_go]. intros z Hz. apply PsOther; assumption.
Qed.
Lemma stop_judged : forall r d e i, judged (stopped r e) (Done (inr (if str_eqb e TAG then Resolving (mkInfo d r) else SError e i))).
Proof. intros r d e i. unfold stopped. destruct (str_eqb e TAG); cbn [judged tells]; eauto. Qed.
Lemma rung_go : forall f d r, go (sound (rung w R desc d r) judged) (modules_level R load f (mkInfo d r)).
Proof.
  intros f d r. unfold modules_level. cbn [i_path i_req]. apply go_isdir. intros [|] Ed; cbn [negb].
  2:{ eapply go_ret; [apply RgAbsent, Ed|]. exists d. reflexivity. }
  pose proof (folder_of (r_target r)) as Hfo. destruct (module_name (r_target r)) as [n|].
  2:{ eapply go_fell; [apply RgTorn; assumption|reflexivity]. }
  apply go_load.
  2:{ intros e He. eapply go_ret; [eapply RgBroken; eassumption|]. eexists. reflexivity. }
  2:{ intros m Hm. right. exists (Settles Crashes). split; [eapply RgFallen; eassumption|reflexivity]. }
  intros opk Ho. apply go_isdir. intros bd Em.
  assert (Hin : enters w desc d r opk -> go (sound (rung w R desc d r) judged)
    (s <- and_then (and_then (and_then (and_then (exports_apply R opk (mkInfo (root d) r)) (imports_apply R load f opk))
       (fun i1 => alias_field_apply R f opk (there i1))) (resolve_as_file R)) (resolve_as_dir R load f) ;;
     match s with SError e ei => if str_eqb e TAG then Ret (inr (Resolving (mkInfo d r))) else Ret (inr (SError e ei)) | _ => Ret (inr s) end)).
  { intros Hin. eapply go_sound; [apply (view_go f (dirs_all_go f) _ _ (fields_go f opk d r))| | |].
    - assert (Hst : forall e i, go (fun o => o = Done (inr (if str_eqb e TAG then Resolving (mkInfo d r) else SError e i) : stats + stats)) (if str_eqb e TAG then Ret (inr (Resolving (mkInfo d r))) else Ret (inr (SError e i)))).
      { intros e i. destruct (str_eqb e TAG); apply md_done; reflexivity. }
      intros [z|d' r' x] s Hv Hs; cbn [viewed shown] in *; destruct Hv as [(y & Hy & Hz) Hx].
      + destruct z as [d' r'|e| |]; cbn [moved] in Hs; [destruct (Hx _ _ eq_refl)| | |destruct Hs; discriminate].
        * destruct Hs as [i Hs]. injection Hs as ->. eapply md_mono; [|apply Hst]. intros o ->. right. exists (stopped r e). split; [eapply RgStops; eassumption|apply stop_judged].
        * injection Hs as ->. eapply go_ret; [eapply RgHalts; try eassumption; [apply HtDrops|discriminate]|reflexivity].
      + destruct x as [a| |e]; cbn [sights] in Hs.
        * destruct Hs as [Hs Hne]. pose proof (tells_success a s Hs Hne) as Hb. destruct s as [x|j|e j]; try discriminate Hb.
          eapply go_ret; [eapply RgSees; eassumption|exact Hs].
        * injection Hs as ->. eapply go_ret; [eapply RgHollow; eassumption|]. eexists. reflexivity.
        * injection Hs as ->. eapply md_mono; [|apply Hst]. intros o ->. right. exists (stopped r e). split; [eapply RgLacks; eassumption|apply stop_judged].
    - intros [z|d' r' x] m Hv Hs; cbn [viewed shown] in *; destruct Hv as [(y & Hy & Hz) Hx].
      + destruct z as [d' r'|e| |]; cbn [moved] in Hs; [discriminate|destruct Hs; discriminate|discriminate|].
        right. exists (Settles Crashes). split; [eapply RgHalts; try eassumption; [apply HtFalls|discriminate]|reflexivity].
      + destruct x as [a| |e]; cbn [sights] in Hs; [|discriminate|discriminate]. destruct Hs as [Hs _].
        right. exists (Settles a). split; [eapply RgSees; eassumption|]. destruct a as [q qu fr| |e|]; cbn [tells] in Hs; [discriminate|discriminate|destruct Hs; discriminate|reflexivity].
    - intros v _ _. left. reflexivity. }
  destruct bd; cbn [negb andb]; [apply Hin; repeat split; eauto|].
  destruct (match opk with Some pk => is_resolve_self pk (mkInfo (root d) r) | None => false end) eqn:Es; cbn [negb].
  { apply Hin. apply own_spec in Es. repeat split; eauto. }
  assert (Hno : ~ own_name opk (r_target r)) by (intros H; apply (own_spec opk (root d) r) in H; congruence).
  eapply go_sound; [apply filed_go| | |].
  - intros [q|] s Hx Hs; cbn [filed] in Hs; injection Hs as ->; cbn [is_success].
    + eapply go_ret; [eapply RgFile; eassumption|reflexivity].
    + eapply go_ret; [eapply RgNoFile; eassumption|]. eexists. reflexivity.
  - intros [q|] m Hx Hs; discriminate.
  - intros [q|] Hx Hs; discriminate.
Qed.
Lemma ascent_go : forall n d l r, up_chain d l -> go (sound (ascent w R desc l r) tells) (resolve_as_modules R load n (mkInfo d r)).
Proof.
  induction n as [|n IH]; intros d l r Hl; [apply md_nofuel; left; reflexivity|]. cbn [resolve_as_modules i_path].
  assert (El : exists l', l = d :: l') by (inversion Hl; eauto). destruct El as [l' ->].
  eapply go_sound; [apply rung_go| | |].
  - intros [a|r'] b Hv Hj; cbn [judged] in Hj.
    + destruct b as [s|s]; [eapply go_ret; [apply AsHere, Hv|exact Hj]|].
      destruct s as [x|i|e i]; [|destruct (tells_res _ _ Hj)|]; cbn [and_then bind]; (eapply go_ret; [apply AsHere, Hv|exact Hj]).
    + destruct Hj as [d0 Hj]. injection Hj as ->. cbn [and_then bind]. inversion Hl as [p Hp|p q l1 Hp Hc]; subst; rewrite Hp.
      * cbn [bind]. eapply go_ret; [eapply AsUp; [exact Hv|apply AsTop]|]. eexists. reflexivity.
      * change (with_path (mkInfo d0 r') q) with (mkInfo q r'). eapply go_sound; [apply (IH q l' r' Hc)| | |].
        -- intros a [x|i|e i] Ha Ht; [|destruct (tells_res _ _ Ht)|]; (eapply go_ret; [eapply AsUp; eassumption|exact Ht]).
        -- intros a m Ha Ht. right. exists a. split; [eapply AsUp; eassumption|exact Ht].
        -- intros a _ _. left. reflexivity.
  - intros [a|r'] m Hv Hj; cbn [judged] in Hj; [|destruct Hj; discriminate]. subst a. right. exists Crashes. split; [apply AsHere, Hv|]. exists m. reflexivity.
  - intros v _ _. left. reflexivity.
Qed.

(** ** The search proper *)
Lemma ends_go : forall f d r, go (sound (ends w R desc d r) tells_end) (final_step R load f (mkInfo d r)).
Proof.
  intros f d r. destruct (path_dec r) as [Hp|Hp].
  - assert (E : final_step R load f (mkInfo d r) = and_then (resolve_as_file R (mkInfo d r)) (resolve_as_dir R load f)) by (unfold final_step; cbn [i_req]; destruct Hp as [-> |[-> | ->]]; reflexivity).
    rewrite E. eapply md_mono; [|apply place_go]. intros o [Eo|(x & Hx & Hs)]; [left; exact Eo|right]. destruct x as [a| |e]; cbn [sights] in Hs.
    + exists a. split; [apply EnSees; assumption|left; apply Hs].
    + exists Crashes. split; [apply EnHollow; assumption|right]. split; [reflexivity|]. eexists. exact Hs.
    + exists (Fails e). split; [apply EnLacks; assumption|left]. eexists. exact Hs.
  - assert (E : final_step R load f (mkInfo d r) = resolve_as_modules R load f (mkInfo d r)) by (unfold final_step; cbn [i_req]; unfold path_kind in Hp; destruct (r_kind r); try reflexivity; exfalso; apply Hp; auto).
    rewrite E. destruct (up_chain_total d) as [l Hl]. eapply md_mono; [|apply ascent_go, Hl]. intros o [Eo|(a & Ha & Ht)]; [left; exact Eo|right].
    exists a. split; [eapply EnClimb; eassumption|left; exact Ht].
Qed.
(** What the description makes of a request. *)
Definition led (base : path) (r : request) (z : move) : Prop :=
  (exists e, desc (first_place base r) (Bad e) /\ z = Stops e) \/ (desc (first_place base r) Fell /\ z = Falls) \/
  exists opk y, desc (first_place base r) (Has opk) /\ imported w R desc opk base r y /\ after (swapped R opk) y z.
Lemma led_halts : forall base r z a, led base r z -> halted z a -> sought w R desc base r a.
Proof.
  intros base r z a [(e & He & ->)|[[Hf ->]|(opk & y & Hd & Hy & Hz)]] Ha; [inversion Ha; subst; apply SeBroken, He|inversion Ha; subst; apply SeFallen, Hf|eapply SeHalts; eassumption].
Qed.
Lemma led_moves : forall base r d r' a, led base r (Moves d r') -> ends w R desc d r' a -> sought w R desc base r a.
Proof. intros base r d r' a [(e & _ & E)|[[_ E]|(opk & y & Hd & Hy & Hz)]] Ha; [discriminate|discriminate|eapply SeEnds; eassumption]. Qed.
Lemma led_go : forall f base r, go (sound (led base r) moved) (pkg_step R load f (mkInfo base r)).
Proof.
  intros f base r. unfold pkg_step. cbn [i_path i_req].
  change (match r_kind r with Normal => join (join base MODULE) (r_target r) | _ => get_path (mkInfo base r) end) with (first_place base r).
  apply go_load.
  - intros opk Ho. eapply go_imp; [|apply go_moves; [apply imported_go|intros d0 r0 _; apply swapped_go]]. intros z (y & Hy & Hz). right. right. eauto.
  - intros e He. eapply go_ret; [left; eauto|]. eexists. reflexivity.
  - intros m Hm. right. exists Falls. split; [right; left; auto|]. exists m. reflexivity.
Qed.

(** ** Aliases and prefer_relative *)
(** What comes of the trials. *)
Definition weighed (s0 : stats) (x : option fate) (o : outcome stats) : Prop :=
  match x with Some a => tells a o | None => o = Done s0 end.
Definition seeks_go (n : nat) : Prop := forall base r, go (sound (seek w R desc base r) tells) (resolve_ R load n (mkInfo base r)).
Lemma alias_go : forall f, seeks_go f -> forall base r l cs b, alias_plan (r_target r) l cs b ->
  go (sound (tried w R desc base r cs) (weighed (if b then Success RIgnored else Resolving (mkInfo base r)))) (alias_loop (resolve_ R load f) (mkInfo base r) l).
Proof.
  intros f Hf base r l cs b H. induction H as [|from to l cs b Hn H IH|from l Hp|from to l cs b Hp Ht H IH|from to rest l cs b Ht Hn H IH]; cbn [alias_loop i_req i_path].
  - eapply go_ret; [apply TdNone|reflexivity].
  - replace (starts_with (r_target r) from) with false; [exact IH|].
    symmetry. destruct (starts_with _ _) eqn:E; [apply prefix_dec in E; contradiction|reflexivity].
  - apply prefix_dec in Hp. rewrite Hp. eapply go_ret; [apply TdNone|reflexivity].
  - apply prefix_dec in Hp. rewrite Hp. apply prefix_dec in Ht. rewrite Ht, orb_true_r. exact IH.
  - rewrite Ht at 1. rewrite starts_with_app.
    assert (E1 : starts_with (r_target r) to = false).
    { destruct (starts_with _ to) eqn:E; [apply prefix_dec in E; contradiction|reflexivity]. }
    assert (E2 : str_eqb (r_target r) to = false).
    { apply str_eqb_neq. intros E. apply Hn. exists []. rewrite app_nil_r. exact E. }
    rewrite E1, E2. cbn [orb]. rewrite Ht at 1. rewrite replacen1_prefix.
    eapply go_sound; [apply Hf| | |].
    + intros a s Ha Hs. destruct (fails_dec a) as [[e ->]|Hd].
      * destruct Hs as [i Hs]. injection Hs as ->. cbn [is_success]. eapply go_imp; [|exact IH]. intros x Hx. eapply TdMiss; eassumption.
      * rewrite (tells_success a s Hs Hd). eapply go_ret; [apply TdHit; eassumption|exact Hs].
    + intros a m Ha Hs. right. exists (Some a). split; [apply TdHit; [exact Ha|intros e ->; destruct Hs; discriminate]|exact Hs].
    + intros a _ _. left. reflexivity.
Qed.
Lemma nearby_go : forall f, seeks_go f -> forall base r l, nearby R (r_target r) l ->
  go (sound (tried w R desc base r l) (weighed (Resolving (mkInfo base r)))) (prefer_relative_apply R (resolve_ R load f) (mkInfo base r)).
Proof.
  intros f Hf base r l H. unfold prefer_relative_apply. cbn [i_req i_path]. destruct H as [H|H1 H2 H3].
  - assert (E : (if (starts_with (r_target r) (lit "../") || starts_with (r_target r) (lit "./"))%bool then Ret (Resolving (mkInfo base r))
      else if o_prefer_relative opts then s <- resolve_ R load f (mkInfo base (req_with_target r (lit "./" ++ r_target r))) ;; (if is_success s then Ret s else Ret (Resolving (mkInfo base r)))
      else Ret (Resolving (mkInfo base r))) = Ret (Resolving (mkInfo base r))).
    { destruct (starts_with (r_target r) (lit "../") || starts_with (r_target r) (lit "./"))%bool eqn:E; [reflexivity|].
      apply orb_false_iff in E. destruct E as [E1 E2]. destruct H as [-> |[H|H]]; [reflexivity| |]; apply prefix_dec in H; congruence. }
    rewrite E. eapply go_ret; [apply TdNone|reflexivity].
  - assert (E : (starts_with (r_target r) (lit "../") || starts_with (r_target r) (lit "./"))%bool = false).
    { apply orb_false_iff. split; (destruct (starts_with _ _) eqn:E; [apply prefix_dec in E; contradiction|reflexivity]). }
    rewrite E, H1. eapply go_sound; [apply Hf| | |].
    + intros a s Ha Hs. destruct (fails_dec a) as [[e ->]|Hd].
      * destruct Hs as [i Hs]. injection Hs as ->. cbn [is_success]. eapply go_ret; [eapply TdMiss; [exact Ha|apply TdNone]|reflexivity].
      * rewrite (tells_success a s Hs Hd). eapply go_ret; [apply TdHit; eassumption|exact Hs].
    + intros a m Ha Hs. right. exists (Some a). split; [apply TdHit; [exact Ha|intros e ->; destruct Hs; discriminate]|exact Hs].
    + intros a _ _. left. reflexivity.
Qed.
Lemma tried_some : forall base r cs l a, tried w R desc base r cs (Some a) -> tried w R desc base r (cs ++ l) (Some a).
Proof.
  intros base r cs l a. induction cs as [|c cs IH]; intros H; [inversion H|]. inversion H as [|? ? ? ? ? Hs Hn|? ? ? ? e ? Hs Ht]; subst; cbn [app]; [apply TdHit; assumption|eapply TdMiss; [exact Hs|apply IH, Ht]].
Qed.
Lemma tried_none : forall base r cs l x, tried w R desc base r cs None -> tried w R desc base r l x -> tried w R desc base r (cs ++ l) x.
Proof.
  intros base r cs l x. induction cs as [|c cs IH]; intros H Hx; [exact Hx|]. inversion H as [|? ? ? ? ? Hs Hn|? ? ? ? e ? Hs Ht]; subst; cbn [app]. eapply TdMiss; [exact Hs|apply IH; assumption].
Qed.
Lemma tried_good : forall base r cs x, tried w R desc base r cs x -> forall a e, x = Some a -> a <> Fails e.
Proof. intros base r cs x. induction cs as [|c cs IH]; intros H a e E; inversion H as [|? ? ? ? ? Hs Hn|? ? ? ? e' ? Hs Ht]; subst; try discriminate; [match goal with H : Some _ = Some _ |- _ => injection H as <- end; apply Hn|eapply IH; eauto]. Qed.
Lemma first_go : forall f, seeks_go f -> forall base r, exists cs b, trials R base (r_target r) cs b /\
  go (sound (tried w R desc base r cs) (weighed (if b then Success RIgnored else Resolving (mkInfo base r))))
    (and_then (alias_apply R (resolve_ R load f) (mkInfo base r)) (prefer_relative_apply R (resolve_ R load f))).
Proof.
  intros f Hf base r. destruct (trials_total R base (r_target r)) as (cs & b & H). exists cs, b. split; [exact H|]. unfold alias_apply. cbn [i_path].
  destruct H as [cs Hc Hp|cs l Hc Hp Hl|l Hc Hl]; rewrite Hc.
  - eapply go_then; [apply (alias_go f Hf base r _ _ _ Hp)| |].
    + intros [a|] i Hx Hs; cbn [weighed] in Hs; [destruct (tells_res _ _ Hs)|discriminate].
    + intros x o Hx Hs _. right. eauto.
  - eapply go_then; [apply (alias_go f Hf base r _ _ _ Hp)| |].
    + intros [a|] i Hx Hs; cbn [weighed] in Hs; [destruct (tells_res _ _ Hs)|]. injection Hs as ->. eapply go_imp; [|apply (nearby_go f Hf base r l Hl)].
      intros x Hx'. apply tried_none; assumption.
    + intros [a|] o Hx Hs Hn; cbn [weighed] in Hs; [|destruct (Hn _ Hs)]. right. exists (Some a). split; [apply tried_some, Hx|exact Hs].
  - cbn [and_then bind]. apply (nearby_go f Hf base r l Hl).
Qed.
Lemma seek_go : forall n, seeks_go n.
Proof.
  induction n as [|f IH]; intros base r; [apply md_nofuel; left; reflexivity|]. cbn [resolve_]. destruct (first_go f IH base r) as (cs & b & Htr & Hfirst).
  (* before the search proper there may be an answer already *)
  set (early := fun a => seek w R desc base r a /\ forall e, a <> Fails e).
  set (open := tried w R desc base r cs None /\ b = false).
  eapply (go_sound (fun x : fate + fate => match x with inl a => early a | inr a => open /\ sought w R desc base r a end) (fun x o => match x with inl a => tells a o | inr a => tells_end a o end)).
  - eapply (go_then (fun x : fate + move => match x with inl a => early a | inr z => open /\ led base r z end) (fun x o => match x with inl a => tells a o | inr z => moved z o end)).
    + eapply go_then; [exact Hfirst| |].
      * intros [a|] i Hx Hs; cbn [weighed] in Hs; [destruct (tells_res _ _ Hs)|]. destruct b eqn:Eb; [discriminate|]. injection Hs as ->.
        eapply md_mono; [|apply led_go]. intros o [E|(z & Hz & Ho)]; [left; exact E|]. right. exists (inr z). split; [split; [split; [exact Hx|reflexivity]|exact Hz]|exact Ho].
      * intros [a|] o Hx Hs Hn; cbn [weighed] in Hs.
        -- right. exists (inl a). split; [split; [eapply SkTrial; eassumption|intros e; eapply tried_good; [exact Hx|reflexivity]]|exact Hs].
        -- destruct b eqn:Eb; [|destruct (Hn _ Hs)]. right. exists (inl Skips). split; [split; [eapply SkIgnored; eassumption|discriminate]|exact Hs].
    + intros [a|z] i Hx Hs; [destruct (tells_res _ _ Hs)|]. destruct Hx as [Hx Hz].
      destruct z as [d r'|e| |]; cbn [moved] in Hs; [|destruct Hs; discriminate|discriminate|destruct Hs; discriminate]. injection Hs as ->.
      eapply md_mono; [|apply ends_go]. intros o [E|(a & Ha & Ho)]; [left; exact E|]. right. exists (inr a). split; [split; [exact Hx|eapply led_moves; eassumption]|exact Ho].
    + intros [a|z] o Hx Hs Hn; [right; exists (inl a); split; assumption|]. destruct Hx as [Hx Hz].
      destruct (halted_dec z) as [(d & r' & ->)|[a Ha]]; [destruct (Hn _ Hs)|]. right. exists (inr a). split; [split; [exact Hx|eapply led_halts; eassumption]|]. left. exact (halted_tells z a o Ha Hs).
  - intros [a|a] s Hx Hs.
    + destruct Hx as [Hx Hne]. pose proof (tells_success a s Hs Hne) as Hb. destruct s as [x|i|e i]; try discriminate Hb. eapply go_ret; [exact Hx|exact Hs].
    + destruct Hx as [[Hx Eb] Ha]. subst b.
      assert (Hsk : seek w R desc base r (reported base r a)) by (eapply SkSearch; eassumption).
      pose proof (reported_tells base r a _ Hs) as Ht. cbn [SpecRun.settled] in Ht. destruct s as [x|i|e i]; [eapply go_ret; [exact Hsk|exact Ht]|eapply go_fell; [exact Hsk|exact Ht]|eapply go_ret; [exact Hsk|exact Ht]].
  - intros [a|a] m Hx Hs; [right; exists a; split; [apply Hx|exact Hs]|]. destruct Hx as [[Hx Eb] Ha]. subst b. right. exists (reported base r a). split; [eapply SkSearch; eassumption|].
    exact (reported_tells base r a _ Hs).
  - intros _ _ _. left. reflexivity.
Qed.

(** ** tsconfig *)
Lemma config_go : forall f loc, go (sound (config w R desc loc) cf_tells) (parse_file_to_value R load f loc).
Proof.
  induction f as [|f IH]; intros loc; [apply md_nofuel; left; reflexivity|]. cbn [parse_file_to_value]. apply go_read.
  intros [s|] Er; [|eapply go_ret; [apply CfUnread, Er|reflexivity]].
  destruct (rv_jsonc R s) as [e| |j] eqn:Ej; [eapply go_ret; [eapply CfMalformed; eassumption|reflexivity]|eapply go_fell; [eapply CfVoid; eassumption|eexists; reflexivity]|].
  assert (Ha : (forall x, jget j (lit "extends") <> Some (JStr x)) -> go (sound (config w R desc loc) cf_tells) (Ret (Ok j))).
  { intros Hn. eapply go_ret; [eapply CfAlone; eassumption|reflexivity]. }
  destruct (jget j (lit "extends")) as [[| | |x| |]|] eqn:Ee; try (apply Ha; discriminate). clear Ha.
  destruct (parent loc) as [dir|] eqn:Ep; [|eapply go_fell; [eapply CfRootless; eassumption|eexists; reflexivity]].
  eapply go_sound; [apply (seek_go (S f) dir (parse x))| | |].
  - intros a st Ha Ht. destruct a as [q qu fr| |e|]; cbn [tells] in Ht; [| | |destruct Ht; discriminate].
    + injection Ht as ->. change (get_path (mkInfo q (mkReq [] qu fr Relative))) with q. unfold try_. eapply go_sound; [apply IH| | |].
      * intros [[b|e]|] y Hw Hwz; cbn [cf_tells] in Hwz; [| |destruct Hwz; discriminate]; injection Hwz as ->.
        -- eapply go_ret; [eapply CfExtends; eassumption|reflexivity].
        -- eapply go_ret; [eapply CfPassed; eassumption|reflexivity].
      * intros [y|] m Hw Hwz; cbn [cf_tells] in Hwz; [discriminate|]. right. exists None. split; [eapply CfBelow; eassumption|eexists; reflexivity].
      * intros _ _ _. left. reflexivity.
    + injection Ht as ->. eapply go_ret; [eapply CfSkipped; eassumption|reflexivity].
    + destruct Ht as [i Ht]. injection Ht as ->. eapply go_ret; [eapply CfMissing; eassumption|reflexivity].
  - intros a m Ha Ht. destruct a as [q qu fr| |e|]; cbn [tells] in Ht; [discriminate|discriminate|destruct Ht; discriminate|].
    right. exists None. split; [eapply CfCrashes; eassumption|eexists; reflexivity].
  - intros _ _ _. left. reflexivity.
Qed.
Lemma located_go : forall f star ps, go (sound (located w R desc (map (fun p => replace_char p c_star star) ps)) tells_all) (ts_paths_loop R load f star ps).
Proof.
  intros f star ps. induction ps as [|p ps IH]; cbn [ts_paths_loop map]; [eapply go_ret; [apply LcNone|reflexivity]|].
  eapply go_sound; [apply seek_go| | |].
  - intros a s Ha Hs. destruct (fails_dec a) as [[e ->]|Hd].
    + destruct Hs as [i Hs]. injection Hs as ->. cbn [is_success]. eapply go_imp; [|exact IH]. intros x Hx. eapply LcMiss; eassumption.
    + rewrite (tells_success a s Hs Hd). eapply go_ret; [apply LcHit; eassumption|exact Hs].
  - intros a m Ha Hs. assert (a = Crashes) as -> by (destruct a as [q qu fr| |e|]; cbn [tells] in Hs; [discriminate|discriminate|destruct Hs; discriminate|reflexivity]).
    right. exists (Some Crashes). split; [apply LcHit; [exact Ha|discriminate]|reflexivity].
  - intros _ _ _. left. reflexivity.
Qed.
Lemma located_some : forall l l' a, located w R desc l (Some a) -> located w R desc (l ++ l') (Some a).
Proof.
  intros l l' a. induction l as [|p l IH]; intros H; [inversion H|]. inversion H as [|? ? ? Hs Hn|? ? e ? Hs Ht]; subst; cbn [app]; [apply LcHit; assumption|eapply LcMiss; [exact Hs|apply IH, Ht]].
Qed.
Lemma located_none : forall l l' x, located w R desc l None -> located w R desc l' x -> located w R desc (l ++ l') x.
Proof.
  intros l l' x. induction l as [|p l IH]; intros H Hx; [exact Hx|]. inversion H as [|? ? ? Hs Hn|? ? e ? Hs Ht]; subst; cbn [app]. eapply LcMiss; [exact Hs|apply IH; assumption].
Qed.
(** What the locations come to, and the request if they come to nothing. *)
Definition weighs (base : path) (r : request) (l : list (str * list path)) (a : fate) : Prop :=
  exists locs torn, ts_tries (r_target r) l locs torn /\
    (located w R desc locs (Some a) \/ located w R desc locs None /\ (if torn then a = Crashes else seek w R desc base r a)).
Lemma entries_go : forall f base r l, go (sound (weighs base r l) tells) (ts_entries_loop R load f (mkInfo base r) l).
Proof.
  intros f base r l. induction l as [|[pat ps] l IH]; cbn [ts_entries_loop i_req].
  { eapply go_imp; [|apply seek_go]. intros a Ha. exists [], false. split; [apply TtNil|right; split; [apply LcNone|exact Ha]]. }
  assert (Hin : forall star, (forall locs torn, ts_tries (r_target r) l locs torn -> ts_tries (r_target r) ((pat, ps) :: l) (map (fun p => replace_char p c_star star) ps ++ locs) torn) ->
    go (sound (weighs base r ((pat, ps) :: l)) tells) (x <- ts_paths_loop R load f star ps ;; match x with Some s => Ret s | None => ts_entries_loop R load f (mkInfo base r) l end)).
  { intros star Hst. eapply go_sound; [apply located_go| | |].
    - intros [a|] [s|] Hx Hs; cbn [tells_all] in Hs; [|destruct Hs|discriminate Hs|].
      + destruct (tries_total (r_target r) l) as (locs & torn & Hl). eapply go_ret; [|exact Hs]. do 2 eexists. split; [apply Hst, Hl|left; apply located_some, Hx].
      + eapply go_imp; [|exact IH]. intros a (locs & torn & Hl & Ha). do 2 eexists. split; [apply Hst, Hl|].
        destruct Ha as [Ha|[Ha Hb]]; [left|right; split; [|exact Hb]]; apply located_none; assumption.
    - intros [a|] m Hx Hs; cbn [tells_all] in Hs; [subst a|discriminate]. destruct (tries_total (r_target r) l) as (locs & torn & Hl).
      right. exists Crashes. split; [|exists m; reflexivity]. do 2 eexists. split; [apply Hst, Hl|left; apply located_some, Hx].
    - intros _ _ _. left. reflexivity. }
  assert (Hf : forall star, Forall2 (filled star) ps (map (fun p => replace_char p c_star star) ps)).
  { intros star. clear. induction ps; constructor; [apply filled_replace|assumption]. }
  destruct (str_eqb_spec pat (r_target r)) as [->|Hne]; cbn [bind].
  { apply Hin. intros locs torn Hl. apply TtSame; [apply Hf|exact Hl]. }
  destruct (star_cases pat (r_target r)) as [(m & Hm & Em)|[(Em & H1 & H2)|[Ht Em]]]; rewrite Em; cbn [lift bind].
  - apply Hin. intros locs torn Hl. eapply TtStar; [exact Hne|exact Hm|apply Hf|exact Hl].
  - eapply go_imp; [|exact IH]. intros a (locs & torn & Hl & Ha). exists locs, torn. split; [apply TtSkip; assumption|exact Ha].
  - apply (go_fell _ _ _ Crashes); [|eexists; reflexivity]. exists [], true. split; [apply TtTorn; assumption|right; split; [apply LcNone|reflexivity]].
Qed.
Hypothesis Hval : values_nodup R.
Lemma tsconfig_go : forall f base r loc, o_tsconfig opts = Some loc -> go (sound (arrives w R desc order base r) tells) (resolve_with_tsconfig R load f (mkInfo base r) loc).
Proof.
  intros f base r loc Et. unfold resolve_with_tsconfig. eapply go_sound; [apply config_go| | |].
  2:{ intros [y|] m Hx Hs; cbn [cf_tells] in Hs; [discriminate|]. right. exists Crashes. split; [eapply CtCrashes; eassumption|exists m; reflexivity]. }
  2:{ intros _ _ _. left. reflexivity. }
  intros [[j|e]|] y Hx Hs; cbn [cf_tells] in Hs; [| |destruct Hs; discriminate]; injection Hs as ->.
  2:{ eapply go_ret; [eapply CtBroken; eassumption|]. eexists. reflexivity. }
  assert (Hn : json_nodup j) by (eapply (config_nodup R); [apply Hval; congruence|exact Hx|reflexivity]).
  destruct (ts_of_json j) as [ti|m|] eqn:Ej; cbn [lift bind]; [| |destruct (ts_ends j Ej)].
  2:{ eapply go_fell; [eapply CtMalformed; [exact Et|exact Hx| |]|exists m; reflexivity].
      - intros b l Hl. rewrite (ts_of_json_sets _ _ _ Hl) in Ej. discriminate.
      - intros Hm. destruct (no_mapping_ts j Hm) as (t & E & _). congruence. }
  unfold create_match_list. destruct (parent loc) as [dir|] eqn:Ep; cbn [bind].
  2:{ eapply go_fell; [eapply CtRootless; eassumption|]. eexists. reflexivity. }
  assert (Hgo : forall l, (forall locs torn, ts_tries (r_target r) l locs torn -> mapped order loc j (r_target r) locs torn) ->
    go (sound (arrives w R desc order base r) tells) (ts_entries_loop R load f (mkInfo base r) l)).
  { intros l Hl. eapply go_imp; [|apply entries_go]. intros a (locs & torn & Ht & [Ha|[Ha Hb]]); [eapply CtMapped; eauto|].
    destruct torn; [subst a; eapply CtTorn; eauto|eapply CtRest; eauto]. }
  assert (Hno : no_mapping j -> go (sound (arrives w R desc order base r) tells) (ts_entries_loop R load f (mkInfo base r) [])).
  { intros Hm. apply Hgo. intros locs torn Ht. inversion Ht; subst. eapply MpNone; eassumption. }
  destruct (ts_cases j ti Hn Ej) as [(b & m & Hm)|[Hm Hb]].
  - pose proof (ts_of_json_sets _ _ _ Hm) as E. rewrite Ej in E. injection E as ->. cbn [ts_base ts_paths act bind].
    apply md_act; [exact I|]. intros x Hxo. cbn [bind]. apply Hgo. intros locs torn Ht. eapply MpSets; [exact Ep|exact Hm|apply Hord, Hxo|exact Ht].
  - destruct (ts_base ti) as [b|]; [|apply Hno, Hm]. destruct Hb as [Hb|Hb]; [discriminate|]. rewrite Hb. apply Hno, Hm.
Qed.
Lemma full_go : forall f base req, go (sound (arrives w R desc order base (parse req)) (ended w R)) (resolve_with R load f base req).
Proof.
  intros f base req. unfold resolve_with.
  assert (H : go (sound (arrives w R desc order base (parse req)) tells)
    (match o_tsconfig opts with Some location => resolve_with_tsconfig R load f (mkInfo base (parse req)) location | None => resolve_ R load f (mkInfo base (parse req)) end)).
  { destruct (o_tsconfig opts) as [loc|] eqn:Et; [apply tsconfig_go, Et|]. eapply go_imp; [|apply seek_go]. intros a Ha. apply CtPlain; assumption. }
  eapply go_sound; [exact H| | |].
  - intros a s Ha Ht. eapply md_mono with (Q := ended w R a); [intros o Ho; right; exists a; split; assumption|].
    destruct a as [q qu fr| |e|]; cbn [tells] in Ht; [| | |destruct Ht; discriminate].
    + injection Ht as ->. unfold normalize_result. cbn [i_req r_target str_eqb negb]. rewrite andb_false_r. unfold normalize_path, try_. cbn [i_path].
      destruct (o_symlinks opts) eqn:Es; [|apply md_done; eexists; split; [apply RtPlain, Es|reflexivity]].
      apply go_canon. intros [p|] Hp; apply md_done; eexists; (split; [constructor; eassumption|reflexivity]).
    + injection Ht as ->. apply md_done. eexists. split; [apply RtSkips|reflexivity].
    + destruct Ht as [i Ht]. injection Ht as ->. apply md_done. eexists. split; [apply RtFails|reflexivity].
  - intros a m Ha Ht. right. exists a. split; [exact Ha|]. destruct a as [q qu fr| |e|]; cbn [tells] in Ht; [discriminate|discriminate|destruct Ht; discriminate|].
    eexists. split; [apply RtCrashes|]. exists m. reflexivity.
  - intros _ _ _. left. reflexivity.
Qed.
End Sound.

(** ** Without tables *)
Definition evm (fs : fsys) : modality.
Proof.
  refine (mkModality (fun o x => x = fs_ans fs o) (fun A Q p => Q (ev_fs fs p)) false _ _ _ _ _ _ _); cbn [ev_fs]; auto.
  - intros A B p f Q H. rewrite ev_bind. destruct (ev_fs fs p); exact H.
Defined.
Lemma full_sound : forall fs R, values_nodup R -> forall f base req, sound (comes_to fs R base (parse req)) (final fs R) (ev_fs fs (resolve_with R (L fs R) f base req)).
Proof.
  intros fs R Hv f base req.
  assert (H : sound (comes_to fs R base (parse req)) (ended (standing fs) R) (ev_fs fs (resolve_with R (L fs R) f base req))).
  2:{ destruct H as [H|(a & Ha & y & Hy & H)]; [left; exact H|right; exists a; split; [exact Ha|]]. apply given_returned in Hy. subst y. exact H. }
  apply (full_go (standing fs) R (evm fs) (L fs R) (fresh fs R) eq).
  - apply plain_answered. repeat (split; [intros p x Hx; exact Hx|]). intros p x Hx; exact Hx.
  - intros p. cbn [evm md_go]. unfold L, loaded, fresh, has_desc, bad_desc, fallen_desc. destruct (lookup_desc fs (rv_json R) (o_desc (rv_opts R)) p) as [[opk|e]|m|]; cbn; eauto.
  - intros x m ->. symmetry. apply permute_none.
  - exact Hv.
Qed.

(** ** With tables: descriptions under other spellings, in other orders *)
Lemma pkgeq_read : forall o o', okeq o o' -> read_as o o'.
Proof.
  intros [pk|] [pk'|] H; cbn [okeq] in H; try contradiction; [|constructor]. destruct H as (H1 & H2 & H3 & H4 & H5 & H6 & H7 & H8).
  destruct pk' as [d n v l e i s j]. cbn in *. subst. apply RaSome; assumption.
Qed.
Lemma allowed_by : forall w M, answered w M -> forall (desc : resolver -> path -> reading -> Prop) c, keyed c ->
  (forall p, md_go M _ (loaded (desc (call_resolver c)) p) (load_pkg_file (call_resolver c) (call_fuel c) p)) ->
  (o_desc (rv_opts (call_resolver c)) = None -> forall p pk, ~ desc (call_resolver c) p (Has (Some pk))) ->
  md_go M _ (allowed desc w c) (call_prog c).
Proof.
  intros w M HM desc [R f base req|R f p] Hk Hl Hn; cbn [keyed call_resolver call_fuel call_prog allowed] in *.
  - apply md_bind. eapply md_mono; [|apply (full_go w R M (load_pkg_file R f) (desc R) (@Permutation _) HM Hl (fun x m _ => Permutation_sym (permute_perm m x)) Hk f base req)].
    intros o [->|(a & Ha & y & Hy & Hf)]; [left; reflexivity|].
    assert (Hg : match o with Done x => allowed desc w (CResolve R f base req) (Done (AResolve x)) | Panicked m => allowed desc w (CResolve R f base req) (Panicked m) | NoFuel => True end).
    { destruct o as [x|m|]; [right|right|exact I]; exists a; (split; [exact Ha|]); exists y; (split; [exact Hy|]); destruct y as [y|]; try discriminate; [congruence|destruct Hf; discriminate|eauto]. }
    destruct o as [x|m|]; [apply md_done; exact Hg|exact Hg|left; reflexivity].
  - apply md_bind. unfold load_side_effects, try_. apply md_bind. eapply md_mono; [|apply (Hl p)].
    intros [[[pk|]|e]|m|] H; cbn [loaded] in H.
    + destruct (o_desc (rv_opts R)) as [name|] eqn:En.
      * do 2 apply md_done. apply SaSome; assumption.
      * exfalso. exact (Hn eq_refl _ _ H).
    + do 2 apply md_done. apply SaNone, H.
    + do 2 apply md_done. apply SaBroken, H.
    + apply SaFallen, H.
    + apply SaBound.
Qed.
Section Tables.
Variables (fs : fsys) (M : modality).
Hypothesis HM : plain_answers fs M.
Lemma loaded_right : forall R f, load_right fs (rv_json R) M R f -> forall p, md_go M _ (loaded (some_desc fs R) p) (load_pkg_file R f p).
Proof.
  intros R f H p. eapply md_mono; [|apply H]. unfold loaded, some_desc, has_desc, bad_desc, fallen_desc.
  intros [[opk|e]|m|]; cbn [orel]; [| | |exact (fun x => I)]; intros (a & Ha & Hr); destruct (lookup_desc fs (rv_json R) (o_desc (rv_opts R)) p) as [[opk'|e']|m'|]; cbn [oc] in Ha; try discriminate; injection Ha as <-; cbn [leq] in Hr.
  - exists opk'. split; [reflexivity|apply pkgeq_read, Hr].
  - destruct Hr.
  - destruct Hr.
  - subst e'. reflexivity.
  - exists m'. reflexivity.
Qed.
Lemma allowed_go : forall c, keyed c -> load_right fs (rv_json (call_resolver c)) M (call_resolver c) (call_fuel c) -> md_go M _ (as_allowed fs c) (call_prog c).
Proof.
  intros c Hk Hl. apply (allowed_by (standing fs)); [apply plain_answered, HM|exact Hk|apply loaded_right, Hl|]. intros En p pk (o & Ho & Hr). unfold has_desc, lookup_desc in Ho. rewrite En in Ho.
  injection Ho as <-. inversion Hr.
Qed.
End Tables.
