(** * The search of the crate, with a table-free description loader, is the reference search. *)
From Coq Require Import String.
From Coq Require Import List Arith NArith Bool Lia.
From Verif Require Import Str StrP Path PathP Json Types Parse ParseP Map FieldP Prog Desc Resolve Top Run Exec ExecP ApiP Posix FuelP RunP SpecRun SpecMap SpecParse SpecExports SpecLoad SpecCache SpecNode TsP LookupP LookupTopP CheckP PropMapP PosixP SpellP SimP LoadP CacheP ExportsP.
Import ListNotations.

Section Node.
Variables (fs : fsys) (R : resolver).
Hypothesis Hb : o_browser (rv_opts R) = false.
Notation opts := (rv_opts R).
Definition L (p : path) : prog (result (option pkg)) := lift (lookup_desc fs (rv_json R) (o_desc (rv_opts R)) p).
Notation ev := (ev_fs fs).

Lemma ev_ok : forall p o, has_desc fs R p o -> L p = Ret (Ok o).
Proof. intros p o H. unfold L. rewrite H. reflexivity. Qed.
Lemma ev_bad : forall p e, bad_desc fs R p e -> L p = Ret (Err e).
Proof. intros p e H. unfold L. rewrite H. reflexivity. Qed.
Lemma ev_load_inv : forall p x, ev (L p) = Done x -> lookup_desc fs (rv_json R) (o_desc opts) p = PRet x.
Proof. intros p x. unfold L. destruct (lookup_desc _ _ _ _); cbn; intros H; inversion H; reflexivity. Qed.
Lemma ev_and_then : forall p f, ev (and_then p f) = match ev p with Done (Resolving i) => ev (f i) | o => o end.
Proof. intros p f. unfold and_then. rewrite ev_bind. destruct (ev p) as [[| |]| |]; reflexivity. Qed.

(** ** Files *)
Lemma extensions_ev : forall p i exts, ev (extensions_loop p i exts) =
  Done (match pick fs (map (fun e => p ++ e) exts) with Some q => picked i q | None => Resolving i end).
Proof.
  intros p i exts. induction exts as [|e r IH]; [reflexivity|]. cbn [extensions_loop act bind ev_fs fs_ans map pick find].
  unfold append_ext. destruct (f_file fs (p ++ e)); [reflexivity|]. exact IH.
Qed.
Lemma as_file_ev : forall i, ev (resolve_as_file R i) =
  Done (match pick fs (file_candidates opts (get_path i)) with Some q => picked i q | None => Resolving i end).
Proof.
  intros i. unfold resolve_as_file, extensions_apply, file_candidates. rewrite enforce_spec.
  destruct (o_enforce opts) as [[]|]; cbn [negb]; [apply extensions_ev| |];
    cbn [act bind ev_fs fs_ans app pick find]; (destruct (f_file fs (get_path i)); [reflexivity|]; apply extensions_ev).
Qed.
Lemma main_file_ev : forall fu opk i files mi, ev (main_file_loop R L (S fu) opk i files mi) =
  Done (match pick fs (main_file_paths R (i_path mi) files) with Some q => picked mi q | None => Resolving i end).
Proof.
  intros fu opk i files. induction files as [|f r IH]; intros mi; [reflexivity|].
  cbn [main_file_loop main_file_paths flat_map]. fold (main_file_paths R (i_path mi) r).
  assert (E : and_then (and_then (and_then (exports_apply R opk (with_target mi (lit "./" ++ f)))
    (imports_apply R L (S fu) opk)) (alias_field_apply R (S fu) opk)) (resolve_as_file R) = resolve_as_file R (with_target mi (lit "./" ++ f))).
  { assert (E1 : exports_apply R opk (with_target mi (lit "./" ++ f)) = Ret (Resolving (with_target mi (lit "./" ++ f)))).
    { destruct opk; [|reflexivity]. unfold exports_apply, with_target, req_with_target. cbn [i_req r_kind]. rewrite kind_dot. reflexivity. }
    rewrite E1. cbn [and_then bind]. rewrite imports_not_hash by reflexivity. cbn [and_then bind].
    rewrite alias_field_off by exact Hb. reflexivity. }
  rewrite E, ev_bind, as_file_ev, pick_app.
  change (get_path (with_target mi (lit "./" ++ f))) with (join (i_path mi) (lit "./" ++ f)).
  destruct (pick fs (file_candidates opts (join (i_path mi) (lit "./" ++ f)))) as [q|] eqn:Ep; [reflexivity|].
  cbn [is_success extract_info bind]. rewrite IH. reflexivity.
Qed.

(** ** Main fields *)
Fixpoint tries (n : nat) (i : info) (ms : list str) (mi : info) : outcome stats :=
  match ms with
  | [] => Done (Resolving i)
  | m :: r =>
      match pick fs (file_candidates opts (join (i_path mi) m)) with
      | Some q => Done (picked mi q)
      | None =>
          match ev (resolve_as_dir R L n (with_target mi m)) with
          | Done (Success x) => Done (Success x)
          | Done (Resolving j) => tries n i r j
          | Done (SError _ j) => tries n i r j
          | Panicked x => Panicked x
          | NoFuel => NoFuel
          end
      end
  end.
Lemma tries_wt : forall n i ms mi t, tries n i ms (with_target mi t) = tries n i ms mi.
Proof. intros n i [|m r] mi t; reflexivity. Qed.
Lemma dotted_path : forall mi x, get_path (with_target mi (lit "./" ++ x)) = join (i_path mi) (lit "./" ++ x).
Proof. intros mi x. apply get_path_dot. Qed.
Lemma main_field_ev : forall n fu pk i fields ms, main_plan (p_raw pk) fields ms -> forall mi,
  ev (main_field_loop R (resolve_as_dir R L n) fu pk i fields mi) = tries n i ms mi.
Proof.
  intros n fu pk i fields ms H. induction H as [|f l ms Hn H IH|f l m Hm Hd|f l m ms Hm H1 H2 H IH]; intros mi; cbn [main_field_loop tries].
  - reflexivity.
  - apply opt_str_none in Hn. rewrite Hn. apply IH.
  - apply opt_str_some in Hm. rewrite Hm. destruct Hd as [-> | ->]; reflexivity.
  - apply opt_str_some in Hm. rewrite Hm.
    assert (E : str_eqb m s_dot || str_eqb m (lit "./") = false) by (apply orb_false_iff; split; apply str_eqb_neq; assumption).
    rewrite E. clear E.
    assert (Em : (if starts_with m (lit "./") then with_target mi m else with_target mi (lit "./" ++ m)) = with_target mi (dotted m)).
    { unfold dotted. destruct (starts_with m (lit "./")); reflexivity. }
    rewrite Em, alias_field_off by exact Hb. change (and_then (Ret (Resolving (with_target mi (dotted m)))) (resolve_as_file R)) with (resolve_as_file R (with_target mi (dotted m))).
    assert (Hgp : get_path (with_target mi (dotted m)) = join (i_path mi) (dotted m)).
    { destruct (dotted_rel m) as [x ->]. apply get_path_dot. }
    rewrite ev_bind, ev_and_then, as_file_ev, Hgp.
    destruct (pick fs (file_candidates opts (join (i_path mi) (dotted m)))) as [q|]; [reflexivity|].
    destruct (ev (resolve_as_dir R L n (with_target mi (dotted m)))) as [[x|j|e j]|x|]; try reflexivity; cbn [is_success extract_info bind]; apply IH.
Qed.
Lemma mains_dotted : forall dir ms, mains fs R dir ms -> Forall (fun m => exists x, m = lit "./" ++ x) ms.
Proof.
  intros dir ms H. destruct H as [pk ms _ _ H| |]; [|constructor|constructor].
  induction H; auto. constructor; [apply dotted_rel|assumption].
Qed.
Lemma mains_total : forall dir opk, has_desc fs R dir opk -> exists ms, mains fs R dir ms.
Proof.
  intros dir [pk|] H; [|exists []; apply MnNone, H]. destruct (path_eqb dir (p_dir pk)) eqn:E.
  - apply path_eqb_eq in E. destruct (main_plan_total (p_raw pk) (o_main_fields opts)) as [ms Hm]. exists ms. eapply MnOwn; eassumption.
  - exists []. eapply MnOther; [exact H|]. intros Hs. apply path_eqb_eq in Hs. congruence.
Qed.
Lemma mains_fun : forall dir ms ms', mains fs R dir ms -> mains fs R dir ms' -> ms = ms'.
Proof.
  assert (Hf : forall j l ms, main_plan j l ms -> forall ms', main_plan j l ms' -> ms = ms').
  { intros j l ms H. induction H; intros ms' H'; inversion H'; subst; try reflexivity; auto;
      try (exfalso; match goal with A : forall s, jget _ _ <> _, B : jget _ _ = Some _ |- _ => exact (A _ B) end);
      match goal with A : jget j ?f = Some (JStr ?a), B : jget j ?f = Some (JStr ?b) |- _ => assert (a = b) by congruence; subst end.
    - match goal with A : _ \/ _ |- _ => destruct A; congruence end.
    - match goal with A : _ \/ _ |- _ => destruct A; congruence end.
    - f_equal. auto. }
  unfold has_desc in *. intros dir ms ms' H H'.
  inversion H; inversion H'; subst; unfold has_desc in *; try congruence; try reflexivity;
    match goal with A : lookup_desc _ _ _ _ = PRet (Ok (Some ?a)), B : lookup_desc _ _ _ _ = PRet (Ok (Some ?b)) |- _ => assert (a = b) by congruence; subst end;
    try contradiction; try reflexivity. eapply Hf; eassumption.
Qed.

(** ** Directories *)
Lemma as_dir_absent_ev : forall n i, f_dir fs (get_path i) = false -> ev (resolve_as_dir R L (S n) i) = Done (SError TAG i).
Proof. intros n i H. cbn [resolve_as_dir act bind ev_fs fs_ans]. rewrite H. reflexivity. Qed.
Lemma as_dir_bad_ev : forall n i e, f_dir fs (get_path i) = true -> bad_desc fs R (get_path i) e -> ev (resolve_as_dir R L (S n) i) = Done (SError e i).
Proof. intros n i e H H1. cbn [resolve_as_dir act bind ev_fs fs_ans]. rewrite H. cbn [negb]. rewrite (ev_bad _ _ H1). reflexivity. Qed.
Lemma as_dir_ev : forall n i ms, f_dir fs (get_path i) = true -> mains fs R (get_path i) ms ->
  ev (resolve_as_dir R L (S n) i) = match tries n (dir_info i) ms (dir_info i) with Done (Resolving j) => Done (main_file_result R fs j) | o => o end.
Proof.
  intros n i ms Hd Hm.
  assert (E : forall opk j, ev (main_file_apply R L (S n) opk j) = Done (main_file_result R fs j)).
  { intros opk j. unfold main_file_apply. rewrite info_eta. apply main_file_ev. }
  cbn [resolve_as_dir act bind ev_fs fs_ans]. rewrite Hd. cbn [negb].
  change (with_target (with_path i (get_path i)) []) with (dir_info i).
  destruct Hm as [pk ms H1 H2 H3|pk H1 H2|H1]; rewrite (ev_ok _ _ H1); cbn [bind]; rewrite ev_and_then; cbn [main_field_apply].
  - change (i_path (dir_info i)) with (get_path i).
    replace (path_eqb (get_path i) (p_dir pk)) with true by (symmetry; apply path_eqb_eq; exact H2). cbn [negb].
    change (mkInfo (get_path i) (i_req (dir_info i))) with (dir_info i). rewrite (main_field_ev n (S n) pk (dir_info i) _ _ H3).
    destruct (tries _ _ _ _) as [[| |]| |]; try reflexivity. apply E.
  - change (i_path (dir_info i)) with (get_path i).
    replace (path_eqb (get_path i) (p_dir pk)) with false; [cbn [negb ev_fs tries]; apply E|].
    symmetry. destruct (path_eqb (get_path i) (p_dir pk)) eqn:E1; [|reflexivity]. apply path_eqb_eq in E1. contradiction.
  - cbn [ev_fs tries]. apply E.
Qed.
Lemma tries_miss : forall n i x r mi, misses fs R (join (i_path mi) (lit "./" ++ x)) ->
  tries (S n) i ((lit "./" ++ x) :: r) mi = tries (S n) i r mi.
Proof.
  intros n i x r mi [H1 H2]. cbn [tries]. unfold no_file_at in H1. apply pick_none in H1. rewrite H1.
  rewrite <- (tries_wt (S n) i r mi (lit "./" ++ x)). destruct (f_dir fs (join (i_path mi) (lit "./" ++ x))) eqn:Ed.
  - destruct H2 as [H2|[e H2]]; [discriminate|]. rewrite (as_dir_bad_ev n _ e); [reflexivity|exact Ed|exact H2].
  - rewrite as_dir_absent_ev; [reflexivity|exact Ed].
Qed.
Lemma tries_misses : forall n i ms1 r mi, Forall (fun m => exists x, m = lit "./" ++ x) ms1 ->
  Forall (fun x => misses fs R (join (i_path mi) x)) ms1 -> tries (S n) i (ms1 ++ r) mi = tries (S n) i r mi.
Proof.
  intros n i ms1 r mi Hd H. induction H as [|m ms1 Hm _ IH]; [reflexivity|].
  inversion Hd as [|? ? [x Ex] Hd']; subst. cbn [app]. rewrite tries_miss by exact Hm. apply IH, Hd'.
Qed.
Lemma tries_sound : forall n i0 i dir ms2,
  (forall j s, f_dir fs (get_path j) = true -> ev (resolve_as_dir R L n j) = Done s ->
     (exists e, bad_desc fs R (get_path j) e /\ s = SError e j) \/ (exists q, main_of fs R (get_path j) q /\ s = picked j q) \/ no_main fs R (get_path j)) ->
  forall ms1, mains fs R dir (ms1 ++ ms2) -> Forall (fun x => misses fs R (join dir x)) ms1 -> i_path i = dir ->
  forall s, tries n i0 ms2 i = Done s ->
  (exists q, main_of fs R dir q /\ s = picked i q) \/ no_main fs R dir \/
  (s = Resolving i0 /\ Forall (fun x => misses fs R (join dir x)) (ms1 ++ ms2)).
Proof.
  intros n i0 i dir ms2 IHn. revert i. induction ms2 as [|m ms2 IH]; intros i ms1 Hm Hmiss Hi s H; cbn [tries] in H.
  - right. right. inversion H; subst s. rewrite app_nil_r. auto.
  - assert (Hdot : exists x, m = lit "./" ++ x).
    { pose proof (mains_dotted _ _ Hm) as Hd. apply Forall_app in Hd. destruct Hd as [_ Hd]. inversion Hd. assumption. }
    destruct Hdot as [x Ex]. rewrite Hi in H.
    destruct (pick fs (file_candidates opts (join dir m))) as [q|] eqn:Ep.
    + left. exists q. apply pick_some in Ep. split; [|inversion H; reflexivity]. eapply MoFile; eassumption.
    + apply pick_none in Ep.
      assert (Hg : get_path (with_target i m) = join dir m) by (subst m dir; apply dotted_path).
      assert (Hgo : misses fs R (join dir m) -> tries n i0 ms2 (with_target i m) = Done s ->
        (exists q, main_of fs R dir q /\ s = picked i q) \/ no_main fs R dir \/ (s = Resolving i0 /\ Forall (fun x => misses fs R (join dir x)) (ms1 ++ m :: ms2))).
      { intros Hx Ht. specialize (IH (with_target i m) (ms1 ++ [m])). rewrite <- !app_assoc in IH. cbn [app] in IH.
        destruct (IH Hm) with (s := s) as [(q & Hq & Es)|[Hn|Hr]]; auto.
        - apply Forall_app. auto.
        - left. exists q. auto. }
      destruct (f_dir fs (join dir m)) eqn:Ed.
      * pose proof (IHn (with_target i m)) as IHm. rewrite Hg in IHm.
        destruct (ev (resolve_as_dir R L n (with_target i m))) as [s1|?|]; try discriminate.
        destruct (IHm s1 Ed eq_refl) as [(e & He & ->)|[(q & Hq & ->)|Hn]].
        -- apply Hgo; [|exact H]. split; [exact Ep|]. right. eauto.
        -- left. exists q. split; [|inversion H; reflexivity]. eapply MoDir; eassumption.
        -- right. left. eapply NmDir; eassumption.
      * destruct n as [|n]; [cbn [resolve_as_dir ev_fs] in H; discriminate|].
        rewrite as_dir_absent_ev in H by (rewrite Hg; exact Ed). apply Hgo; [|exact H]. split; [exact Ep|left; exact Ed].
Qed.
Lemma as_dir_sound : forall n i s, f_dir fs (get_path i) = true -> ev (resolve_as_dir R L n i) = Done s ->
  (exists e, bad_desc fs R (get_path i) e /\ s = SError e i) \/ (exists q, main_of fs R (get_path i) q /\ s = picked i q) \/ no_main fs R (get_path i).
Proof.
  induction n as [|n IH]; intros i s Hd H; [discriminate|].
  destruct (lookup_desc fs (rv_json R) (o_desc opts) (get_path i)) as [[opk|e]|m|] eqn:El.
  - destruct (mains_total _ _ El) as [ms Hm]. rewrite (as_dir_ev n i ms Hd Hm) in H.
    destruct (tries n (dir_info i) ms (dir_info i)) as [s1|?|] eqn:Et; try discriminate.
    destruct (tries_sound n (dir_info i) (dir_info i) (get_path i) ms IH [] Hm (Forall_nil _) eq_refl s1 Et) as [(q & Hq & ->)|[Hn|[-> Hms]]].
    + right. left. exists q. inversion H. auto.
    + right. right. exact Hn.
    + cbn [app] in Hms. right. inversion H as [Hs]. unfold main_file_result in *. change (i_path (dir_info i)) with (get_path i) in *.
      destruct (pick fs (main_file_paths R (get_path i) (o_main_files opts))) as [q|] eqn:Ep.
      * left. exists q. split; [|reflexivity]. apply pick_some in Ep. eapply MoIndex; eassumption.
      * right. apply pick_none in Ep. eapply NmIndex; eassumption.
  - left. exists e. rewrite (as_dir_bad_ev n i e Hd El) in H. inversion H. auto.
  - exfalso. cbn [resolve_as_dir act bind ev_fs fs_ans] in H. rewrite Hd in H. cbn [negb] in H. unfold L in H. rewrite El in H. discriminate.
  - exfalso. cbn [resolve_as_dir act bind ev_fs fs_ans] in H. rewrite Hd in H. cbn [negb] in H. unfold L in H. rewrite El in H. discriminate.
Qed.
Lemma as_dir_complete : forall dir q, main_of fs R dir q -> f_dir fs dir = true -> exists N, forall n, N <= n -> forall i, get_path i = dir ->
  ev (resolve_as_dir R L n i) = Done (picked i q).
Proof.
  intros dir q H. induction H as [dir ms1 m ms2 q Hm H1 Hq|dir ms1 m ms2 q Hm H1 Hnf Hd1 Hq IH|dir ms q Hm H1 Hq]; intros Hd.
  - exists 2. intros [|[|n]] Hn i Hi; try lia. subst dir. rewrite (as_dir_ev (S n) i _ Hd Hm).
    pose proof (mains_dotted _ _ Hm) as Hdd. apply Forall_app in Hdd. destruct Hdd as [Hd1 Hd2].
    rewrite tries_misses; [|exact Hd1|exact H1]. cbn [tries]. change (i_path (dir_info i)) with (get_path i).
    apply pick_some in Hq. rewrite Hq. reflexivity.
  - destruct (IH Hd1) as [N HN]. exists (S (S N)). intros [|[|n]] Hn i Hi; try lia. subst dir. rewrite (as_dir_ev (S n) i _ Hd Hm).
    pose proof (mains_dotted _ _ Hm) as Hdd. apply Forall_app in Hdd. destruct Hdd as [Hdd1 Hd2].
    rewrite tries_misses; [|exact Hdd1|exact H1]. cbn [tries]. change (i_path (dir_info i)) with (get_path i).
    apply pick_none in Hnf. rewrite Hnf. inversion Hd2 as [|? ? [x Ex] _]; subst m.
    rewrite (HN (S n) ltac:(lia) (with_target (dir_info i) (lit "./" ++ x))); [reflexivity|apply dotted_path].
  - exists 2. intros [|[|n]] Hn i Hi; try lia. subst dir. rewrite (as_dir_ev (S n) i _ Hd Hm).
    rewrite <- (app_nil_r ms). rewrite tries_misses; [|eapply mains_dotted; exact Hm|exact H1]. cbn [tries].
    unfold main_file_result. change (i_path (dir_info i)) with (get_path i). apply pick_some in Hq. rewrite Hq. reflexivity.
Qed.
Lemma at_path_sound : forall n i s, ev (and_then (resolve_as_file R i) (resolve_as_dir R L n)) = Done s ->
  (exists q, names fs R (get_path i) q /\ s = picked i q) \/ (nothing_at fs R (get_path i) /\ s = SError TAG i) \/
  (exists e, no_file_at fs R (get_path i) /\ f_dir fs (get_path i) = true /\ bad_desc fs R (get_path i) e /\ s = SError e i) \/ hollow fs R (get_path i).
Proof.
  intros n i s H. rewrite ev_and_then, as_file_ev in H. destruct (pick _ _) as [q|] eqn:Ep.
  - left. exists q. inversion H. split; [apply NFile, pick_some, Ep|reflexivity].
  - apply pick_none in Ep. destruct (f_dir fs (get_path i)) eqn:Ed.
    + destruct (as_dir_sound n i s Ed H) as [(e & He & ->)|[(q & Hq & ->)|Hn]].
      * right. right. left. exists e. auto.
      * left. exists q. split; [apply NDir; assumption|reflexivity].
      * right. right. right. repeat split; assumption.
    + destruct n as [|n]; [discriminate|]. rewrite as_dir_absent_ev in H by exact Ed. inversion H. right. left. repeat split; assumption.
Qed.
Lemma at_path_complete : forall p q, names fs R p q -> exists N, forall n, N <= n -> forall i, get_path i = p ->
  ev (and_then (resolve_as_file R i) (resolve_as_dir R L n)) = Done (picked i q).
Proof.
  intros p q [p' q' H|p' q' H1 H2 H3].
  - exists 0. intros n _ i <-. rewrite ev_and_then, as_file_ev. apply pick_some in H. rewrite H. reflexivity.
  - destruct (as_dir_complete _ _ H3 H2) as [N HN]. exists N. intros n Hn i Hi. rewrite ev_and_then, as_file_ev, Hi.
    apply pick_none in H1. rewrite H1. apply HN; assumption.
Qed.
Lemma at_path_nothing : forall n i, nothing_at fs R (get_path i) -> ev (and_then (resolve_as_file R i) (resolve_as_dir R L (S n))) = Done (SError TAG i).
Proof. intros n i [H1 H2]. rewrite ev_and_then, as_file_ev. apply pick_none in H1. rewrite H1. apply as_dir_absent_ev, H2. Qed.

(** ** Names *)
Lemma normal_target : forall t, get_target_kind t = Normal -> t <> [] /\ t <> s_dot /\ starts_with_char t c_hash = false.
Proof.
  intros t H. split; [|split].
  - intros ->. discriminate.
  - intros ->. discriminate.
  - destruct t as [|c t]; [discriminate|]. unfold get_target_kind in H. destruct (starts_with_char (c :: t) c_hash); [discriminate|reflexivity].
Qed.
Lemma normal_path : forall d r, r_kind r = get_target_kind (r_target r) -> r_kind r = Normal -> get_path (mkInfo d r) = join d (r_target r).
Proof.
  intros d r H Hk. rewrite Hk in H. symmetry in H. apply normal_target in H. destruct H as (H1 & H2 & _). unfold get_path. cbn [i_req i_path].
  apply str_eqb_neq in H1. apply str_eqb_neq in H2. rewrite H1, H2. reflexivity.
Qed.
Lemma cut_slash : forall t, (~ In c_slash t) \/ exists a b, t = a ++ c_slash :: b /\ ~ In c_slash a.
Proof.
  induction t as [|c t IH]; [left; intros []|]. destruct (N.eqb_spec c c_slash) as [->|E].
  - right. exists [], t. split; [reflexivity|intros []].
  - destruct IH as [H|(a & b & -> & H)].
    + left. intros [H1|H1]; [congruence|contradiction].
    + right. exists (c :: a), b. split; [reflexivity|]. intros [H1|H1]; [congruence|contradiction].
Qed.
Lemma bare_total : forall t, (exists n s, bare_parts t n s) \/ (starts_with_char t c_at = true /\ ~ In c_slash t).
Proof.
  intros t. destruct (cut_slash t) as [H|(a & b & -> & H)].
  - destruct (starts_with_char t c_at) eqn:E; [right; auto|]. left. exists t, (lit "."). apply BPBare; assumption.
  - left. destruct (starts_with_char a c_at) eqn:E.
    + destruct (cut_slash b) as [Hn|(n & s & -> & Hn)]; [exists (a ++ c_slash :: b), (lit "."); apply BPScope; assumption|].
      exists (a ++ c_slash :: n), (lit "./" ++ s). apply BPScopeSub; assumption.
    + exists a, (lit "./" ++ b). apply BPSub; assumption.
Qed.
Lemma package_total : forall t, exists n, package_name t n.
Proof. intros t. destruct (bare_total t) as [(n & s & H)|[H1 H2]]; [exists n; left; eauto|exists t; right; auto]. Qed.
Lemma package_module : forall t n, (forall n, package_name t n -> t <> n -> ascii_str n) -> package_name t n -> module_name t = Some n.
Proof.
  intros t n Ha [[s H]|(-> & H1 & H2)]; [eapply module_name_parts; [eassumption|apply Ha; left; eauto]|].
  unfold module_name. rewrite H1, slash_indices_none by exact H2. reflexivity.
Qed.
Lemma package_ascii : forall t n, ascii_str t -> package_name t n -> ascii_str n.
Proof.
  intros t n Ha [[s H]|(-> & _ & _)]; [|exact Ha]. unfold ascii_str in *. rewrite Forall_forall in *. intros c Hc. apply Ha.
  destruct H; [exact Hc| |exact Hc|]; repeat (rewrite in_app_iff in * || cbn [In] in *); tauto.
Qed.
Lemma own_spec : forall opk d r, (match opk with Some pk => is_resolve_self pk (mkInfo d r) | None => false end) = true <-> own_name opk (r_target r).
Proof.
  intros opk d r. unfold own_name, is_resolve_self. split.
  - destruct opk as [pk|]; [|discriminate]. destruct (p_name pk) as [n|] eqn:En; [|discriminate]. cbn [i_req]. intros H. apply prefix_dec in H. exists pk, n. auto.
  - intros (pk & n & -> & -> & H). cbn [i_req]. apply prefix_dec. exact H.
Qed.
Lemma governed_dec : forall opk t, (exists pk tree, governed opk t pk tree) \/ (forall pk tree, ~ governed opk t pk tree).
Proof.
  intros [pk|] t; [|right; intros pk tree (H & _); discriminate].
  destruct (p_exports pk) as [tree|] eqn:E.
  - destruct (contains (p_dir pk) MODULE) eqn:Ec; [left; exists pk, tree; repeat split; auto|].
    destruct (is_resolve_self pk (mkInfo [] (mkReq t [] [] Normal))) eqn:Es.
    + left. exists pk, tree. repeat split; auto. right. apply (own_spec (Some pk) [] (mkReq t [] [] Normal)). exact Es.
    + right. intros pk' tree' (H1 & H2 & [H3|H3]); [congruence|]. apply (own_spec (Some pk) [] (mkReq t [] [] Normal)) in H3. congruence.
  - right. intros pk' tree' (H1 & H2 & _). congruence.
Qed.
Lemma governed_fun : forall opk t pk tree pk' tree', governed opk t pk tree -> governed opk t pk' tree' -> pk = pk' /\ tree = tree'.
Proof. intros opk t pk tree pk' tree' (H1 & H2 & _) (H3 & H4 & _). assert (pk = pk') by congruence. subst. split; congruence. Qed.

(** ** One level *)
Section LevelP.
Hypothesis Hfs : sane_fs fs.
Variable r : request.
Hypothesis Hk : r_kind r = get_target_kind (r_target r).
Hypothesis Hn : r_kind r = Normal.
Hypothesis Ha : forall n, package_name (r_target r) n -> r_target r <> n -> ascii_str n.
Notation t := (r_target r).
Notation root d := (join d MODULE).

Lemma not_governed_apply : forall opk i, i_req i = r -> (forall pk tree, ~ governed opk t pk tree) -> exports_apply R opk i = Ret (Resolving i).
Proof.
  intros opk i Hi H. unfold exports_apply. destruct opk as [pk|]; [|reflexivity]. rewrite Hi, Hn. cbn [kind_eqb negb].
  destruct (p_exports pk) as [tree|] eqn:E; [|destruct (_ && _)%bool; reflexivity].
  destruct (is_in_module pk) eqn:E1; [exfalso; apply (H pk tree); repeat split; auto|].
  destruct (is_resolve_self pk i) eqn:E2; [|reflexivity]. exfalso. apply (H pk tree). repeat split; auto. right.
  destruct i as [ip ir]. cbn [i_req] in Hi. subst ir. apply (own_spec (Some pk) ip r). exact E2.
Qed.
Lemma subpath_ev : forall pk d n s, bare_parts t n s -> ev (exports_subpath pk (mkInfo d r)) =
  Done (if str_eqb s (lit ".") then if (f_exists fs (join d n) || opt_str_eqb (p_name pk) n)%bool then Some s else None else Some s).
Proof.
  intros pk d n s H. unfold exports_subpath. cbn [i_req i_path]. generalize t H. clear. intros t0 H.
  assert (Hf : forall x, str_eqb (lit "./" ++ x) (lit ".") = false) by (intros x; destruct x; reflexivity).
  destruct H as [n Hn Hs|n s Hn Hs|a n Hn Hs Hn'|a n s Hn Hs Hn'].
  - rewrite Hs. cbn [bind]. rewrite (proj2 (find_char_none _ _) Hn). cbn [act bind ev_fs fs_ans]. destruct (_ || _)%bool; reflexivity.
  - rewrite starts_char_slash, Hs. cbn [bind]. rewrite find_char_first by exact Hn. rewrite Hf. reflexivity.
  - rewrite starts_char_slash, Hs, find_char_first by exact Hn. cbn [bind]. rewrite (proj2 (find_char_none _ _) Hn'). cbn [act bind ev_fs fs_ans]. destruct (_ || _)%bool; reflexivity.
  - rewrite starts_char_slash, Hs, find_char_first by exact Hn. cbn [bind]. rewrite find_char_first by exact Hn'. rewrite Hf. reflexivity.
Qed.
Lemma subpath_panics : forall pk d, starts_with_char t c_at = true -> ~ In c_slash t -> exists m, ev (exports_subpath pk (mkInfo d r)) = Panicked m.
Proof. intros pk d H1 H2. unfold exports_subpath. cbn [i_req]. rewrite H1, (proj2 (find_char_none _ _) H2). eexists. reflexivity. Qed.
Lemma asks_ev : forall pk d s, asks fs r d pk s -> ev (exports_subpath pk (mkInfo (root d) r)) = Done (Some s).
Proof.
  intros pk d s (n & H & He). rewrite (subpath_ev pk _ n s H). destruct (str_eqb_spec s (lit ".")) as [E|]; [|reflexivity].
  destruct (He E) as [-> | ->]; [reflexivity|]. cbn [opt_str_eqb]. rewrite str_eqb_refl, orb_true_r. reflexivity.
Qed.
Lemma asks_dec : forall pk d n s, bare_parts t n s -> asks fs r d pk s \/ (s = lit "." /\ f_exists fs (join (root d) n) = false /\ p_name pk <> Some n).
Proof.
  intros pk d n s H. destruct (str_eqb_spec s (lit ".")) as [E|E]; [|left; exists n; split; [exact H|congruence]].
  destruct (f_exists fs (join (root d) n)) eqn:E1; [left; exists n; auto|].
  destruct (opt_str_eqb (p_name pk) n) eqn:E2.
  - left. exists n. split; [exact H|]. intros _. right. destruct (p_name pk) as [x|]; [|discriminate]. cbn in E2. apply str_eqb_eq in E2. congruence.
  - right. repeat split; auto. intros E3. rewrite E3 in E2. cbn in E2. rewrite str_eqb_refl in E2. discriminate.
Qed.
Lemma loop_none_ev : forall pk i l, Forall (fun c => ~ usable fs pk c) l -> ev (exports_loop pk i l) = Done (SError (not_exported (r_target (i_req i))) i).
Proof.
  intros pk i l H. induction H as [|c l Hc H IH]; [reflexivity|]. cbn [exports_loop act bind ev_fs fs_ans].
  apply not_usable in Hc. unfold target_file in Hc. destruct (f_file fs (get_path (mkInfo (p_dir pk) (parse c)))) eqn:E; [|exact IH].
  destruct Hc as [Hc|Hc]; [congruence|]. cbn [i_req]. rewrite Hc. exact IH.
Qed.
Lemma loop_first_ev : forall pk i l c, first_usable fs pk l c -> ev (exports_loop pk i l) = Done (Resolving (mkInfo (p_dir pk) (parse c))).
Proof.
  intros pk i l c (l1 & l2 & -> & H1 & H2 & H3). induction H1 as [|x l1 Hx _ IH]; cbn [app exports_loop act bind ev_fs fs_ans].
  - unfold target_file in H2. rewrite H2. cbn [i_req]. rewrite H3. reflexivity.
  - apply not_usable in Hx. unfold target_file in Hx. destruct (f_file fs (get_path (mkInfo (p_dir pk) (parse x)))) eqn:E; [|exact IH].
    destruct Hx as [Hx|Hx]; [congruence|]. cbn [i_req]. rewrite Hx. exact IH.
Qed.
Lemma governed_ev : forall opk pk tree d, governed opk t pk tree -> ev (exports_apply R opk (mkInfo (root d) r)) =
  match ev (exports_subpath pk (mkInfo (root d) r)) with
  | Done None => Done (SError TAG (mkInfo (root d) r))
  | Done (Some s) =>
      ev (l <- lift (field_process FExports tree (exports_request s (r_query r) (r_fragment r)) (o_conditions opts)) ;;
          match l with Err e => Ret (SError e (mkInfo (root d) r)) | Ok l => exports_loop pk (mkInfo (root d) r) l end)
  | Panicked m => Panicked m
  | NoFuel => NoFuel
  end.
Proof.
  intros opk pk tree d (-> & H2 & H3). unfold exports_apply. cbn [i_req]. rewrite Hn. cbn [kind_eqb negb].
  assert (E : (negb (is_in_module pk) && negb (is_resolve_self pk (mkInfo (root d) r)))%bool = false).
  { unfold is_in_module. destruct H3 as [-> |H3]; [reflexivity|]. apply (own_spec (Some pk) (root d) r) in H3. rewrite H3, andb_false_r. reflexivity. }
  rewrite E, H2, ev_bind. destruct (ev (exports_subpath pk (mkInfo (root d) r))) as [[s|]|m|]; try reflexivity.
  rewrite exports_remaining_spec. reflexivity.
Qed.

(** What follows the exports field. *)
Definition there (i : info) : info := match r_kind (i_req i) with Normal => with_target i (lit "./" ++ r_target (i_req i)) | _ => i end.
Definition level_end (d : path) (o : outcome stats) : outcome (stats + stats) :=
  match o with
  | Done (SError e ei) => Done (inr (if str_eqb e TAG then Resolving (mkInfo d r) else SError e ei))
  | Done s => Done (inr s)
  | Panicked m => Panicked m
  | NoFuel => NoFuel
  end.
Lemma inside_ev : forall f d opk, inside fs R r d opk ->
  ev (modules_level R L (S f) (mkInfo d r)) = level_end d
    (match ev (exports_apply R opk (mkInfo (root d) r)) with
     | Done (Resolving i1) =>
         ev (and_then (and_then (and_then (imports_apply R L (S f) opk i1) (fun i => alias_field_apply R (S f) opk (there i))) (resolve_as_file R)) (resolve_as_dir R L (S f)))
     | o => o end).
Proof.
  intros f d opk (H1 & H2 & n & H3 & H4). unfold modules_level. cbn [i_path i_req act bind ev_fs fs_ans]. rewrite H1. cbn [negb].
  rewrite (package_module _ _ Ha H3), (ev_ok _ _ H2). cbn [act bind ev_fs fs_ans].
  assert (E : (negb (f_dir fs (join (root d) n)) && negb match opk with Some pk => is_resolve_self pk (mkInfo (root d) r) | None => false end)%bool = false).
  { destruct H4 as [-> |H4]; [reflexivity|]. apply (own_spec opk (root d) r) in H4. rewrite H4, andb_false_r. reflexivity. }
  rewrite E, ev_bind. rewrite !ev_and_then. destruct (ev (exports_apply R opk (mkInfo (root d) r))) as [[x|i1|e i1]|m|]; try reflexivity.
  - rewrite !ev_and_then. destruct (ev (imports_apply R L (S f) opk i1)) as [[x|i2|e i2]|m|]; try reflexivity.
    + fold (there i2). destruct (ev (alias_field_apply R (S f) opk (there i2))) as [[x|i3|e i3]|m|]; try reflexivity.
      * destruct (ev (resolve_as_file R i3)) as [[x|i4|e i4]|m|]; try reflexivity.
        -- destruct (ev (resolve_as_dir R L (S f) i4)) as [[x|i5|e i5]|m|]; try reflexivity. cbn [level_end]. destruct (str_eqb e TAG); reflexivity.
        -- cbn [level_end]. destruct (str_eqb e TAG); reflexivity.
      * cbn [level_end]. destruct (str_eqb e TAG); reflexivity.
    + cbn [level_end]. destruct (str_eqb e TAG); reflexivity.
  - cbn [level_end]. destruct (str_eqb e TAG); reflexivity.
Qed.
Lemma follow_ev : forall f opk i1, starts_with_char (r_target (i_req i1)) c_hash = false ->
  ev (and_then (and_then (and_then (imports_apply R L (S f) opk i1) (fun i => alias_field_apply R (S f) opk (there i))) (resolve_as_file R)) (resolve_as_dir R L (S f))) =
  ev (and_then (resolve_as_file R (there i1)) (resolve_as_dir R L (S f))).
Proof. intros f opk i1 H. rewrite imports_not_hash by exact H. cbn [and_then bind]. rewrite alias_field_off by exact Hb. reflexivity. Qed.
Lemma there_self : forall d, get_path (there (mkInfo (root d) r)) = join (root d) (lit "./" ++ t).
Proof. intros d. unfold there. cbn [i_req]. rewrite Hn. apply dotted_path. Qed.
Lemma there_picked : forall i q, picked (there i) q = picked i q.
Proof. intros i q. unfold there. destruct (r_kind (i_req i)); reflexivity. Qed.
Lemma lands_there : forall pk c p, lands pk c p -> get_path (there (mkInfo (p_dir pk) (parse c))) = p /\ starts_with_char (r_target (parse c)) c_hash = false.
Proof.
  intros pk c p [[H ->]|[H ->]]; unfold there; cbn [i_req].
  - split; [destruct H as [-> |[-> | ->]]; reflexivity|]. apply path_not_hash. rewrite <- parse_kind. exact H.
  - rewrite H. split; [apply dotted_path|]. rewrite parse_kind in H. apply normal_target in H. apply H.
Qed.
Lemma lands_dec : forall pk c, (exists p, lands pk c p) \/ r_kind (parse c) = Internal.
Proof. intros pk c. unfold lands, path_kind. destruct (r_kind (parse c)); eauto 10. Qed.
Lemma dot_join : forall d x, d <> [] -> is_abs x = false -> same_path (join d x) (join d (lit "./" ++ x)).
Proof.
  intros d x Hd Hx. unfold same_path. rewrite !components_join; auto.
Qed.
Lemma normal_rel : forall x, get_target_kind x = Normal -> is_abs x = false.
Proof.
  intros x H. unfold is_abs. destruct x as [|c x]; [reflexivity|]. unfold get_target_kind in H.
  destruct (starts_with_char (c :: x) c_hash); [discriminate|]. destruct (starts_with_char (c :: x) c_slash); [discriminate|reflexivity].
Qed.
Lemma lands_no_dir : forall opk q pk c p, has_desc fs R q opk -> opk = Some pk -> lands pk c p -> f_file fs (target_file pk c) = true -> f_dir fs p = false.
Proof.
  intros opk q pk c p Hq Ho H Hf. subst opk. destruct (f_dir fs p) eqn:E; [|reflexivity]. exfalso.
  assert (f_dir fs (target_file pk c) = true); [|rewrite (sf_kind _ Hfs) in Hf by assumption; discriminate].
  destruct H as [[_ ->]|[H ->]]; [exact E|]. rewrite <- E. apply (sf_dir _ Hfs). unfold target_file.
  rewrite normal_path by (apply parse_kind || exact H). apply dot_join.
  - destruct (lookup_facts _ _ _ _ _ Hq) as (_ & _ & _ & _ & Hd & _). intros Hp. rewrite Hp, (sf_empty _ Hfs) in Hd. discriminate.
  - apply normal_rel. rewrite <- parse_kind. exact H.
Qed.
Lemma root_not_empty : forall d, root d <> [].
Proof. intros [|c d]; unfold join; cbn [is_abs]; [discriminate|]. destruct (is_abs MODULE); [discriminate|]. destruct (ends_with_char _ _); discriminate. Qed.
Lemma root_desc : forall d opk e, has_desc fs R (join (root d) t) opk -> bad_desc fs R (join (root d) (lit "./" ++ t)) e -> False.
Proof.
  intros d opk e H1 H2. unfold has_desc, bad_desc in *. destruct (o_desc opts) as [name|]; [|discriminate].
  pose proof (look_same fs Hfs (rv_json R) name (join (root d) t) (join (root d) (lit "./" ++ t))) as H. rewrite H1, H2 in H. apply H.
  apply dot_join; [apply root_not_empty|]. apply normal_rel. rewrite <- Hk. exact Hn.
Qed.

(** The verdict and what the level returns. *)
Definition told (a : reply) (s : stats) : Prop :=
  match a with
  | Found q qu fr => s = Success (RInfo (mkInfo q (mkReq [] qu fr Relative)))
  | Fail e => exists i, s = SError e i
  end.
Definition shows (d : path) (v : option reply) (x : stats + stats) : Prop :=
  match v with
  | None => x = inr (Resolving (mkInfo d r))
  | Some a => exists s, told a s /\ (x = inr s \/ x = inl s)
  end.
Lemma absent_ev : forall f d, f_dir fs (root d) = false -> ev (modules_level R L f (mkInfo d r)) = Done (inr (Resolving (mkInfo d r))).
Proof. intros f d H. unfold modules_level. cbn [i_path act bind ev_fs fs_ans]. rewrite H. reflexivity. Qed.
Lemma broken_ev : forall f d e, f_dir fs (root d) = true -> bad_desc fs R (join (root d) t) e ->
  ev (modules_level R L f (mkInfo d r)) = Done (inl (SError e (mkInfo d r))).
Proof.
  intros f d e H He. unfold modules_level. cbn [i_path i_req act bind ev_fs fs_ans]. rewrite H. cbn [negb].
  destruct (package_total t) as [n Hp]. rewrite (package_module _ _ Ha Hp), (ev_bad _ _ He). reflexivity.
Qed.
Lemma outside_ev : forall f d opk n, f_dir fs (root d) = true -> has_desc fs R (join (root d) t) opk -> package_name t n ->
  f_dir fs (join (root d) n) = false -> ~ own_name opk t ->
  ev (modules_level R L f (mkInfo d r)) = Done (inr (match pick fs (file_candidates opts (join (root d) t)) with
    | Some q => picked (mkInfo d r) q | None => Resolving (mkInfo d r) end)).
Proof.
  intros f d opk n H1 H2 H3 H4 H5. unfold modules_level. cbn [i_path i_req act bind ev_fs fs_ans]. rewrite H1. cbn [negb].
  rewrite (package_module _ _ Ha H3), (ev_ok _ _ H2). cbn [act bind ev_fs fs_ans]. rewrite H4.
  assert (E : match opk with Some pk => is_resolve_self pk (mkInfo (root d) r) | None => false end = false).
  { destruct (match opk with Some pk => is_resolve_self pk (mkInfo (root d) r) | None => false end) eqn:E; [|reflexivity].
    apply (own_spec opk (root d) r) in E. contradiction. }
  rewrite E. cbn [negb andb]. rewrite ev_bind, as_file_ev, normal_path by assumption.
  destruct (pick fs (file_candidates opts (join (root d) t))) as [q|]; reflexivity.
Qed.
Lemma hit_ev : forall f d opk pk tree s l c p, inside fs R r d opk -> governed opk t pk tree -> asks fs r d pk s -> chooses R r tree s (Ok l) ->
  first_usable fs pk l c -> lands pk c p -> ev (modules_level R L (S f) (mkInfo d r)) =
    Done (inr (match pick fs (file_candidates opts p) with Some q => picked (mkInfo (p_dir pk) (parse c)) q | None => Resolving (mkInfo d r) end)).
Proof.
  intros f d opk pk tree s l c p Hi Hg Hs Hc Hu Hl. rewrite (inside_ev f d opk Hi), (governed_ev opk pk tree d Hg), (asks_ev pk d s Hs).
  unfold chooses in Hc. rewrite Hc. cbn [lift bind]. rewrite (loop_first_ev _ _ _ _ Hu).
  destruct (lands_there _ _ _ Hl) as [Hp Hh]. rewrite follow_ev by exact Hh. rewrite ev_and_then, as_file_ev, Hp.
  destruct (pick fs (file_candidates opts p)) as [q|] eqn:Ep; [rewrite there_picked; reflexivity|].
  rewrite as_dir_absent_ev; [reflexivity|]. rewrite Hp. destruct Hi as (_ & Hd & _), Hg as (Ho & _), Hu as (l1 & l2 & _ & _ & Hf & _).
  eapply lands_no_dir; eassumption.
Qed.
Lemma level_sound : forall f d x, ev (modules_level R L (S f) (mkInfo d r)) = Done x ->
  (exists v, level fs R r d v /\ shows d v x) \/ level_astray fs R r d.
Proof.
  intros f d x H. destruct (f_dir fs (root d)) eqn:Ed.
  2:{ left. exists None. rewrite absent_ev in H by exact Ed. inversion H. split; [apply LvAbsent, Ed|reflexivity]. }
  destruct (package_total t) as [n Hp].
  destruct (lookup_desc fs (rv_json R) (o_desc opts) (join (root d) t)) as [[opk|e]|m|] eqn:El.
  3,4: exfalso; unfold modules_level in H; cbn [i_path i_req act bind ev_fs fs_ans] in H; rewrite Ed in H; cbn [negb] in H;
    rewrite (package_module _ _ Ha Hp) in H; unfold L in H; rewrite El in H; discriminate.
  2:{ left. exists (Some (Fail e)). rewrite (broken_ev _ _ e Ed El) in H. inversion H. split; [apply LvBroken; assumption|].
      eexists. split; [eexists; reflexivity|right; reflexivity]. }
  fold (has_desc fs R (join (root d) t) opk) in El.
  assert (Hin : (inside fs R r d opk) \/ (f_dir fs (join (root d) n) = false /\ ~ own_name opk t)).
  { destruct (f_dir fs (join (root d) n)) eqn:Em; [left; repeat split; eauto|].
    destruct (match opk with Some pk => is_resolve_self pk (mkInfo d r) | None => false end) eqn:Es.
    - apply own_spec in Es. left. repeat split; eauto.
    - right. split; [reflexivity|]. intros Ho. apply (own_spec opk d r) in Ho. congruence. }
  destruct Hin as [Hin|[Hm Ho]].
  2:{ left. rewrite (outside_ev _ _ _ _ Ed El Hp Hm Ho) in H. inversion H; subst x.
      destruct (pick fs (file_candidates opts (join (root d) t))) as [q|] eqn:Ep.
      - exists (Some (Found q (r_query r) (r_fragment r))). split; [|eexists; split; [reflexivity|left; reflexivity]].
        apply pick_some in Ep. eapply LvFile; eassumption.
      - exists None. split; [|reflexivity]. apply pick_none in Ep. eapply LvNoFile; eassumption. }
  destruct (governed_dec opk t) as [(pk & tree & Hg)|Hg].
  - destruct (bare_total t) as [(n' & s & Hbp)|[H1 H2]].
    2:{ exfalso. rewrite (inside_ev f d opk Hin), (governed_ev opk pk tree d Hg) in H. destruct (subpath_panics pk (root d) H1 H2) as [m Em].
        rewrite Em in H. discriminate. }
    destruct (asks_dec pk d n' s Hbp) as [Hs|(Es & H1 & H2)].
    + destruct (field_process FExports tree (exports_request s (r_query r) (r_fragment r)) (o_conditions opts)) as [[l|e]|m|] eqn:Ef.
      3,4: exfalso; rewrite (inside_ev f d opk Hin), (governed_ev opk pk tree d Hg), (asks_ev pk d s Hs), Ef in H; discriminate.
      * destruct (first_usable_dec fs pk l) as [[c Hc]|Hnu].
        -- destruct (lands_dec pk c) as [[p Hl]|Hi]; [|right; eapply LaHash; eassumption].
           left. rewrite (hit_ev f d opk pk tree s l c p Hin Hg Hs Ef Hc Hl) in H. inversion H; subst x.
           destruct (pick fs (file_candidates opts p)) as [q|] eqn:Ep.
           ++ exists (Some (Found q (r_query (parse c)) (r_fragment (parse c)))). split; [|eexists; split; [reflexivity|left; reflexivity]].
              apply pick_some in Ep. eapply LvExpHit; eassumption.
           ++ exists None. split; [|reflexivity]. apply pick_none in Ep. eapply LvExpLost; eassumption.
        -- left. eexists. split; [eapply LvExpNone; eassumption|]. rewrite (inside_ev f d opk Hin), (governed_ev opk pk tree d Hg), (asks_ev pk d s Hs), Ef in H.
           cbn [lift bind] in H. rewrite (loop_none_ev _ _ _ Hnu) in H. cbn [level_end i_req] in H. rewrite not_exported_tag in H. inversion H.
           eexists. split; [eexists; reflexivity|left; reflexivity].
      * left. exists (Some (Fail e)). split; [eapply LvExpErr; eassumption|].
        rewrite (inside_ev f d opk Hin), (governed_ev opk pk tree d Hg), (asks_ev pk d s Hs), Ef in H. cbn [lift bind ev_fs level_end] in H.
        rewrite (field_err_not_tag _ _ _ _ _ Ef) in H. inversion H. eexists. split; [eexists; reflexivity|left; reflexivity].
    + left. exists None. subst s. split; [eapply LvExpUnknown; eassumption|].
      rewrite (inside_ev f d opk Hin), (governed_ev opk pk tree d Hg), (subpath_ev pk (root d) n' _ Hbp), H1 in H. cbn [orb] in H.
      assert (E : opt_str_eqb (p_name pk) n' = false).
      { destruct (p_name pk) as [y|]; [|reflexivity]. cbn. apply str_eqb_neq. congruence. }
      rewrite E in H. cbn in H. inversion H. reflexivity.
  - rewrite (inside_ev f d opk Hin), (not_governed_apply opk (mkInfo (root d) r) eq_refl Hg) in H. cbn [ev_fs] in H.
    rewrite follow_ev in H by (cbn [i_req]; rewrite Hk in Hn; apply normal_target in Hn; apply Hn).
    destruct (ev (and_then (resolve_as_file R (there (mkInfo (root d) r))) (resolve_as_dir R L (S f)))) as [s|m|] eqn:Es; try discriminate.
    destruct (at_path_sound _ _ _ Es) as [(q & Hq & ->)|[[Hq ->]|[(e & _ & _ & He & _)|Hq]]]; rewrite there_self in *.
    + left. exists (Some (Found q (r_query r) (r_fragment r))). split; [eapply LvPath; eassumption|]. rewrite there_picked in H. cbn in H. inversion H.
      eexists. split; [reflexivity|left; reflexivity].
    + left. exists None. split; [eapply LvNothing; eassumption|]. cbn in H. inversion H. reflexivity.
    + exfalso. eapply root_desc; eassumption.
    + right. eapply LaHollow; eassumption.
Qed.
Lemma level_complete : forall d v, level fs R r d v -> exists N, forall f, N <= f -> exists x, ev (modules_level R L (S f) (mkInfo d r)) = Done x /\ shows d v x.
Proof.
  assert (Hh : starts_with_char t c_hash = false) by (rewrite Hk in Hn; apply normal_target in Hn; apply Hn).
  intros d v H.
  destruct H as [H|e H1 H2|opk n q H1 H2 H3 H4 H5 H6|opk n H1 H2 H3 H4 H5 H6|opk pk tree n H1 H2 H3 H4 H5|opk pk tree s e H1 H2 H3 H4
    |opk pk tree s l H1 H2 H3 H4 H5|opk pk tree s l c p q H1 H2 H3 H4 H5 H6 H7|opk pk tree s l c p H1 H2 H3 H4 H5 H6 H7|opk q H1 H2 H3|opk H1 H2 H3].
  - exists 0. intros f _. eexists. split; [apply absent_ev, H|reflexivity].
  - exists 0. intros f _. eexists. split; [apply broken_ev; eassumption|]. eexists. split; [eexists; reflexivity|right; reflexivity].
  - exists 0. intros f _. eexists. split; [eapply outside_ev; eassumption|]. apply pick_some in H6. rewrite H6. eexists. split; [reflexivity|left; reflexivity].
  - exists 0. intros f _. eexists. split; [eapply outside_ev; eassumption|]. apply pick_none in H6. rewrite H6. reflexivity.
  - exists 0. intros f _. eexists. rewrite (inside_ev f d opk H1), (governed_ev opk pk tree d H2), (subpath_ev pk (root d) n _ H3), H4. cbn [orb].
    assert (E : opt_str_eqb (p_name pk) n = false).
    { destruct (p_name pk) as [y|]; [|reflexivity]. cbn. apply str_eqb_neq. congruence. }
    rewrite E. split; reflexivity.
  - exists 0. intros f _. eexists. rewrite (inside_ev f d opk H1), (governed_ev opk pk tree d H2), (asks_ev pk d s H3). unfold chooses in H4. rewrite H4.
    cbn [lift bind ev_fs level_end]. rewrite (field_err_not_tag _ _ _ _ _ H4). split; [reflexivity|]. eexists. split; [eexists; reflexivity|left; reflexivity].
  - exists 0. intros f _. eexists. rewrite (inside_ev f d opk H1), (governed_ev opk pk tree d H2), (asks_ev pk d s H3). unfold chooses in H4. rewrite H4.
    cbn [lift bind]. rewrite (loop_none_ev _ _ _ H5). cbn [level_end i_req]. rewrite not_exported_tag. split; [reflexivity|]. eexists. split; [eexists; reflexivity|left; reflexivity].
  - exists 0. intros f _. eexists. rewrite (hit_ev f d opk pk tree s l c p H1 H2 H3 H4 H5 H6). split; [reflexivity|].
    apply pick_some in H7. rewrite H7. eexists. split; [reflexivity|left; reflexivity].
  - exists 0. intros f _. eexists. rewrite (hit_ev f d opk pk tree s l c p H1 H2 H3 H4 H5 H6). split; [reflexivity|].
    apply pick_none in H7. rewrite H7. reflexivity.
  - destruct (at_path_complete _ _ H3) as [N HN]. exists N. intros f Hf. eexists.
    rewrite (inside_ev f d opk H1), (not_governed_apply opk (mkInfo (root d) r) eq_refl H2). cbn [ev_fs]. rewrite follow_ev by exact Hh.
    rewrite (HN (S f)) by (lia || apply there_self). rewrite there_picked. split; [reflexivity|]. eexists. split; [reflexivity|left; reflexivity].
  - exists 0. intros f _. eexists.
    rewrite (inside_ev f d opk H1), (not_governed_apply opk (mkInfo (root d) r) eq_refl H2). cbn [ev_fs]. rewrite follow_ev by exact Hh.
    rewrite at_path_nothing by (rewrite there_self; exact H3). split; reflexivity.
Qed.

(** ** The climb *)
Lemma told_res : forall a i, ~ told a (Resolving i).
Proof. intros [q qu fr|e] i; cbn; [discriminate|intros [? ?]; discriminate]. Qed.
Lemma climb_sound : forall n d l s, up_chain d l -> ev (resolve_as_modules R L n (mkInfo d r)) = Done s ->
  (exists a, climb fs R r l a /\ told a s) \/ climb_astray fs R r l.
Proof.
  induction n as [|n IH]; intros d l s Hc H; [discriminate|]. cbn [resolve_as_modules i_path] in H. rewrite ev_bind in H.
  destruct (ev (modules_level R L (S n) (mkInfo d r))) as [x|m|] eqn:E; try discriminate.
  assert (Hl : exists l', l = d :: l') by (inversion Hc; subst; eauto). destruct Hl as [l' ->].
  destruct (level_sound _ _ _ E) as [(v & Hv & Hx)|Has]; [|right; apply CaHere, Has].
  destruct v as [a|]; cbn [shows] in Hx.
  - left. exists a. split; [apply CbHere, Hv|]. destruct Hx as (s1 & Ht & [-> | ->]); [|inversion H; subst; exact Ht].
    destruct s1 as [y|i1|e i1]; cbn [and_then bind ev_fs] in H; [inversion H; subst; exact Ht|destruct (told_res _ _ Ht)|inversion H; subst; exact Ht].
  - subst x. cbn [and_then bind] in H. inversion Hc as [p Hp|p q l1 Hp Hc']; subst; rewrite Hp in H.
    + cbn in H. inversion H; subst. left. exists (Fail TAG). split; [apply CbUp; [exact Hv|apply CbTop]|eexists; reflexivity].
    + rewrite ev_bind in H. change (with_path (mkInfo d r) q) with (mkInfo q r) in H.
      destruct (ev (resolve_as_modules R L n (mkInfo q r))) as [s1|m|] eqn:E1; try discriminate.
      destruct (IH q l' s1 Hc' E1) as [(a & Hcl & Ht)|Has]; [|right; apply CaUp; assumption].
      left. exists a. split; [apply CbUp; assumption|].
      destruct s1 as [y|i1|e i1]; [inversion H; subst; exact Ht|destruct (told_res _ _ Ht)|inversion H; subst; exact Ht].
Qed.
Lemma climb_complete : forall l a, climb fs R r l a -> forall d, up_chain d l -> exists N, forall n, N <= n -> exists s,
  ev (resolve_as_modules R L n (mkInfo d r)) = Done s /\ told a s.
Proof.
  intros l a H. induction H as [|d l a Hv|d l a Hv H IH]; intros d0 Hc.
  - inversion Hc.
  - assert (d0 = d) by (inversion Hc; reflexivity). subst d0. destruct (level_complete _ _ Hv) as [N HN].
    exists (S N). intros [|n] Hle; [lia|]. destruct (HN n ltac:(lia)) as (x & Ex & s & Ht & Hx). exists s. split; [|exact Ht].
    cbn [resolve_as_modules]. rewrite ev_bind, Ex. destruct Hx as [-> | ->]; [|reflexivity].
    destruct s as [y|i1|e i1]; [reflexivity|destruct (told_res _ _ Ht)|reflexivity].
  - assert (d0 = d) by (inversion Hc; reflexivity). subst d0. destruct (level_complete _ _ Hv) as [N HN].
    inversion Hc as [p Hp|p q l1 Hp Hc']; subst.
    + exists (S N). intros [|n] Hle; [lia|]. destruct (HN n ltac:(lia)) as (x & Ex & Hx). cbn [shows] in Hx. subst x.
      inversion H; subst. eexists. cbn [resolve_as_modules i_path]. rewrite ev_bind, Ex. cbn [and_then bind]. rewrite Hp. split; [reflexivity|]. eexists. reflexivity.
    + destruct (IH q Hc') as [N' HN']. exists (S (N + N')). intros [|n] Hle; [lia|]. destruct (HN n ltac:(lia)) as (x & Ex & Hx). cbn [shows] in Hx. subst x.
      destruct (HN' n ltac:(lia)) as (s & Es & Ht). exists s. split; [|exact Ht].
      cbn [resolve_as_modules i_path]. rewrite ev_bind, Ex. cbn [and_then bind]. rewrite Hp, ev_bind.
      change (with_path (mkInfo d r) q) with (mkInfo q r). rewrite Es.
      destruct s as [y|i1|e i1]; [reflexivity|destruct (told_res _ _ Ht)|reflexivity].
Qed.
End LevelP.

(** ** Requests *)
Section TopP.
Hypothesis Hfs : sane_fs fs.
Hypothesis Hdbg : rv_debug R = false.
Variables (base : path) (req : str).
Notation r := (parse req).
Hypothesis Href : referred R base r.

Lemma top_ev : forall f, ev (resolve_with R L f base req) = final_answer fs R (ev (resolve_ R L f (mkInfo base r))).
Proof.
  intros f. destruct Href as (_ & (_ & _ & Ht) & _). unfold resolve_with. rewrite Ht, ev_bind.
  destruct (ev (resolve_ R L f (mkInfo base r))) as [[[i|]|i|e i]|m|]; try reflexivity.
  unfold normalize_result. rewrite Hdbg. cbn [andb]. unfold normalize_path, final_answer.
  destruct (o_symlinks opts); [|reflexivity]. unfold try_. cbn [act bind ev_fs fs_ans]. destruct (f_canon fs (i_path i)); reflexivity.
Qed.
Lemma tail_ev : forall f, ev (resolve_ R L (S f) (mkInfo base r)) = SpecRun.settled (mkInfo base r)
  (match lookup_desc fs (rv_json R) (o_desc opts) (first_place base r) with
   | PRet (Err e) => Done (SError e (mkInfo base r))
   | PRet (Ok _) => ev (final_step R L (S f) (mkInfo base r))
   | PPanic m => Panicked m
   | PFuel => NoFuel
   end).
Proof.
  intros f. destruct Href as (_ & Hrm & Hkd). destruct (no_remap_steps R (mkInfo base r) Hrm) as [H1 H2].
  assert (E : resolve_ R L (S f) (mkInfo base r) = tail_ R L f (mkInfo base r)).
  { cbn [resolve_]. unfold tail_. rewrite H1. cbn [and_then bind]. rewrite H2. reflexivity. }
  assert (Hh : starts_with_char (r_target r) c_hash = false).
  { destruct Hkd as [H|[H _]]; [apply path_not_hash; rewrite <- parse_kind; exact H|]. rewrite parse_kind in H. apply normal_target in H. apply H. }
  assert (Ef : forall p, ev (s <- p ;; finish_ (mkInfo base r) s) = SpecRun.settled (mkInfo base r) (ev p)).
  { intros p. rewrite ev_bind. destruct (ev p) as [[| |]| |]; reflexivity. }
  rewrite E. unfold tail_. rewrite Ef, ev_and_then. f_equal. unfold pkg_step. cbn [i_path i_req].
  change (match r_kind r with Normal => join (join base MODULE) (r_target r) | _ => get_path (mkInfo base r) end) with (first_place base r).
  rewrite ev_bind. unfold L at 1. destruct (lookup_desc fs (rv_json R) (o_desc opts) (first_place base r)) as [[opk|e]|m|]; try reflexivity.
  cbn [lift ev_fs]. rewrite imports_not_hash by exact Hh. cbn [and_then bind]. rewrite alias_field_off by exact Hb. reflexivity.
Qed.
Lemma final_path : forall f, path_kind (r_kind r) -> final_step R L f (mkInfo base r) = and_then (resolve_as_file R (mkInfo base r)) (resolve_as_dir R L f).
Proof. intros f H. unfold final_step. cbn [i_req]. destruct H as [-> |[-> | ->]]; reflexivity. Qed.
Lemma final_bare : forall f, r_kind r = Normal -> final_step R L f (mkInfo base r) = resolve_as_modules R L f (mkInfo base r).
Proof. intros f H. unfold final_step. cbn [i_req]. rewrite H. reflexivity. Qed.
Lemma told_delivered : forall a s, told a s -> final_answer fs R (SpecRun.settled (mkInfo base r) (Done s)) = Done (delivered fs R base r a).
Proof.
  intros [q qu fr|e] s; cbn [told].
  - intros ->. cbn [SpecRun.settled final_answer delivered i_path i_req]. destruct (o_symlinks opts); [destruct (f_canon fs q)|]; reflexivity.
  - intros [i ->]. reflexivity.
Qed.
Lemma reference_sound : forall f x, ev (resolve_with R L f base req) = Done x ->
  (exists a, reference fs R base r a /\ x = delivered fs R base r a) \/ astray fs R base r.
Proof.
  intros [|f] x H; rewrite top_ev in H; [discriminate|]. rewrite tail_ev in H. destruct Href as (_ & _ & Hkd).
  destruct (lookup_desc fs (rv_json R) (o_desc opts) (first_place base r)) as [[opk|e]|m|] eqn:El; try discriminate.
  2:{ left. exists (Fail e). split; [apply RfBroken, El|]. rewrite (told_delivered (Fail e)) in H by (eexists; reflexivity). inversion H. reflexivity. }
  fold (has_desc fs R (first_place base r) opk) in El.
  destruct Hkd as [Hkd|[Hkd Hasc]].
  - rewrite final_path in H by exact Hkd.
    destruct (ev (and_then (resolve_as_file R (mkInfo base r)) (resolve_as_dir R L (S f)))) as [s|m|] eqn:Es; try discriminate.
    destruct (at_path_sound _ _ _ Es) as [(q & Hq & ->)|[[Hq ->]|[(e & _ & _ & He & _)|Hq]]].
    + left. exists (Found q (r_query r) (r_fragment r)). split; [eapply RfPath; eassumption|].
      rewrite (told_delivered (Found q (r_query r) (r_fragment r))) in H by reflexivity. inversion H. reflexivity.
    + left. exists (Fail TAG). split; [eapply RfNothing; eassumption|]. rewrite (told_delivered (Fail TAG)) in H by (eexists; reflexivity). inversion H. reflexivity.
    + exfalso. assert (Ep : first_place base r = get_path (mkInfo base r)) by (unfold first_place; destruct Hkd as [-> |[-> | ->]]; reflexivity).
      unfold has_desc, bad_desc in *. rewrite Ep in El. congruence.
    + right. eapply AsPath; eassumption.
  - rewrite final_bare in H by exact Hkd.
    destruct (ev (resolve_as_modules R L (S f) (mkInfo base r))) as [s|m|] eqn:Es; try discriminate.
    destruct (up_chain_total base) as [l Hl].
    destruct (climb_sound Hfs r (parse_kind req) Hkd Hasc _ _ _ _ Hl Es) as [(a & Hc & Ht)|Has].
    + left. exists a. split; [eapply RfBare; eassumption|]. rewrite (told_delivered a s Ht) in H. inversion H. reflexivity.
    + right. eapply AsBare; eassumption.
Qed.
(** The end of the search, before the answer is made of it. *)
Definition searched (f : nat) : outcome stats :=
  match lookup_desc fs (rv_json R) (o_desc opts) (first_place base r) with
  | PRet (Err e) => Done (SError e (mkInfo base r))
  | PRet (Ok _) => ev (final_step R L (S f) (mkInfo base r))
  | PPanic m => Panicked m
  | PFuel => NoFuel
  end.
Lemma reference_searched : forall a, reference fs R base r a -> exists N, forall f, N <= f -> exists s, searched f = Done s /\ told a s.
Proof.
  intros a H. destruct Href as (_ & _ & Hkd). unfold searched. destruct H as [e He|opk q Hd Hk Hq|opk Hd Hk Hq|opk l a Hd Hk Hl Hc].
  - exists 0. intros f _. unfold bad_desc in He. rewrite He. eexists. split; [reflexivity|]. eexists. reflexivity.
  - destruct (at_path_complete _ _ Hq) as [N HN]. exists N. intros f Hf. unfold has_desc in Hd. rewrite Hd, final_path by exact Hk.
    rewrite (HN (S f)) by (lia || reflexivity). eexists. split; reflexivity.
  - exists 0. intros f _. unfold has_desc in Hd. rewrite Hd, final_path, at_path_nothing by assumption.
    eexists. split; [reflexivity|]. eexists. reflexivity.
  - destruct Hkd as [Hkd|[_ Hasc]]; [rewrite Hk in Hkd; destruct Hkd as [Hkd|[Hkd|Hkd]]; discriminate|].
    destruct (climb_complete Hfs r (parse_kind req) Hk Hasc _ _ Hc _ Hl) as [N HN]. exists N. intros f Hf.
    unfold has_desc in Hd. rewrite Hd, final_bare by exact Hk. apply HN. lia.
Qed.
Lemma reference_complete : forall a, reference fs R base r a -> exists N, forall f, N <= f -> ev (resolve_with R L f base req) = Done (delivered fs R base r a).
Proof.
  intros a H. destruct (reference_searched a H) as [N HN]. exists (S N). intros [|f] Hf; [lia|]. destruct (HN f ltac:(lia)) as (s & Es & Ht).
  rewrite top_ev, tail_ev. fold (searched f). rewrite Es. apply told_delivered, Ht.
Qed.
Lemma reference_unique : forall a a', reference fs R base r a -> reference fs R base r a' -> a = a'.
Proof.
  intros a a' H H'. destruct (reference_searched a H) as [N HN]. destruct (reference_searched a' H') as [N' HN'].
  destruct (HN (N + N') ltac:(lia)) as (s & Es & Ht). destruct (HN' (N + N') ltac:(lia)) as (s' & Es' & Ht').
  assert (s = s') by congruence. subst s'. destruct a as [q qu fr|e], a' as [q' qu' fr'|e']; cbn [told] in *.
  - congruence.
  - destruct Ht' as [i ->]. discriminate.
  - destruct Ht as [i ->]. discriminate.
  - destruct Ht as [i ->], Ht' as [i' Hi]. congruence.
Qed.
End TopP.
End Node.
