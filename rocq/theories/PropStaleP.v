(** * C61: proofs of the final statements *)
From Coq Require Import String.
From Coq Require Import List Arith NArith Bool Lia Permutation.
From Verif Require Import Str StrP Path PathP Json Types Parse Map Prog Desc Resolve Top Run RunP Posix SpecRun SpecLoad SpecCache SpecJson SpecChange SpecDesc SpecNode SpecWorld SpecFull SpecStale JsonP PosixP SpellP SimP LoadP CacheP PropCacheP ExecP SoundP StaleP Demo WitnessP PropChangeP.
Import ListNotations.

(** ** On a disk that stands still the readings are those of C60 *)
Section Still.
Variable fs : fsys.
Hypothesis Hfs : sane_fs fs.
Variable js : str -> option json.
Hypothesis Hwf : forall s j, js s = Some j -> wf_json j.
Variable nm : nat -> str.
Hypothesis Hclash : no_clash fs js nm.
Variable crew : resolver -> Prop.
Hypothesis Hcrew : forall R, crew R -> client js nm R.
Notation seen := (each (fun x => x = fs)).
Ltac wd := cbn [standing w_file w_dir w_exists w_read w_mtime w_canon] in *.
Lemma crew_name : forall R name, crew R -> o_desc (rv_opts R) = Some name -> name = nm (rv_cache R) /\ rv_json R = js /\ rv_debug R = false.
Proof. intros R name HR E. destruct (Hcrew R HR) as ([H|H] & H1 & H2); [congruence|]. split; [congruence|auto]. Qed.
Lemma grown_right : forall R name d j v t, crew R -> o_desc (rv_opts R) = Some name -> f_dir fs d = true -> holds (standing fs) R name d j -> jget j (lit "exports") = Some v ->
  grown_from seen crew (rv_cache R) (to_string v) t -> build_exports v = PRet (Ok t).
Proof.
  intros R name d j v t HR Hn Hd (s & tm & Hs & _ & Hj) Hv (R' & w & name' & d' & j' & fld & v' & HR' & Hc & Hn' & (x & -> & ->) & Hd' & (s' & tm' & Hs' & _ & Hj') & Hv' & Ek & Hb).
  destruct (crew_name R name HR Hn) as (-> & Ej & _), (crew_name R' name' HR' Hn') as (-> & Ej' & _). rewrite Ej in Hj. rewrite Ej' in Hj'. rewrite Hc in *.
  assert (H1 : field_on fs js (nm (rv_cache R)) (lit "exports") v) by (exists d, s, j; auto).
  destruct Hb as [[-> Hb]|[-> Hb]].
  - assert (v' = v) as ->; [|exact Hb]. apply to_string_inj; [eapply wf_get; [eapply Hwf; exact Hj'|exact Hv']|eapply wf_get; [eapply Hwf; exact Hj|exact Hv]|exact Ek].
  - assert (H2 : field_on fs js (nm (rv_cache R)) (lit "imports") v') by (exists d', s', j'; auto). exfalso. exact (Hclash _ _ _ H1 H2 (build_imports_hash _ _ Hb) (eq_sym Ek)).
Qed.
Lemma exports_right : forall R name d j x, crew R -> o_desc (rv_opts R) = Some name -> f_dir fs d = true -> holds (standing fs) R name d j ->
  exports_read seen crew R j x -> x = exp_part j.
Proof.
  intros R name d j x HR Hn Hd Hj. unfold exports_read, exp_part. destruct (jget j (lit "exports")) as [v|] eqn:Ev; [|auto].
  intros [H|(t & Ht & ->)]; [exact H|]. rewrite (grown_right R name d j v t HR Hn Hd Hj Ev Ht). reflexivity.
Qed.
Definition says (name : str) (d : path) (x : reading) : Prop :=
  match x with
  | Has (Some pk) => exists pk0, SpecLoad.described fs js name d = PRet (Ok pk0) /\ pkgeq pk0 pk
  | Has None => False
  | Bad e => SpecLoad.described fs js name d = PRet (Err e)
  | Fell => exists m, SpecLoad.described fs js name d = PPanic m
  end.
Lemma scanned_right : forall R name d x, crew R -> o_desc (rv_opts R) = Some name -> f_dir fs d = true -> scanned seen crew (standing fs) R name d x -> says name d x.
Proof.
  intros R name d x HR Hn Hd H. destruct (crew_name R name HR Hn) as (_ & Ej & Edbg).
  assert (Hh : forall j, holds (standing fs) R name d j -> SpecLoad.described fs js name d = (plet af := alias_fields_of j in plet ex := exp_part j in
    match ex with Err e => PRet (Err e) | Ok ex => plet im := imp_part j in match im with Err e => PRet (Err e) | Ok im =>
      PRet (match side_effects_of (join d name) j with Err e => Err e | Ok se => Ok (mkPkg d (opt_str (jget j (lit "name"))) (opt_str (jget j (lit "version"))) af ex im se j) end) end end)).
  { intros j (s & t & Hs & Ht & Hj). unfold SpecLoad.described. rewrite Hs, Ht. rewrite Ej in Hj. rewrite Hj. reflexivity. }
  assert (Hx : forall j y, holds (standing fs) R name d j -> exports_read seen crew R j y -> exp_part j = y) by (intros; symmetry; eapply exports_right; eassumption).
  assert (Hi : forall j y, imports_read j y -> imp_part j = y) by (intros j y; unfold imports_read, imp_part; destruct (jget j (lit "imports")); auto).
  destruct H; cbn [says].
  - wd. unfold SpecLoad.described. destruct H as [H|(x & <- & H)]; [rewrite H; reflexivity|]. destruct (f_read fs (join d name)); [|reflexivity].
    destruct (f_mtime fs (join d name)) as [| |t]; [reflexivity|reflexivity|]. destruct (H t eq_refl).
  - wd. unfold SpecLoad.described. rewrite H, H0. rewrite Ej in H1. rewrite H1. reflexivity.
  - exists m. rewrite (Hh _ H), H0. reflexivity.
  - rewrite (Hh _ H), H0. cbn [pbind]. rewrite (Hx _ _ H H1). reflexivity.
  - exists m. rewrite (Hh _ H), H0. cbn [pbind]. rewrite (Hx _ _ H H1). reflexivity.
  - rewrite (Hh _ H), H0. cbn [pbind]. rewrite (Hx _ _ H H1). cbn [pbind]. rewrite (Hi _ _ H2). reflexivity.
  - exists m. rewrite (Hh _ H), H0. cbn [pbind]. rewrite (Hx _ _ H H1). cbn [pbind]. rewrite (Hi _ _ H2). reflexivity.
  - rewrite (Hh _ H), H0. cbn [pbind]. rewrite (Hx _ _ H H1). cbn [pbind]. rewrite (Hi _ _ H2). cbn [pbind]. rewrite H3. reflexivity.
  - eexists. split; [rewrite (Hh _ H), H0; cbn [pbind]; rewrite (Hx _ _ H H2); cbn [pbind]; rewrite (Hi _ _ H3); cbn [pbind]; rewrite H4; reflexivity|].
    unfold pkgeq. cbn. repeat split; auto.
  - congruence.
Qed.
Lemma bare_search : forall name p, bare (standing fs) name p -> search fs name p = None.
Proof.
  intros name p H. unfold search, bare in *. induction H as [|q l Hq Hl IH]; [reflexivity|]. cbn [find]. rewrite Hq. exact IH.
Qed.
Lemma kept_right : forall c p v, kept seen crew c p v -> f_dir fs p = true -> exists o, lookup_desc fs js (Some (nm c)) p = PRet (Ok o) /\ okeq o v.
Proof.
  intros c p v H Hp.
  assert (G : forall d o, same_path d p -> lookup_desc fs js (Some (nm c)) d = PRet (Ok o) -> okeq o v -> exists o, lookup_desc fs js (Some (nm c)) p = PRet (Ok o) /\ okeq o v).
  { intros d o Hs Hl Ho. pose proof (look_same fs Hfs js (nm c) p d (eq_sym Hs)) as H'. rewrite Hl in H'.
    destruct (lookup_desc fs js (Some (nm c)) p) as [[o'|e]|m|]; cbn [creq leq] in H'; try contradiction. exists o'. split; [reflexivity|eapply okeq_trans; eassumption]. }
  destruct H as [R w name d pk HR Hc Hn (x & -> & ->) Hs Hd Hf Hk|R w name d HR Hc Hn (x & -> & ->) Hs Hd Hb]; wd; destruct (crew_name R name HR Hn) as (-> & _ & _).
  - destruct (scanned_right R _ d _ HR Hn Hd Hk) as (pk0 & E & He). rewrite Hc in *. apply (G d (Some pk0) Hs); [|exact He].
    rewrite (look_here fs js (nm c) d Hd Hf), E. reflexivity.
  - rewrite Hc in *. apply (G d None Hs); [|exact I]. rewrite (look_dir fs js (nm c) d Hd), (bare_search _ _ Hb). reflexivity.
Qed.
Lemma noted_right : forall i p t, noted seen crew i p t -> f_file fs p = true -> f_mtime fs p = MTime t.
Proof. intros i p t (R & w & q & _ & _ & (x & -> & ->) & Hs & (s & Hr) & Hm) Hf. wd. rewrite <- Hm. symmetry. apply (sf_plain _ Hfs); [assumption|congruence|assumption]. Qed.
Lemma found_search : forall name p d l1 l2, lineage p = l1 ++ d :: l2 -> Forall (fun q => f_file fs (join q name) = false) l1 -> f_file fs (join d name) = true ->
  search fs name p = Some d.
Proof.
  intros name p d l1 l2 E H Hd. unfold search. rewrite E. clear E. induction H as [|q l Hq Hl IH]; cbn [app find]; [rewrite Hd; reflexivity|]. rewrite Hq. exact IH.
Qed.
Lemma consulted_right : forall R, crew R -> forall p x, consulted seen crew (standing fs) R p x -> some_desc fs R p x.
Proof.
  intros R HR p x H. unfold some_desc, has_desc, bad_desc, fallen_desc.
  induction H as [p Hn|p q x name Hn Hd Hp H IH|p name Hn Hd Hp|p v name Hn Hd Hk Hf|p v name t now Hn Hd Hk Hf Ht Hm _ _|p v name t now Hn Hd Hk Hf Ht Hm Hl
    |p v name t Hn Hd Hk Hf Ht Hm|p v name t Hn Hd Hk Hf Ht Hm|p x name Hn Hd Hf H|p d l1 l2 x name Hn Hd Hne El Hall Hf H IH|p name Hn Hd Hb _]; wd.
  1:{ exists None. rewrite Hn. split; [reflexivity|constructor]. }
  all: destruct (crew_name R name HR Hn) as (En & Ej & Edbg); rewrite Hn, Ej in *; subst name.
  - rewrite (look_up fs js (nm (rv_cache R)) p q Hd Hp). exact IH.
  - apply look_top; assumption.
  - destruct (kept_right _ p v Hk Hd) as (o & Ho & He). exists o. split; [exact Ho|apply pkgeq_read, He].
  - destruct (kept_right _ p v Hk Hd) as (o & Ho & He). exists o. split; [exact Ho|apply pkgeq_read, He].
  - pose proof (noted_right _ _ _ Ht Hf) as E. rewrite E in Hm. injection Hm as ->. destruct (N.lt_irrefl _ Hl).
  - pose proof (noted_right _ _ _ Ht Hf) as E. congruence.
  - pose proof (noted_right _ _ _ Ht Hf) as E. congruence.
  - rewrite (look_here fs js (nm (rv_cache R)) p Hd Hf). pose proof (scanned_right R _ p x HR Hn Hd H) as Hs.
    destruct x as [[pk|]|e|]; cbn [says] in Hs; [|contradiction| |].
    + destruct Hs as (pk0 & E & He). exists (Some pk0). rewrite E. split; [reflexivity|apply pkgeq_read; exact He].
    + rewrite Hs. reflexivity.
    + destruct Hs as [m E]. exists m. rewrite E. reflexivity.
  - pose proof (found_search _ _ _ _ _ El Hall Hf) as Es. rewrite (look_found fs Hfs js (nm (rv_cache R)) p d Hd Es). exact IH.
  - exists None. rewrite (look_dir fs js (nm (rv_cache R)) p Hd), (bare_search _ _ Hb). split; [reflexivity|constructor].
Qed.
End Still.

(** ** A concrete case: an edit within the refresh period, and a description that is gone *)
Definition T61 : list (string * json) := ([("A", O [("main", S_ "./a.js"); ("sideEffects", JBool false)]); ("B", O [("main", S_ "./b.js")])])%string.
Definition R61 : resolver := mkR dflt T61.
Definition tree61 (l : list (string * node)) : node := D [("r", D (l ++ [("a.js", F); ("b.js", F)]))]%string.
Definition w61a : fsys := W (tree61 [("package.json", Posix.NFile (lit "A") 5000%N)]%string).
(* edited a little later *)
Definition w61b : fsys := W (tree61 [("package.json", Posix.NFile (lit "B") 5001%N)]%string).
(* gone *)
Definition w61c : fsys := W (tree61 []).
Definition h61 (w : fsys) : list event := [ECall (CSide R61 40 (lit "/r")); EFs w].
Definition after61 (w : fsys) (c : call) : outcome answer :=
  let '(_, fs, st) := run_history w61a st0 (h61 w) in out fs st (call_prog c).
Lemma keyed61 : forall f base req, keyed (CResolve R61 f base req).
Proof. intros f base req H. destruct (H eq_refl). Qed.
Lemma runs61 : after61 w61b (CResolve R61 40 (lit "/") (lit "./r")) = at_path "/r/a.js" /\
  out w61b st0 (call_prog (CResolve R61 40 (lit "/") (lit "./r"))) = at_path "/r/b.js" /\
  after61 w61c (CSide R61 40 (lit "/r")) = Done (ASide (Ok (Some (lit "/r/package.json", Some (SEBool false))))) /\
  out w61c st0 (call_prog (CSide R61 40 (lit "/r"))) = Done (ASide (Ok None)).
Proof. repeat split; vm_compute; reflexivity. Qed.
Definition pk61 : pkg := mkPkg (lit "/r") None None [] None None (Some (SEBool false)) (O [("main", S_ "./a.js"); ("sideEffects", JBool false)])%string.
Lemma gone61 : consulted (each (fun w => In w (systems w61a (h61 w61c)))) (fun R => In R [R61; R61]) (standing w61c) R61 (lit "/r") (Has (Some pk61)) /\
  ~ some_desc w61c R61 (lit "/r") (Has (Some pk61)).
Proof.
  split.
  - eapply CsGone with (name := lit "package.json"); [reflexivity|vm_compute; reflexivity| |vm_compute; reflexivity].
    apply KpRead with (R := R61) (w := standing w61a) (name := lit "package.json") (d := lit "/r"); try reflexivity; try (left; reflexivity); [exists w61a; split; [left|]; reflexivity|].
    apply (ScDone _ _ (standing w61a) R61 (lit "package.json") (lit "/r") (p_raw pk61) [] [] None None (Some (SEBool false))); [exists (lit "A"), 5000%N; repeat split; reflexivity|reflexivity|constructor|reflexivity|reflexivity|reflexivity].
  - intros (o & Ho & Hr). unfold has_desc in Ho. vm_compute in Ho. injection Ho as <-. inversion Hr.
Qed.

(** A file replaced between the reading of its text and the reading of its time. *)
Definition w61d : fsys := W (tree61 [("package.json", Posix.NFile (lit "B") 9000000000%N)]%string).
Definition sched61 : list (fsys * nat) := repeat (w61a, 0) 4 ++ repeat (w61d, 0) 20.
Definition seen61 (fs : fsys) : Prop := fs = w61a \/ fs = w61d.
Definition torn61 : state := snd (run_moving sched61 st0 (map call_prog [CSide R61 40 (lit "/r")])).
Lemma seen61_sched : Forall (fun x => seen61 (fst x)) sched61.
Proof. apply Forall_app; split; apply Forall_forall; intros x Hx; apply repeat_spec in Hx; subst x; [left|right]; reflexivity. Qed.
Lemma torn61_runs : out w61d torn61 (call_prog (CResolve R61 40 (lit "/") (lit "./r"))) = at_path "/r/a.js" /\
  out w61d st0 (call_prog (CResolve R61 40 (lit "/") (lit "./r"))) = at_path "/r/b.js" /\
  (let '(_, fs, st) := run_history w61a st0 (h61 w61d) in out fs st (call_prog (CResolve R61 40 (lit "/") (lit "./r")))) = at_path "/r/b.js".
Proof. repeat split; vm_compute; reflexivity. Qed.
