(** * Examples for PropDesc.v *)
From Coq Require Import String.
From Coq Require Import List Arith NArith Bool Lia.
From Verif Require Import Str Path Json Types Parse Map Prog Desc Resolve Top Run Posix Demo SpecJson SpecRun LookupP SpecDesc DescP.
Import ListNotations.
Local Open Scope string_scope.

(** /r/package.json is rewritten while the second call waits. *)
Definition T56 : list (string * json) :=
  [("A", O [("name", S_ "p")]);
   ("B", O [("name", S_ "q"); ("version", JNull); ("browser", O [("./a", S_ "./b"); ("n", JNum (lit "1")); ("./b", S_ "./c.js"); ("./x", JBool false)]);
            ("exports", S_ "./a.js"); ("sideEffects", JArr [S_ "*.css"])])].
Definition w56 (content : string) (t : N) : fsys :=
  W (D [("r", D [("package.json", NFile (lit content) t); ("a.js", F); ("c.js", F)])]).
Definition wA := w56 "A" 1000000000%N. Definition wB := w56 "B" 3000000000%N.
Definition R56 : resolver := mkR (with_browser dflt true) T56.
Definition calls56 : list call := [CSide R56 10 (lit "/r"); CResolve R56 10 (lit "/r") (lit "./c")].
Definition sched56 : list (fsys * nat) := [(wA, 0); (wA, 1)] ++ repeat (wA, 0) 18 ++ repeat (wB, 1) 30.
Definition seen56 (fs : fsys) : Prop := fs = wA \/ fs = wB.
Definition st56 : state := snd (run_moving sched56 (empty_state (fun _ => [])) (map call_prog calls56)).
Lemma T56_wf : forall s j, js_of T56 s = Some j -> wf_json j.
Proof.
  intros s j H. unfold js_of, T56 in H. cbn [map fst snd imap_get] in H.
  destruct (str_eqb (lit "A") s); [injection H as <-; cbn; tauto|]. destruct (str_eqb (lit "B") s); [|discriminate H]. injection H as <-.
  cbn. repeat split; try exact I; [discriminate|repeat constructor].
Qed.
Lemma calls56_read : Forall (call_reads (js_of T56) (fun _ => lit "package.json")) calls56.
Proof. repeat (constructor; [split; [reflexivity|right; reflexivity]|]). constructor. Qed.
Lemma sched56_seen : Forall (fun x => seen56 (fst x)) sched56.
Proof.
  unfold sched56. repeat (apply Forall_app; split).
  - repeat (constructor; [left; reflexivity|]). constructor.
  - apply Forall_forall. intros x Hx. apply repeat_spec in Hx. subst x. left. reflexivity.
  - apply Forall_forall. intros x Hx. apply repeat_spec in Hx. subst x. right. reflexivity.
Qed.
Definition i56 : info := mkInfo (lit "/r") (parse (lit "./a?q")).
Definition pk56 : pkg := mkPkg (lit "/r") (Some (lit "q")) None
  [(lit "./a", ATarget (lit "./b")); (lit "./b", ATarget (lit "./c.js")); (lit "./x", AIgnored)]
  (match build_exports (S_ "./a.js") with PRet (Ok t) => Some t | _ => None end) None (Some (SEArray [lit "*.css"])) (snd (nth 1 T56 ("", JNull))).
Lemma ex56 : ((forall s j, js_of T56 s = Some j -> wf_json j) /\ Forall (call_reads (js_of T56) (fun _ => lit "package.json")) calls56 /\
  Forall (fun x => seen56 (fst x)) sched56 /\ reads_with (js_of T56) (fun _ => lit "package.json") R56) /\
  out wA st0 (call_prog (CSide R56 10 (lit "/r"))) = Done (ASide (Ok (Some (lit "/r/package.json", None)))) /\
  s_pkg st56 0 (components (lit "/r")) = Some (Some pk56) /\
  fst (run wB (load_pkg_file R56 10 (lit "/r/no/such")) st56) = Done (Ok (Some pk56)) /\
  fst (run wB (load_side_effects R56 10 (lit "/r")) st56) = Done (Ok (Some (lit "/r/package.json", Some (SEArray [lit "*.css"])))).
Proof.
  split; [exact (conj T56_wf (conj calls56_read (conj sched56_seen (conj eq_refl (or_intror eq_refl)))))|]. repeat split; vm_compute; reflexivity.
Qed.
Lemma entry56 : forall k e, browser_entry (p_raw pk56) k e <-> In (k, e) (p_alias pk56).
Proof.
  assert (H : told seen56 (js_of T56) (lit "package.json") pk56); [|intros k e; symmetry; apply H].
  eapply fin_56_tables with (nm := fun _ => lit "package.json") (c := 0); [exact T56_wf|exact calls56_read|exact sched56_seen|]. apply ex56.
Qed.
Lemma ex26 : (exists st1, run wB (load_pkg_file R56 40 (get_path i56)) st56 = (Done (Ok (Some pk56)), st1)) /\
  browser_entry (p_raw pk56) (lit "./a") (ATarget (lit "./b")) /\ browser_key (rv_opts R56) (p_dir pk56) i56 (lit "./a") /\
  (forall k v, browser_entry (p_raw pk56) k v -> browser_key (rv_opts R56) (p_dir pk56) i56 k -> k = lit "./a") /\
  leads (p_raw pk56) (ATarget (lit "./b")) (ATarget (lit "./c.js")) /\
  out wB st56 (resolve R56 40 (lit "/r") (lit "./a?q")) = found "/r/c.js" "?q" "" /\
  out wB st56 (resolve R56 40 (lit "/r") (lit "./x")) = Done (Ok RIgnored).
Proof.
  split; [eexists; vm_compute; reflexivity|]. split; [apply entry56; left; reflexivity|]. split; [left; vm_compute; reflexivity|]. split; [|split; [|split; vm_compute; reflexivity]].
  - intros k v He Hk. apply entry56 in He. apply should_deal_spec with (pk := pk56) in Hk.
    destruct He as [E|[E|[E|[]]]]; injection E as <- <-; [reflexivity|vm_compute in Hk; discriminate Hk..].
  - eapply LdStep; [apply entry56; right; left; reflexivity|]. apply LdEnd. intros e He. apply entry56 in He. destruct He as [E|[E|[E|[]]]]; vm_compute in E; discriminate E.
Qed.
