(** * Worlds and runs witnessing that some intended properties fail. *)
From Coq Require Import String.
From Coq Require Import List Arith NArith Bool Lia.
From Verif Require Import Str Path Json Types Parse Map Prog Desc Resolve Top Run Posix Demo Exec ExecP FuelP RunP.
Import ListNotations.

(** ** C16: divergence *)
Definition Ra : resolver := mkR (with_alias dflt [(lit "a", ATarget (lit "b")); (lit "b", ATarget (lit "a"))]) [].
Lemma alias_cycle : forall f fs load st base q fr k s, contains base MODULE = false -> s = lit "a" \/ s = lit "b" ->
  run fs (resolve_ Ra load f (mkInfo base (mkReq s q fr k))) st = (NoFuel, st).
Proof.
  induction f as [|f IH]; intros fs load st base q fr k s Hb Hs; [reflexivity|]. cbn [resolve_].
  rewrite run_bind, !run_and_then. unfold alias_apply. cbn [i_path i_req]. rewrite Hb.
  change (o_alias (rv_opts Ra)) with [(lit "a", ATarget (lit "b")); (lit "b", ATarget (lit "a"))].
  destruct Hs as [-> | ->]; cbn [alias_loop i_req r_target].
  - change (starts_with (lit "a") (lit "a")) with true. change (str_eqb (lit "a") (lit "b") || starts_with (lit "a") (lit "b")) with false.
    cbv iota. rewrite run_bind. unfold req_with_target. cbn [i_req r_query r_fragment]. rewrite IH; auto.
  - change (str_eqb (lit "b") (lit "a") || starts_with (lit "b") (lit "a")) with false.
    change (starts_with (lit "b") (lit "a")) with false. change (starts_with (lit "b") (lit "b")) with true.
    cbv iota. rewrite run_bind. unfold req_with_target. cbn [i_req r_query r_fragment]. rewrite IH; auto.
Qed.
Lemma alias_cycle_diverges : forall fs st base f, contains base MODULE = false ->
  out fs st (resolve Ra f base (lit "a")) = NoFuel.
Proof.
  intros fs st base f Hb. unfold out, resolve, resolve_with. rewrite run_bind.
  change (o_tsconfig (rv_opts Ra)) with (@None path). cbv iota.
  change (parse (lit "a")) with (mkReq (lit "a") [] [] Normal). rewrite alias_cycle; auto.
Qed.

(** imports: ["#a": "#a"] *)
Definition wi : fsys := W (D [("r"%string, D [("package.json"%string, PJ "P")])]).
Definition Ri : resolver := mkR dflt [("P"%string, O [("imports"%string, O [("#a"%string, S_ "#a")])])].
Lemma imports_cycle : forall R load pk root, p_imports pk = Some root ->
  field_process FImports root (lit "#a") (o_conditions (rv_opts R)) = PRet (Ok [lit "#a"]) ->
  forall f fs st i, r_target (i_req i) = lit "#a" -> run fs (imports_apply R load f (Some pk) i) st = (NoFuel, st).
Proof.
  intros R load pk root Hp Hf. induction f as [|f IH]; intros fs st i Hi; [reflexivity|]. cbn [imports_apply].
  rewrite Hi, Hp. change (negb (starts_with_char (lit "#a") c_hash)) with false. cbv iota. rewrite Hf. cbn [lift bind].
  change (parse (lit "#a")) with (mkReq (lit "#a") [] [] Internal). cbn [r_kind]. apply IH. reflexivity.
Qed.
Lemma imports_cycle_diverges : forall f, out wi st0 (resolve Ri f (lit "/r") (lit "#a")) = NoFuel.
Proof.
  apply (diverges_from _ _ _ 5); [intros; apply resolve_fle; assumption|]. intros f.
  unfold out, resolve, resolve_with. rewrite run_bind. change (o_tsconfig (rv_opts Ri)) with (@None path). cbv iota.
  change (5 + f) with (S (4 + f)) at 2. cbn [resolve_]. rewrite run_bind, !run_and_then.
  set (i := mkInfo (lit "/r") (parse (lit "#a"))).
  assert (E1 : forall rec, alias_apply Ri rec i = Ret (Resolving i)) by (intros; vm_compute; reflexivity).
  assert (E2 : forall rec, prefer_relative_apply Ri rec i = Ret (Resolving i)) by (intros; vm_compute; reflexivity).
  rewrite E1. cbn [run]. rewrite E2. cbn [run]. unfold pkg_step.
  change (match r_kind (i_req i) with Normal => join (join (i_path i) MODULE) (r_target (i_req i)) | _ => get_path i end)
    with (lit "/r/#a"). rewrite run_bind.
  assert (E3 : exists pk root st, run wi (load_pkg_file Ri 5 (lit "/r/#a")) st0 = (Done (Ok (Some pk)), st) /\
     p_imports pk = Some root /\ field_process FImports root (lit "#a") (o_conditions (rv_opts Ri)) = PRet (Ok [lit "#a"])).
  { do 3 eexists. split; [vm_compute; reflexivity|]. split; vm_compute; reflexivity. }
  destruct E3 as [pk [root [st [E3 [E4 E5]]]]].
  rewrite (done_from (fun f => load_pkg_file Ri f (lit "/r/#a")) _ _ 5 _ _ (fun f f' H => load_fle Ri f f' _ H) E3 ltac:(discriminate) (5 + f) ltac:(lia)).
  rewrite run_and_then. rewrite (imports_cycle _ _ _ _ E4 E5); reflexivity.
Qed.

(** browser: ["./a": "./b", "./b": "./a"] *)
Definition wb : fsys := W (D [("r"%string, D [("package.json"%string, PJ "P"); ("a.js"%string, F)])]).
Definition Rb : resolver := mkR (with_browser dflt true)
  [("P"%string, O [("browser"%string, O [("./a"%string, S_ "./b"); ("./b"%string, S_ "./a")])])].
Lemma chase_cycle : forall af, imap_get af (lit "./a") = Some (ATarget (lit "./b")) ->
  imap_get af (lit "./b") = Some (ATarget (lit "./a")) ->
  forall f s, s = lit "./a" \/ s = lit "./b" -> chase f (ATarget s) af = PFuel.
Proof.
  intros af H1 H2. induction f as [|f IH]; intros s Hs; [reflexivity|]. cbn [chase].
  destruct Hs as [-> | ->]; [rewrite H1|rewrite H2]; apply IH; auto.
Qed.
Lemma browser_cycle_diverges : forall f, out wb st0 (resolve Rb f (lit "/r") (lit "./a")) = NoFuel.
Proof.
  apply (diverges_from _ _ _ 5); [intros; apply resolve_fle; assumption|]. intros f.
  unfold out, resolve, resolve_with. rewrite run_bind. change (o_tsconfig (rv_opts Rb)) with (@None path). cbv iota.
  change (5 + f) with (S (4 + f)) at 2. cbn [resolve_]. rewrite run_bind, !run_and_then.
  set (i := mkInfo (lit "/r") (parse (lit "./a"))).
  assert (E1 : forall rec, alias_apply Rb rec i = Ret (Resolving i)) by (intros; vm_compute; reflexivity).
  assert (E2 : forall rec, prefer_relative_apply Rb rec i = Ret (Resolving i)) by (intros; vm_compute; reflexivity).
  rewrite E1. cbn [run]. rewrite E2. cbn [run]. unfold pkg_step.
  change (match r_kind (i_req i) with Normal => join (join (i_path i) MODULE) (r_target (i_req i)) | _ => get_path i end)
    with (lit "/r/./a"). rewrite run_bind.
  assert (E3 : exists pk l st, run wb (load_pkg_file Rb 5 (lit "/r/./a")) st0 = (Done (Ok (Some pk)), st) /\
     p_alias pk = (lit "./a", ATarget (lit "./b")) :: l /\ imap_get (p_alias pk) (lit "./a") = Some (ATarget (lit "./b")) /\
     imap_get (p_alias pk) (lit "./b") = Some (ATarget (lit "./a")) /\ should_deal_alias Rb pk i (lit "./a") = true).
  { do 3 eexists. split; [vm_compute; reflexivity|]. repeat split; vm_compute; reflexivity. }
  destruct E3 as [pk [l [st [E3 [E4 [E5 [E6 E7]]]]]]].
  rewrite (done_from (fun f => load_pkg_file Rb f (lit "/r/./a")) _ _ 5 _ _ (fun f f' H => load_fle Rb f f' _ H) E3 ltac:(discriminate) (5 + f) ltac:(lia)).
  rewrite run_and_then. cbn [imports_apply].
  change (negb (starts_with_char (r_target (i_req i)) c_hash)) with true. cbn [run].
  unfold alias_field_apply. change (negb (o_browser (rv_opts Rb))) with false. cbv iota.
  rewrite E4. cbn [alias_field_loop]. rewrite E7, run_bind, run_lift, (chase_cycle _ E5 E6); auto.
Qed.

(** tsconfig: extends itself *)
Definition wt : fsys := W (D [("r"%string, D [("tsconfig.json"%string, PJ "T")])]).
Definition Rt : resolver := mkR (with_desc (with_tsconfig dflt (Some (lit "/r/tsconfig.json"))) None)
  [("T"%string, O [("extends"%string, S_ "./tsconfig.json")])].
Lemma load_nodesc : forall R f p, o_desc (rv_opts R) = None -> load_pkg_file R (S f) p = Ret (Ok None).
Proof. intros R f p H. cbn [load_pkg_file]. rewrite H. reflexivity. Qed.
Lemma extends_cycle : forall f n loc st, loc = lit "/r/tsconfig.json" \/ loc = lit "/r/./tsconfig.json" ->
  run wt (parse_file_to_value Rt (load_pkg_file Rt (S n)) f loc) st = (NoFuel, st).
Proof.
  induction f as [|f IH]; intros n loc st Hl; [reflexivity|]. cbn [parse_file_to_value]. rewrite run_act.
  cbn [step fst snd].
  assert (E1 : f_read wt loc = Some (lit "T")) by (destruct Hl; subst; vm_compute; reflexivity). rewrite E1.
  assert (E2 : parent loc = Some (lit "/r")) by (destruct Hl; subst; vm_compute; reflexivity).
  set (ext := lit "./tsconfig.json").
  change (rv_jsonc Rt (lit "T")) with (JCVal (O [("extends"%string, S_ "./tsconfig.json")])).
  cbv iota beta. rewrite E2.
  change (jget (O [("extends"%string, S_ "./tsconfig.json")]) (lit "extends")) with (Some (JStr ext)).
  cbv iota beta. rewrite run_bind.
  assert (E3 : run wt (resolve_ Rt (load_pkg_file Rt (S n)) (S f) (mkInfo (lit "/r") (parse ext))) st =
    (Done (Success (RInfo (mkInfo (lit "/r/./tsconfig.json") (mkReq [] [] [] Relative)))), st)).
  { cbn [resolve_]. rewrite run_bind, !run_and_then.
    set (i := mkInfo (lit "/r") (parse ext)).
    assert (F1 : forall rec, alias_apply Rt rec i = Ret (Resolving i)) by (intros; vm_compute; reflexivity).
    assert (F2 : forall rec, prefer_relative_apply Rt rec i = Ret (Resolving i)) by (intros; vm_compute; reflexivity).
    rewrite F1. cbn [run]. rewrite F2. cbn [run]. unfold pkg_step. rewrite load_nodesc by reflexivity. cbn [bind].
    rewrite run_and_then. cbn [imports_apply run].
    change (alias_field_apply Rt (S f) None i) with (Ret (Resolving i)). cbn [run].
    unfold final_step. change (r_kind (i_req i)) with Relative. cbv iota. rewrite run_and_then.
    vm_compute. reflexivity. }
  rewrite E3. cbv iota beta. unfold try_. rewrite run_bind. rewrite IH; auto.
Qed.
Lemma extends_cycle_diverges : forall f st, out wt st (resolve Rt f (lit "/r") (lit "x")) = NoFuel.
Proof.
  intros f st. destruct f as [|f]; [reflexivity|]. unfold out, resolve, resolve_with. rewrite run_bind.
  change (o_tsconfig (rv_opts Rt)) with (Some (lit "/r/tsconfig.json")). cbv iota. unfold resolve_with_tsconfig.
  rewrite run_bind, extends_cycle; auto.
Qed.

(** a base directory given as a relative path *)
Definition wr : fsys := W (D [("d"%string, D [("x.js"%string, F)])]).
Definition Rr : resolver := mkR dflt [].
Lemma none_loop_spins : forall f R fs st p, f_dir fs p = false -> run fs (none_loop R f p) st = (NoFuel, st).
Proof.
  induction f as [|f IH]; intros R fs st p Hp; [reflexivity|]. cbn [none_loop]. rewrite run_act. cbn [step fst snd].
  rewrite Hp. apply IH, Hp.
Qed.
Lemma relative_base_diverges : forall f, out wr st0 (resolve Rr f (lit "d") (lit "./x.js")) = NoFuel.
Proof.
  apply (diverges_from _ _ _ 5); [intros; apply resolve_fle; assumption|]. intros f.
  unfold out, resolve, resolve_with. rewrite run_bind. change (o_tsconfig (rv_opts Rr)) with (@None path). cbv iota.
  change (5 + f) with (S (4 + f)) at 2. cbn [resolve_]. rewrite run_bind, !run_and_then.
  set (i := mkInfo (lit "d") (parse (lit "./x.js"))).
  assert (E1 : forall rec, alias_apply Rr rec i = Ret (Resolving i)) by (intros; vm_compute; reflexivity).
  assert (E2 : forall rec, prefer_relative_apply Rr rec i = Ret (Resolving i)) by (intros; vm_compute; reflexivity).
  rewrite E1. cbn [run]. rewrite E2. cbn [run]. unfold pkg_step.
  change (match r_kind (i_req i) with Normal => join (join (i_path i) MODULE) (r_target (i_req i)) | _ => get_path i end)
    with (lit "d/./x.js"). rewrite run_bind.
  assert (E3 : exists st, run wr (load_pkg_file Rr (5 + f) (lit "d/./x.js")) st0 = (NoFuel, st)).
  { change (5 + f) with (S (S (3 + f))). cbn [load_pkg_file].
    change (o_desc (rv_opts Rr)) with (Some (lit "package.json")). cbv iota beta.
    rewrite run_act. cbn [step fst snd]. change (negb (f_dir wr (lit "d/./x.js"))) with true. cbv iota.
    change (parent (lit "d/./x.js")) with (Some (lit "d")). cbv iota.
    rewrite run_act. cbn [step fst snd]. change (negb (f_dir wr (lit "d"))) with false. cbv iota.
    rewrite run_act. change (fst (step wr st0 (OPkgGet (rv_cache Rr) (lit "d")))) with (@None (option pkg)). cbv iota.
    rewrite run_act. cbn [step fst snd]. change (f_file wr (join (lit "d") (lit "package.json"))) with false. cbv iota.
    rewrite run_bind.
    assert (F : run wr (find_up 3 (lit "d") (lit "package.json")) st0 = (Done None, st0)) by (vm_compute; reflexivity).
    rewrite (done_from (fun f => find_up f (lit "d") (lit "package.json")) _ _ 3 _ _ (fun f f' H => find_up_fle f f' _ _ H) F ltac:(discriminate) (3 + f) ltac:(lia)).
    change (3 + f) with (S (2 + f)). cbn [none_loop]. rewrite run_act. cbn [step fst snd].
    change (f_dir wr (lit "d")) with true. cbv iota. rewrite run_act. cbn [step fst snd].
    change (parent (lit "d")) with (Some (@nil char)). cbv iota. eexists. apply none_loop_spins. reflexivity. }
  destruct E3 as [st E3]. rewrite E3. reflexivity.
Qed.

(** ** Concrete runs *)
Definition res_at (st : state) (fs : fsys) (R : resolver) (base req : string) : outcome (result rresult) :=
  out fs st (resolve R 40 (lit base) (lit req)).
(** The tables after one call. *)
Definition after (st : state) (fs : fsys) (R : resolver) (base req : string) : state :=
  snd (run fs (resolve R 40 (lit base) (lit req)) st).
(** The same empty tables, but the next hash map is iterated backwards. *)
Definition st0' : state := empty_state (fun _ => [1; 0]).
Definition panics (o : outcome (result rresult)) : Prop := exists m, o = Panicked m.

Definition ends_at (o : outcome (result rresult)) (p : string) : Prop :=
  exists i, o = Done (Ok (RInfo i)) /\ i_path i = lit p.
Ltac conc := repeat match goal with |- _ /\ _ => split | |- panics _ => eexists | |- ends_at _ _ => eexists; split end; vm_compute; reflexivity.

Local Open Scope string_scope.
Definition w12 : fsys := W (D [("r", D [("a", D [("node_modules", D [("pkg", D [])])]);
  ("node_modules", D [("index.js", F); ("pkg", D [("index.js", F)])])])]).
Lemma C12_w : ends_at (res w12 Rr "/r/a" "pkg") "/r/node_modules/index.js" /\
  ends_at (res w12 Rr "/r" "pkg") "/r/node_modules/pkg/index.js".
Proof. conc. Qed.

Definition w15 : fsys := W (D [("r", D [("d", D []); ("tsconfig.json", PJ "P");
  ("node_modules", D [("p", D [("package.json", PJ "P"); ("x.js", F)]);
     ("@p", D [("package.json", PJ "P")]) ])])]).
Definition e_acute : str := [233]%N.
Lemma C15_w :
  panics (res w15 Rr "/r" "./d") /\
  panics (res w15 (mkR dflt [("P", O [("exports", JNull)])]) "/r" "p") /\
  panics (res w15 (mkR dflt [("P", O [("exports", JArr [JArr [S_ "./x.js"]])])]) "/r" "p") /\
  panics (res w15 (mkR dflt [("P", O [("imports", S_ "./x.js")])]) "/r" "p") /\
  panics (res w15 (mkR dflt [("P", O [("browser", O [("./x.js", JBool true)])])]) "/r" "p") /\
  panics (res w15 (mkR dflt [("P", O [("exports", O [(".", S_ "./x.js")])])]) "/r" "@p") /\
  panics (out w15 st0 (resolve Rr 40 (lit "/r") (e_acute ++ lit "/x")%list)) /\
  panics (res w15 (mkR (with_tsconfig dflt (Some (lit "/r/tsconfig.json")))
     [("P", O [("compilerOptions", O [("baseUrl", JNull)])])]) "/r" "p") /\
  panics (out w15 st0 (resolve (mkR (with_tsconfig dflt (Some (lit "/r/tsconfig.json")))
     [("P", O [("compilerOptions", O [("baseUrl", S_ "."); ("paths", O [("a*", JArr [])])])])]) 40 (lit "/r") (e_acute ++ lit "x")%list)) /\
  panics (let R := new_resolver dflt 0 0 true (js_of []) (jsc_of []) in
          res_at (after st0 w15 R "/r" "p") w15 R "/r" "p").
Proof. conc. Qed.

Definition w19 : fsys := W (D [("r", D [("libbar.js", F); ("node_modules", D [("foobar", D [("index.js", F)])])])]).
Definition R19 : resolver := mkR (with_alias dflt [(lit "foo", ATarget (lit "/r/lib"))]) [].
Lemma C19_w : ends_at (res w19 R19 "/r" "foobar") "/r/libbar.js" /\
  ends_at (res w19 Rr "/r" "foobar") "/r/node_modules/foobar/index.js".
Proof. conc. Qed.

Definition w23 : fsys := W (D [("r", D [("p", D [("package.json", PJ "P"); ("a", D [("b.js", F)]); ("b.js", F)])])]).
Definition R23 (l : list str) : resolver := mkR (with_fields dflt l) [("P", O [("module", S_ "a"); ("main", S_ "b")])].
Lemma C23_w : panics (res w23 (R23 [lit "module"]) "/r" "./p") /\
  ends_at (res w23 (R23 [lit "main"]) "/r" "./p") "/r/p/b.js" /\
  ends_at (res w23 (R23 [lit "module"; lit "main"]) "/r" "./p") "/r/p/a/b.js".
Proof. conc. Qed.

Definition w27 : fsys := W (D [("r", D [("package.json", PJ "P"); ("a.js", F); ("x.js", F); ("y.js", F); ("tsconfig.json", PJ "T")])]).
Definition R27 : resolver := mkR (with_browser dflt true)
  [("P", O [("browser", O [("./a", S_ "./x"); ("./a.js", S_ "./y")])])].
Definition R27t : resolver := mkR (with_tsconfig dflt (Some (lit "/r/tsconfig.json")))
  [("P", O []); ("T", O [("compilerOptions", O [("baseUrl", S_ ".");
     ("paths", O [("l*", JArr [S_ "./x"]); ("*b", JArr [S_ "./y"])])])])].
Lemma C27_w : ends_at (res_at st0 w27 R27 "/r" "./a") "/r/x.js" /\
  ends_at (res_at st0' w27 R27 "/r" "./a") "/r/y.js" /\
  ends_at (res_at st0 w27 R27t "/r" "lib") "/r/x.js" /\
  ends_at (res_at st0' w27 R27t "/r" "lib") "/r/y.js".
Proof. conc. Qed.

Definition with_conds (o : options) c := mkOpts (o_extensions o) (o_enforce o) (o_alias o) (o_prefer_relative o) (o_symlinks o)
  (o_desc o) (o_main_files o) (o_main_fields o) (o_browser o) c (o_tsconfig o).
Definition w37 : fsys := W (D [("r", D [("package.json", PJ "R"); ("i.js", F);
  ("node_modules", D [("p", D [("package.json", PJ "P"); ("i.js", F)])])])]).
Definition R37 : resolver := mkR (with_conds dflt [lit "#a"])
  [("P", O [("exports", O [("#a", S_ "./i.js")])]); ("R", O [("imports", O [("#a", S_ "./i.js")])])].
Lemma C37_w : ends_at (res w37 R37 "/r" "p") "/r/node_modules/p/i.js" /\
  ends_at (res w37 R37 "/r" "./i") "/r/i.js" /\
  res_at (after st0 w37 R37 "/r" "./i") w37 R37 "/r" "p" = failed "Package path p is not exported".
Proof. conc. Qed.
(** The two calls as threads: the first runs to its end before the second starts. *)
Definition two37 : list (prog (result rresult)) :=
  [resolve R37 40 (lit "/r") (lit "./i"); resolve R37 40 (lit "/r") (lit "p")].
Lemma C38_w : nth_error (fst (run_sched w37 (repeat 0%nat 40 ++ repeat 1%nat 80)%list st0 two37)) 1 =
  Some (Ret (Err (lit "Package path p is not exported"))).
Proof. vm_compute. reflexivity. Qed.
Lemma C43_w : exists pk v t, out w37 (after st0 w37 R37 "/r" "./i") (load_pkg_file R37 40 (lit "/r/node_modules/p")) = Done (Ok (Some pk)) /\
  jget (p_raw pk) (lit "exports") = Some v /\ build_exports v = PRet (Ok t) /\ p_exports pk <> Some t.
Proof.
  do 3 eexists. split; [vm_compute; reflexivity|]. split; [vm_compute; reflexivity|].
  split; [vm_compute; reflexivity|]. cbv. discriminate.
Qed.

Definition w39 : fsys := W (D [("r", D [("node_modules", D [("p", D [("bower.json", PJ "B"); ("index.js", F); ("b.js", F)])])])]).
Definition T39 := [("B", O [("main", S_ "./b.js")])].
Definition R39 : resolver := new_resolver (with_desc dflt (Some (lit "bower.json"))) 0 0 false (js_of T39) (jsc_of T39).
Definition R39' : resolver := new_resolver dflt 0 1 false (js_of T39) (jsc_of T39).
Lemma C39_w : ends_at (res w39 R39' "/r" "p") "/r/node_modules/p/index.js" /\
  ends_at (res_at (after st0 w39 R39 "/r" "p") w39 R39' "/r" "p") "/r/node_modules/p/b.js".
Proof. conc. Qed.

(** A package that appears, changes, disappears. *)
Definition wv (id : string) (t : N) : fsys := W (D [("r", D [("a.js", F); ("b.js", F); ("index.js", F); ("package.json", NFile (lit id) t)])]).
Definition wno : fsys := W (D [("r", D [("a.js", F); ("b.js", F); ("index.js", F)])]).
Definition R41 : resolver := mkR dflt [("A", O [("main", S_ "a")]); ("B", O [("main", S_ "b")])].
Definition st41 : state := after st0 (wv "A" 1%N) R41 "/" "./r".
Definition wnew (b : bool) : fsys := W (D [("r", D (("s", D [("a.js", F)]) :: if b then [("package.json", PJ "A")] else []))]).
Definition R41i : resolver := mkR dflt [("A", O [("imports", O [("#x", S_ "./s/a.js")])])].
Lemma C41_edit_w : ends_at (res_at st41 (wv "B" 900000000%N) R41 "/" "./r") "/r/a.js" /\
  ends_at (res (wv "B" 900000000%N) R41 "/" "./r") "/r/b.js".
Proof. conc. Qed.
Lemma C41_delete_w : ends_at (res_at st41 wno R41 "/" "./r") "/r/a.js" /\ ends_at (res wno R41 "/" "./r") "/r/index.js".
Proof. conc. Qed.
Lemma C41_create_w : res_at (after st0 (wnew false) R41i "/r/s" "./a") (wnew true) R41i "/r/s" "#x" = failed "Resolve '#x' failed in '/r/s'" /\
  ends_at (res (wnew true) R41i "/r/s" "#x") "/r/s/a.js".
Proof. conc. Qed.
Lemma C41_older_w : res_at (after st0 (wv "A" 10%N) R41 "/" "./r") (wv "B" 5%N) R41 "/" "./r" = failed "Compare SystemTime failed in /./r/package.json" /\
  ends_at (res (wv "B" 5%N) R41 "/" "./r") "/r/b.js".
Proof. conc. Qed.
Lemma C42_w : let w := wv "bad" 3000000000%N in
  res_at st41 w R41 "/" "./r" = failed "Parse /./r/package.json failed" /\
  ends_at (res_at (after st41 w R41 "/" "./r") w R41 "/" "./r") "/r/a.js".
Proof. cbv zeta. conc. Qed.

Definition w47 : fsys := W (D [("r", D [("base", D [("tsconfig.json", PJ "B"); ("src", D [("x.js", F)])]);
  ("tsconfig.json", PJ "T"); ("src", D [("x.js", F)])])]).
Definition R47 : resolver := mkR (with_tsconfig dflt (Some (lit "/r/tsconfig.json")))
  [("T", O [("extends", S_ "./base/tsconfig.json")]);
   ("B", O [("compilerOptions", O [("baseUrl", S_ "./src"); ("paths", O [("lib/*", JArr [S_ "*"])])])])].
Lemma C47_w : ends_at (res w47 R47 "/r" "lib/x") "/r/src/x.js" /\
  ends_at (res w47 (mkR (with_tsconfig dflt (Some (lit "/r/base/tsconfig.json"))) [("B", O [("compilerOptions", O [("baseUrl", S_ "./src"); ("paths", O [("lib/*", JArr [S_ "*"])])])])]) "/r" "lib/x") "/r/base/src/x.js".
Proof. conc. Qed.
