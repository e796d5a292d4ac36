(** * Targets that stay inside: proofs for PropInside.v *)
From Coq Require Import String.
From Coq Require Import List Arith NArith Bool Lia.
From Verif Require Import Str StrP Path PathP Json Types Parse Map Prog Desc Resolve Top Run Posix PosixP GrownP Demo WitnessP SpecRun SpecMap SpecParse SpecExports SpecInside LookupTopP ExportsP PropExportsP.
Import ListNotations.

Lemma posix_dotdot : forall fuel root cwd, dotdot_dirs (posix_fs fuel root cwd).
Proof.
  intros fuel root cwd p. cbn [f_file posix_fs]. unfold posix_node. rewrite resolve_walk by (destruct p; discriminate).
  change (lit "/..") with (c_slash :: lit ".."). rewrite split_on_sep_app, walk_app.
  destruct (walk_path fuel root _ (split_on c_slash p)) as [c|]; [|reflexivity].
  change (split_on c_slash (lit "..")) with [lit ".."]. rewrite walk_cons. destruct (lookup root (rev c)) as [[| l |]|] eqn:E; try reflexivity.
  change (str_eqb (lit "..") [] || str_eqb (lit "..") s_dot)%bool with false. change (str_eqb (lit "..") s_dotdot) with true. cbv iota.
  rewrite walk_nil. destruct c as [|x c]; cbn [tl]; [rewrite E; reflexivity|]. cbn [rev] in E. rewrite lookup_app in E.
  destruct (lookup root (rev c)) as [[| |]|]; try reflexivity. discriminate.
Qed.
Lemma join_dd : forall d t, is_abs d = true -> t = lit ".." \/ (exists a, t = a ++ lit "/..") -> exists x, join d t = x ++ lit "/..".
Proof.
  intros d t Hd Ht. unfold join. destruct (is_abs t) eqn:Ea.
  - destruct Ht as [-> |[a ->]]; [discriminate|eauto].
  - destruct d as [|c d]; [discriminate|]. destruct (ends_with_char (c :: d) c_slash) eqn:El.
    + destruct Ht as [-> |[a ->]]; [|rewrite app_assoc; eauto].
      apply ends_with_char_spec in El. destruct El as [d' El]. rewrite El.
      exists d'. rewrite <- app_assoc. reflexivity.
    + destruct Ht as [-> |[a ->]]; [exists (c :: d); reflexivity|]. exists ((c :: d) ++ c_slash :: a). rewrite <- app_assoc. reflexivity.
Qed.
Lemma usable_wf : forall fs pk c, dotdot_dirs fs -> is_abs (p_dir pk) = true -> no_empty_segment c -> f_file fs (target_file pk c) = true -> well_formed_target c.
Proof.
  intros fs pk c Hd Ha [Hk Hs] Hf. split; [exact Hk|]. split; [exact Hs|]. intros a Ht.
  unfold target_file, get_path in Hf. cbn [i_req i_path] in Hf.
  destruct (str_eqb (r_target (parse c)) [] || str_eqb (r_target (parse c)) s_dot)%bool eqn:E.
  - apply orb_prop in E. destruct E as [E|E]; apply str_eqb_eq in E; rewrite E in Ht; destruct Ht as [Ht|Ht]; try discriminate;
      apply (f_equal (@length _)) in Ht; rewrite app_length in Ht; cbn in Ht; lia.
  - destruct (join_dd (p_dir pk) (r_target (parse c)) Ha) as [x Ex]; [destruct Ht; eauto|]. rewrite Ex, Hd in Hf. discriminate.
Qed.
Lemma fin_33e : forall fs R f base req n sub st d pk st' tree l r st'', dotdot_dirs fs ->
  comes_to fs R f base req n sub st d pk st' -> installed fs d n pk \/ p_name pk = Some n -> p_exports pk = Some tree ->
  selects R tree req sub l -> Forall no_empty_segment l ->
  (forall c, In c l -> browser_silent (rv_opts R) (Some pk) (mkInfo (p_dir pk) (parse c))) ->
  ~ enforced (rv_opts R) -> o_symlinks (rv_opts R) = false -> is_abs (p_dir pk) = true ->
  run fs (resolve R (S f) base req) st = (Done (Ok r), st'') ->
  exists i, r = RInfo i /\ within (p_dir pk) (i_path i).
Proof.
  intros fs R f base req n sub st d pk st' tree l r st'' Hdd Hc He Htr Hs Hw Hb Hen Hsy Ha H.
  assert (He' : entered fs d n sub (r_target (parse req)) pk).
  { destruct He as [He|He]; [apply installed_entered, He|]. apply own_entered; [|exact He]. apply Hc. }
  destruct (exports_decide fs R f base req n sub st d pk st' tree (Ok r) st'' Hc He' Htr H) as [G1 G2].
  destruct (first_usable_dec fs pk l) as [(c & Hfu)|Hn].
  - pose proof Hfu as (l1 & l2 & El & _ & Hu1 & Hu2). assert (Hin : In c l) by (subst l; apply in_or_app; right; left; reflexivity).
    rewrite Forall_forall in Hw. pose proof (usable_wf fs pk c Hdd Ha (Hw c Hin) Hu1) as Hwc.
    destruct (G1 l c (target_file pk c) Hs Hfu (or_introl (proj1 Hwc)) (Hb c Hin) (unenforced_first fs R _ Hen Hu1)) as [E _].
    cbn [final_answer picked] in E. rewrite Hsy in E. inversion E. eexists. split; [reflexivity|]. cbn [i_path]. apply target_within; assumption.
  - destruct (G2 l Hs Hn) as [E _]. discriminate.
Qed.
Lemma fin_33im : forall R pk root t last item, p_imports pk = Some root ->
  imports_chain root (o_conditions (rv_opts R)) t last item -> starts_with_char t c_hash = true -> no_empty_segment item ->
  ~ enforced (rv_opts R) -> o_symlinks (rv_opts R) = false -> is_abs (p_dir pk) = true ->
  exists n, forall fs f base req st st1 r st2, dotdot_dirs fs -> n <= f -> r_target (parse req) = t -> internal_of fs R f base req st pk root st1 ->
    browser_silent (rv_opts R) (Some pk) (mkInfo (p_dir pk) (parse item)) ->
    run fs (resolve R (S f) base req) st = (Done (Ok r), st2) ->
    exists i, r = RInfo i /\ within (p_dir pk) (i_path i).
Proof.
  intros R pk root t last item Hp Hc Ht Hw He Hsy Ha. destruct (fin_50 R pk root t last item Hp Hc Ht (or_introl (proj1 Hw))) as [n Hn].
  exists n. intros fs f base req st st1 r st2 Hdd Hf Hr Hi Hb H. destruct (Hn fs f base req st st1 Hf Hr Hi) as [G1 G2].
  destruct (usable_dec fs pk item) as [Hu|Hu].
  - pose proof Hu as [H1 H2]. pose proof (usable_wf fs pk item Hdd Ha Hw H1) as Hwc. rewrite (G1 (target_file pk item) Hu Hb (unenforced_first fs R _ He H1)) in H.
    cbn [final_answer picked] in H. rewrite Hsy in H. inversion H. eexists. split; [reflexivity|]. cbn [i_path]. apply target_within; assumption.
  - rewrite G2 in H; [discriminate|]. intros [H1 H2]. destruct Hu; congruence.
Qed.

(** ** Witnesses *)
Definition w33 : fsys := W (D [("r", D [("s", D [("a.js", F)]);
  ("node_modules", D [("secret.js", F); ("q", D [("package.json", PJ "Q"); ("l", D [("x.js", F)]); ("z.js", F)])])])])%string.
Definition R33 (t : list json) : resolver := mkR nosym [("Q", O [("exports", O [("./x", JArr t)])])]%string.
Definition pk33 t : pkg := match fst (run w33 (load_pkg_file (R33 t) 40 (lit "/r/node_modules/q")) st0) with Done (Ok (Some pk)) => pk | _ => mkPkg [] None None [] None None None JNull end.
Definition t33 : list json := [S_ "./l//../../secret.js"]%string.
Definition u33 : list json := [S_ "./l/../.."; S_ "./l/.."; S_ "./z.js"]%string.
Ltac comes33 := eexists; split; [reflexivity|]; split; [split; [left; reflexivity|split; [left; reflexivity|reflexivity]]|]; split; [reflexivity|];
  split; [repeat constructor; vm_compute; reflexivity|]; split; [apply (BPSub (lit "q") (lit "x")); [cbn; intuition discriminate|reflexivity]|];
  do 2 eexists; exists [lit "/r/s"], [lit "/"]; eexists; split; [vm_compute; reflexivity|]; split; [left; reflexivity|];
  split; [eapply UCStep; [reflexivity|eapply UCStep; [reflexivity|apply UCRoot; reflexivity]]|];
  split; [eapply APsCons; [vm_compute; reflexivity|reflexivity|apply APsNil]|]; split; [vm_compute; reflexivity|]; vm_compute; reflexivity.
Lemma comes_t33 : exists st', comes_to w33 (R33 t33) 39 (lit "/r/s") (lit "q/x") (lit "q") (lit "./x") st0 (lit "/r") (pk33 t33) st'.
Proof. comes33. Qed.
Lemma comes_u33 : exists st', comes_to w33 (R33 u33) 39 (lit "/r/s") (lit "q/x") (lit "q") (lit "./x") st0 (lit "/r") (pk33 u33) st'.
Proof. comes33. Qed.
Lemma fin_33_escape : exists fs R f base req n sub st d pk st' tree c i, dotdot_dirs fs /\ comes_to fs R f base req n sub st d pk st' /\
  installed fs d n pk /\ p_exports pk = Some tree /\ selects R tree req sub [c] /\ r_kind (parse c) = Relative /\
  o_browser (rv_opts R) = false /\ ~ enforced (rv_opts R) /\ o_symlinks (rv_opts R) = false /\ is_abs (p_dir pk) = true /\
  out fs st (resolve R (S f) base req) = Done (Ok (RInfo i)) /\ ~ within (p_dir pk) (i_path i).
Proof.
  destruct comes_t33 as [st' H]. exists w33, (R33 t33), 39, (lit "/r/s"), (lit "q/x"), (lit "q"), (lit "./x"), st0, (lit "/r"), (pk33 t33), st'.
  eexists. exists (lit "./l//../../secret.js"), (mkInfo (lit "/r/node_modules/secret.js") (mkReq [] [] [] Relative)).
  split; [apply posix_dotdot|]. split; [exact H|]. split; [repeat split; vm_compute; reflexivity|].
  split; [vm_compute; reflexivity|]. split; [vm_compute; reflexivity|]. split; [vm_compute; reflexivity|]. split; [reflexivity|].
  split; [vm_compute; discriminate|]. split; [reflexivity|]. split; [vm_compute; reflexivity|]. split; [vm_compute; reflexivity|].
  intros (abs & up & names & more & E1 & E2). vm_compute in E1, E2. injection E1 as <- <- <-. discriminate.
Qed.
Lemma ex33 : (exists st', comes_to w33 (R33 u33) 39 (lit "/r/s") (lit "q/x") (lit "q") (lit "./x") st0 (lit "/r") (pk33 u33) st') /\
  installed w33 (lit "/r") (lit "q") (pk33 u33) /\
  (exists tree, p_exports (pk33 u33) = Some tree /\ selects (R33 u33) tree (lit "q/x") (lit "./x") [lit "./l/../.."; lit "./l/.."; lit "./z.js"]) /\
  Forall no_empty_segment [lit "./l/../.."; lit "./l/.."; lit "./z.js"] /\
  check_target (lit "./l/../..") = PRet true /\ dotdot_dirs w33 /\
  out w33 st0 (resolve (R33 u33) 40 (lit "/r/s") (lit "q/x")) = Done (Ok (RInfo (mkInfo (lit "/r/node_modules/q/z.js") (mkReq [] [] [] Relative)))).
Proof.
  split; [exact comes_u33|]. split; [repeat split; vm_compute; reflexivity|].
  split; [eexists; split; vm_compute; reflexivity|].
  assert (H : forall c, r_kind (parse c) = Relative -> contains (r_target (parse c)) (lit "//") = false -> no_empty_segment c).
  { intros c H1 H2. split; [exact H1|]. intros a b E. rewrite E in H2. rewrite (proj2 (contains_spec _ _)) in H2; [discriminate|]. exists a, b. reflexivity. }
  split; [constructor; [apply H; reflexivity|constructor; [apply H; reflexivity|constructor; [apply H; reflexivity|constructor]]]|].
  split; [vm_compute; reflexivity|]. split; [apply posix_dotdot|]. vm_compute. reflexivity.
Qed.
