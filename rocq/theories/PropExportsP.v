(** * Lemmas and example worlds behind PropExports.v *)
From Coq Require Import String.
From Coq Require Import List Arith NArith Bool Lia.
From Verif Require Import Str StrP Path PathP Json Types Parse ParseP Map Prog Desc Resolve Top Run RunP Posix Demo SpecRun SpecMap SpecParse SpecExports LookupP LookupTopP ExportsP.
Import ListNotations.
Local Open Scope string_scope.
Local Open Scope list_scope.

Lemma fin_51 : forall fs R f base req n sub st d pk st' tree l c q x st'',
  comes_to fs R f base req n sub st d pk st' -> installed fs d n pk -> p_exports pk = Some tree ->
  selects R tree req sub l -> first_usable fs pk l c -> path_kind (r_kind (parse c)) ->
  browser_silent (rv_opts R) (Some pk) (mkInfo (p_dir pk) (parse c)) ->
  first_file fs (file_candidates (rv_opts R) (target_file pk c)) q ->
  run fs (resolve R (S f) base req) st = (Done x, st'') ->
  Done x = final_answer fs R (Done (picked (mkInfo (p_dir pk) (parse c)) q)) /\ st'' = st'.
Proof.
  intros fs R f base req n sub st d pk st' tree l c q x st'' Hc Hi Htr Hs Hu Hk Hb Hq H.
  destruct (exports_decide fs R f base req n sub st d pk st' tree x st'' Hc (installed_entered _ _ _ _ _ _ Hi) Htr H) as [G _]. eapply G; eassumption.
Qed.
Lemma fin_52 : forall fs R f base req n sub st d pk st' tree x st'',
  comes_to fs R f base req n sub st d pk st' -> p_name pk = Some n -> p_exports pk = Some tree ->
  run fs (resolve R (S f) base req) st = (Done x, st'') ->
  (forall l c q, selects R tree req sub l -> first_usable fs pk l c -> path_kind (r_kind (parse c)) ->
     browser_silent (rv_opts R) (Some pk) (mkInfo (p_dir pk) (parse c)) ->
     first_file fs (file_candidates (rv_opts R) (target_file pk c)) q ->
     Done x = final_answer fs R (Done (picked (mkInfo (p_dir pk) (parse c)) q)) /\ st'' = st') /\
  (forall l, selects R tree req sub l -> Forall (fun c => ~ usable fs pk c) l ->
     x = Err (lit "Package path " ++ r_target (parse req) ++ lit " is not exported") /\ st'' = st').
Proof.
  intros fs R f base req n sub st d pk st' tree x st'' Hc Hn Htr H.
  apply (exports_decide fs R f base req n sub st d pk st' tree x st'' Hc); try assumption. apply own_entered; [apply Hc|exact Hn].
Qed.
Lemma fin_50 : forall R pk root t last item, p_imports pk = Some root ->
  imports_chain root (o_conditions (rv_opts R)) t last item -> starts_with_char t c_hash = true -> path_kind (r_kind (parse item)) ->
  exists n, forall fs f base req st st1, n <= f -> r_target (parse req) = t -> internal_of fs R f base req st pk root st1 ->
    (forall q, usable fs pk item -> browser_silent (rv_opts R) (Some pk) (mkInfo (p_dir pk) (parse item)) ->
       first_file fs (file_candidates (rv_opts R) (target_file pk item)) q ->
       run fs (resolve R (S f) base req) st = (final_answer fs R (Done (picked (mkInfo (p_dir pk) (parse item)) q)), st1)) /\
    (~ usable fs pk item ->
       run fs (resolve R (S f) base req) st = (Done (Err (lit "Package path " ++ last ++ lit " is not exported")), st1)).
Proof.
  intros R pk root t last item Hp Hc Ht Hk. destruct (internal_chain R pk root t last item Hp Hc Ht) as [n Hn]. exists n.
  intros fs f base req st st1 Hf Hr Hi. exact (proj1 (Hn fs f base req st st1 Hf Hr Hi) Hk).
Qed.
Lemma fin_33i : forall R pk root t last item, p_imports pk = Some root ->
  imports_chain root (o_conditions (rv_opts R)) t last item -> starts_with_char t c_hash = true -> well_formed_target item ->
  ~ enforced (rv_opts R) -> o_symlinks (rv_opts R) = false -> is_abs (p_dir pk) = true ->
  exists n, forall fs f base req st st1 r st2, n <= f -> r_target (parse req) = t -> internal_of fs R f base req st pk root st1 ->
    browser_silent (rv_opts R) (Some pk) (mkInfo (p_dir pk) (parse item)) ->
    run fs (resolve R (S f) base req) st = (Done (Ok r), st2) ->
    exists i, r = RInfo i /\ within (p_dir pk) (i_path i).
Proof.
  intros R pk root t last item Hp Hc Ht Hw He Hsy Ha. destruct (fin_50 R pk root t last item Hp Hc Ht (or_introl (proj1 Hw))) as [n Hn].
  exists n. intros fs f base req st st1 r st2 Hf Hr Hi Hb H. destruct (Hn fs f base req st st1 Hf Hr Hi) as [G1 G2].
  destruct (usable_dec fs pk item) as [Hu|Hu].
  - pose proof Hu as [H1 H2]. rewrite (G1 (target_file pk item) Hu Hb (unenforced_first fs R _ He H1)) in H.
    cbn [final_answer picked] in H. rewrite Hsy in H. inversion H. eexists. split; [reflexivity|]. cbn [i_path]. apply target_within; assumption.
  - rewrite G2 in H; [discriminate|]. intros [H1 H2]. destruct Hu; congruence.
Qed.
Lemma fin_53 : forall R pk root t last item, p_imports pk = Some root ->
  imports_chain root (o_conditions (rv_opts R)) t last item -> starts_with_char t c_hash = true -> r_kind (parse item) = Normal ->
  exists n, forall fs f base req st st1 m sub pk' st2 tree l c q, n <= f -> r_target (parse req) = t -> internal_of fs R f base req st pk root st1 ->
    bare_parts (r_target (parse item)) m sub ->
    run fs (load_pkg_file R (S f) (join (join (p_dir pk) MODULE) (r_target (parse item)))) st1 = (Done (Ok (Some pk')), st2) ->
    f_exists fs (join (join (p_dir pk) MODULE) m) = true -> contains (p_dir pk') MODULE = true -> p_exports pk' = Some tree ->
    selects R tree item sub l -> first_usable fs pk' l c -> path_kind (r_kind (parse c)) ->
    browser_silent (rv_opts R) (Some pk') (mkInfo (p_dir pk') (parse c)) ->
    browser_silent (rv_opts R) (Some pk) (mkInfo (p_dir pk') (parse c)) ->
    first_file fs (file_candidates (rv_opts R) (target_file pk' c)) q ->
    run fs (resolve R (S f) base req) st = (final_answer fs R (Done (picked (mkInfo (p_dir pk') (parse c)) q)), st2).
Proof.
  intros R pk root t last item Hp Hc Ht Hk. destruct (internal_chain R pk root t last item Hp Hc Ht) as [n Hn]. exists n.
  intros fs f base req st st1 m sub pk' st2 tree l c q Hf Hr Hi. exact (proj2 (Hn fs f base req st st1 Hf Hr Hi) Hk m sub pk' st2 tree l c q).
Qed.

(** ** Worlds *)
Definition nosym : options := with_symlinks dflt false.
(** The package q with exports, installed two levels above the request. *)
Definition w51 : fsys := W (D [("r", D [("s", D [("a.js", F)]);
  ("node_modules", D [("q", D [("package.json", PJ "Q"); ("l", D [("x.js", F)]); ("z.js", F)])])])]).
Definition R51 : resolver := mkR nosym [("Q", O [("exports", O [("./x", JArr [S_ "./none.js"; S_ "./l/../l/x.js"; S_ "./z.js"])])])].
Definition pk51 : pkg := match fst (run w51 (load_pkg_file R51 40 (lit "/r/node_modules/q")) st0) with Done (Ok (Some pk)) => pk | _ => mkPkg [] None None [] None None None JNull end.
Definition st51 (p : string) : state := snd (run w51 (load_pkg_file R51 40 (lit p)) st0).
Lemma w51_comes : exists st', comes_to w51 R51 39 (lit "/r/s") (lit "q/x") (lit "q") (lit "./x") st0 (lit "/r") pk51 st'.
Proof.
  eexists. split; [reflexivity|]. split; [split; [left; reflexivity|split; [left; reflexivity|reflexivity]]|]. split; [reflexivity|].
  split; [repeat constructor; vm_compute; reflexivity|]. split; [apply (BPSub (lit "q") (lit "x")); [cbn; intuition discriminate|reflexivity]|].
  do 2 eexists. exists [lit "/r/s"], [lit "/"]. eexists. split; [vm_compute; reflexivity|]. split; [left; reflexivity|].
  split; [eapply UCStep; [reflexivity|eapply UCStep; [reflexivity|apply UCRoot; reflexivity]]|].
  split; [eapply APsCons; [vm_compute; reflexivity|reflexivity|apply APsNil]|]. split; [vm_compute; reflexivity|]. vm_compute. reflexivity.
Qed.
Lemma w51_selected : exists tree, p_exports pk51 = Some tree /\
  selects R51 tree (lit "q/x") (lit "./x") [lit "./none.js"; lit "./l/../l/x.js"; lit "./z.js"] /\
  installed w51 (lit "/r") (lit "q") pk51 /\
  first_usable w51 pk51 [lit "./none.js"; lit "./l/../l/x.js"; lit "./z.js"] (lit "./l/../l/x.js") /\
  res w51 R51 "/r/s" "q/x" = found "/r/node_modules/q/l/x.js" "" "".
Proof.
  eexists. split; [vm_compute; reflexivity|]. split; [vm_compute; reflexivity|]. split; [repeat split; vm_compute; reflexivity|].
  split; [|vm_compute; reflexivity]. exists [lit "./none.js"], [lit "./z.js"]. split; [reflexivity|].
  split; [constructor; [intros [H _]; vm_compute in H; discriminate|constructor]|]. split; vm_compute; reflexivity.
Qed.
Lemma wf_by : forall c, r_kind (parse c) = Relative -> contains (r_target (parse c)) (lit "//") = false -> 
  str_eqb (r_target (parse c)) (lit "..") = false -> starts_with (rev (r_target (parse c))) (lit "../") = false -> well_formed_target c.
Proof.
  intros c H1 H2 H3 H4. split; [exact H1|]. split.
  - intros a b E. rewrite E in H2. rewrite (proj2 (contains_spec _ _)) in H2; [discriminate|]. exists a, b. reflexivity.
  - intros a [E|E].
    + rewrite E in H3. discriminate.
    + rewrite E, rev_app_distr in H4. rewrite (proj2 (prefix_dec (lit "../") _)) in H4; [discriminate|]. exists (rev a). reflexivity.
Qed.
Lemma w51_wf : Forall well_formed_target [lit "./none.js"; lit "./l/../l/x.js"; lit "./z.js"].
Proof. repeat constructor; apply wf_by; reflexivity. Qed.

(** A package that requests itself. *)
Definition w52 (nm : bool) : fsys :=
  W (D [("r", D ([("package.json", PJ "P"); ("src", D [("a.js", F)]); ("lib", D [("x.js", F)])] ++ (if nm then [("node_modules", D [])] else [])))]).
Definition R52 : resolver := mkR dflt [("P", O [("name", S_ "p"); ("exports", O [("./x", S_ "./lib/x.js")])])].
Definition pk52 : pkg := match fst (run (w52 true) (load_pkg_file R52 40 (lit "/r")) st0) with Done (Ok (Some pk)) => pk | _ => mkPkg [] None None [] None None None JNull end.
Lemma w52_comes : exists st' tree, comes_to (w52 true) R52 39 (lit "/r/src") (lit "p/x") (lit "p") (lit "./x") st0 (lit "/r") pk52 st' /\
  p_name pk52 = Some (lit "p") /\ p_exports pk52 = Some tree /\
  selects R52 tree (lit "p/x") (lit "./x") [lit "./lib/x.js"] /\ first_usable (w52 true) pk52 [lit "./lib/x.js"] (lit "./lib/x.js") /\
  res (w52 true) R52 "/r/src" "p/x" = found "/r/lib/x.js" "" "" /\
  res (w52 true) R52 "/r/src" "p/y" = failed "Package path p/y is not exported".
Proof.
  do 2 eexists. split.
  - split; [reflexivity|]. split; [split; [left; reflexivity|split; [left; reflexivity|reflexivity]]|]. split; [reflexivity|].
    split; [repeat constructor; vm_compute; reflexivity|]. split; [apply (BPSub (lit "p") (lit "x")); [cbn; intuition discriminate|reflexivity]|].
    do 2 eexists. exists [lit "/r/src"], [lit "/"]. eexists. split; [vm_compute; reflexivity|]. split; [left; reflexivity|].
    split; [eapply UCStep; [reflexivity|eapply UCStep; [reflexivity|apply UCRoot; reflexivity]]|].
    split; [eapply APsCons; [vm_compute; reflexivity|reflexivity|apply APsNil]|]. split; [vm_compute; reflexivity|]. vm_compute. reflexivity.
  - split; [vm_compute; reflexivity|]. split; [vm_compute; reflexivity|]. split; [vm_compute; reflexivity|].
    split; [|split; vm_compute; reflexivity]. exists [], []. split; [reflexivity|]. split; [constructor|]. split; vm_compute; reflexivity.
Qed.

(** Imports that lead to other names and to packages. *)
Definition w53 : fsys := W (D [("r", D [("package.json", PJ "P"); ("i.js", F);
  ("node_modules", D [("dep", D [("package.json", PJ "Q"); ("m.js", F)]); ("ex", D [("package.json", PJ "E"); ("y.js", F)])])])]).
Definition R53 : resolver := mkR nosym
  [("P", O [("imports", O [("#d", S_ "dep"); ("#e", S_ "#f"); ("#f", S_ "ex/y"); ("#i", S_ "#j"); ("#j", S_ "./i.js"); ("#g", S_ "#h"); ("#h", S_ "./nope")])]);
   ("Q", O [("main", S_ "./m.js")]); ("E", O [("exports", O [("./y", S_ "./y.js")])])].
Definition pk53 : pkg := match fst (run w53 (load_pkg_file R53 40 (lit "/r")) st0) with Done (Ok (Some pk)) => pk | _ => mkPkg [] None None [] None None None JNull end.
Lemma w53_internal : exists root st1, internal_of w53 R53 39 (lit "/r") (lit "#i") st0 pk53 root st1 /\
  imports_chain root (o_conditions (rv_opts R53)) (lit "#i") (lit "#j") (lit "./i.js") /\ usable w53 pk53 (lit "./i.js") /\
  imports_chain root (o_conditions (rv_opts R53)) (lit "#g") (lit "#h") (lit "./nope") /\
  well_formed_target (lit "./i.js") /\
  res w53 R53 "/r" "#i" = found "/r/i.js" "" "" /\ res w53 R53 "/r" "#g" = failed "Package path #h is not exported".
Proof.
  do 2 eexists. split; [split; [reflexivity|]; split; [split; [left; reflexivity|split; [left; reflexivity|reflexivity]]|]; split; [reflexivity|]; split; vm_compute; reflexivity|].
  split; [eapply ICNext; [vm_compute; reflexivity|reflexivity|]; eapply ICEnd; [vm_compute; reflexivity|reflexivity]|].
  split; [split; vm_compute; reflexivity|].
  split; [eapply ICNext; [vm_compute; reflexivity|reflexivity|]; eapply ICEnd; [vm_compute; reflexivity|reflexivity]|].
  split; [apply wf_by; reflexivity|]. split; vm_compute; reflexivity.
Qed.
Lemma w53_package : exists root st1 pk' st2 tree, internal_of w53 R53 39 (lit "/r") (lit "#e") st0 pk53 root st1 /\
  imports_chain root (o_conditions (rv_opts R53)) (lit "#e") (lit "#f") (lit "ex/y") /\
  run w53 (load_pkg_file R53 40 (lit "/r/node_modules/ex/y")) st1 = (Done (Ok (Some pk')), st2) /\ p_exports pk' = Some tree /\
  selects R53 tree (lit "ex/y") (lit "./y") [lit "./y.js"] /\ first_usable w53 pk' [lit "./y.js"] (lit "./y.js") /\
  res w53 R53 "/r" "#e" = found "/r/node_modules/ex/y.js" "" "".
Proof.
  do 5 eexists. split; [split; [reflexivity|]; split; [split; [left; reflexivity|split; [left; reflexivity|reflexivity]]|]; split; [reflexivity|]; split; vm_compute; reflexivity|].
  split; [eapply ICNext; [vm_compute; reflexivity|reflexivity|]; eapply ICEnd; [vm_compute; reflexivity|reflexivity]|].
  split; [vm_compute; reflexivity|]. split; [vm_compute; reflexivity|]. split; [vm_compute; reflexivity|].
  split; [|vm_compute; reflexivity]. exists [], []. split; [reflexivity|]. split; [constructor|]. split; vm_compute; reflexivity.
Qed.
Lemma w52_alone : exists fs R, (exists pk tree st', run fs (load_pkg_file R 40 (lit "/r/src")) st0 = (Done (Ok (Some pk)), st') /\
    p_name pk = Some (lit "p") /\ p_exports pk = Some tree /\ selects R tree (lit "p/x") (lit "./x") [lit "./lib/x.js"] /\
    first_usable fs pk [lit "./lib/x.js"] (lit "./lib/x.js")) /\
  res fs R "/r/src" "p/x" = failed "Resolve 'p/x' failed in '/r/src'".
Proof.
  exists (w52 false), R52. split; [|vm_compute; reflexivity]. do 3 eexists. split; [vm_compute; reflexivity|]. split; [vm_compute; reflexivity|].
  split; [vm_compute; reflexivity|]. split; [vm_compute; reflexivity|]. exists [], []. split; [reflexivity|]. split; [constructor|]. split; vm_compute; reflexivity.
Qed.
Lemma w52_other : exists fs R n, n <> lit "p" /\ bare_parts (lit "pq/x") n (lit "./x") /\
  (forall pk st', run fs (load_pkg_file R 40 (lit "/r/src")) st0 = (Done (Ok (Some pk)), st') -> p_name pk = Some (lit "p")) /\
  f_exists fs (lit "/r/node_modules/pq") = false /\
  res fs R "/r/src" "pq/x" = found "/r/lib/x.js" "" "".
Proof.
  exists (w52 true), R52, (lit "pq"). split; [discriminate|]. split; [apply (BPSub (lit "pq") (lit "x")); [cbn; intuition discriminate|reflexivity]|].
  split; [|split; vm_compute; reflexivity]. intros pk st' H. vm_compute in H. inversion H. reflexivity.
Qed.
Lemma w53_direct : exists fs R root pk st1, internal_of fs R 39 (lit "/r") (lit "#d") st0 pk root st1 /\
  imports_chain root (o_conditions (rv_opts R)) (lit "#d") (lit "#d") (lit "dep") /\
  res fs R "/r" "dep" = found "/r/node_modules/dep/m.js" "" "" /\
  res fs R "/r" "#d" = failed "Package path #d is not exported".
Proof.
  exists w53, R53. do 3 eexists. split; [split; [reflexivity|]; split; [split; [left; reflexivity|split; [left; reflexivity|reflexivity]]|]; split; [reflexivity|]; split; vm_compute; reflexivity|].
  split; [eapply ICEnd; [vm_compute; reflexivity|reflexivity]|]. split; vm_compute; reflexivity.
Qed.
Lemma w51_inside : Forall well_formed_target [lit "./none.js"; lit "./l/../l/x.js"; lit "./z.js"] /\
  p_dir pk51 = lit "/r/node_modules/q" /\ within (lit "/r/node_modules/q") (lit "/r/node_modules/q/l/x.js").
Proof.
  split; [exact w51_wf|]. split; [vm_compute; reflexivity|].
  exists true, 0, (map lit ["r"; "node_modules"; "q"]), (map lit ["l"; "x.js"]). split; vm_compute; reflexivity.
Qed.
