(** * The examples behind PropEnd.v *)
From Coq Require Import String.
From Coq Require Import List Arith NArith Bool Lia.
From Verif Require Import Str StrP Path PathP Json Types Parse Map Prog Desc Resolve Top Run Posix Demo SpecRun SpecLoad SpecCache SpecTerm SpecDesc FuelP LookupP PosixP SpecEnd EndP KeepP WitnessP PropCacheP PropChangeP PropTermP.
Import ListNotations.

(** ** A single thread *)
Fixpoint solo {A} (n : nat) (disk : nat -> fsys) (st : state) (p : prog A) : prog A * state :=
  match n with
  | 0 => (p, st)
  | S n => let (p', st') := thread_step (disk 0) st p in solo n (fun k => disk (S k)) st' p'
  end.
Lemma solo_moving {A} : forall n disk st (p : prog A),
  run_moving (first (fun k => (disk k, 0)) n) st [p] = let (p', st') := solo n disk st p in ([p'], st').
Proof.
  induction n as [|n IH]; intros disk st p; [reflexivity|]. rewrite first_cons. cbn [run_moving step_nth solo].
  destruct (thread_step (disk 0) st p) as [p' st']. apply (IH (fun k => disk (S k))).
Qed.
Definition stuck {A} (disk : nat -> fsys) (st : state) (p : prog A) : Prop := forall n, SpecCache.settled (fst (solo n disk st p)) = NoFuel.
Lemma stuck_fuel {A} : forall disk st, stuck disk st (@OutOfFuel A).
Proof. intros disk st n. revert disk. induction n as [|n IH]; intros disk; [reflexivity|]. cbn [solo thread_step]. apply IH. Qed.
Lemma stuck_do {A} : forall disk st o (k : ans o -> prog A), stuck (fun n => disk (S n)) (snd (step (disk 0) st o)) (k (fst (step (disk 0) st o))) -> stuck disk st (Do o k).
Proof.
  intros disk st o k H [|n]; [reflexivity|]. cbn [solo thread_step]. specialize (H n). destruct (step (disk 0) st o) as [x st']. exact H.
Qed.
Lemma stuck_bind {A B} : forall (p : prog A) (f : A -> prog B) disk st, stuck disk st p -> stuck disk st (bind p f).
Proof.
  intros p f. induction p as [a|m| |o k IH]; intros disk st H.
  - discriminate (H 0).
  - discriminate (H 0).
  - apply stuck_fuel.
  - cbn [bind]. apply stuck_do. apply IH. intros n. specialize (H (S n)). cbn [solo thread_step] in H. destruct (step (disk 0) st o). exact H.
Qed.
Lemma stuck_try {A B} : forall (p : prog (result A)) (f : A -> prog (result B)) disk st, stuck disk st p -> stuck disk st (try_ p f).
Proof. intros. apply stuck_bind. assumption. Qed.
Lemma stuck_never : forall disk st c, stuck disk st (call_prog c) -> never_finishes (fun n => (disk n, 0)) st [c] 0.
Proof.
  intros disk st c H n. unfold state_at. cbn [map]. rewrite (solo_moving n disk st (call_prog c)). specialize (H n). destruct (solo n disk st (call_prog c)) as [p st'].
  cbn [fst nth_error option_map]. f_equal. exact H.
Qed.
Lemma fair_solo : forall disk, fair (fun n => (disk n, 0)) 0.
Proof. intros disk n. exists n. auto. Qed.
Lemma none_stuck : forall R b p, f_dir b p = false -> forall f disk st, (forall n, disk n = b) -> stuck disk st (none_loop R f p).
Proof.
  intros R b p Hb. induction f as [|f IH]; intros disk st Hd; [apply stuck_fuel|]. cbn [none_loop]. apply stuck_do. cbn [step fst snd]. rewrite Hd, Hb.
  apply IH. auto.
Qed.

(** ** A directory is replaced by a file *)
Definition R63 : resolver := mkR dflt [].
Definition w63a : fsys := W (D [("r", D [("a", D [("index.js", F)])])])%string.
Definition w63b : fsys := W (D [("r", D [("a.js", F)])])%string.
(* six steps on the one disk, all others on the other *)
Definition disk63 (n : nat) : fsys := if Nat.ltb n 6 then w63a else w63b.
Ltac up := match goal with |- context [parent ?p] => let x := eval vm_compute in (parent p) in replace (parent p) with x by (vm_compute; reflexivity) end.
Ltac go := apply stuck_do; cbn [step fst snd];
  repeat match goal with
  | |- context [f_dir (disk63 ?n) ?p] => let x := eval vm_compute in (f_dir (disk63 n) p) in replace (f_dir (disk63 n) p) with x by (vm_compute; reflexivity)
  | |- context [f_file (disk63 ?n) ?p] => let x := eval vm_compute in (f_file (disk63 n) p) in replace (f_file (disk63 n) p) with x by (vm_compute; reflexivity)
  end.
Lemma load63_stuck : forall f, stuck disk63 st0 (load_pkg_file R63 f (lit "/r/./a")).
Proof.
  intros [|f]; [apply stuck_fuel|]. cbn [load_pkg_file]. change (o_desc (rv_opts R63)) with (Some (lit "package.json")). cbv beta iota.
  go. cbn [negb bind]. go. cbn [s_pkg st0 empty_state bind]. go. cbn [bind].
  destruct f as [|f]; [apply stuck_fuel|]. cbn [find_up]. go. cbn [bind]. up. cbv iota.
  destruct f as [|f]; [apply stuck_fuel|]. cbn [find_up]. go. cbn [bind]. up. cbv iota.
  destruct f as [|f]; [apply stuck_fuel|]. cbn [find_up]. go. cbn [bind]. up. cbv iota. cbn [bind].
  apply (none_stuck _ w63b); [vm_compute; reflexivity|]. reflexivity.
Qed.
Lemma never63 : forall f, never_finishes (fun n => (disk63 n, 0)) st0 [CResolve R63 f (lit "/r") (lit "./a")] 0.
Proof.
  intros f. apply stuck_never. cbn [call_prog]. apply stuck_bind. unfold resolve, resolve_with. apply stuck_bind.
  destruct f as [|f]; [apply stuck_fuel|]. change (o_tsconfig (rv_opts R63)) with (@None path). cbv iota. cbn [resolve_]. apply stuck_bind.
  unfold and_then at 1. apply stuck_bind. match goal with |- stuck _ _ (and_then ?p ?g) => replace p with (Ret (Resolving (mkInfo (lit "/r") (parse (lit "./a"))))) by reflexivity end.
  cbn [and_then bind]. unfold pkg_step. apply stuck_bind. apply load63_stuck.
Qed.
Lemma ends63 : forall f, 40 <= f -> out w63a st0 (call_prog (CResolve R63 f (lit "/r") (lit "./a"))) = at_path "/r/a/index.js" /\
  out w63b st0 (call_prog (CResolve R63 f (lit "/r") (lit "./a"))) = at_path "/r/a.js".
Proof.
  intros f Hf.
  assert (H : fle (call_prog (CResolve R63 40 (lit "/r") (lit "./a"))) (call_prog (CResolve R63 f (lit "/r") (lit "./a")))).
  { cbn [call_prog]. apply fle_bind; [apply resolve_fle, Hf|]. intros a. apply fle_refl. }
  split.
  - assert (E : out w63a st0 (call_prog (CResolve R63 40 (lit "/r") (lit "./a"))) = at_path "/r/a/index.js") by (vm_compute; reflexivity).
    unfold out in *. rewrite (fle_run _ _ H); [exact E|]. unfold out. rewrite E. discriminate.
  - assert (E : out w63b st0 (call_prog (CResolve R63 40 (lit "/r") (lit "./a"))) = at_path "/r/a.js") by (vm_compute; reflexivity).
    unfold out in *. rewrite (fle_run _ _ H); [exact E|]. unfold out. rewrite E. discriminate.
Qed.

(** ** A description file that comes and goes *)
Definition w63c : fsys := W (D [("r", D [])])%string.
Definition w63d : fsys := W (D [("r", D [("package.json", PJ "A")])])%string.
Definition R63f : resolver := mkR dflt [("A", O [])]%string.
(* there when it is searched for, gone when it is to be read *)
Definition disk63f (n : nat) : fsys := if Nat.eqb (n mod 4) 3 then w63d else w63c.
Lemma stuck_ext {A} : forall disk disk' st (p : prog A), (forall n, disk n = disk' n) -> stuck disk' st p -> stuck disk st p.
Proof.
  intros disk disk' st p HE H n. rewrite <- (H n). clear H. f_equal. f_equal. revert disk disk' st p HE. induction n as [|n IH]; intros disk disk' st p HE; [reflexivity|].
  cbn [solo]. rewrite HE. destruct (thread_step (disk' 0) st p) as [p' st']. apply IH. auto.
Qed.
Lemma load63f_stuck : forall f, stuck disk63f st0 (load_pkg_file R63f f (lit "/r")).
Proof.
  induction f as [|f IH]; [apply stuck_fuel|]. cbn [load_pkg_file]. change (o_desc (rv_opts R63f)) with (Some (lit "package.json")). cbv beta iota.
  apply stuck_do. cbn [step fst snd]. replace (f_dir (disk63f 0) (lit "/r")) with true by (vm_compute; reflexivity). cbn [negb bind].
  apply stuck_do. cbn [step fst snd s_pkg st0 empty_state bind]. apply stuck_do. cbn [step fst snd].
  replace (f_file (disk63f 2) (join (lit "/r") (lit "package.json"))) with false by (vm_compute; reflexivity). cbn [bind].
  destruct f as [|f]; [apply stuck_fuel|]. cbn [find_up]. apply stuck_do. cbn [step fst snd].
  replace (f_file (disk63f 3) (join (lit "/r") (lit "package.json"))) with true by (vm_compute; reflexivity). cbn [bind].
  eapply stuck_ext; [|exact IH]. intros n. unfold disk63f. replace (S (S (S (S n)))) with (n + 1 * 4) by lia. rewrite Nat.mod_add by lia. reflexivity.
Qed.
Lemma never63f : forall f, never_finishes (fun n => (disk63f n, 0)) st0 [CSide R63f f (lit "/r")] 0.
Proof. intros f. apply stuck_never. cbn [call_prog]. apply stuck_bind. unfold load_side_effects. apply stuck_try, load63f_stuck. Qed.
Definition t63 (l : list (string * node)) : node := D [("r", D l)]%string.
Definition dir_of (t : node) (o : option (list str)) : bool :=
  match o with Some n => match lookup t (rev n) with Some (NDir _) => true | _ => false end | None => false end.
Lemma walk63 : forall fuel segs cur, cur = [] \/ cur = [lit "r"] ->
  dir_of (t63 []) (walk_path fuel (t63 []) cur segs) = dir_of (t63 [("package.json", PJ "A")]%string) (walk_path fuel (t63 [("package.json", PJ "A")]%string) cur segs).
Proof.
  intros fuel. induction segs as [|s r IH]; intros cur Hc; rewrite ?walk_nil, ?walk_cons; [destruct Hc as [->| ->]; reflexivity|].
  destruct Hc as [->| ->].
  - cbn [rev lookup t63 D]. destruct (_ || _); [apply IH; auto|]. destruct (str_eqb s s_dotdot); [apply IH; auto|]. cbn [map imap_get fst snd].
    destruct (str_eqb (lit "r") s) eqn:E; [|reflexivity]. apply str_eqb_eq in E. subst s. apply IH. auto.
  - change (lookup (t63 []) (rev [lit "r"])) with (Some (D [])). change (lookup (t63 [("package.json", PJ "A")]%string) (rev [lit "r"])) with (Some (D [("package.json", PJ "A")]%string)).
    cbn [D map]. destruct (_ || _); [apply IH; auto|]. destruct (str_eqb s s_dotdot); [apply IH; auto|]. cbn [map imap_get fst snd].
    destruct (str_eqb (lit "package.json") s) eqn:E; [|reflexivity]. apply str_eqb_eq in E. subst s. unfold PJ at 2. cbv iota.
    destruct r as [|s r]; rewrite ?walk_nil, ?walk_cons; reflexivity.
Qed.
Lemma dir_of_posix : forall t p, f_dir (W t) p = dir_of t (posix_resolve 60 t [] p).
Proof. intros t p. cbn [W posix_fs f_dir]. unfold posix_node. destruct (posix_resolve 60 t [] p); reflexivity. Qed.
Lemma dirs63 : forall p, f_dir w63d p = f_dir w63c p.
Proof.
  intros p. change w63d with (W (t63 [("package.json", PJ "A")]%string)). change w63c with (W (t63 [])). rewrite !dir_of_posix. symmetry.
  unfold posix_resolve. destruct p as [|c p]; [reflexivity|]. destruct (is_abs _); apply walk63; auto.
Qed.

(** ** Trees with the same directories and description files *)
Definition slot (o : option node) : option node := match o with Some (NDir _) => Some (NDir []) | x => x end.
Definition alike (nm : nat -> str) (t t' : node) : Prop := forall names,
  match lookup t names, lookup t' names with
  | Some (NDir _), Some (NDir _) => forall c, slot (lookup t (names ++ [nm c])) = slot (lookup t' (names ++ [nm c]))
  | Some (NDir _), _ | _, Some (NDir _) | Some (NLink _), _ | _, Some (NLink _) => False
  | _, _ => True
  end.
Definition isdir (t : node) (cur : list str) : Prop := exists l, lookup t (rev cur) = Some (NDir l).
Lemma lookup_app : forall a b t, lookup t (a ++ b) = match lookup t a with Some x => lookup x b | None => None end.
Proof.
  induction a as [|s a IH]; intros b t; [reflexivity|]. cbn [app lookup]. destruct t as [|l|]; try reflexivity. destruct (imap_get l s); [apply IH|reflexivity].
Qed.
Lemma lookup_snoc : forall t cur l s, lookup t (rev cur) = Some (NDir l) -> lookup t (rev (s :: cur)) = imap_get l s.
Proof. intros t cur l s H. cbn [rev]. rewrite lookup_app, H. cbn [lookup]. destruct (imap_get l s); reflexivity. Qed.
Section Alike.
Variable nm : nat -> str.
Variables t t' : node.
Hypothesis Ht : alike nm t t'.
Lemma alike_dir : forall cur, isdir t cur <-> isdir t' cur.
Proof.
  intros cur. specialize (Ht (rev cur)). unfold isdir. split; intros [l E]; rewrite E in Ht.
  - destruct (lookup t' (rev cur)) as [[|l'|]|]; try contradiction. eauto.
  - destruct (lookup t (rev cur)) as [[|l'|]|]; try contradiction. eauto.
Qed.
Lemma walk_out : forall f x cur s r, ~ isdir x cur -> walk_path f x cur (s :: r) = None.
Proof. intros f x cur s r H. rewrite walk_cons. destruct (lookup x (rev cur)) as [[|l|]|] eqn:E; try reflexivity. contradiction H. exists l. exact E. Qed.
(* where the walk ends in a directory, it does so in both trees *)
Definition ends_in (x : node) (o : option (list str)) (c : list str) : Prop := o = Some c /\ isdir x c.
Lemma alike_walk : forall f segs cur c, isdir t cur -> ends_in t (walk_path f t cur segs) c <-> ends_in t' (walk_path f t' cur segs) c.
Proof.
  intros f. induction segs as [|s r IH]; intros cur c Hd; unfold ends_in; rewrite ?walk_nil, ?walk_cons.
  - rewrite alike_dir. tauto.
  - pose proof (proj1 (alike_dir cur) Hd) as Hd'. destruct Hd as [l E], Hd' as [l' E']. rewrite E, E'.
    assert (Hc : isdir t cur) by (exists l; exact E).
    destruct (_ || _); [apply IH; exact Hc|]. destruct (str_eqb s s_dotdot).
    + apply IH. destruct cur as [|x cur]; [exact Hc|]. cbn [tl]. cbn [rev] in E. rewrite lookup_app in E. destruct (lookup t (rev cur)) as [[|l0|]|] eqn:E0; try discriminate. exists l0. exact E0.
    + pose proof (Ht (rev (s :: cur))) as H. pose proof (alike_dir (s :: cur)) as Hs. rewrite (lookup_snoc _ _ _ s E), (lookup_snoc _ _ _ s E') in H.
      assert (Hno : ~ isdir t (s :: cur) -> forall x, x = t \/ x = t' -> ~ (walk_path f x (s :: cur) r = Some c /\ isdir x c)).
      { intros Hn x Hx [H1 H2]. assert (Hn' : ~ isdir x (s :: cur)) by (destruct Hx as [->| ->]; tauto).
        destruct r as [|s' r]; [rewrite walk_nil in H1; injection H1 as <-; contradiction|]. rewrite walk_out in H1; [discriminate|exact Hn']. }
      assert (Hi : forall x l0, lookup x (rev cur) = Some (NDir l0) -> isdir x (s :: cur) -> exists y, imap_get l0 s = Some (NDir y)).
      { intros x l0 E0 [y Ey]. exists y. rewrite <- (lookup_snoc _ _ _ s E0). exact Ey. }
      destruct (imap_get l s) as [[|y|]|] eqn:Es; destruct (imap_get l' s) as [[|y'|]|] eqn:Es'; try contradiction.
      * assert (Hn : ~ isdir t (s :: cur)) by (intros Hx; destruct (Hi _ _ E Hx); congruence). pose proof (Hno Hn t (or_introl eq_refl)). pose proof (Hno Hn t' (or_intror eq_refl)). unfold ends_in. tauto.
      * assert (Hn : ~ isdir t (s :: cur)) by (intros Hx; destruct (Hi _ _ E Hx); congruence). pose proof (Hno Hn t (or_introl eq_refl)). split; [tauto|intros [? ?]; discriminate].
      * apply IH. exists y. rewrite (lookup_snoc _ _ _ s E). exact Es.
      * assert (Hn : ~ isdir t (s :: cur)) by (intros Hx; destruct (Hi _ _ E Hx); congruence). pose proof (Hno Hn t' (or_intror eq_refl)). split; [intros [? ?]; discriminate|tauto].
      * split; intros [? ?]; discriminate.
Qed.
Hypothesis Hroot : isdir t [].
Hypothesis Hnm : forall c, nm c <> [] /\ split_on c_slash (nm c) = [nm c] /\ (str_eqb (nm c) [] || str_eqb (nm c) s_dot)%bool = false /\ str_eqb (nm c) s_dotdot = false.
Lemma alike_resolve : forall p c, ends_in t (posix_resolve 60 t [] p) c <-> ends_in t' (posix_resolve 60 t' [] p) c.
Proof.
  intros [|x p] c; [unfold ends_in; cbn; split; intros [? ?]; discriminate|]. unfold posix_resolve.
  replace (if is_abs (x :: p) then [] else rev (@nil str)) with (@nil str) by (destruct (is_abs _); reflexivity). apply alike_walk, Hroot.
Qed.
Lemma node_dir : forall x p, f_dir (W x) p = true <-> exists c, ends_in x (posix_resolve 60 x [] p) c.
Proof.
  intros x p. cbn [W posix_fs f_dir]. unfold posix_node, ends_in, isdir. split.
  - destruct (posix_resolve 60 x [] p) as [c|]; [|discriminate]. destruct (lookup x (rev c)) as [[|l|]|] eqn:E; try discriminate. intros _. exists c. eauto.
  - intros (c & -> & l & ->). reflexivity.
Qed.
Lemma named_node : forall x, isdir x [] -> forall c cur l, lookup x (rev cur) = Some (NDir l) -> (forall s, imap_get l (nm c) <> Some (NLink s)) ->
  match walk_path 60 x cur [nm c] with Some n => lookup x (rev n) | None => None end = lookup x (rev cur ++ [nm c]).
Proof.
  intros x Hx c cur l E Hl. destruct (Hnm c) as (_ & _ & H1 & H2). rewrite walk_cons, E, H1, H2. rewrite lookup_app, E. cbn [lookup].
  destruct (imap_get l (nm c)) as [[| |]|] eqn:Ei; [| |contradiction (Hl target); reflexivity|]; try rewrite walk_nil, (lookup_snoc _ _ _ _ E), Ei; reflexivity.
Qed.
Lemma slot_same : forall o o', slot o = slot o' ->
  match o with Some (NFile _ _) => true | _ => false end = match o' with Some (NFile _ _) => true | _ => false end /\
  match o with Some (NFile s _) => Some s | _ => None end = match o' with Some (NFile s _) => Some s | _ => None end /\
  match o with Some (NFile _ t) => MTime t | Some _ => MTime 0%N | None => MErr end = match o' with Some (NFile _ t) => MTime t | Some _ => MTime 0%N | None => MErr end.
Proof. intros [[| |]|] [[| |]|] H; cbn [slot] in H; try discriminate; inversion H; auto. Qed.
Lemma alike_named : forall p c, slot (posix_node 60 t [] (join p (nm c))) = slot (posix_node 60 t' [] (join p (nm c))).
Proof.
  intros p c. destruct (Hnm c) as (Hne & Hsp & H1 & H2). assert (Hab : is_abs (nm c) = false).
  { destruct (nm c) as [|x s] eqn:E; [reflexivity|]. unfold is_abs, starts_with_char. destruct (N.eqb_spec x c_slash) as [->|]; [|reflexivity]. exfalso. clear - Hsp.
    change (c_slash :: s) with ([] ++ c_slash :: s) in Hsp at 1. rewrite split_on_sep_app in Hsp. cbn [split_on app] in Hsp. discriminate. }
  assert (Hroot' : isdir t' []) by (apply alike_dir, Hroot).
  assert (HH : forall cur, isdir t cur ->
    slot (match walk_path 60 t cur [nm c] with Some n => lookup t (rev n) | None => None end) = slot (match walk_path 60 t' cur [nm c] with Some n => lookup t' (rev n) | None => None end)).
  { intros cur [l E]. destruct (proj1 (alike_dir cur) (ex_intro _ l E)) as [l' E'].
    rewrite (named_node t Hroot c cur l E), (named_node t' Hroot' c cur l' E').
    - pose proof (Ht (rev cur)) as H. rewrite E, E' in H. apply H.
    - intros s Hs. pose proof (Ht (rev (nm c :: cur))) as H. rewrite (lookup_snoc _ _ _ _ E'), Hs in H. destruct (lookup t (rev (nm c :: cur))) as [[| |]|]; contradiction.
    - intros s Hs. pose proof (Ht (rev (nm c :: cur))) as H. rewrite (lookup_snoc _ _ _ _ E), Hs in H. destruct (lookup t' (rev (nm c :: cur))) as [[| |]|]; contradiction. }
  unfold posix_node. destruct (list_eq_dec N.eq_dec p []) as [Hp|Hp].
  - assert (Ej : join p (nm c) = nm c) by (rewrite Hp; unfold join; rewrite Hab; reflexivity). rewrite !Ej. unfold posix_resolve. destruct (nm c) as [|x s] eqn:E; [congruence|].
    rewrite Hab. cbn [rev]. rewrite Hsp. rewrite <- E in *. exact (HH [] Hroot).
  - rewrite !posix_join by assumption. rewrite Hsp. destruct (posix_resolve 60 t [] p) as [cur|] eqn:Er.
    + destruct (lookup t (rev cur)) as [[s|l|s]|] eqn:El.
      2:{ destruct (proj1 (alike_resolve p cur)) as [-> _]; [split; [exact Er|exists l; exact El]|]. apply HH. exists l. exact El. }
      all: rewrite (walk_out 60 t cur) by (intros [? ?]; congruence); destruct (posix_resolve 60 t' [] p) as [cur'|] eqn:Er'; [|reflexivity];
        rewrite (walk_out 60 t' cur'); [reflexivity|]; intros Hd; destruct (proj2 (alike_resolve p cur')) as [E [? ?]]; [split; [exact Er'|exact Hd]|congruence].
    + destruct (posix_resolve 60 t' [] p) as [cur'|] eqn:Er'; [|reflexivity]. rewrite (walk_out 60 t' cur'); [reflexivity|].
      intros Hd. destruct (proj2 (alike_resolve p cur')) as [E _]; [split; [exact Er'|exact Hd]|congruence].
Qed.
Lemma alike_calm : calm nm (W t) (W t').
Proof.
  intros p. split.
  - assert (H : f_dir (W t) p = true <-> f_dir (W t') p = true).
    { rewrite !node_dir. split; intros [c Hc]; exists c; [exact (proj1 (alike_resolve p c) Hc)|exact (proj2 (alike_resolve p c) Hc)]. }
    destruct (f_dir (W t) p), (f_dir (W t') p); try reflexivity; exfalso; [pose proof (proj1 H eq_refl)|pose proof (proj2 H eq_refl)]; discriminate.
  - intros c. pose proof (slot_same _ _ (alike_named p c)) as (E1 & E2 & E3). cbn [W posix_fs f_file f_read f_mtime]. split; [symmetry; exact E1|split; symmetry; [exact E2|exact E3]].
Qed.
End Alike.

(** ** A file that comes and goes *)
Definition tree16b : node := (D [("r", D [("package.json", PJ "R"); ("x.js", F); ("src", D []);
  ("node_modules", D [("p", D [("package.json", PJ "P"); ("m.js", F); ("b.js", F); ("c.js", F); ("lib", D [("index.js", F)])])])])])%string.
Lemma alike16 : alike nmc tree16 tree16b.
Proof.
  intros names. destruct (lookup tree16 names) as [x|] eqn:E.
  - assert (E1 := E). apply lookup_nodes in E1. revert E1. vm_compute (nodes tree16). intros E1. repeat (destruct E1 as [E1|E1]; [|]); try contradiction; injection E1 as <- <-; cbn; try exact I; intros _; reflexivity.
  - destruct (lookup tree16b names) as [y|] eqn:E'; [|exact I].
    assert (E1 := E'). apply lookup_nodes in E1. revert E1. vm_compute (nodes tree16b). intros E1. repeat (destruct E1 as [E1|E1]; [|]); try contradiction; injection E1 as <- <-; try exact I; vm_compute in E; discriminate.
Qed.
Lemma calm16 : calm nmc w16 (W tree16b).
Proof. apply alike_calm; [exact alike16|eexists; reflexivity|]. intros c. split; [discriminate|repeat split]. Qed.
Definition disk16 (n : nat) : fsys := if Nat.even n then w16 else W tree16b.
Definition c63 (f : nat) : call := CResolve R16 f (lit "/r") (lit "@/y").
Lemma disks16 : forall n, calm nmc w16 (fst (disk16 n, 0)).
Proof. intros n. cbn [fst]. unfold disk16. destruct (Nat.even n); [intros p; repeat split|exact calm16]. Qed.
Lemma client16 : client (js_of T16) nmc R16.
Proof. split; [right; reflexivity|split; reflexivity]. Qed.
Lemma runs16 : out w16 st0 (call_prog (c63 40)) = at_path "/r/src/y.js" /\ out (W tree16b) st0 (call_prog (c63 40)) <> at_path "/r/src/y.js".
Proof. split; [vm_compute; reflexivity|]. intros E. vm_compute in E. discriminate. Qed.
(** ** tsconfig files that extend each other in turns *)
Definition tree63t : node := (D [("r", D [("tsconfig.json", PJ "T1"); ("b.json", PJ "B0"); ("x.js", F)])])%string.
Definition tree63u : node := (D [("r", D [("tsconfig.json", PJ "T0"); ("b.json", PJ "B1"); ("x.js", F)])])%string.
Definition w63t : fsys := W tree63t.
Definition w63u : fsys := W tree63u.
Definition T63t : list (string * json) :=
  ([("T0", O []); ("B0", O []); ("T1", O [("extends", S_ "./b.json")]); ("B1", O [("extends", S_ "./tsconfig.json")])])%string.
Definition R63t : resolver := new_resolver (with_desc (with_tsconfig dflt (Some (lit "/r/tsconfig.json"))) None) 0 0 false (js_of []) (jsc_of T63t).
Definition disk63t (n : nat) : fsys := if Nat.ltb (n mod 4) 2 then w63t else w63u.
Lemma res63 : forall m n e, e = lit "./b.json" \/ e = lit "./tsconfig.json" -> exists k i,
  resolve_ R63t (load_pkg_file R63t (S m)) (S n) (mkInfo (lit "/r") (parse e)) = Do (OIsFile (join (lit "/r") e)) k /\
  k true = Ret (Success (RInfo i)) /\ get_path i = join (lit "/r") e.
Proof. intros m n e [->| ->]; eexists; eexists; (split; [reflexivity|split; reflexivity]). Qed.
Lemma lap63 : forall m n (disk : nat -> fsys) st loc e s j,
  f_read (disk 0) loc = Some s -> jsc_of T63t s = JCVal j -> jget j (lit "extends") = Some (JStr e) -> parent loc = Some (lit "/r") ->
  e = lit "./b.json" \/ e = lit "./tsconfig.json" -> f_file (disk 1) (join (lit "/r") e) = true ->
  stuck (fun k => disk (S (S k))) st (parse_file_to_value R63t (load_pkg_file R63t (S m)) n (join (lit "/r") e)) ->
  stuck disk st (parse_file_to_value R63t (load_pkg_file R63t (S m)) (S n) loc).
Proof.
  intros m n disk st loc e s j Hs Hj He Hp Hc Hf H. cbn [parse_file_to_value act bind]. apply stuck_do. cbn [step fst snd]. rewrite Hs.
  change (rv_jsonc R63t s) with (jsc_of T63t s). rewrite Hj, He, Hp. destruct (res63 m n e Hc) as (k & i & -> & Hk & Hi). cbn [bind]. apply stuck_do. cbn [step fst snd].
  rewrite Hf, Hk. cbn [bind]. rewrite Hi. apply stuck_try, H.
Qed.
Lemma stuck63t : forall m n disk, (forall k, disk k = disk63t k) -> forall loc, loc = lit "/r/tsconfig.json" \/ loc = lit "/r/./tsconfig.json" -> stuck disk st0 (parse_file_to_value R63t (load_pkg_file R63t (S m)) n loc).
Proof.
  intros m n. induction n as [n IH] using (well_founded_induction lt_wf). intros disk Hd loc Hl. destruct n as [|n]; [apply stuck_fuel|].
  apply (lap63 m n disk st0 loc (lit "./b.json") (lit "T1") (O [("extends", S_ "./b.json")]%string)); rewrite ?Hd;
    [destruct Hl as [->| ->]; vm_compute; reflexivity|vm_compute; reflexivity|vm_compute; reflexivity|destruct Hl as [->| ->]; vm_compute; reflexivity|auto|vm_compute; reflexivity|].
  destruct n as [|n]; [apply stuck_fuel|].
  apply (lap63 m n _ st0 _ (lit "./tsconfig.json") (lit "B1") (O [("extends", S_ "./tsconfig.json")]%string)); cbv beta; rewrite ?Hd;
    [vm_compute; reflexivity|vm_compute; reflexivity|vm_compute; reflexivity|vm_compute; reflexivity|auto|vm_compute; reflexivity|].
  apply IH; [lia| |right; vm_compute; reflexivity]. intros k. rewrite Hd. unfold disk63t. replace (S (S (S (S k)))) with (k + 1 * 4) by lia. rewrite Nat.mod_add by lia. reflexivity.
Qed.
Lemma never63t : forall f, never_finishes (fun n => (disk63t n, 0)) st0 [CResolve R63t f (lit "/r") (lit "./x")] 0.
Proof.
  intros f. apply stuck_never. cbn [call_prog]. apply stuck_bind. unfold resolve, resolve_with. apply stuck_bind.
  change (o_tsconfig (rv_opts R63t)) with (Some (lit "/r/tsconfig.json")). cbv iota. unfold resolve_with_tsconfig. apply stuck_bind.
  destruct f as [|f]; [apply stuck_fuel|]. apply stuck63t; auto.
Qed.
Lemma ends63t : forall f, 40 <= f -> out w63t st0 (call_prog (CResolve R63t f (lit "/r") (lit "./x"))) = at_path "/r/x.js" /\
  out w63u st0 (call_prog (CResolve R63t f (lit "/r") (lit "./x"))) = at_path "/r/x.js".
Proof.
  intros f Hf.
  assert (H : fle (call_prog (CResolve R63t 40 (lit "/r") (lit "./x"))) (call_prog (CResolve R63t f (lit "/r") (lit "./x")))).
  { cbn [call_prog]. apply fle_bind; [apply resolve_fle, Hf|]. intros a. apply fle_refl. }
  split.
  - assert (E : out w63t st0 (call_prog (CResolve R63t 40 (lit "/r") (lit "./x"))) = at_path "/r/x.js") by (vm_compute; reflexivity).
    unfold out in *. rewrite (fle_run _ _ H); [exact E|]. unfold out. rewrite E. discriminate.
  - assert (E : out w63u st0 (call_prog (CResolve R63t 40 (lit "/r") (lit "./x"))) = at_path "/r/x.js") by (vm_compute; reflexivity).
    unfold out in *. rewrite (fle_run _ _ H); [exact E|]. unfold out. rewrite E. discriminate.
Qed.
Ltac nodes_of t t' :=
  let names := fresh in let E := fresh "E" in let E' := fresh "E'" in
  intros names; destruct (lookup t names) as [?x|] eqn:E;
  [assert (E1 := E); apply lookup_nodes in E1; revert E1; vm_compute (nodes t); intros E1; repeat (destruct E1 as [E1|E1]; [|]); try contradiction; injection E1 as <- <-; cbn; try exact I; intros _; reflexivity
  |destruct (lookup t' names) as [?y|] eqn:E'; [|exact I];
   assert (E1 := E'); apply lookup_nodes in E1; revert E1; vm_compute (nodes t'); intros E1; repeat (destruct E1 as [E1|E1]; [|]); try contradiction; injection E1 as <- <-; try exact I; vm_compute in E; discriminate].
Lemma calm63t : calm nmc w63t w63u.
Proof. apply alike_calm; [nodes_of tree63t tree63u|eexists; reflexivity|]. intros c. split; [discriminate|repeat split]. Qed.
Lemma C63_extends_p : exists (d d' : fsys) R base req (turn : nat -> bool), sane_fs d /\ sane_fs d' /\ (exists o js jc, R = new_resolver o 0 0 false js jc) /\ is_abs base = true /\
  calm (fun _ => lit "package.json") d d' /\
  (forall f, 40 <= f -> out d st0 (call_prog (CResolve R f base req)) <> NoFuel /\ out d' st0 (call_prog (CResolve R f base req)) <> NoFuel) /\
  forall f, never_finishes (fun n => (if turn n then d else d', 0)) st0 [CResolve R f base req] 0.
Proof.
  exists w63t, w63u, R63t, (lit "/r"), (lit "./x"), (fun n => Nat.ltb (n mod 4) 2). split; [apply posix_sane|]. split; [apply posix_sane|]. split; [eexists; eexists; eexists; reflexivity|].
  split; [reflexivity|]. split; [exact calm63t|]. split; [|exact never63t].
  intros f Hf. destruct (ends63t f Hf) as [-> ->]. split; discriminate.
Qed.
(** ** A file comes and goes while a chain of tsconfig files is read *)
Definition tree16tb : node := (D [("r", D [("tsconfig.json", PJ "T"); ("common.json", PJ "C"); ("conf", D [("base.json", PJ "B")]); ("src", D [])])])%string.
Definition disk16t (n : nat) : fsys := if Nat.even n then w16t else W tree16tb.
Definition keep16 (q : path) : Prop := exists p, In p l16t /\ same_tail p q.
Lemma calm16t : calm nmc w16t (W tree16tb).
Proof. apply alike_calm; [nodes_of (D [("r", D [("tsconfig.json", PJ "T"); ("common.json", PJ "C"); ("conf", D [("base.json", PJ "B")]); ("src", D [("y.js", F)])])])%string tree16tb|eexists; reflexivity|]. intros c. split; [discriminate|repeat split]. Qed.
Lemma kept16t : kept keep16 w16t (W tree16tb).
Proof.
  assert (Hs : sane_fs w16t) by apply posix_sane. assert (Hs' : sane_fs (W tree16tb)) by apply posix_sane.
  intros q (p & Hp & Hq). rewrite <- (sf_file _ Hs _ _ Hq), <- (sf_file _ Hs' _ _ Hq), <- (sf_read _ Hs _ _ Hq), <- (sf_read _ Hs' _ _ Hq). clear Hq.
  repeat (destruct Hp as [<-|Hp]; [vm_compute; split; reflexivity|]). contradiction.
Qed.
Lemma C63_kept_ex_p : call_kept nmc keep16 w16t (CResolve R16t 0 (lit "/r") (lit "@/y")) /\ (forall n, calm nmc w16t (disk16t n) /\ kept keep16 w16t (disk16t n)) /\
  out w16t st0 (call_prog (CResolve R16t 40 (lit "/r") (lit "@/y"))) <> out (W tree16tb) st0 (call_prog (CResolve R16t 40 (lit "/r") (lit "@/y"))) /\
  exists N, forall f, N <= f -> finishes (fun n => (disk16t n, 0)) st0 [CResolve R16t f (lit "/r") (lit "@/y")] 0.
Proof.
  assert (Hk : call_kept nmc keep16 w16t (CResolve R16t 0 (lit "/r") (lit "@/y"))).
  { apply fin_63_chain; [apply posix_sane|reflexivity|exact modest16t|split; [intros ? ? ? ? []|intros ? ? ? []]|].
    intros loc E. injection E as <-. exists [lit "/r/./conf/base.json"; lit "/r/./conf/../common.json"]. split; [exact chain16t|]. intros p q Hp Hq. exists p. split; assumption. }
  assert (Hd : forall n, calm nmc w16t (disk16t n) /\ kept keep16 w16t (disk16t n)).
  { intros n. unfold disk16t. destruct (Nat.even n); [split; [intros p; repeat split|intros p; split; reflexivity]|split; [exact calm16t|exact kept16t]]. }
  split; [exact Hk|]. split; [exact Hd|]. split; [intros E; vm_compute in E; discriminate|].
  destruct (fin_63_kept w16t (posix_sane _ _ _) (js_of []) ltac:(intros s j H; discriminate H) nmc) with (keep := keep16) (c := CResolve R16t 0 (lit "/r") (lit "@/y")) as [N HN].
  - intros c v v' (d & s & j & _ & _ & H & _). discriminate H.
  - split; [right; reflexivity|split; reflexivity].
  - exact Hk.
  - exists N. intros f Hf. apply (HN f [] (fun _ => []) (fun n => (disk16t n, 0)) [CResolve R16t f (lit "/r") (lit "@/y")] 0 Hf).
    + constructor.
    + constructor; [split; [right; reflexivity|split; reflexivity]|constructor].
    + reflexivity.
    + apply fair_solo.
    + intros n. apply Hd.
    + intros n _. apply Hd.
Qed.
Lemma C63_refuted_p : exists (d d' : fsys) R base req k, sane_fs d /\ sane_fs d' /\ (exists js jc, R = new_resolver dflt 0 0 false js jc) /\ is_abs base = true /\
  (forall f, 40 <= f -> out d st0 (call_prog (CResolve R f base req)) <> NoFuel /\ out d' st0 (call_prog (CResolve R f base req)) <> NoFuel) /\
  forall f, never_finishes (fun n => (if Nat.ltb n k then d else d', 0)) st0 [CResolve R f base req] 0.
Proof.
  exists w63a, w63b, R63, (lit "/r"), (lit "./a"), 6. split; [apply posix_sane|]. split; [apply posix_sane|]. split; [eexists; eexists; reflexivity|]. split; [reflexivity|].
  split; [|exact never63]. intros f Hf. destruct (ends63 f Hf) as [-> ->]. split; discriminate.
Qed.
Lemma C63_flicker_p : exists (disk : nat -> fsys) R p, (forall n, sane_fs (disk n)) /\ (exists js jc, R = new_resolver dflt 0 0 false js jc) /\ is_abs p = true /\
  (forall n q, f_dir (disk n) q = f_dir (disk 0) q) /\
  forall f, never_finishes (fun n => (disk n, 0)) st0 [CSide R f p] 0.
Proof.
  exists disk63f, R63f, (lit "/r"). split; [intros n; unfold disk63f; destruct (Nat.eqb _ _); apply posix_sane|]. split; [eexists; eexists; reflexivity|]. split; [reflexivity|].
  split; [|exact never63f]. intros n q. change (disk63f 0) with w63c. unfold disk63f. destruct (Nat.eqb _ _); [apply dirs63|reflexivity].
Qed.
Lemma C63_calm_ex_p : (sane_fs w16 /\ no_clash w16 (js_of T16) nmc /\ client (js_of T16) nmc R16 /\ call_plain w16 (c63 0) /\
    (forall n, calm nmc w16 (fst (disk16 n, 0))) /\ fair (fun n => (disk16 n, 0)) 0) /\
  out w16 st0 (call_prog (c63 40)) = at_path "/r/src/y.js" /\ out (W tree16b) st0 (call_prog (c63 40)) <> at_path "/r/src/y.js" /\
  exists N, forall f, N <= f -> finishes (fun n => (disk16 n, 0)) st0 [c63 f] 0.
Proof.
  split; [exact (conj (posix_sane _ _ _) (conj clash16 (conj client16 (conj (plain16 0 (lit "/r") (lit "@/y") eq_refl) (conj disks16 (fair_solo disk16))))))|].
  split; [exact (proj1 runs16)|]. split; [exact (proj2 runs16)|].
  destruct (fin_63_calm w16 (posix_sane _ _ _) (js_of T16) wf16 nmc clash16 (c63 0) client16 (plain16 0 (lit "/r") (lit "@/y") eq_refl) eq_refl) as [N HN].
  exists N. intros f Hf. apply (HN f [] (fun _ => []) (fun n => (disk16 n, 0)) [c63 f] 0 Hf).
  - constructor.
  - constructor; [exact client16|constructor].
  - reflexivity.
  - apply fair_solo.
  - exact disks16.
Qed.
(** The texts of all files change. *)
Definition w63e : fsys := mkFs (f_file w63d) (f_dir w63d) (f_exists w63d) (fun p => option_map (fun _ => lit "B") (f_read w63d p)) (fun p => match f_mtime w63d p with MTime _ => MTime 9%N | x => x end) (f_canon w63d).
Definition disk63s (n : nat) : fsys := if Nat.even n then w63d else w63e.
Definition R63s : resolver := mkR dflt [("A", O [("sideEffects", JBool false)]); ("B", O [("sideEffects", JBool true)])]%string.
Lemma C63_side_ex_p : (sane_fs w63d /\ in_place w63d (lit "package.json") (fun n => (disk63s n, 0)) 0) /\
  finishes (fun n => (disk63s n, 0)) st0 [CSide R63s 10 (lit "/r/x/y")] 0 /\
  out w63d st0 (call_prog (CSide R63s 10 (lit "/r/x/y"))) <> out w63e st0 (call_prog (CSide R63s 10 (lit "/r/x/y"))).
Proof.
  assert (H : in_place w63d (lit "package.json") (fun n => (disk63s n, 0)) 0).
  { intros n fs' E p. injection E as <-. unfold disk63s. destruct (Nat.even n); split; reflexivity. }
  split; [split; [apply posix_sane|exact H]|]. split; [|intros E; vm_compute in E; discriminate].
  eapply (fin_63_side w63d (posix_sane _ _ _) R63s (lit "package.json") (lit "/r/x/y")); [reflexivity|reflexivity| |reflexivity|apply fair_solo|exact H]. vm_compute. lia.
Qed.
Definition R63n : resolver := mkR (with_desc (with_alias dflt [(lit "@", ATarget (lit "./"))]) None) [].
Lemma stops63n : forall t, stops (rewritten (rv_opts R63n)) t.
Proof.
  intros t. constructor. intros y Hy. assert (Hy' : starts_with y (lit "./") = true).
  { inversion Hy as [from to t0 Hin Hs Hn|t0 Hp]; subst; [|discriminate Hp]. destruct Hin as [E|[]]. injection E as <- <-.
    destruct t as [|x t]; [discriminate|]. change (lit "@") with [64%N] in Hs |- *. cbn [starts_with] in Hs. apply andb_prop in Hs. destruct Hs as [Hs _]. apply N.eqb_eq in Hs. subst x. change (64%N :: t) with ([64%N] ++ t). rewrite replacen1_prefix. apply starts_with_app. }
  constructor. intros z Hz. exfalso. inversion Hz as [from to t0 Hin Hs Hn|t0 Hp]; subst; [|discriminate Hp]. destruct Hin as [E|[]]. injection E as <- <-. congruence.
Qed.
Lemma C63_no_description_ex_p : o_desc (rv_opts R63n) = None /\ stops (rewritten (rv_opts R63n)) (r_target (parse (lit "@a"))) /\
  out w63a st0 (call_prog (CResolve R63n 40 (lit "/r") (lit "@a"))) = at_path "/r/a/index.js" /\
  out w63b st0 (call_prog (CResolve R63n 40 (lit "/r") (lit "@a"))) = at_path "/r/a.js" /\
  exists N, forall f, N <= f -> finishes (fun n => (disk63 n, 0)) st0 [CResolve R63n f (lit "/r") (lit "@a")] 0.
Proof.
  split; [reflexivity|]. split; [apply stops63n|]. split; [vm_compute; reflexivity|]. split; [vm_compute; reflexivity|].
  destruct (fin_63_nodesc R63n (lit "/r") (lit "@a") eq_refl eq_refl (stops63n _)) as [N HN]. exists N. intros f Hf. eapply HN; [exact Hf|reflexivity|apply fair_solo].
Qed.
(** The file goes away after [k] steps. *)
Definition sched63 (k : nat) : list (fsys * nat) := repeat (w16, 0) k ++ repeat (W tree16b, 0) 200.
Definition moved63 (k : nat) : list (outcome answer) := map SpecCache.settled (fst (run_moving (sched63 k) st0 (map call_prog [c63 60]))).
Lemma calm63 : forall k, Forall (fun e => calm nmc w16 (fst e)) (sched63 k).
Proof.
  intros k. apply Forall_app. split; apply Forall_forall; intros e He; apply repeat_spec in He; subst e; [intros p; repeat split|exact calm16].
Qed.
Lemma runs63 : moved63 60 = [at_path "/r/src/y.js"] /\ moved63 32 = [Done (AResolve (Err (lit "Path normalized failed")))] /\
  moved63 0 = [Done (AResolve (Err (lit "Resolve '@/y' failed in '/r'")))].
Proof. split; [vm_compute; reflexivity|]. split; vm_compute; reflexivity. Qed.
