(** * Lemmas and example worlds behind PropChange.v *)
From Coq Require Import String.
From Coq Require Import List Arith NArith Bool Lia Sorted.
From Verif Require Import Str StrP Path PathP Json Types Parse Map Prog Desc Resolve Top Run RunP Posix Demo SpecRun SpecLoad SpecCache SpecJson PosixP SpellP SimP LoadP CacheP SpecChange ChangeP GrownP PropCacheP.
Import ListNotations.
Local Open Scope string_scope.
Local Open Scope list_scope.

Lemma sorted_pairs {A} : forall (P : A -> A -> Prop) l, StronglySorted P l -> ForallOrdPairs P l.
Proof. intros P l H. induction H; constructor; assumption. Qed.
Lemma sorted_in {A} : forall (P : A -> A -> Prop) a l x, StronglySorted P (a :: l) -> In x l -> P a x.
Proof. intros P a l x H Hin. apply StronglySorted_inv in H. destruct H as [_ H]. rewrite Forall_forall in H. auto. Qed.
Lemma ord_map {A B} : forall (f : A -> B) (P : A -> A -> Prop) (Q : B -> B -> Prop) l, ForallOrdPairs P l ->
  (forall x y, In x l -> In y l -> P x y -> Q (f x) (f y)) -> ForallOrdPairs Q (map f l).
Proof.
  intros f P Q l H. induction H as [|a l Ha Hl IH]; intros HQ; cbn [map]; constructor.
  - rewrite Forall_forall in *. intros y Hy. apply in_map_iff in Hy. destruct Hy as (x & <- & Hx). apply HQ; [left; reflexivity|right; exact Hx|auto].
  - apply IH. intros x y Hx Hy. apply HQ; right; assumption.
Qed.
Lemma disk_systems : forall js name dur, file_name name -> forall fuel cwd t0 ts fss,
  (exists l, lookup t0 cwd = Some (NDir l)) -> fss = map (fun t => posix_fs fuel t cwd) (t0 :: ts) ->
  Sorted (grown name dur) (t0 :: ts) -> Forall (good_tree js name) (t0 :: ts) ->
  Forall (fun fs => sane_fs fs /\ forall k : nat, all_readable js name fs) fss /\
  ForallOrdPairs (fun fs fs' => forall k : nat, noticeable name dur fs fs') fss.
Proof.
  intros js name dur Hn fuel cwd t0 ts fss Hcwd -> Hs Hg. split.
  - apply Forall_forall. intros fs Hin. apply in_map_iff in Hin. destruct Hin as (t & <- & Ht). split; [apply posix_sane|].
    intros _. apply good_readable; [exact Hn|]. rewrite Forall_forall in Hg. apply Hg, Ht.
  - assert (HS : StronglySorted (grown name dur) (t0 :: ts)).
    { apply Sorted_StronglySorted; [|exact Hs]. intros x y z H1 H2. eapply grown_trans; eassumption. }
    eapply ord_map; [apply sorted_pairs; exact HS|]. intros x y Hx Hy Hxy _. apply grown_noticeable; [exact Hn|exact Hxy|].
    destruct Hcwd as [l Hl]. destruct Hx as [->|Hx]; [eauto|]. destruct (grown_lookup name dur cwd t0 x (NDir l)) as (v & Ev & Hv); [|exact Hl|].
    + eapply sorted_in; eassumption.
    + apply grown_dir in Hv. destruct Hv as (l' & -> & _). eauto.
Qed.
Lemma disk_changes : forall js, (forall s j, js s = Some j -> wf_json j) ->
  forall name dur, file_name name -> forall fuel cwd t0 ts fs0 h own seeds seeds' c f, texts_apart js (text_in name (t0 :: ts)) ->
  (exists l, lookup t0 cwd = Some (NDir l)) ->
  systems fs0 h = map (fun t => posix_fs fuel t cwd) (t0 :: ts) ->
  Sorted (grown name dur) (t0 :: ts) -> Forall (good_tree js name) (t0 :: ts) ->
  Forall (member js (fun _ => name) own dur) (callers h) -> member js (fun _ => name) own dur (call_resolver c) ->
  let '(_, fs, st) := run_history fs0 (empty_state seeds) h in
  steady fs js c -> same_outcome same_answer (out fs st (call_prog c)) (out fs (empty_state seeds') (call_prog (with_fuel c f))).
Proof.
  intros js Hwf name dur Hn fuel cwd t0 ts fs0 h own seeds seeds' c f Hap Hcwd Hsys Hs Hg Hm Hc.
  destruct (disk_systems js name dur Hn fuel cwd t0 ts (systems fs0 h) Hcwd Hsys Hs Hg) as [H1 H2].
  apply (changes_agree js Hwf (fun _ => name)) with (own := own) (dur := dur); auto.
  2:{ assert (Ht : forall s, written_on (fun n => exists _ : nat, n = name) (systems fs0 h) s -> text_in name (t0 :: ts) s).
      { intros s (fs & d & n & Hin & [_ ->] & E). rewrite Hsys in Hin. apply in_map_iff in Hin. destruct Hin as (root & <- & Hin).
        rewrite Forall_forall in Hg. destruct (read_named js name fuel root cwd d s Hn (Hg root Hin) E) as [t Ht]. exists root, t. auto. }
      intros s s' j j' v v' Hs1 Hs2. apply Hap; apply Ht; assumption. }
  intros _. apply (name_split name 0%N Hn (NLink []) (NLink []) (GrLink _ _ [])).
Qed.

(** ** An edit and a new package *)
Definition T41 : list (string * json) :=
  [("A", O [("main", S_ "./a.js")]); ("B", O [("main", S_ "./b.js"); ("exports", O [(".", S_ "./b.js")])]); ("Q", O [("main", S_ "./q.js")])].
Definition tree41 (id : string) (t : N) (more : list (string * node)) : node :=
  D [("r", D ([("package.json", NFile (lit id) t); ("a.js", F); ("b.js", F)] ++ more))].
Definition t41a : node := tree41 "A" 1000000000%N [].
Definition t41b : node := tree41 "B" 2000000001%N [("node_modules", D [("q", D [("package.json", PJ "Q"); ("q.js", F)])])].
Definition ask (base req : string) : call := CResolve (mkR dflt T41) 40 (lit base) (lit req).
Definition h41 : list event := [ECall (ask "/" "./r"); ECall (ask "/r" "q"); EFs (W t41b); ECall (ask "/r" "./a.js")].
Lemma T41_wf : forall s j, js_of T41 s = Some j -> wf_json j.
Proof. intros s j H. apply js_of_in in H. cbn [T41 map snd] in H. destruct H as [<-|[<-|[<-|[]]]]; cbn; repeat split; auto. Qed.
Lemma T41_apart : forall T, texts_apart (js_of T41) T.
Proof.
  intros T s s' j j' v v' _ _ _ Hj' _ Hv'. apply js_of_in in Hj'. cbn [T41 map snd] in Hj'.
  destruct Hj' as [<-|[<-|[<-|[]]]]; vm_compute in Hv'; discriminate.
Qed.
Lemma t41_grown : Sorted (grown (lit "package.json") 1000000000%N) [t41a; t41b].
Proof.
  constructor; [constructor; constructor|]. constructor.
  assert (Hg : forall name dur l l', map fst l = map fst (firstn (length l) l') ->
     Forall2 (grown name dur) (map snd l) (map snd (firstn (length l) l')) ->
     forall k v, imap_get l k = Some v -> exists v', imap_get l' k = Some v' /\ grown name dur v v').
  { intros name dur. induction l as [|[k v] l IH]; intros l' H1 H2 k0 v0 Hk; [discriminate|]. destruct l' as [|[k' v'] l']; [discriminate|].
    cbn [length firstn map fst snd] in *. injection H1 as <- H1. inversion H2 as [|? ? ? ? Hv H2']; subst. cbn [imap_get] in *.
    destruct (str_eqb k k0); [injection Hk as <-; eauto|eapply IH; eassumption]. }
  unfold t41a, t41b, tree41, D. cbn [map app fst snd].
  constructor; [apply Hg; [reflexivity|]|intros; reflexivity|vm_compute; discriminate].
  cbn. constructor; [|constructor]. constructor; [apply Hg; [reflexivity|]|vm_compute; discriminate|vm_compute; discriminate].
  cbn. constructor; [apply GrEdit; lia|]. repeat (constructor; [apply GrSame|]). constructor.
Qed.
Lemma t41_good : Forall (good_tree (js_of T41) (lit "package.json")) [t41a; t41b].
Proof.
  assert (H : forall id, In id ["A"; "B"; "Q"]%string -> good_text (js_of T41) (lit id)).
  { intros id [<-|[<-|[<-|[]]]]; do 3 eexists; (split; [vm_compute; reflexivity|]); (split; [vm_compute; reflexivity|]); (split; [vm_compute; reflexivity|]);
      split; intros v Hv; vm_compute in Hv; try discriminate; injection Hv as <-; eexists; vm_compute; reflexivity. }
  constructor; [|constructor; [|constructor]]; intros v Hv.
  - change (In v [NFile (lit "A") 1000000000%N]) in Hv. destruct Hv as [<-|[]]. apply H. left; reflexivity.
  - change (In v [NFile (lit "B") 2000000001%N; PJ "Q"]) in Hv. destruct Hv as [<-|[<-|[]]]; apply H; cbn; auto.
Qed.
Lemma t41_members : forall own, own 0 = 0 -> Forall (member (js_of T41) (fun _ => lit "package.json") own 1000000000%N) (callers h41).
Proof. intros own H. repeat (constructor; [split; [split; [right; reflexivity|split; reflexivity]|split; [exact H|vm_compute; discriminate]]|]). constructor. Qed.
Lemma t41_steady : forall fs base req, steady fs (js_of T41) (ask base req).
Proof. intros fs base req. split; [left; reflexivity|]. intros loc c t m H. discriminate H. Qed.
Lemma t41_name : file_name (lit "package.json").
Proof. repeat split; try discriminate. vm_compute. intuition discriminate. Qed.
Lemma t41_answers : exists st, snd (run_history (W t41a) st0 h41) = st /\ systems (W t41a) h41 = map W [t41a; t41b] /\
  (exists e, out (W t41a) st0 (call_prog (ask "/r" "q")) = Done (AResolve (Err e))) /\
  gives (out (W t41a) st0 (call_prog (ask "/" "./r"))) "/r/a.js" /\
  s_pkg st 0 (components (lit "/r")) <> None /\
  gives (out (W t41b) st (call_prog (ask "/" "./r"))) "/r/b.js" /\
  gives (out (W t41b) st (call_prog (ask "/r" "q"))) "/r/node_modules/q/q.js".
Proof.
  eexists. split; [reflexivity|]. split; [reflexivity|]. split; [eexists; vm_compute; reflexivity|].
  split; [eexists; split; [vm_compute; reflexivity|reflexivity]|]. split; [vm_compute; discriminate|].
  split; eexists; (split; [vm_compute; reflexivity|reflexivity]).
Qed.

(** ** The race *)
Definition R40 : resolver := mkR dflt T40.
Definition c40 : call := CResolve R40 40 (lit "/") (lit "./r").
Definition stA : state := snd (run_history (w40 "A" 1000000000%N) st0 [ECall c40]).
Lemma race40 : exists sched p q, fst (run_sched (w40 "B" 2000000001%N) sched stA (map call_prog [c40; c40])) = [p; q] /\
  gives (settled p) "/r/b.js" /\ gives (settled q) "/r/a.js" /\
  gives (out (w40 "B" 2000000001%N) stA (call_prog c40)) "/r/b.js".
Proof.
  exists (repeat 0 9 ++ repeat 1 60 ++ repeat 0 60). do 2 eexists. split; [vm_compute; reflexivity|].
  repeat (split; [eexists; split; [vm_compute; reflexivity|reflexivity]|]). eexists; split; [vm_compute; reflexivity|reflexivity].
Qed.
