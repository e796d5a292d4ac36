(** * Lemmas and the example behind PropChangeEnd.v *)
From Coq Require Import String.
From Coq Require Import List Arith NArith Bool Lia Sorted.
From Verif Require Import Str StrP Path PathP Json Types Parse Map Prog Desc Resolve Top Run RunP Posix Demo SpecRun SpecLoad SpecCache SpecJson SpecTerm PosixP SpellP SimP LoadP GuarP CacheP SpecChange HistP GrownP ChangeP LookupP PropCacheP PropTermP PropChangeP ChangeEndP.
Import ListNotations.
Local Open Scope string_scope.
Local Open Scope list_scope.

Lemma history_last : forall h fs0 d st, snd (fst (run_history fs0 st h)) = last (systems fs0 h) d.
Proof.
  unfold systems. induction h as [|[c|fs'] h IH]; intros fs0 d st; cbn [run_history flat_map app]; [reflexivity| |].
  - destruct (run fs0 (call_prog c) st) as [o st']. specialize (IH fs0 d st'). destruct (run_history fs0 st' h) as [[os fs1] st1]. exact IH.
  - rewrite (IH fs' d st). reflexivity.
Qed.
Lemma last_map {A B} : forall (f : A -> B) l d, last (map f l) (f d) = f (last l d).
Proof. intros f l d. induction l as [|a [|b l] IH]; [reflexivity..|]. exact IH. Qed.
Lemma disk_ends : forall js, (forall s j, js s = Some j -> wf_json j) ->
  forall name dur, file_name name -> forall fuel cwd t own c,
  member js (fun _ => name) own dur (call_resolver c) -> steady (posix_fs fuel t cwd) js c ->
  call_plain_by (posix_fs fuel t cwd) (fun _ => disk_answer (posix_fs fuel t cwd)) c ->
  exists N, forall t0 ts fs0 h seeds seeds' f f', N <= f -> N <= f' -> texts_apart js (text_in name (t0 :: ts)) ->
  (exists l, lookup t0 cwd = Some (NDir l)) ->
  systems fs0 h = map (fun t => posix_fs fuel t cwd) (t0 :: ts) -> last (t0 :: ts) t0 = t ->
  Sorted (grown name dur) (t0 :: ts) -> Forall (good_tree js name) (t0 :: ts) ->
  Forall (member js (fun _ => name) own dur) (callers h) ->
  same_end same_answer (out (posix_fs fuel t cwd) (snd (run_history fs0 (empty_state seeds) h)) (call_prog (with_fuel c f)))
                       (out (posix_fs fuel t cwd) (empty_state seeds') (call_prog (with_fuel c f'))).
Proof.
  intros js Hwf name dur Hn fuel cwd t own c HR Hst Hp.
  assert (Hrel : is_abs name = false) by apply (name_split name 0%N Hn (NLink []) (NLink []) (GrLink _ _ [])).
  destruct (changes_end js Hwf (fun _ => name) (fun _ => Hrel) own dur _ (posix_sane fuel t cwd) c HR Hst Hp) as [N HN].
  exists N. intros t0 ts fs0 h seeds seeds' f f' Hf Hf' Hap Hcwd Hsys Hl Hs Hg Hm.
  destruct (disk_systems js name dur Hn fuel cwd t0 ts (systems fs0 h) Hcwd Hsys Hs Hg) as [H1 H2].
  apply HN; auto.
  - assert (Ht : forall s, written_on (fun n => exists _ : nat, n = name) (systems fs0 h) s -> text_in name (t0 :: ts) s).
    { intros s (fs & d & n & Hin & [_ ->] & E). rewrite Hsys in Hin. apply in_map_iff in Hin. destruct Hin as (root & <- & Hin).
      rewrite Forall_forall in Hg. destruct (read_named js name fuel root cwd d s Hn (Hg root Hin) E) as [t1 Ht]. exists root, t1. auto. }
    intros s s' j j' v v' Hs1 Hs2. apply Hap; apply Ht; assumption.
  - rewrite (history_last h fs0 (posix_fs fuel t0 cwd)), Hsys, (last_map (fun t => posix_fs fuel t cwd)), Hl. reflexivity.
Qed.

(** ** The world of [C41_on_disk_ex] *)
Lemma nodir41 : forall p m, In m [lit "./a.js"; lit "./b.js"; lit "./q.js"] -> f_dir (W t41b) (join p m) = false.
Proof.
  intros p m Hm. destruct p as [|c p']; [destruct Hm as [<-|[<-|[<-|[]]]]; reflexivity|]. set (p := c :: p') in *.
  assert (Hp : p <> []) by discriminate. clearbody p. cbn [f_dir W posix_fs]. unfold posix_node.
  rewrite posix_join; [|exact Hp|destruct Hm as [<-|[<-|[<-|[]]]]; discriminate|destruct Hm as [<-|[<-|[<-|[]]]]; reflexivity].
  destruct (posix_resolve 60 t41b [] p) as [cur|]; [|reflexivity].
  destruct (lookup t41b (rev cur)) as [x|] eqn:El.
  - apply lookup_nodes in El. revert El. vm_compute (nodes t41b).
    intros El. repeat (destruct El as [El|El]; [|]); try contradiction; injection El as Er <-;
      apply (f_equal (@rev str)) in Er; rewrite rev_involutive in Er; cbn [rev app] in Er; subst cur;
      destruct Hm as [<-|[<-|[<-|[]]]]; vm_compute; reflexivity.
  - assert (E : split_on c_slash m = [lit "."; skipn 2 m]) by (destruct Hm as [<-|[<-|[<-|[]]]]; reflexivity).
    rewrite E, walk_cons, El. reflexivity.
Qed.
Lemma no_main41 : forall p q, ~ main_dir (W t41b) (mkR dflt T41) p q.
Proof.
  assert (Hm : forall p m, main_at (W t41b) (mkR dflt T41) p m -> In m [lit "./a.js"; lit "./b.js"; lit "./q.js"]).
  { intros p m (pk & fld & v & Hd & Hsame & Hfld & Hv & _ & _ & ->).
    destruct (lookup_facts _ _ _ _ _ Hd) as (n & s & j & En & Hdir & Hs & Hj & _ & Hraw). subst j.
    apply js_of_in in Hj. cbn [T41 map snd] in Hj. destruct Hfld as [<-|[]].
    destruct Hj as [E|[E|[E|[]]]]; rewrite <- E in Hv; vm_compute in Hv; injection Hv as <-; vm_compute; auto. }
  intros p q H. destruct H as [m H1 Hd|d m _ H1 Hd|m c q H1 [Hb _] _ _].
  - rewrite nodir41 in Hd; [discriminate|eapply Hm; exact H1].
  - rewrite nodir41 in Hd; [discriminate|eapply Hm; exact H1].
  - discriminate Hb.
Qed.
Lemma modest41 : modest (W t41b) (mkR dflt T41).
Proof.
  split.
  - intros d j v t (name & s & _ & _ & _ & Hj) Hv Ht. apply js_of_in in Hj. cbn [T41 map snd] in Hj.
    destruct Hj as [<-|[<-|[<-|[]]]]; vm_compute in Hv; discriminate.
  - discriminate.
  - intros name p q _ Hq. contradiction (no_main41 p q Hq).
Qed.
Lemma plain41 : forall base req, is_abs (lit base) = true -> call_plain_by (W t41b) (fun _ => disk_answer (W t41b)) (ask base req).
Proof.
  intros base req Ha. apply modest_plain_by; [auto|apply posix_sane|exact Ha|exact modest41| |discriminate].
  split; [intros from to from' to' []|discriminate].
Qed.
Lemma ends41 :
  (member (js_of T41) (fun _ => lit "package.json") (fun _ => 0) 1000000000%N (call_resolver (ask "/r" "q")) /\
   steady (W t41b) (js_of T41) (ask "/r" "q") /\ call_plain_by (W t41b) (fun _ => disk_answer (W t41b)) (ask "/r" "q") /\
   systems (W t41a) h41 = map W [t41a; t41b] /\ last [t41a; t41b] t41a = t41b) /\
  gives (out (W t41b) (snd (run_history (W t41a) st0 h41)) (call_prog (ask "/r" "q"))) "/r/node_modules/q/q.js".
Proof.
  split.
  - split; [|split; [apply t41_steady|split; [apply plain41; reflexivity|split; reflexivity]]].
    pose proof (t41_members (fun _ => 0) eq_refl) as H. inversion H; assumption.
  - destruct t41_answers as (st & <- & _ & _ & _ & _ & _ & H). exact H.
Qed.
