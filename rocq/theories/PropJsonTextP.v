(** * Examples behind PropJsonText.v *)
From Coq Require Import String.
From Coq Require Import List Arith NArith Bool Lia Sorted.
From Verif Require Import Str StrP Path Json Types Parse Map Prog Desc Resolve Top Run Posix Demo SpecRun SpecJson SpecCache SpecChange JsonText SpecJsonText JsonTextP JsonRoundP SpecRetell RetellP.
Import ListNotations.

(** No floats. *)
Definition nofloat : str -> option str := fun _ => None.
(** One float, -0.0, which is written in three ways. *)
Definition zero64 : str -> option str := fun t => if mem t (map lit ["-0"; "-0.0"; "-0e0"]%string) then Some (lit "-0.0") else None.
Definition t64 : str := lit "{ ""name"" : ""a\u0062\n"", ""version"":1,
  ""n\u0061me"":""x"", ""exports"": {""."": [""./\uD83D\ude00.js"", null, -12]}, ""private"":true }
".
Definition v64 : json := O [("name", S_ "x"); ("version", JNum (lit "1"));
  ("exports", O [(".", JArr [JStr ((lit "./" ++ [128512%N] ++ lit ".js")%list); JNull; JNum (lit "-12")])]); ("private", JBool true)]%string.
Definition deep64 (n : nat) : str := repeat 91%N n ++ repeat 93%N n.
Definition bad64 : list str := map lit ["{""a"":1,}"; "{'a':1}"; "01"; "1."; """\ud83d"""; """\udc00"""; "[1] 2"; "// c"; ""; "tru"; "{""a""}"; "-"; "1e999"]%string.
Lemma ex64 : from_str nofloat t64 = Some v64 /\ Forall (fun s => from_str nofloat s = None) bad64 /\
  (exists v, from_str nofloat (deep64 127) = Some v) /\ from_str nofloat (deep64 128) = None.
Proof. split; [vm_compute; reflexivity|]. split; [repeat constructor|]. split; [eexists; vm_compute; reflexivity|vm_compute; reflexivity]. Qed.
Lemma zero64_once : prints_once zero64.
Proof.
  intros t l H. unfold zero64 in H. destruct (mem _ _); [|discriminate]. injection H as <-. exists true, [48%N], (lit ".0"). split; [reflexivity|]. split.
  - split; [split; [discriminate|repeat constructor; unfold digit; lia]|]. split; [left; reflexivity|]. exists (lit ".0"), []. split; [reflexivity|]. split; [|left; reflexivity].
    right. exists [48%N]. split; [reflexivity|split; [discriminate|repeat constructor; unfold digit; lia]].
  - right. split; [intros [H _]; discriminate H|vm_compute; reflexivity].
Qed.
Lemma once_numbers : forall float, prints_once float -> prints_numbers float.
Proof. intros float H t l E. destruct (H t l E) as (neg & ds & fx & E1 & E2 & _). exists neg, ds, fx. auto. Qed.
Lemma ex64_zero : prints_once zero64 /\ from_str zero64 (lit "[-0, -0.0 ,-0e0]") = Some (JArr (repeat (JNum (lit "-0.0")) 3)) /\
  from_str zero64 (lit "[-0.0,-0.0,-0.0]") = Some (JArr (repeat (JNum (lit "-0.0")) 3)) /\ from_str zero64 (lit "0.0") = None.
Proof. split; [exact zero64_once|]. vm_compute. repeat split. Qed.

(** ** A disk and the same in other words *)
Definition p64 : str := lit "{""name"":""p"",""exports"":{""."":""./lib/a.js""},""sideEffects"":false}".
Definition p64' : str := lit "
{ ""name"" : ""q"",
  ""exports"" : { ""."" : ""./b.js"" },
  ""n\u0061me"" : ""p"",
  ""exports"" : { ""."" : "".\/lib/a.js"" } , ""sideEffects"" : false } ".
Definition p64'' : str := lit "{""name"":""p"",""exports"":{""."":""./lib/b.js""},""sideEffects"":false}".
Definition w64 : fsys := W (D [("r", D [("node_modules", D [("p", D [("package.json", NFile p64 1%N); ("lib", D [("a.js", F); ("b.js", F)])])])])]%string).
Definition reworded (t : str) (fs : fsys) : fsys :=
  mkFs (f_file fs) (f_dir fs) (f_exists fs) (fun p => option_map (fun s => if str_eqb s p64 then t else s) (f_read fs p)) (f_mtime fs) (f_canon fs).
Definition R64 : resolver := new_resolver dflt 0 0 false (from_str nofloat) (fun _ => JCNone).
Definition c64 : call := CResolve R64 60 (lit "/r") (lit "p").
Definition h64 (t : str) : list event := [ECall c64; EFs (reworded t w64); ECall c64; ECall (CSide R64 60 (lit "/r/node_modules/p/lib"))].
Lemma reworded64 : retold_fs nofloat (fun _ => JCNone) w64 (reworded p64' w64).
Proof.
  intros p. do 5 (split; [reflexivity|]). unfold reworded. cbn [f_read]. destruct (f_read w64 p) as [s|]; [|exact I]. cbn [option_map retold]. split; [|reflexivity].
  intros v. destruct (str_eqb s p64) eqn:E; [|reflexivity]. apply str_eqb_eq in E. subst s. rewrite <- !reads_document.
  assert (Es : from_str nofloat p64 = from_str nofloat p64') by (vm_compute; reflexivity). rewrite Es. reflexivity.
Qed.
Lemma events64 : Forall2 (retold_event nofloat (fun _ => JCNone)) (h64 p64) (h64 p64').
Proof.
  constructor; [reflexivity|]. constructor; [|constructor; [reflexivity|constructor; [reflexivity|constructor]]]. intros p. destruct (reworded64 p) as (H1 & H2 & H3 & H4 & H5 & H6).
  do 5 (split; [reflexivity|]). revert H6. unfold reworded. cbn [f_read]. destruct (f_read w64 p) as [s|]; [|trivial]. cbn [option_map retold]. destruct (str_eqb s p64) eqn:E; [|trivial]. apply str_eqb_eq in E. subst s. trivial.
Qed.
Definition at64 (p : string) : outcome answer := Done (AResolve (Ok (RInfo (mkInfo (lit p) (mkReq [] [] [] Relative))))).
Definition side64 : outcome answer := Done (ASide (Ok (Some (lit "/r/node_modules/p/package.json", Some (SEBool false))))).
Definition outs64 (t : str) : list (outcome answer) := fst (fst (run_history (reworded t w64) st0 (h64 t))).
Lemma ex64_runs : p64 <> p64' /\ outs64 p64' = [at64 "/r/node_modules/p/lib/a.js"; at64 "/r/node_modules/p/lib/a.js"; side64] /\
  outs64 p64'' = [at64 "/r/node_modules/p/lib/b.js"; at64 "/r/node_modules/p/lib/b.js"; side64].
Proof. split; [discriminate|]. vm_compute. split; reflexivity. Qed.

(** ** Files that hold no document *)
Lemma fin_64_invalid : forall float fs seeds R f p name s t, rv_json R = from_str float -> o_desc (rv_opts R) = Some name ->
  f_dir fs p = true -> f_file fs (join p name) = true -> f_read fs (join p name) = Some s -> f_mtime fs (join p name) = MTime t ->
  ~ (exists v, document float s v) ->
  out fs (empty_state seeds) (call_prog (CSide R (S f) p)) = Done (ASide (Err (lit "Parse " ++ join p name ++ lit " failed"))).
Proof.
  intros float fs seeds R f p name s t Hj Hn Hd Hf Hr Ht Hv. assert (Es : rv_json R s = None).
  { rewrite Hj. destruct (from_str float s) as [v|] eqn:E; [|reflexivity]. exfalso. apply Hv. exists v. apply reads_document, E. }
  unfold out. cbn [call_prog]. unfold load_side_effects. cbn [load_pkg_file]. rewrite Hn. unfold try_, parse_and_store, parse_description_file, dbg_check, read_to_string, get_last_modified.
  cbn [act bind run step]. rewrite Hd. cbn [negb bind run step act]. cbn [empty_state s_pkg bind run step act]. rewrite Hf. unfold try_. destruct (rv_debug R); cbn [act bind run step empty_state s_dbg set_dbg]; rewrite Hr; cbn [act bind run step]; rewrite Ht; cbn [act bind run step]; rewrite Es; reflexivity.
Qed.
Definition w64b : fsys := reworded (lit "{""name"":""p"",}") w64.
Lemma ex64_invalid : from_str nofloat (lit "{""name"":""p"",}") = None /\
  out w64b st0 (call_prog (CSide R64 60 (lit "/r/node_modules/p"))) = Done (ASide (Err (lit "Parse /r/node_modules/p/package.json failed"))).
Proof. vm_compute. split; reflexivity. Qed.
Lemma ex64_wf : prints_numbers zero64 /\ wf_json v64 /\ readable nofloat 127 v64 /\ ~ readable nofloat 2 v64.
Proof.
  split; [apply once_numbers, zero64_once|]. assert (E : from_str nofloat t64 = Some v64) by (vm_compute; reflexivity). split; [|split].
  - apply (from_str_wf nofloat) with (s := t64); [intros t l H; discriminate H|exact E].
  - apply (from_str_readable nofloat) with (s := t64); [intros t l H; discriminate H|exact E].
  - intros H. inversion H as [| | | | |d l _ Hl]; subst. inversion Hl as [|? ? _ Hl1]; subst. inversion Hl1 as [|? ? _ Hl2]; subst. inversion Hl2 as [|? ? He _]; subst.
    inversion He as [| | | | |d l _ Hm]; subst. inversion Hm as [|? ? Ha _]; subst. inversion Ha.
Qed.

(** The conditions of C41 with this parser: an edited description. *)
Definition tree64 (p : string) (t : N) : node := D [("r", D [("node_modules", D [("p", D [("package.json", NFile (lit p) t); ("lib", D [("a.js", F); ("b.js", F)])])])])]%string.
Definition p64a : string := "{""name"":""p"",""exports"":{""."":""./lib/a.js""},""imports"":{""#i"":""./lib/a.js""}}".
Definition p64b : string := "{""name"":""p"",""exports"":{""."":""./lib/b.js"",""\u002e/i"":""./lib/a.js""}, ""imports"":{""#i"":""./lib/b.js""}}".
Definition t64a : node := tree64 p64a 1000000000%N.
Definition t64b : node := tree64 p64b 2000000000%N.
Definition h64c : list event := [ECall c64; EFs (W t64b)].
Notation js64 := (from_str nofloat).
Lemma named64 : forall s, text_in (lit "package.json") [t64a; t64b] s -> s = lit p64a \/ s = lit p64b.
Proof.
  intros s (root & t & Hr & Hin). destruct Hr as [<-|[<-|[]]].
  - change (In (NFile s t) [NFile (lit p64a) 1000000000%N]) in Hin. destruct Hin as [H|[]]. left. congruence.
  - change (In (NFile s t) [NFile (lit p64b) 2000000000%N]) in Hin. destruct Hin as [H|[]]. right. congruence.
Qed.
Lemma apart64 : texts_apart js64 (text_in (lit "package.json") [t64a; t64b]).
Proof.
  intros s s' j j' v v' Hs Hs' Hj Hj' Hv Hv' _. apply named64 in Hs. apply named64 in Hs'.
  destruct Hs as [->| ->]; vm_compute in Hj; injection Hj as <-; vm_compute in Hv; injection Hv as <-;
    (destruct Hs' as [->| ->]; vm_compute in Hj'; injection Hj' as <-; vm_compute in Hv'; injection Hv' as <-); vm_compute; discriminate.
Qed.
Lemma good64 : Forall (good_tree js64 (lit "package.json")) [t64a; t64b].
Proof.
  assert (H : forall p, In p [p64a; p64b] -> good_text js64 (lit p)).
  { intros p [<-|[<-|[]]]; do 3 eexists; (split; [vm_compute; reflexivity|]); (split; [vm_compute; reflexivity|]); (split; [vm_compute; reflexivity|]);
      split; intros v Hv; vm_compute in Hv; injection Hv as <-; eexists; vm_compute; reflexivity. }
  constructor; [|constructor; [|constructor]]; intros v Hv.
  - change (In v [NFile (lit p64a) 1000000000%N]) in Hv. destruct Hv as [<-|[]]. apply H. left; reflexivity.
  - change (In v [NFile (lit p64b) 2000000000%N]) in Hv. destruct Hv as [<-|[]]. apply H. right; left; reflexivity.
Qed.
Lemma grown64 : Sorted (grown (lit "package.json") 1000000000%N) [t64a; t64b].
Proof.
  constructor; [constructor; constructor|]. constructor.
  assert (Hg : forall name dur k v v' r, k <> name -> grown name dur v v' -> grown name dur (NDir ((k, v) :: r)) (NDir ((k, v') :: r)) \/ r <> []).
  { intros name dur k v v' r Hk Hv. destruct r; [|right; discriminate]. left. constructor.
    - intros k0 v0. cbn [imap_get]. destruct (str_eqb k k0); [injection 1 as <-; eauto|discriminate].
    - cbn [imap_get]. destruct (str_eqb_spec k name); [contradiction|reflexivity].
    - intros t. cbn [imap_get]. destruct (str_eqb_spec k name); [contradiction|discriminate]. }
  unfold t64a, t64b, tree64, D. cbn [map app fst snd].
  repeat match goal with |- grown ?n ?d (NDir [(?k, ?v)]) (NDir [(?k, ?v')]) => destruct (Hg n d k v v' [] ltac:(vm_compute; discriminate)) as [H|H]; [|exact H|congruence] end.
  constructor; [|vm_compute; discriminate|vm_compute; discriminate].
  intros k v. cbn [imap_get]. destruct (str_eqb (lit "package.json") k).
  - injection 1 as <-. eexists. split; [reflexivity|]. apply GrEdit. lia.
  - intros H. exists v. split; [exact H|]. destruct (str_eqb (lit "lib") k); [|discriminate]. injection H as <-.
    constructor; [|reflexivity|vm_compute; discriminate]. intros k0 v0 H. exists v0. split; [exact H|]. cbn [imap_get] in H.
    destruct (str_eqb (lit "a.js") k0); [injection H as <-; apply GrSame|]. destruct (str_eqb (lit "b.js") k0); [injection H as <-; apply GrSame|discriminate].
Qed.
Lemma nofloat_numbers : prints_numbers nofloat.
Proof. intros l t H. discriminate H. Qed.
Lemma ex64_disk : (texts_apart js64 (text_in (lit "package.json") [t64a; t64b]) /\ Sorted (grown (lit "package.json") 1000000000%N) [t64a; t64b] /\
    Forall (good_tree js64 (lit "package.json")) [t64a; t64b] /\ prints_numbers nofloat /\
    member js64 (fun _ => lit "package.json") (fun _ => 0) 1000000000%N R64) /\
  fst (fst (run_history (W t64a) st0 [ECall c64])) = [at64 "/r/node_modules/p/lib/a.js"] /\
  out (W t64b) (snd (run_history (W t64a) st0 h64c)) (call_prog c64) = at64 "/r/node_modules/p/lib/b.js".
Proof.
  split; [|split; vm_compute; reflexivity]. split; [exact apart64|]. split; [exact grown64|]. split; [exact good64|]. split; [exact nofloat_numbers|].
  split; [split; [right; reflexivity|split; reflexivity]|]. split; [reflexivity|vm_compute; discriminate].
Qed.
