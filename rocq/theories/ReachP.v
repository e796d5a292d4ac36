(** * Runs end whenever the evaluation without tables does

    The loader of a run needs a bound that grows with the length of the path, and it comes to an
    end only on absolute paths.  A resolution that ends has asked for finitely many descriptions,
    all of absolute paths if it started from one; so a large enough bound serves them all. *)
From Coq Require Import String.
From Coq Require Import List Arith NArith Bool Lia Permutation.
From Verif Require Import Str StrP Path PathP Json Types Parse Map Prog Desc Resolve Top Run Exec FuelP SpecMap TrieP SpecLoad PosixP SpellP SimP LoadP GuarP SpecCache CacheP ColdP NoFuelP TotalP SpecTerm TermP.
Import ListNotations.

(** The paths of a state are absolute. *)
Definition rab (r : rresult) : Prop := match r with RInfo i => is_abs (i_path i) = true | RIgnored => True end.
Definition sab (s : stats) : Prop := match s with Success r => rab r | Resolving i | SError _ i => is_abs (i_path i) = true end.
Lemma known_dir : forall fs js n p pk, is_abs p = true -> lookup_desc fs js n p = PRet (Ok (Some pk)) -> is_abs (p_dir pk) = true.
Proof.
  intros fs js [n|] p pk Ha Hp; [|discriminate]. unfold lookup_desc in Hp. destruct (from_dir fs p) eqn:Ef; [discriminate|].
  destruct (nearest fs n p) as [d|] eqn:Enr; [|discriminate]. destruct (f_dir fs d); [|discriminate].
  assert (Hpd : p_dir pk = d).
  { unfold described in Hp. destruct (f_read fs (join d n)) as [s0|]; [|discriminate].
    destruct (f_mtime fs (join d n)); try discriminate. destruct (js s0) as [j0|]; [|discriminate].
    destruct (alias_fields_of j0); try discriminate. cbn [pbind] in Hp.
    match type of Hp with pbind (pbind ?X _) _ = _ => destruct X as [[ex|]| |]; try discriminate end. cbn [pbind] in Hp.
    match type of Hp with pbind (pbind ?X _) _ = _ => destruct X as [[im|]| |]; try discriminate end. cbn [pbind] in Hp.
    destruct (side_effects_of (join d n) j0); [|discriminate]. cbn [pbind] in Hp. injection Hp as <-. reflexivity. }
  rewrite Hpd. unfold nearest in Enr. apply find_some in Enr. destruct Enr as [Hin _]. unfold from_dir in Hin.
  assert (Hl : forall qs (q : path), In q (drop_while (fun q => negb (f_dir fs q)) qs) -> In q qs).
  { induction qs as [|y qs IH]; intros q Hq; [exact Hq|]. cbn [drop_while] in Hq. destruct (negb _); [right; auto|exact Hq]. }
  apply Hl in Hin. eapply lineage_shorter; [exact Hin|exact Ha].
Qed.

Section Reach.
Variable fs : fsys.
Variable js : str -> option json.
Variable R : resolver.
Notation loader := (path -> prog (result (option pkg))).
Notation L := (fresh_load fs js R).
Notation ev := (ev_fs fs).

(** [K] gives the same as [L] on the absolute paths of at most [N] components. *)
Definition upto (N : nat) (K : loader) : Prop := forall p, is_abs p = true -> length (components p) + 2 <= N -> K p = L p.
(** If [P L] ends then [Q] holds of what it comes to, and [P K] ends in the same way for all [K] close enough to [L]. *)
Definition ct {A} (Q : A -> Prop) (P : loader -> prog A) : Prop :=
  ev (P L) <> NoFuel -> (forall a, ev (P L) = Done a -> Q a) /\ exists N, forall K, upto N K -> ev (P K) = ev (P L).

Lemma upto_le : forall N N' K, N <= N' -> upto N' K -> upto N K.
Proof. intros N N' K H HK p Ha Hp. apply HK; [exact Ha|lia]. Qed.
Lemma ct_ret {A} : forall (Q : A -> Prop) a, Q a -> ct Q (fun _ => Ret a).
Proof. intros Q a H _. split; [intros b [= <-]; exact H|]. exists 0. reflexivity. Qed.
Lemma ct_panic {A} : forall (Q : A -> Prop) m, ct Q (fun _ => Panic m).
Proof. intros Q m _. split; [discriminate|]. exists 0. reflexivity. Qed.
Lemma ct_fuel {A} : forall (Q : A -> Prop), ct Q (fun _ => OutOfFuel).
Proof. intros Q H. contradiction H. reflexivity. Qed.
Lemma ct_mono {A} : forall (Q Q' : A -> Prop) P, (forall a, Q a -> Q' a) -> ct Q P -> ct Q' P.
Proof. intros Q Q' P H HP He. destruct (HP He) as [H1 H2]. split; [intros a Ha; apply H, H1, Ha|exact H2]. Qed.
Lemma ct_bind {A B} : forall (Q : A -> Prop) (Q' : B -> Prop) P F, ct Q P -> (forall a, Q a -> ct Q' (fun K => F K a)) ->
  ct Q' (fun K => bind (P K) (F K)).
Proof.
  intros Q Q' P F HP HF He. rewrite ev_bind in He.
  destruct (ev (P L)) as [a|m|] eqn:E.
  - assert (He' : ev (P L) <> NoFuel) by (rewrite E; discriminate). destruct (HP He') as [H1 (N & HN)].
    destruct (HF a (H1 a E) He) as [H2 (N' & HN')]. split.
    + intros b. rewrite ev_bind, E. apply H2.
    + exists (Nat.max N N'). intros K HK. rewrite !ev_bind, E, (HN K), E; [apply HN'|]; (eapply upto_le; [|exact HK]); lia.
  - assert (He' : ev (P L) <> NoFuel) by (rewrite E; discriminate). destruct (HP He') as [H1 (N & HN)]. split.
    + intros b. rewrite ev_bind, E. discriminate.
    + exists N. intros K HK. rewrite !ev_bind, E, (HN K HK), E. reflexivity.
  - contradiction He. reflexivity.
Qed.
(** Programs that load nothing. *)
Lemma ct_const {A} : forall (Q : A -> Prop) (p : prog A), (forall a, ev p = Done a -> Q a) -> ct Q (fun _ => p).
Proof. intros Q p H _. split; [exact H|]. exists 0. reflexivity. Qed.
Lemma ct_any {A} : forall (p : prog A), ct (fun _ => True) (fun _ => p).
Proof. intros p. apply ct_const. auto. Qed.
Lemma ct_do {A} : forall (Q : A -> Prop) o (k : loader -> ans o -> prog A), (forall x, ct Q (fun K => k K x)) -> ct Q (fun K => bind (act o) (k K)).
Proof. intros Q o k H. eapply ct_bind; [apply ct_any|]. auto. Qed.
Lemma ct_and_then : forall (Q : stats -> Prop) P F, ct sab P -> (forall i, is_abs (i_path i) = true -> ct Q (fun K => F K i)) ->
  (forall r, rab r -> Q (Success r)) -> (forall e i, is_abs (i_path i) = true -> Q (SError e i)) -> ct Q (fun K => and_then (P K) (F K)).
Proof.
  intros Q P F HP HF H1 H2. unfold and_then. eapply ct_bind; [exact HP|]. intros [r|i|e i] Hs; [apply ct_ret, H1, Hs|apply HF, Hs|apply ct_ret, H2, Hs].
Qed.
Lemma ct_then : forall P F, ct sab P -> (forall i, is_abs (i_path i) = true -> ct sab (fun K => F K i)) -> ct sab (fun K => and_then (P K) (F K)).
Proof. intros P F HP HF. apply ct_and_then; auto. Qed.

Definition okabs (o : option pkg) : Prop := forall pk, o = Some pk -> is_abs (p_dir pk) = true.
Lemma okabs_some : forall pk, is_abs (p_dir pk) = true -> okabs (Some pk).
Proof. intros pk H pk' [= <-]. exact H. Qed.
Lemma ct_load : forall p, is_abs p = true -> ct (fun r => match r with Ok o => okabs o | Err _ => True end) (fun K => K p).
Proof.
  intros p Ha _. split.
  - intros [o|e] E; [|exact I]. intros pk ->. unfold fresh_load in E.
    destruct (lookup_desc fs js (o_desc (rv_opts R)) p) as [r| |] eqn:El; try discriminate. cbn in E. injection E as ->.
    apply (known_dir _ _ _ _ _ Ha El).
  - exists (length (components p) + 2). intros K HK. rewrite (HK p Ha (le_n _)). reflexivity.
Qed.

Lemma ext_abs : forall p e, is_abs p = true -> is_abs (append_ext p e) = true.
Proof. intros p e H. unfold append_ext. destruct p; [discriminate|exact H]. Qed.
Lemma ct_extensions : forall exts p i, is_abs p = true -> is_abs (i_path i) = true -> ct sab (fun _ => extensions_loop p i exts).
Proof.
  induction exts as [|e exts IH]; intros p i Hp Hi; cbn [extensions_loop]; [apply ct_ret, Hi|]. cbv zeta.
  apply ct_do. intros [|]; [apply ct_ret; apply ext_abs, Hp|apply IH; assumption].
Qed.
Lemma ct_as_file : forall i, is_abs (i_path i) = true -> ct sab (fun _ => resolve_as_file R i).
Proof.
  intros i Hi. unfold resolve_as_file. cbv zeta. pose proof (get_path_abs i Hi) as Hp.
  destruct (negb (enforce R)); [|apply ct_extensions; assumption].
  apply ct_do. intros [|]; [apply ct_ret; exact Hp|apply ct_extensions; assumption].
Qed.
Lemma ct_alias_field : forall fuel o i, okabs o -> is_abs (i_path i) = true -> ct sab (fun _ => alias_field_apply R fuel o i).
Proof.
  intros fuel o i Ho Hi. unfold alias_field_apply. destruct (negb _); [apply ct_ret, Hi|]. destruct o as [pk|]; [|apply ct_ret, Hi].
  pose proof (Ho pk eq_refl) as Hd. generalize (p_alias pk) at 1. intros l. induction l as [|[k v] l IH]; cbn [alias_field_loop]; [apply ct_ret, Hi|].
  destruct (should_deal_alias R pk i k); [|exact IH]. eapply ct_bind; [apply ct_any|]. intros [t|] _; apply ct_ret; [exact Hd|exact I].
Qed.
Lemma ct_exports : forall o i, okabs o -> is_abs (i_path i) = true -> ct sab (fun _ => exports_apply R o i).
Proof.
  intros o i Ho Hi. unfold exports_apply. destruct o as [pk|]; [|apply ct_ret, Hi]. destruct (negb _); [apply ct_ret, Hi|].
  destruct (_ && _); [apply ct_ret, Hi|]. destruct (p_exports pk) as [root|]; [|apply ct_ret, Hi].
  eapply ct_bind; [apply ct_any|]. intros [t|] _; [|apply ct_ret, Hi]. eapply ct_bind; [apply ct_any|]. intros [l|e] _; [|apply ct_ret, Hi].
  induction l as [|x l IH]; cbn [exports_loop]; [apply ct_ret, Hi|]. cbv zeta. apply ct_do. intros [|]; [|exact IH].
  eapply ct_bind; [apply ct_any|]. intros [|] _; [apply ct_ret; apply (Ho pk eq_refl)|exact IH].
Qed.
Lemma ct_imports_check : forall i t, is_abs (i_path i) = true -> ct sab (fun _ => imports_check i t).
Proof.
  intros i t Hi. unfold imports_check. apply ct_do. intros [|]; [|apply ct_ret, Hi]. eapply ct_bind; [apply ct_any|]. intros [|] _; apply ct_ret, Hi.
Qed.
Lemma ct_imports : forall fuel o i, okabs o -> is_abs (i_path i) = true -> ct sab (fun K => imports_apply R K fuel o i).
Proof.
  induction fuel as [|fuel IH]; intros o i Ho Hi; cbn [imports_apply]; [apply ct_fuel|]. destruct o as [pk|]; [|apply ct_ret, Hi]. cbv zeta.
  pose proof (Ho pk eq_refl) as Hd.
  destruct (negb _); [apply ct_ret, Hi|]. destruct (p_imports pk) as [root|]; [|apply ct_ret, Hi]. eapply ct_bind; [apply ct_any|].
  intros [[|x l]|e] _; [apply ct_ret, Hi| |apply ct_ret, Hi].
  destruct (r_kind (parse x)); try (apply ct_imports_check; exact Hd); [apply IH; [apply okabs_some, Hd|exact Hd]|].
  assert (Hi' : is_abs (i_path (mkInfo (join (p_dir pk) MODULE) (parse x))) = true) by (apply join_abs, Hd).
  eapply ct_bind; [apply ct_load, get_path_abs, Hi'|]. intros [o'|e] Ho'; [|apply ct_ret, Hi'].
  match goal with |- ct _ (fun K => match _ with Some _ => if _ then _ else ?c | None => _ end) => assert (Hc : ct sab (fun K => c)) end.
  { apply ct_then; [|intros j Hj; apply ct_imports_check, Hj]. apply ct_then; [|intros j Hj; apply ct_alias_field; assumption].
    apply ct_then; [apply ct_exports; assumption|]. intros j Hj. apply IH; assumption. }
  destruct o' as [pk'|]; [|exact Hc]. destruct (negb _); [apply ct_ret, Hi'|exact Hc].
Qed.
Lemma ct_extract : forall s, sab s -> ct (fun i => is_abs (i_path i) = true) (fun _ => extract_info s).
Proof. intros [r|i|e i] H; [apply ct_panic|apply ct_ret, H..]. Qed.
Lemma ct_main_field_loop : forall rad fuel pk i, (forall j, is_abs (i_path j) = true -> ct sab (fun K => rad K j)) -> is_abs (p_dir pk) = true -> is_abs (i_path i) = true ->
  forall fields mi, is_abs (i_path mi) = true -> ct sab (fun K => main_field_loop R (rad K) fuel pk i fields mi).
Proof.
  intros rad fuel pk i Hr Hd Hi. induction fields as [|fld fields IH]; intros mi Hm; cbn [main_field_loop]; [apply ct_ret, Hi|].
  destruct (opt_str (jget (p_raw pk) fld)) as [main|]; [|apply IH, Hm]. destruct (_ || _); [apply ct_ret, Hi|]. cbv zeta.
  set (mi' := if starts_with main (lit "./") then with_target mi main else with_target mi (lit "./" ++ main)).
  assert (Hm' : is_abs (i_path mi') = true) by (unfold mi'; destruct (starts_with main (lit "./")); exact Hm).
  eapply ct_bind.
  - apply ct_then; [|exact Hr]. apply ct_then; [apply ct_alias_field; [apply okabs_some, Hd|exact Hm']|]. intros j Hj. apply ct_as_file, Hj.
  - intros s Hs. destruct (is_success s); [apply ct_ret, Hs|]. eapply ct_bind; [apply ct_extract, Hs|]. exact IH.
Qed.
Lemma ct_main_file : forall fuel o i, okabs o -> is_abs (i_path i) = true -> ct sab (fun K => main_file_apply R K fuel o i).
Proof.
  intros fuel o i Ho Hi. unfold main_file_apply.
  assert (H : forall files mi, is_abs (i_path mi) = true -> ct sab (fun K => main_file_loop R K fuel o i files mi)); [|apply H, Hi].
  induction files as [|x files IH]; intros mi Hm; cbn [main_file_loop]; [apply ct_ret, Hi|]. cbv zeta. eapply ct_bind.
  - apply ct_then; [|intros j Hj; apply ct_as_file, Hj]. apply ct_then; [|intros j Hj; apply ct_alias_field; assumption].
    apply ct_then; [apply ct_exports; [exact Ho|exact Hm]|]. intros j Hj. apply ct_imports; assumption.
  - intros s Hs. destruct (is_success s); [apply ct_ret, Hs|]. eapply ct_bind; [apply ct_extract, Hs|]. exact IH.
Qed.
Lemma ct_as_dir : forall fuel i, is_abs (i_path i) = true -> ct sab (fun K => resolve_as_dir R K fuel i).
Proof.
  induction fuel as [|fuel IH]; intros i Hi; cbn [resolve_as_dir]; [apply ct_fuel|]. cbv zeta. apply ct_do. intros [|]; cbn [negb]; [|apply ct_ret, Hi].
  pose proof (get_path_abs i Hi) as Hp. eapply ct_bind; [apply ct_load, Hp|]. intros [o|e] Ho; [|apply ct_ret, Hi].
  apply ct_then; [|intros j Hj; apply ct_main_file; assumption]. unfold main_field_apply. destruct o as [pk|]; [|apply ct_ret; exact Hp].
  destruct (negb _); [apply ct_ret; exact Hp|]. apply ct_main_field_loop; try exact Hp; [exact IH|apply (Ho pk eq_refl)].
Qed.
Lemma ct_level : forall fuel i, is_abs (i_path i) = true -> ct (fun x => match x with inl s | inr s => sab s end) (fun K => modules_level R K fuel i).
Proof.
  intros fuel i Hi. unfold modules_level. cbv zeta. apply ct_do. intros [|]; cbn [negb]; [|apply ct_ret, Hi].
  destruct (module_name _) as [mname|]; [|apply ct_panic].
  assert (Hm : is_abs (i_path (mkInfo (join (i_path i) MODULE) (i_req i))) = true) by apply join_abs, Hi.
  eapply ct_bind; [apply ct_load, join_abs, Hm|]. intros [o|e] Ho; [|apply ct_ret, Hi]. apply ct_do. intros md.
  destruct (_ && _).
  - eapply ct_bind; [apply ct_as_file, Hm|]. intros s Hs. destruct (is_success s); apply ct_ret; [exact Hs|exact Hi].
  - eapply ct_bind.
    + apply ct_then; [|intros j Hj; apply ct_as_dir, Hj]. apply ct_then; [|intros j Hj; apply ct_as_file, Hj].
      apply ct_then; [|intros j Hj; apply ct_alias_field; [exact Ho|destruct (r_kind (i_req j)); exact Hj]].
      apply ct_then; [apply ct_exports; assumption|]. intros j Hj. apply ct_imports; assumption.
    + intros [r|j|e j] Hs; [apply ct_ret, Hs..|]. destruct (str_eqb e TAG); apply ct_ret; [exact Hi|exact Hs].
Qed.
Lemma ct_modules : forall fuel i, is_abs (i_path i) = true -> ct sab (fun K => resolve_as_modules R K fuel i).
Proof.
  induction fuel as [|fuel IH]; intros i Hi; cbn [resolve_as_modules]; [apply ct_fuel|]. cbv zeta. eapply ct_bind; [apply ct_level, Hi|].
  intros [s|s] Hs; [apply ct_ret, Hs|]. eapply ct_bind.
  - apply (ct_then (fun _ => Ret s)); [apply ct_ret, Hs|]. intros j Hj. destruct (parent (i_path i)) as [q|] eqn:Ep; [|apply ct_ret, Hj].
    apply IH. cbn. eapply ColdP.parent_abs; eassumption.
  - intros [r|j|e j] Hs'; apply ct_ret; exact Hs'.
Qed.
Lemma ct_resolve_ : forall fuel i, is_abs (i_path i) = true -> ct sab (fun K => resolve_ R K fuel i).
Proof.
  induction fuel as [|fuel IH]; intros i Hi; cbn [resolve_]; [apply ct_fuel|]. eapply ct_bind.
  - apply ct_then; [apply ct_then; [apply ct_then|]|].
    + unfold alias_apply. destruct (contains (i_path i) MODULE); [apply ct_ret, Hi|]. generalize (o_alias (rv_opts R)).
      intros l. induction l as [|[from to] l IHl]; cbn [alias_loop]; [apply ct_ret, Hi|]. cbv zeta. destruct (starts_with _ from); [|exact IHl].
      destruct to as [t|]; [|apply ct_ret; exact I]. destruct (_ || _); [exact IHl|]. eapply ct_bind; [apply IH; exact Hi|].
      intros s Hs. destruct (is_success s); [apply ct_ret, Hs|exact IHl].
    + intros j Hj. unfold prefer_relative_apply. cbv zeta. destruct (_ || _); [apply ct_ret, Hj|]. destruct (o_prefer_relative _); [|apply ct_ret, Hj].
      eapply ct_bind; [apply IH; exact Hj|]. intros s Hs. destruct (is_success s); [apply ct_ret, Hs|apply ct_ret, Hj].
    + intros j Hj. unfold pkg_step. cbv zeta. eapply ct_bind.
      * apply ct_load. destruct (r_kind (i_req j)); try (apply get_path_abs, Hj). apply join_abs, join_abs, Hj.
      * intros [o|e] Ho; [|apply ct_ret, Hj]. apply ct_then; [apply ct_imports; assumption|]. intros k Hk. apply ct_alias_field; assumption.
    + intros j Hj. unfold final_step. destruct (r_kind (i_req j)); try (apply ct_modules, Hj);
        (apply ct_then; [apply ct_as_file, Hj|]; intros k Hk; apply ct_as_dir, Hk).
  - intros [r|j|e j] Hs; [apply ct_ret, Hs|apply ct_panic|apply ct_ret, Hs].
Qed.
Lemma ct_parse_file : forall fuel loc, is_abs loc = true -> ct (fun _ => True) (fun K => parse_file_to_value R K fuel loc).
Proof.
  induction fuel as [|fuel IH]; intros loc Hl; cbn [parse_file_to_value]; [apply ct_fuel|]. apply ct_do. intros [s|]; [|apply ct_ret; exact I].
  destruct (rv_jsonc R s) as [e| |j]; [apply ct_ret; exact I|apply ct_panic|].
  destruct (jget j (lit "extends")) as [[| | |x| |]|]; try (apply ct_ret; exact I). destruct (parent loc) as [dir|] eqn:Ep; [|apply ct_panic].
  eapply ct_bind; [apply (ct_resolve_ (S fuel)); eapply ColdP.parent_abs; eassumption|]. intros [[i|]|i|e i] Hs; try (apply ct_ret; exact I).
  unfold try_. eapply ct_bind; [apply IH, get_path_abs, Hs|]. intros [b|e] _; apply ct_ret; exact I.
Qed.
Lemma ct_resolve_with : forall fuel base req, is_abs base = true -> (forall loc, o_tsconfig (rv_opts R) = Some loc -> is_abs loc = true) ->
  ct (fun _ => True) (fun K => resolve_with R K fuel base req).
Proof.
  intros fuel base req Hb Ht. unfold resolve_with. cbv zeta. eapply ct_bind with (Q := sab).
  2:{ intros [r|i|e i] _; [apply ct_any|apply ct_panic|apply ct_ret; exact I]. }
  destruct (o_tsconfig (rv_opts R)) as [loc|]; [|apply ct_resolve_, Hb]. pose proof (Ht loc eq_refl) as Hl. unfold resolve_with_tsconfig.
  eapply ct_bind; [apply ct_parse_file, Hl|]. intros [j|e] _; [|apply ct_ret; exact Hb]. eapply ct_bind; [apply ct_any|]. intros t _.
  eapply ct_bind with (Q := fun l => Forall (fun e => Forall (fun p => is_abs p = true) (snd e)) l).
  - unfold create_match_list. destruct (parent loc) as [dir|] eqn:Ep; [|apply ct_panic]. pose proof (ColdP.parent_abs _ _ Ep Hl) as Hd.
    destruct (ts_base t) as [bs|]; [|apply ct_ret; constructor]. cbv zeta. destruct (ts_paths t) as [m|]; [|apply ct_ret; constructor].
    apply ct_do. intros seed. apply ct_ret. apply Forall_forall. intros e He. apply in_map_iff in He. destruct He as [kv [<- _]]. cbn [snd].
    apply Forall_forall. intros p Hp. apply in_map_iff in Hp. destruct Hp as [q [<- _]]. apply join_abs, join_abs, Hd.
  - intros l Hl'. induction Hl' as [|[pat paths] l He Hl' IH]; cbn [ts_entries_loop]; [apply ct_resolve_, Hb|]. eapply ct_bind; [apply ct_any|].
    intros [star|] _; [|exact IH]. eapply ct_bind with (Q := fun x => match x with Some s => sab s | None => True end).
    + cbn [snd] in He. induction He as [|p paths Hp He IHp]; cbn [ts_paths_loop]; [apply ct_ret; exact I|]. cbv zeta.
      eapply ct_bind; [apply ct_resolve_; cbn; apply replace_abs, Hp|]. intros s Hs. destruct (is_success s); [apply ct_ret, Hs|exact IHp].
    + intros [s|] Hs; [apply ct_ret, Hs|exact IH].
Qed.
End Reach.

(** ** Whole calls *)
Section Calls.
Variable fs : fsys.
Hypothesis Hfs : sane_fs fs.
Variable js : str -> option json.
Variable nm : nat -> str.
Hypothesis Hinj : forall c v v', field_on fs js (nm c) (lit "exports") v -> field_on fs js (nm c) (lit "exports") v' -> to_string v = to_string v' -> v = v'.
Hypothesis Hclash : forall c v v', field_on fs js (nm c) (lit "exports") v -> field_on fs js (nm c) (lit "imports") v' -> hash_keys v' -> to_string v <> to_string v'.
Notation ok := (okc fs js nm).
Notation Mt := (wxm ok true).

(** The loader without tables, giving up where the loader of a run with bound [m] may. *)
Definition short (R : resolver) (m : nat) (p : path) : prog (result (option pkg)) :=
  if is_abs p && (length (components p) + 2 <=? m) then fresh_load fs js R p else OutOfFuel.
Lemma short_upto : forall R m N, N <= m -> upto fs js R N (short R m).
Proof.
  intros R m N H p Ha Hp. unfold short. rewrite Ha. destruct (Nat.leb_spec (length (components p) + 2) m); [reflexivity|lia].
Qed.
Lemma short_fle : forall R m p, fle (short R m p) (fresh_load fs js R p).
Proof. intros R m p. unfold short. destruct (_ && _); [apply fle_refl|constructor]. Qed.
Lemma short_mono : forall R m m' p, m <= m' -> fle (short R m p) (short R m' p).
Proof.
  intros R m m' p H. unfold short. destruct (is_abs p); [|constructor]. cbn [andb].
  destruct (Nat.leb_spec (length (components p) + 2) m), (Nat.leb_spec (length (components p) + 2) m'); try lia; try constructor. apply fle_refl.
Qed.
Lemma both {A B} : forall (V : A -> B -> Prop) l r, orel V l r -> ended r -> orelT V l r.
Proof.
  intros V l [b|m|] H He; [| |contradiction He; reflexivity]; cbn [orel] in H; destruct H as (a & -> & H); cbn [orelT]; eauto.
Qed.
Lemma short_sim : forall R, client js nm R -> browser_clear fs js R -> forall m p q, same_path p q ->
  sim fs Mt (lrel fs R R (aliasrel R)) (short R m p) (load_pkg_file R m q).
Proof.
  intros R HR Hb m p q Hs. unfold short. destruct (is_abs p) eqn:Ha; cbn [andb]; [|apply wx_all; intros; exact I].
  destruct (Nat.leb_spec (length (components p) + 2) m) as [Hm|Hm]; [|apply wx_all; intros; exact I].
  assert (H : wx ok (fun r => orel (lrel fs R R (aliasrel R)) (ev_fs fs (fresh_load fs js R p)) r /\ ended r) (load_pkg_file R m q)).
  { apply wx_and; [apply (load_sim fs Hfs js nm (wxm ok false) R HR Hb eq_refl m (okc_load fs Hfs js nm Hinj Hclash R m HR) p q Hs)|].
    apply load_end; [exact Hfs|exact HR|eapply same_abs; eassumption|]. rewrite <- Hs. exact Hm. }
  eapply wx_mono; [|exact H]. intros r [H1 H2]. apply both; assumption.
Qed.

Lemma call_reach : forall c, client js nm (call_resolver c) -> steady fs js c -> call_absolute c -> ev_fs fs (call_fresh fs js c) <> NoFuel ->
  exists N, forall f, N <= f -> wg fs js nm (orelT ansrel (ev_fs fs (call_fresh fs js c))) (call_prog (with_fuel c f)).
Proof.
  intros c HR Hs Ha He.
  assert (H : exists N, forall f, N <= f -> wx ok (orelT ansrel (ev_fs fs (call_fresh fs js c))) (call_prog (with_fuel c f))).
  { destruct c as [R f0 base req|R f0 p]; cbn [call_resolver steady call_absolute call_fresh with_fuel call_prog] in *.
    - destruct Hs as [Hb Hp], Ha as [Ha Ht]. rewrite ev_bind in He |- *.
      assert (He' : ev_fs fs (resolve_with R (fresh_load fs js R) f0 base req) <> NoFuel).
      { intros E. rewrite E in He. apply He. reflexivity. }
      destruct (ct_resolve_with fs js R f0 base req Ha Ht He') as [_ (N & HN)]. exists (Nat.max N f0). intros f Hf.
      assert (E : ev_fs fs (resolve_with R (short R f) f base req) = ev_fs fs (resolve_with R (fresh_load fs js R) f0 base req)).
      { pose proof (HN (short R N) (short_upto R N N (le_n N))) as E. rewrite <- E. apply fle_ev; [|rewrite E; exact He'].
        apply resolve_with_fle; [intros; apply short_mono; lia|lia]. }
      rewrite <- E. rewrite <- (ev_bind fs (resolve_with R (short R f) f base req) (fun r => Ret (AResolve r))).
      apply (sim_bind fs Mt arel ansrel).
      + apply (client_sim_by fs Hfs js nm Mt (okc_plain fs js nm true) R HR f (short R f)); [apply short_fle|apply short_sim; assumption|exact Hp].
      + intros a b Hab. apply (sim_ret fs Mt). exact Hab.
    - exists (length (components p) + 2). intros f Hf.
      assert (Hend : wx ok ended (call_prog (CSide R f p))).
      { cbn [call_prog]. apply wx_ended_bind; [|discriminate].
        unfold load_side_effects. apply wx_ended_try; [apply load_end; [exact Hfs|exact HR|exact Ha|exact Hf]|]. intros [pk|]; [|discriminate]. destruct (o_desc _); discriminate. }
      eapply wx_mono; [|apply wx_and; [exact (call_sim fs Hfs js nm (wxm ok false) eq_refl (okc_plain fs js nm false) (CSide R f p) HR (okc_load fs Hfs js nm Hinj Hclash R f HR) I)|exact Hend]].
      intros r [H1 H2]. apply both; assumption. }
  destruct H as [N HN]. exists N. intros f Hf. apply wg_and; [apply HN, Hf|]. apply client_call; try assumption. rewrite resolver_fuel. exact HR.
Qed.
End Calls.
