(** * Proofs for PropSight.v *)
From Coq Require Import String.
From Coq Require Import List Arith NArith Bool Lia.
From Verif Require Import Str StrP Path PathP Json Types Parse Map Prog Desc Resolve Top Run Exec SpecApi ExecP ApiP Posix Demo SpecCache SpecSight.
Import ListNotations.

Definition lawful (R : resolver) (T : list ev) (o : op) : Prop :=
  match o with
  | ORead p => (exists d, description_of R T d p) \/ ts_file R T p
  | OMtime p => exists d, description_of R T d p
  | OCanon p => o_symlinks (rv_opts R) = true /\ told T (OIsFile p) true
  | OFilePut id p s t => id = rv_id R /\ (exists d, description_of R T d p) /\ told T (ORead p) (Some s) /\ told T (OMtime p) (MTime t)
  | OPkgPut c d v => c = rv_cache R /\ told T (OIsDir d) true /\
      forall pk, v = Some pk -> p_dir pk = d /\ exists p s, description_of R T d p /\ told T (ORead p) (Some s) /\ rv_json R s = Some (p_raw pk)
  | _ => True
  end.

Lemma sat_before {A} : forall ok al (p : prog A) tr r, exec p tr r -> forall tr1 e tr2, tr = tr1 ++ e :: tr2 -> Forall (okev ok) tr1 ->
  forall tr0 Q, sat ok al tr0 Q p -> al (projT1 e).
Proof.
  induction 1 as [a|m| |o k x tr r Hex IH]; intros tr1 e tr2 E HF tr0 Q Hs; try (destruct tr1; discriminate).
  cbn [sat] in Hs. destruct Hs as [Ho Hs]. destruct tr1 as [|e1 tr1]; cbn [app] in E.
  - inversion E; subst. exact Ho.
  - inversion E; subst. inversion HF; subst. eapply IH; [reflexivity|assumption|apply Hs; assumption].
Qed.
Lemma sat_seen {A} : forall ok al (p : prog A) tr Q, Forall (okev ok) tr -> sat ok al tr Q p -> sat ok al tr (fun t a => Q t a /\ Forall (okev ok) t) p.
Proof.
  intros ok al p. induction p as [a|m| |o k IH]; intros tr Q HF H; cbn [sat] in *; auto.
  destruct H as [Ho H]. split; [exact Ho|]. intros x Hx. apply IH; [|apply H, Hx]. apply Forall_app. split; [exact HF|]. constructor; [exact Hx|constructor].
Qed.

Section Sight.
Variable R : resolver.
Variable T : list ev.
Notation said := (told T).
Notation al := (lawful R T).
Notation sat := (sat said al).
Lemma al_probe : forall o, probe o -> al o.
Proof. intros [] H; try destruct H; exact I. Qed.
Definition any {A} (t : list ev) (a : A) : Prop := True.
Lemma sat_true {A} : forall (p : prog A) tr Q, sat tr Q p -> sat tr any p.
Proof. intros p tr Q H. eapply sat_mono; [|exact H]. intros; exact I. Qed.
Lemma sat_any_try {A B} : forall (p : prog (result A)) (f : A -> prog (result B)) tr (P : A -> Prop),
  sat tr (fun _ r => match r with Ok a => P a | Err _ => True end) p -> (forall a t, P a -> sat t any (f a)) -> sat tr any (try_ p f).
Proof. intros p f tr P Hp Hf. apply sat_try. eapply sat_mono; [|exact Hp]. intros t [a|e] H; [apply Hf, H|exact I]. Qed.

Lemma see_modified : forall d p tr, description_of R T d p ->
  sat tr (fun _ r => match r with Ok t => said (OMtime p) (MTime t) | Err _ => True end) (get_last_modified p).
Proof. intros d p tr H. apply sat_act; [exists d; exact H|]. intros [| |t] Ht; [exact I|exact I|exact Ht]. Qed.
Lemma see_update : forall d p tr name, o_desc (rv_opts R) = Some name -> p = join d name -> said (OIsDir d) true ->
  sat tr (fun _ r => r = Ok true -> said (OIsFile p) true) (need_update R p).
Proof.
  intros d p tr name En Ep Hd. apply sat_act; [exact I|]. intros [|] Hf; cbn [negb]; [|discriminate].
  apply sat_act; [exact I|]. intros [[s t0]|] _; [|intros _; exact Hf]. apply sat_try.
  eapply sat_mono; [|apply (see_modified d)]. 2:{ exists name. auto. }
  intros t [n|e] _; [|discriminate]. destruct (N.ltb n t0); [discriminate|]. intros _. exact Hf.
Qed.
Lemma see_parse : forall d p tr, description_of R T d p -> sat tr any (parse_and_store R d p).
Proof.
  intros d p tr H. unfold parse_and_store.
  apply sat_any_try with (P := fun pk => p_dir pk = d /\ exists s, said (ORead p) (Some s) /\ rv_json R s = Some (p_raw pk)).
  - unfold parse_description_file. apply sat_bind. unfold dbg_check.
    assert (G : forall t, sat t (fun _ r => match r with Ok pk => p_dir pk = d /\ exists s, said (ORead p) (Some s) /\ rv_json R s = Some (p_raw pk) | Err _ => True end)
      (s <- read_to_string R p ;;
       match s with
       | Err _ => Ret (Err (open_failed p))
       | Ok s =>
          match rv_json R s with
          | None => Ret (Err (lit "Parse " ++ p ++ lit " failed"))
          | Some j =>
              af <- lift (alias_fields_of j) ;;
              seed <- act OOrder ;;
              try_ (load_exports R j) (fun ex =>
              try_ (load_imports R j) (fun im =>
              let name := opt_str (jget j (lit "name")) in
              match side_effects_of p j with
              | Err e => Ret (Err e)
              | Ok se =>
                  let version := opt_str (jget j (lit "version")) in
                  Ret (Ok (mkPkg d name version (permute seed af) ex im se j))
              end))
          end
       end)).
    { intros t. apply sat_bind. unfold read_to_string. apply sat_act; [left; exists d; exact H|]. intros [s|] Hs; [|exact I].
      apply sat_try. eapply sat_mono; [|apply (see_modified d); exact H]. intros t1 [n|e] Hn; [|exact I].
      apply sat_act; [split; [reflexivity|]; split; [exists d; exact H|]; split; [exact Hs|exact Hn]|]. intros u0 Hu0. cbn [ExecP.sat].
      destruct (rv_json R s) as [j|] eqn:Ej; [|exact I]. apply sat_bind, sat_lift. intros af _. apply sat_act; [exact I|]. intros seed _.
      apply sat_try. eapply sat_mono with (Q := any).
      2:{ unfold load_exports. destruct (jget j _); [|exact I]. apply sat_act; [exact I|]. intros [tt0|] Ht0; [exact I|]. apply sat_try, sat_lift. intros [] _; [|exact I]. apply sat_act; [exact I|]. intros; exact I. }
      intros t2 [ex|e] _; [|exact I]. apply sat_try. eapply sat_mono with (Q := any).
      2:{ unfold load_imports. destruct (jget j _); [|exact I]. apply sat_act; [exact I|]. intros [tt0|] Ht0; [exact I|]. apply sat_try, sat_lift. intros [] _; [|exact I]. apply sat_act; [exact I|]. intros; exact I. }
      intros t3 [im|e] _; [|exact I]. cbv zeta. destruct (side_effects_of p j); [|exact I]. cbn [ExecP.sat p_dir p_raw]. split; [reflexivity|]. exists s. auto. }
    destruct (rv_debug R); [|apply G]. apply sat_act; [exact I|]. intros [|] _; [exact I|]. split; [exact I|]. intros u0 Hu0. apply G.
  - intros pk t (Hd & s & Hs & Hj). apply sat_act; [|intros; exact I]. split; [reflexivity|]. split; [destruct H as (n & _ & _ & H & _); exact H|].
    intros pk' E. inversion E; subst. split; [reflexivity|]. exists p, s. auto.
Qed.
Lemma see_load : forall f p tr, sat tr any (load_pkg_file R f p).
Proof.
  induction f as [|f IH]; intros p tr; cbn [load_pkg_file]; [exact I|]. destruct (o_desc (rv_opts R)) as [name|] eqn:En; [|exact I].
  apply sat_act; [exact I|]. intros [|] Hd; cbn [negb]; [|destruct (parent p); [apply IH|exact I]].
  apply sat_act; [exact I|]. intros [v|] _.
  - apply sat_any_try with (P := fun u => u = true -> said (OIsFile (join p name)) true).
    + unfold check_entry. apply sat_bind. eapply sat_mono; [|apply (see_update p _ _ name En eq_refl Hd)]. intros t u Hu. cbn beta.
      apply sat_bind. assert (G : forall t', sat t' (fun _ r => match r with Ok a => a = true -> said (OIsFile (join p name)) true | Err _ => True end) (act (OPkgDrop (rv_cache R) p) ;;; Ret u)).
      { intros t'. apply sat_act; [exact I|]. intros u0 Hu0. destruct u as [[|]|]; cbn; [intros _; apply Hu; reflexivity|discriminate|exact I]. }
      destruct u as [[|]|]; try apply G. destruct (rv_debug R); [|apply G]. split; [exact I|]. intros u0 Hu0. apply G.
    + intros [|] t Hu; cbn [negb]; [|exact I]. apply see_parse. exists name. auto.
  - apply sat_act; [exact I|]. intros [|] Hf; [apply see_parse; exists name; auto|]. apply sat_bind.
    assert (G : forall g q t, sat t any (find_up g q name)).
    { induction g as [|g IHg]; intros q t; cbn [find_up]; [exact I|]. apply sat_act; [exact I|]. intros [|] _; [exact I|]. destruct (parent q); [apply IHg|exact I]. }
    eapply sat_mono; [|apply G]. intros t [dir|] _; [apply IH|].
    assert (G' : forall g q t, sat t any (none_loop R g q)).
    { induction g as [|g IHg]; intros q t'; cbn [none_loop]; [exact I|]. apply sat_act; [exact I|]. intros [|] Hq; [|apply IHg].
      apply sat_act; [split; [reflexivity|]; split; [exact Hq|discriminate]|]. intros u0 Hu0. destruct (parent q); [apply IHg|exact I]. }
    apply G'.
Qed.
Lemma see_resolve : forall fuel f i tr, sat tr (fun t s => match s with Success (RInfo i) => sel R t i | _ => True end) (resolve_ R (load_pkg_file R fuel) f i).
Proof.
  intros fuel f i tr. eapply sat_mono; [|apply (sat_resolve_ said al al_probe R (load_pkg_file R fuel) (fun _ => True) (fun _ => True) (fun _ => True)); auto].
  - intros t [[j|]|j|e j] H; cbn [final_good] in H; try exact I. apply H.
  - intros p t. eapply sat_mono; [|apply see_load]. intros t' [[pk|]|e] _; exact I.
Qed.
Lemma see_file : forall fuel f loc tr, Forall (okev said) tr -> ts_file R T loc -> sat tr any (parse_file_to_value R (load_pkg_file R fuel) f loc).
Proof.
  induction f as [|f IH]; intros loc tr Ht Hl; cbn [parse_file_to_value]; [exact I|]. apply sat_act; [right; exact Hl|]. intros [s|] Hs; [|exact I].
  destruct (rv_jsonc R s) as [e| |j] eqn:Ej; [exact I|exact I|]. destruct (jget j (lit "extends")) as [[| | |ext| |]|] eqn:Ee; try exact I.
  destruct (parent loc) as [dir|]; [|exact I]. apply sat_bind.
  assert (Ht' : Forall (okev said) (tr ++ [mkev (ORead loc) (Some s)])). { apply Forall_app. split; [exact Ht|]. constructor; [exact Hs|constructor]. }
  eapply sat_mono; [|apply sat_seen; [exact Ht'|apply see_resolve]].
  intros t [[i|]|i|e i] [Hsel HF]; try exact I. destruct Hsel as (Hin & Htg & _). unfold get_path. rewrite Htg. cbn [str_eqb orb].
  apply sat_any_try with (P := fun _ => True); [|intros; exact I]. eapply sat_mono; [|apply IH].
  - intros t' [b|e] _; exact I.
  - exact HF.
  - eapply TsExtends; try eassumption. rewrite Forall_forall in HF. exact (HF _ Hin).
Qed.
Lemma see_call : forall f base req, sat [] any (resolve R f base req).
Proof.
  intros f base req. unfold resolve, resolve_with. cbv zeta. apply sat_bind.
  eapply sat_mono with (Q := fun t s => match s with Success (RInfo i) => said (OIsFile (i_path i)) true | _ => True end).
  - intros t [[i|]|i|e i] H; try exact I. unfold normalize_result. destruct (_ && _); [exact I|]. unfold normalize_path. destruct (o_symlinks (rv_opts R)) eqn:Es; [|exact I].
    apply sat_try. apply sat_act; [split; [exact Es|exact H]|]. intros [q|] _; exact I.
  - assert (G : forall fuel i tr, Forall (okev said) tr -> sat tr (fun t s => match s with Success (RInfo i) => said (OIsFile (i_path i)) true | _ => True end) (resolve_ R (load_pkg_file R f) fuel i)).
    { intros fuel i tr Ht. eapply sat_mono; [|apply sat_seen; [exact Ht|apply see_resolve]]. intros t [[j|]|j|e j] [Hs HF]; try exact I.
      destruct Hs as (Hin & _). rewrite Forall_forall in HF. exact (HF _ Hin). }
    destruct (o_tsconfig (rv_opts R)) as [loc|] eqn:El; [|apply G; constructor].
    unfold resolve_with_tsconfig. apply sat_bind. eapply sat_mono; [|apply sat_seen; [constructor|apply see_file; [constructor|constructor 1; exact El]]].
    intros t [j|e] [_ HF]; [|exact I]. apply sat_bind, sat_lift. intros ts _. apply sat_bind.
    eapply sat_mono; [|apply sat_seen; [exact HF|]]; [|instantiate (1 := any)].
    2:{ unfold create_match_list. destruct (parent loc); [|exact I]. destruct (ts_base ts); [|exact I]. destruct (ts_paths ts); [|exact I]. apply sat_act; [exact I|]. intros; exact I. }
    cbn beta. intros t1 l [_ HF1]. clear HF t. revert t1 HF1. induction l as [|[pat ps] l IH]; intros t1 HF1; cbn [ts_entries_loop]; [apply G, HF1|].
    apply sat_bind. eapply sat_mono; [|apply sat_seen; [exact HF1|]]; [|instantiate (1 := any)].
    2:{ destruct (str_eqb pat _); [exact I|]. apply sat_lift. intros; exact I. }
    cbn beta. intros t2 [star|] [_ HF2]; [|apply IH, HF2]. apply sat_bind.
    eapply sat_mono with (Q := fun t o => match o with Some s => match s with Success (RInfo i) => said (OIsFile (i_path i)) true | _ => True end | None => Forall (okev said) t end).
    { intros t3 [s|] H3; [exact H3|apply IH, H3]. }
    clear HF1 t1. revert t2 HF2. induction ps as [|p ps IHp]; intros t2 HF2; cbn [ts_paths_loop]; [exact HF2|].
    apply sat_bind. eapply sat_mono; [|apply sat_seen; [exact HF2|apply G; exact HF2]]. intros t3 s [H3 HF3]. destruct (is_success s) eqn:Es; [|apply IHp, HF3].
    cbn [ExecP.sat]. exact H3.
Qed.
End Sight.
Lemma told_self : forall tr, Forall (okev (told tr)) tr.
Proof. intros tr. apply Forall_forall. intros [o x] H. exact H. Qed.
Lemma fin_71 : forall c R, call_resolver c = R -> forall tr1 o x tr2 r,
  exec (call_prog c) (tr1 ++ mkev o x :: tr2) r -> lawful R tr1 o.
Proof.
  intros c R HR tr1 o x tr2 r He. refine (sat_before (told tr1) (lawful R tr1) (call_prog c) _ r He tr1 (mkev o x) tr2 eq_refl (told_self tr1) [] any _).
  destruct c as [R' f base req|R' f p]; cbn [call_resolver] in HR; subst R'; cbn [call_prog]; apply sat_bind.
  - eapply sat_mono; [|apply see_call]. intros t a _. exact I.
  - unfold load_side_effects. apply sat_try. eapply sat_mono; [|apply see_load]. intros t [[pk|]|e] _; try exact I. destruct (o_desc (rv_opts R)); exact I.
Qed.
Lemma fin_71_read : forall c tr1 p x tr2 r, exec (call_prog c) (tr1 ++ mkev (ORead p) x :: tr2) r ->
  (exists d, description_of (call_resolver c) tr1 d p) \/ ts_file (call_resolver c) tr1 p.
Proof. intros c tr1 p x tr2 r H. exact (fin_71 c _ eq_refl tr1 _ x tr2 r H). Qed.
Lemma fin_71_other : forall c tr1 tr2 r p, 
  (forall x, exec (call_prog c) (tr1 ++ mkev (OMtime p) x :: tr2) r -> exists d, description_of (call_resolver c) tr1 d p) /\
  (forall x, exec (call_prog c) (tr1 ++ mkev (OCanon p) x :: tr2) r -> o_symlinks (rv_opts (call_resolver c)) = true /\ told tr1 (OIsFile p) true).
Proof.
  intros c tr1 tr2 r p. split; intros x H.
  - exact (fin_71 c _ eq_refl tr1 _ x tr2 r H).
  - exact (fin_71 c _ eq_refl tr1 _ x tr2 r H).
Qed.
Lemma fin_71_stored : forall c tr1 tr2 r x,
  (forall id p s t, exec (call_prog c) (tr1 ++ mkev (OFilePut id p s t) x :: tr2) r ->
     id = rv_id (call_resolver c) /\ (exists d, description_of (call_resolver c) tr1 d p) /\ told tr1 (ORead p) (Some s) /\ told tr1 (OMtime p) (MTime t)) /\
  (forall id d v, exec (call_prog c) (tr1 ++ mkev (OPkgPut id d v) x :: tr2) r ->
     id = rv_cache (call_resolver c) /\ told tr1 (OIsDir d) true /\
     forall pk, v = Some pk -> p_dir pk = d /\
       exists p s, description_of (call_resolver c) tr1 d p /\ told tr1 (ORead p) (Some s) /\ rv_json (call_resolver c) s = Some (p_raw pk)).
Proof.
  intros c tr1 tr2 r x. split.
  - intros id p s t H. exact (fin_71 c _ eq_refl tr1 (OFilePut id p s t) x tr2 r H).
  - intros id d v H. exact (fin_71 c _ eq_refl tr1 (OPkgPut id d v) x tr2 r H).
Qed.
Lemma ex71 : map (fun q => reads (W t71) (call_prog (CResolve R71 40 (lit "/r") (lit q))) st0) ["~/x"; "m"; "./src/x.js"]%string =
    map (map lit) [["/r/tsconfig.json"; "/r/package.json"; "/r/./base.json"]; ["/r/tsconfig.json"; "/r/package.json"; "/r/./base.json"; "/r/node_modules/m/package.json"];
      ["/r/tsconfig.json"; "/r/package.json"; "/r/./base.json"]]%string /\
  reads (W t71) (call_prog (CSide R71 40 (lit "/r/src/x.js"))) st0 = [lit "/r/package.json"] /\
  out (W t71) st0 (call_prog (CResolve R71 40 (lit "/r") (lit "~/x"))) = Done (AResolve (Ok (RInfo (mkInfo (lit "/r/src/x.js") (mkReq [] [] [] Relative))))) /\
  out (W t71) st0 (call_prog (CResolve R71 40 (lit "/r") (lit "m"))) = Done (AResolve (Ok (RInfo (mkInfo (lit "/r/node_modules/m/i.js") (mkReq [] [] [] Relative))))).
Proof. split; [|split; [|split]]; vm_compute; reflexivity. Qed.
