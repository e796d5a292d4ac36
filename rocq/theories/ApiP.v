(** * Facts about every execution of the public API. *)
From Coq Require Import String.
From Coq Require Import List Arith NArith Bool Lia.
From Verif Require Import Str StrP Path PathP Json Types Parse ParseP Map Prog Desc Resolve Top Run Exec SpecApi ExecP.
Import ListNotations.

Definition no_canon (o : op) : Prop := forall p, o <> OCanon p.
Lemma no_canon_all : forall o, (forall p, o <> OCanon p) -> no_canon o.
Proof. intros o H. exact H. Qed.
Lemma no_canon_probe : forall o, probe o -> no_canon o.
Proof. intros o H q E. subst o. destruct H. Qed.

Lemma sat_weaken {A} : forall ok (a1 a2 : op -> Prop) (p : prog A) tr Q,
  (forall o, a1 o -> a2 o) -> sat ok a1 tr Q p ->
  sat ok a2 tr (fun t a => Q t a /\ exists d, t = tr ++ d /\ Forall (allev a1) d) p.
Proof.
  intros ok a1 a2 p. induction p as [a|m| |o k IH]; intros tr Q Ha H; cbn [sat] in *; auto.
  - split; [exact H|]. exists []. rewrite app_nil_r. split; [reflexivity|constructor].
  - destruct H as [Ho H]. split; [apply Ha, Ho|]. intros x Hx. specialize (IH x _ _ Ha (H x Hx)).
    eapply sat_mono; [|exact IH]. intros t a [HQ [d [-> Hd]]]. split; [exact HQ|].
    exists (mkev o x :: d). rewrite <- app_assoc. split; [reflexivity|]. constructor; auto.
Qed.

Definition fin (R : resolver) (tr : list ev) (s : stats) : Prop :=
  match s with
  | Success (RInfo i) => sel R tr i
  | Success RIgnored => True
  | Resolving _ => False
  | SError e _ => e <> TAG
  end.
Lemma sat_load_any : forall R fuel p tr,
  sat anyok no_canon tr (fun _ r => match r with Ok o => opkgok (fun _ => True) o | Err e => True end) (load_pkg_file R fuel p).
Proof.
  intros R fuel p tr. eapply sat_mono; [|apply (sat_load anyok no_canon no_canon_all R (fun _ => True)); auto].
  intros t [o|e] H; [exact H|exact I].
Qed.
Lemma sat_resolve_any : forall R fuel f2 i tr, sat anyok no_canon tr (fin R) (resolve_ R (load_pkg_file R fuel) f2 i).
Proof.
  intros R fuel f2 i tr.
  eapply sat_mono; [|apply (sat_resolve_ anyok no_canon no_canon_probe R (load_pkg_file R fuel) (fun _ => True) (fun _ => True) (fun _ => True)); auto].
  - intros t [[i'|]|i'|e i'] H; cbn [final_good fin] in *; try tauto.
    destruct H as [e0 [_ ->]]. destruct (str_eqb_spec e0 TAG); [apply failed_msg_not_tag|assumption].
  - apply sat_load_any.
Qed.
Lemma long_not_tag : forall e, 3 <= length e -> e <> TAG.
Proof. intros e H ->. cbn in H. lia. Qed.
Lemma sat_parse_file : forall R fuel f2 loc tr, sat anyok no_canon tr
  (fun _ r => match r with Ok _ => True | Err e => e <> TAG end) (parse_file_to_value R (load_pkg_file R fuel) f2 loc).
Proof.
  induction f2 as [|f IH]; intros loc tr; cbn [parse_file_to_value]; [exact I|].
  apply sat_act; [discriminate|]. intros [s|] _.
  2:{ cbn [sat]. apply long_not_tag. rewrite !app_length. cbn. lia. }
  destruct (rv_jsonc R s) as [e| |j]; [|exact I|].
  { cbn [sat]. apply long_not_tag. rewrite !app_length. cbn. lia. }
  destruct (jget j (lit "extends")) as [[]|]; try exact I.
  destruct (parent loc); [|exact I]. apply sat_bind.
  eapply sat_mono; [|apply sat_resolve_any]. intros t [[i'|]|i'|e i'] _; try exact I.
  - apply sat_try. eapply sat_mono; [|apply IH]. intros t' [b|e] H; [exact I|exact H].
  - cbn [sat]. apply long_not_tag. rewrite !app_length. cbn. lia.
Qed.
Lemma sat_ts_paths : forall R fuel f2 star l tr, sat anyok no_canon tr
  (fun t o => match o with Some s => fin R t s | None => True end) (ts_paths_loop R (load_pkg_file R fuel) f2 star l).
Proof.
  induction l as [|p r IH]; intros tr; cbn [ts_paths_loop]; [exact I|].
  apply sat_bind. eapply sat_mono; [|apply sat_resolve_any]. intros t s Hs.
  destruct (is_success s); [exact Hs|apply IH].
Qed.
Lemma sat_ts_entries : forall R fuel f2 i l tr, sat anyok no_canon tr (fin R) (ts_entries_loop R (load_pkg_file R fuel) f2 i l).
Proof.
  induction l as [|[pat ps] r IH]; intros tr; cbn [ts_entries_loop]; [apply sat_resolve_any|].
  apply sat_bind.
  assert (H : forall t o, sat anyok no_canon t (fin R) (match o with None => ts_entries_loop R (load_pkg_file R fuel) f2 i r
     | Some star => x <- ts_paths_loop R (load_pkg_file R fuel) f2 star ps ;;
          match x with Some s => Ret s | None => ts_entries_loop R (load_pkg_file R fuel) f2 i r end end)).
  { intros t [star|]; [|apply IH]. apply sat_bind. eapply sat_mono; [|apply sat_ts_paths].
    intros t' [s|] Hs; [exact Hs|apply IH]. }
  destruct (str_eqb pat _); [apply H|]. apply sat_lift. intros o _. apply H.
Qed.
Lemma sat_tsconfig : forall R fuel f2 i loc tr, sat anyok no_canon tr (fin R) (resolve_with_tsconfig R (load_pkg_file R fuel) f2 i loc).
Proof.
  intros R fuel f2 i loc tr. unfold resolve_with_tsconfig. apply sat_bind.
  eapply sat_mono; [|apply sat_parse_file]. intros t [j|e] He; [|exact He].
  apply sat_bind, sat_lift. intros ts _. apply sat_bind.
  assert (H : forall t (Q : list ev -> list (str * list path) -> Prop), (forall t' l, Q t' l) -> sat anyok no_canon t Q (create_match_list loc ts)).
  { intros t0 Q HQ. unfold create_match_list. destruct (parent loc); [|exact I].
    destruct (ts_base ts); [|apply HQ]. destruct (ts_paths ts); [|apply HQ].
    apply sat_act; [discriminate|]. intros x _. apply HQ. }
  apply H. intros t' l. apply sat_ts_entries.
Qed.

(** The final answer. *)
Definition answer_ok (R : resolver) (tr : list ev) (r : result rresult) : Prop :=
  match r with
  | Ok (RInfo i) => exists p, In (mkev (OIsFile p) true) tr /\ r_target (i_req i) = [] /\
      (enforce R = true -> exists q ext, In ext (o_extensions (rv_opts R)) /\ p = q ++ ext) /\
      (if o_symlinks (rv_opts R) then In (mkev (OCanon p) (Some (i_path i))) tr
       else i_path i = normalize_path_without_link p)
  | Ok RIgnored => True
  | Err e => e <> TAG
  end.
Definition canon_ok (R : resolver) (tr : list ev) (r : result rresult) : Prop :=
  forall p, In (mkev (OCanon p) None) tr -> r = Err norm_failed.
Lemma no_canon_notin : forall d p x, Forall (allev no_canon) d -> ~ In (mkev (OCanon p) x) d.
Proof.
  intros d p x H Hin. rewrite Forall_forall in H. apply H in Hin. cbn in Hin. apply (Hin p). reflexivity.
Qed.
Definition not_canon_none (e : ev) : Prop :=
  match e with existT _ o x =>
    match o return ans o -> Prop with OCanon _ => fun x => x <> None | _ => fun _ => True end x end.
Lemma sat_resolve_top : forall R fuel base req,
  sat anyok (fun o => forall p, o = OCanon p -> o_symlinks (rv_opts R) = true) []
    (fun t r => answer_ok R t r /\ canon_ok R t r) (resolve R fuel base req).
Proof.
  intros R fuel base req. unfold resolve, resolve_with. cbv zeta. apply sat_bind.
  eapply sat_mono with (Q := fun t s => fin R t s /\ exists d, t = [] ++ d /\ Forall (allev no_canon) d).
  2:{ eapply sat_weaken with (a1 := no_canon).
      - intros o H p E. exfalso. apply (H p E).
      - destruct (o_tsconfig (rv_opts R)); [apply sat_tsconfig|apply sat_resolve_any]. }
  intros t s [Hf [d [Et Hd]]]. cbn [app] in Et. subst d.
  destruct s as [[i|]|i|e i]; cbn [fin] in Hf.
  - unfold normalize_result. destruct (rv_debug R && _); [exact I|]. apply sat_try. unfold normalize_path.
    destruct Hf as [H1 [H2 H3]]. destruct (o_symlinks (rv_opts R)) eqn:Es.
    + apply sat_act; [auto|]. intros [q|] _; cbn [sat].
      * split.
        -- exists (i_path i). rewrite Es. repeat split; auto.
           ++ apply in_app_iff. left. exact H1.
           ++ cbn. apply in_app_iff. right. left. reflexivity.
        -- intros p Hin. exfalso. apply in_app_iff in Hin. destruct Hin as [Hin|[Hin|[]]].
           ++ eapply no_canon_notin; eassumption.
           ++ assert (Hn : not_canon_none (mkev (OCanon (i_path i)) (Some q))) by discriminate.
              rewrite Hin in Hn. apply Hn. reflexivity.
      * split; [cbn; discriminate|]. intros p _. reflexivity.
    + cbn [sat]. split.
      * exists (i_path i). rewrite Es. repeat split; auto.
      * intros p Hin. exfalso. eapply no_canon_notin; eassumption.
  - split; [exact I|]. intros p Hin. exfalso. eapply no_canon_notin; eassumption.
  - exact I.
  - split; [exact Hf|]. intros p Hin. exfalso. eapply no_canon_notin; eassumption.
Qed.

(** ** Query and fragment *)
Definition path_kind (k : kind) : Prop := k = Relative \/ k = AbsolutePosix \/ k = AbsoluteWin.
Definition kept (q f : str) (i : info) : Prop := r_query (i_req i) = q /\ r_fragment (i_req i) = f.

Section Carry.
Variable ok : forall o, ans o -> Prop.
Variable R : resolver.
Variable load : path -> prog (result (option pkg)).
Variable J : info -> Prop.
Variables q f : str.
Hypothesis HJ : forall i, J i -> kept q f i.
Lemma sat_carry : forall fuel base req, o_tsconfig (rv_opts R) = None ->
  (forall tr, sat ok no_canon tr (final_good R J (fun _ => True) (mkInfo base (parse req))) (resolve_ R load fuel (mkInfo base (parse req)))) ->
  sat ok (fun _ => True) [] (fun _ r => match r with Ok (RInfo i) => kept q f i | _ => True end)
    (resolve_with R load fuel base req).
Proof.
  intros fuel base req Ht Hr. unfold resolve_with. rewrite Ht. apply sat_bind.
  eapply sat_mono; [|eapply sat_weaken; [|apply Hr]; auto].
  intros t [[i|]|i|e i] [Hg _]; cbn [final_good] in Hg; try exact I.
  unfold normalize_result. destruct (rv_debug R && _); [exact I|]. apply sat_try. unfold normalize_path.
  destruct Hg as [Hg _]. apply HJ in Hg.
  destruct (o_symlinks (rv_opts R)).
  - apply sat_act; [exact I|]. intros [p|] _; [exact Hg|exact I].
  - exact Hg.
Qed.
End Carry.

Definition J_path_req (q f : str) (i : info) : Prop :=
  kept q f i /\ path_kind (r_kind (i_req i)) /\ starts_with_char (r_target (i_req i)) c_hash = false.
Lemma kind_rel : forall x, get_target_kind (lit "./" ++ x) = Relative.
Proof.
  intros x. pose proof (SpecParse.looks_relative) as _.
  unfold get_target_kind. rewrite (starts_with_app (lit "./") x). reflexivity.
Qed.
Lemma carry_path : forall R fuel base req,
  o_tsconfig (rv_opts R) = None -> o_alias (rv_opts R) = [] -> o_browser (rv_opts R) = false ->
  path_kind (r_kind (parse req)) ->
  sat anyok (fun _ => True) [] (fun _ r => match r with
    | Ok (RInfo i) => kept (r_query (parse req)) (r_fragment (parse req)) i | _ => True end)
    (resolve R fuel base req).
Proof.
  intros R fuel base req Ht Ha Hb Hk. unfold resolve.
  apply (sat_carry anyok R _ (J_path_req (r_query (parse req)) (r_fragment (parse req)))); auto.
  - intros i [H _]. exact H.
  - intros tr. apply (sat_resolve_ anyok no_canon no_canon_probe R _ _ (fun _ => True) (fun _ => True)); auto.
    + apply sat_load_any.
    + intros i [H1 [H2 H3]]. split; [exact H1|]. split; [left; reflexivity|reflexivity].
    + intros i x [H1 [H2 H3]]. split; [exact H1|]. split; [|reflexivity].
      left. apply kind_rel.
    + intros pk i _ [_ [H2 H3]]. right. split; [|congruence].
      intros E. rewrite E in H2. destruct H2 as [H|[H|H]]; discriminate.
    + split; [split; reflexivity|]. split; [exact Hk|]. cbn [i_req].
      revert Hk. unfold parse. destruct (parse_identifier req) as [[t q] f]. cbn [r_kind r_target].
      unfold get_target_kind. destruct t as [|c t]; [reflexivity|].
      destruct (starts_with_char (c :: t) c_hash); [|reflexivity]. intros [H|[H|H]]; discriminate.
Qed.
Lemma carry_plain : forall R fuel base req,
  o_tsconfig (rv_opts R) = None ->
  (forall s j, rv_json R s = Some j -> jget j (lit "exports") = None /\ jget j (lit "imports") = None) ->
  forall (ok : forall o, ans o -> Prop),
  (forall c p pk, ok (OPkgGet c p) (Some (Some pk)) -> p_exports pk = None /\ p_imports pk = None) ->
  sat ok (fun _ => True) [] (fun _ r => match r with
    | Ok (RInfo i) => kept (r_query (parse req)) (r_fragment (parse req)) i | _ => True end)
    (resolve R fuel base req).
Proof.
  intros R fuel base req Ht Hp ok Hok. unfold resolve.
  apply (sat_carry ok R _ (kept (r_query (parse req)) (r_fragment (parse req)))); auto.
  intros tr. apply (sat_resolve_ ok no_canon no_canon_probe R _ _ (fun _ => True)
     (fun pk => p_exports pk = None /\ p_imports pk = None)); auto.
  - intros p tr'. eapply sat_mono; [|apply (sat_load ok no_canon no_canon_all R (fun pk => p_exports pk = None /\ p_imports pk = None))].
    + intros t [o|e] H; [exact H|exact I].
    + exact Hok.
    + intros q s pk _ Hj H1 H2. apply Hp in Hj. destruct Hj as [G1 G2].
      split; [destruct (p_exports pk) as [t|] eqn:E; [destruct (H1 t eq_refl) as (v & Hv & _)|]|destruct (p_imports pk) as [t|] eqn:E; [destruct (H2 t eq_refl) as (v & Hv & _)|]]; congruence.
  - intros pk i [H1 H2] _. right. auto.
  - split; reflexivity.
Qed.

(** ** Failure messages *)
Definition failed_answer (P : str -> Prop) (base : path) (req : str) (tr : list ev) (r : result rresult) : Prop :=
  match r with
  | Ok (RInfo i) => exists p, In (mkev (OIsFile p) true) tr
  | Ok RIgnored => True
  | Err e => e = generic_failure base req \/ P e
     \/ e = norm_failed /\ exists p, In (mkev (OIsFile p) true) tr
  end.
Lemma parse_display : forall req, request_display (parse req) = req.
Proof. exact ParseP.request_display_parse. Qed.
Lemma sat_generic : forall ok P R load fuel base req, o_tsconfig (rv_opts R) = None ->
  (forall tr, sat ok (fun _ => True) tr (final_good R (fun _ => True) (fun e => e = TAG \/ P e) (mkInfo base (parse req)))
     (resolve_ R load fuel (mkInfo base (parse req)))) ->
  sat ok (fun _ => True) [] (failed_answer P base req) (resolve_with R load fuel base req).
Proof.
  intros ok P R load fuel base req Ht H. unfold resolve_with. rewrite Ht. apply sat_bind.
  eapply sat_mono; [|apply H]. intros t [[i|]|i|e i] Hg; cbn [final_good] in Hg.
  - destruct Hg as [_ [Hf _]]. unfold normalize_result. destruct (_ && _); [exact I|].
    apply sat_try. unfold normalize_path. destruct (o_symlinks (rv_opts R)).
    + apply sat_act; [exact I|]. intros [q|] _; cbn.
      * exists (i_path i). apply in_app_iff. left. exact Hf.
      * right. right. split; [reflexivity|]. exists (i_path i). apply in_app_iff. left. exact Hf.
    + cbn. exists (i_path i). exact Hf.
  - exact I.
  - destruct Hg.
  - cbn. destruct Hg as [e0 [H0 ->]]. destruct (str_eqb_spec e0 TAG) as [->|Hn].
    + left. unfold resolve_failed_message, generic_failure. cbn [i_req i_path].
      rewrite parse_display. reflexivity.
    + right. left. destruct H0 as [H0|H0]; [contradiction|exact H0].
Qed.
Lemma no_description : forall R fuel base req, o_tsconfig (rv_opts R) = None -> o_desc (rv_opts R) = None ->
  sat anyok (fun _ => True) [] (failed_answer (fun _ => False) base req) (resolve R fuel base req).
Proof.
  intros R fuel base req Ht Hd. apply sat_generic; [exact Ht|]. intros tr.
  apply (sat_resolve_ anyok (fun _ => True)) with (pkgok := fun _ => False); auto.
  - intros p tr'. destruct fuel as [|f]; cbn [load_pkg_file]; [exact I|]. rewrite Hd. exact I.
Qed.
Lemma nothing_found : forall R fuel base req, o_tsconfig (rv_opts R) = None ->
  sat nofile_ok (fun _ => True) [] (failed_answer (fun _ => False) base req) (resolve R fuel base req).
Proof.
  intros R fuel base req Ht. apply sat_generic; [exact Ht|]. intros tr.
  apply (sat_resolve_ nofile_ok (fun _ => True)) with (pkgok := fun _ => False); auto.
  - intros p tr'. eapply sat_mono; [|apply sat_load_nofile]. intros t r [->| ->]; [exact I|left; reflexivity].
Qed.
(** No description read or cached has an exports or imports field. *)
Definition plain_ok (o : op) : ans o -> Prop :=
  match o return ans o -> Prop with
  | OPkgGet _ _ => fun x => match x with Some (Some pk) => p_exports pk = None /\ p_imports pk = None | _ => True end
  | _ => fun _ => True
  end.
Lemma plain_failure : forall R fuel base req, o_tsconfig (rv_opts R) = None ->
  (forall s j, rv_json R s = Some j -> jget j (lit "exports") = None /\ jget j (lit "imports") = None) ->
  sat plain_ok (fun _ => True) [] (failed_answer desc_err base req) (resolve R fuel base req).
Proof.
  intros R fuel base req Ht Hp. apply sat_generic; [exact Ht|]. intros tr.
  apply (sat_resolve_ plain_ok (fun _ => True)) with (pkgok := fun pk => p_exports pk = None /\ p_imports pk = None); auto.
  - intros p tr'. eapply sat_mono; [|apply (sat_load plain_ok (fun _ => True)) with (pkgok := fun pk => p_exports pk = None /\ p_imports pk = None)]; auto.
    + intros t [o|e] H; [exact H|]. destruct H as [H|[-> _]]; auto.
    + intros q s pk _ Hj H1 H2. apply Hp in Hj. destruct Hj as [G1 G2].
      split; [destruct (p_exports pk) as [t|] eqn:E; [destruct (H1 t eq_refl) as (v & Hv & _)|]|destruct (p_imports pk) as [t|] eqn:E; [destruct (H2 t eq_refl) as (v & Hv & _)|]]; congruence.
  - intros pk e [H1 H2] [H|H]; contradiction.
Qed.

(** ** load_side_effects *)
Definition root_ok (o : op) : ans o -> Prop :=
  match o return ans o -> Prop with
  | OIsDir p => fun x => components p = [CRoot] -> x = true
  | _ => fun _ => True
  end.
Lemma sat_side_effects : forall R fuel p, is_abs p = true ->
  sat root_ok (fun _ => True) [] (fun _ r => r <> Err TAG) (load_side_effects R fuel p).
Proof.
  intros R fuel p Ha. unfold load_side_effects. apply sat_try.
  eapply sat_mono; [|apply (sat_load root_ok (fun _ => True)) with (pkgok := fun _ => True); auto].
  intros t [[pk|]|e] Hl.
  - destruct (o_desc (rv_opts R)); [discriminate|exact I].
  - discriminate.
  - destruct Hl as [Hl|[-> Hl]].
    + intros E. injection E as ->. inversion Hl.
    + destruct (Hl Ha) as [q [Hq1 Hq2]]. cbn in Hq2. specialize (Hq2 Hq1). discriminate.
Qed.
