(** * Proofs for C48: where a query or a fragment may come from *)
From Coq Require Import String.
From Coq Require Import List Arith NArith Bool Lia.
From Verif Require Import Str StrP Path PathP Json Types Parse Map Prog Desc Resolve Top Run Exec SpecApi ExecP ApiP SpecCarry.
Import ListNotations.

Lemma sat_ok {A} : forall (ok ok' : forall o, ans o -> Prop) al (p : prog A) tr Q, (forall o x, ok' o x -> ok o x) -> sat ok al tr Q p -> sat ok' al tr Q p.
Proof.
  intros ok ok' al p. induction p as [a|m| |o k IH]; intros tr Q H Hs; cbn [sat] in *; auto.
  destruct Hs as [H1 H2]. split; [exact H1|]. auto.
Qed.
Section Sources.
Variable R : resolver.
Variable tr0 : list ev.
Let ok (o : op) (x : ans o) : Prop := In (mkev o x) tr0.
Variable rq : request.
Definition source (q : request) : Prop :=
  same_tail_of q rq \/ (o_tsconfig (rv_opts R) <> None /\ same_tail_of q empty_request) \/ exists c, given R tr0 c /\ same_tail_of q (parse c).
Let J (i : info) : Prop := source (i_req i).
Let pkgok (pk : pkg) : Prop := forall fk t, field_tree fk pk = Some t -> met R tr0 fk t.
Lemma load_sources : forall fuel p tr,
  sat ok no_canon tr (fun _ r => match r with Ok o => opkgok pkgok o | Err _ => True end) (load_pkg_file R fuel p).
Proof.
  intros fuel p tr. eapply sat_mono; [|apply (sat_load ok no_canon no_canon_all R pkgok)].
  - intros t [o|e] H; [exact H|exact I].
  - intros c q pk H fk t Ht. eapply MetRecorded; eassumption.
  - intros q s pk Hr Hj H1 H2 fk t Ht. destruct fk; cbn [field_tree] in Ht.
    + destruct (H1 t Ht) as (v & Hv & [Hb|Hc]); [eapply (MetRead R tr0 FExports); eassumption|eapply MetExports; exact Hc].
    + destruct (H2 t Ht) as (v & Hv & [Hb|Hc]); [eapply (MetRead R tr0 FImports); eassumption|eapply MetImports; exact Hc].
Qed.
Lemma resolve_sources : forall fuel f2 i tr, J i ->
  sat ok no_canon tr (fun _ s => match s with Success (RInfo i') => J i' | _ => True end) (resolve_ R (load_pkg_file R fuel) f2 i).
Proof.
  intros fuel f2 i tr Hi. eapply sat_mono; [|apply (sat_resolve_ ok no_canon no_canon_probe R (load_pkg_file R fuel) J (fun _ => True) pkgok)]; auto.
  - intros t [[i'|]|i'|e i'] H; auto. apply H.
  - apply load_sources.
  - intros pk i' Hpk _. left. intros d s fk root req l Ht Hl Hs. right. right. exists s. split; [|split; reflexivity].
    exists fk, root, req, l. split; [|split; assumption]. apply Hpk. destruct fk; exact Ht.
Qed.
Lemma ts_sources : forall fuel f2 i l tr, o_tsconfig (rv_opts R) <> None -> J i ->
  sat ok no_canon tr (fun _ s => match s with Success (RInfo i') => J i' | _ => True end) (ts_entries_loop R (load_pkg_file R fuel) f2 i l).
Proof.
  intros fuel f2 i l tr Hts Hi. revert tr. induction l as [|[pat ps] r IH]; intros tr; cbn [ts_entries_loop]; [apply resolve_sources, Hi|].
  assert (Hp : forall star tr, sat ok no_canon tr (fun _ o => match o with Some (Success (RInfo i')) => J i' | _ => True end) (ts_paths_loop R (load_pkg_file R fuel) f2 star ps)).
  { intros star. induction ps as [|p ps IHp]; intros t; cbn [ts_paths_loop]; [exact I|]. apply sat_bind.
    eapply sat_mono; [|apply resolve_sources; right; left; split; [exact Hts|split; reflexivity]].
    intros t' s Hs. destruct (is_success s); [|apply IHp]. exact Hs. }
  apply sat_bind.
  assert (H : forall t o, sat ok no_canon t (fun _ s => match s with Success (RInfo i') => J i' | _ => True end)
     (match o with None => ts_entries_loop R (load_pkg_file R fuel) f2 i r
     | Some star => x <- ts_paths_loop R (load_pkg_file R fuel) f2 star ps ;;
          match x with Some s => Ret s | None => ts_entries_loop R (load_pkg_file R fuel) f2 i r end end)).
  { intros t [star|]; [|apply IH]. apply sat_bind. eapply sat_mono; [|apply Hp].
    intros t' [s|] Hs; [exact Hs|apply IH]. }
  destruct (str_eqb pat _); [apply H|]. apply sat_lift. intros o _. apply H.
Qed.
Lemma top_sources : forall fuel base req, rq = parse req ->
  sat ok (fun _ => True) [] (fun _ r => match r with Ok (RInfo i) => source (i_req i) | _ => True end) (resolve R fuel base req).
Proof.
  intros fuel base req Hrq. unfold resolve, resolve_with. cbv zeta. apply sat_bind.
  assert (Hi : J (mkInfo base (parse req))) by (left; rewrite Hrq; split; reflexivity).
  eapply sat_mono with (Q := fun t s => (match s with Success (RInfo i') => J i' | _ => True end) /\ exists d, t = [] ++ d /\ Forall (allev no_canon) d).
  2:{ eapply sat_weaken with (a1 := no_canon); [auto|].
      destruct (o_tsconfig (rv_opts R)) as [loc|] eqn:Et; [|apply resolve_sources, Hi].
      unfold resolve_with_tsconfig. apply sat_bind. eapply sat_mono; [|apply (sat_ok anyok); [intros; exact I|apply sat_parse_file]].
      intros t [j|e] _; [|exact I]. apply sat_bind, sat_lift. intros ts _. apply sat_bind.
      assert (H : forall t (Q : list ev -> list (str * list path) -> Prop), (forall t' l, Q t' l) -> sat ok no_canon t Q (create_match_list loc ts)).
      { intros t0 Q HQ. unfold create_match_list. destruct (parent loc); [|exact I].
        destruct (ts_base ts); [|apply HQ]. destruct (ts_paths ts); [|apply HQ].
        apply sat_act; [discriminate|]. intros x _. apply HQ. }
      apply H. intros t' l. apply ts_sources; [congruence|exact Hi]. }
  intros t [[i|]|i|e i] [Hg _]; try exact I.
  unfold normalize_result. destruct (rv_debug R && _); [exact I|]. apply sat_try. unfold normalize_path.
  destruct (o_symlinks (rv_opts R)); [|exact Hg]. apply sat_act; [exact I|]. intros [p|] _; [exact Hg|exact I].
Qed.
End Sources.
Lemma fin_48_sources : forall R fuel base req tr i, exec (resolve R fuel base req) tr (Done (Ok (RInfo i))) ->
  same_tail_of (i_req i) (parse req) \/ (o_tsconfig (rv_opts R) <> None /\ r_query (i_req i) = [] /\ r_fragment (i_req i) = []) \/
  exists c, given R tr c /\ same_tail_of (i_req i) (parse c).
Proof.
  intros R fuel base req tr i H.
  assert (Hok : Forall (okev (fun o x => In (mkev o x) tr)) tr).
  { apply Forall_forall. intros [o x] Hin. exact Hin. }
  destruct (sat_exec _ _ _ _ _ H Hok [] _ (top_sources R tr (parse req) fuel base req eq_refl)) as [_ H2].
  exact (H2 _ eq_refl).
Qed.
