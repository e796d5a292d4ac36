(** * The loader comes to an end on absolute paths, and a logic for programs that come to an end
    under all admissible answers. *)
From Coq Require Import String.
From Coq Require Import List Arith NArith Bool Lia Permutation.
From Verif Require Import Str StrP Path PathP Json Types Parse Map Prog Desc Resolve Top Run SpecLoad PosixP SpellP SimP LoadP GuarP SpecCache CacheP ColdP NoFuelP.
Import ListNotations.

Lemma wx_and {A} : forall ok (p : prog A) (Q Q' : outcome A -> Prop), wx ok Q p -> wx ok Q' p -> wx ok (fun r => Q r /\ Q' r) p.
Proof. intros ok p Q Q'. induction p as [a|m| |o k IH]; cbn [wx]; auto. Qed.
Definition ended {A} (r : outcome A) : Prop := r <> NoFuel.
(** Under any answers at all. *)
Notation any := (fun (o : op) (_ : ans o) => True).
Lemma wx_any {A} : forall (ok : forall o, ans o -> Prop) (p : prog A) Q, wx any Q p -> wx ok Q p.
Proof. intros ok p Q. induction p as [a|m| |o k IH]; cbn [wx]; auto. Qed.
Lemma wx_ended_bind {A B} : forall ok (p : prog A) (f : A -> prog B), wx ok ended p -> (forall a, wx ok ended (f a)) -> wx ok ended (bind p f).
Proof.
  intros ok p f Hp Hf. apply wx_bind. eapply wx_mono; [|exact Hp]. intros [a|m|] H; [apply Hf|discriminate|contradiction H; reflexivity].
Qed.
Lemma wx_ended_try {A B} : forall ok (p : prog (result A)) (f : A -> prog (result B)), wx ok ended p -> (forall a, wx ok ended (f a)) -> wx ok ended (try_ p f).
Proof. intros ok p f Hp Hf. apply wx_ended_bind; [exact Hp|]. intros [a|e]; [apply Hf|discriminate]. Qed.
Lemma wx_ended_lift {A} : forall ok (c : pcomp A), c <> PFuel -> wx ok ended (lift c).
Proof. intros ok [a|m|] H; [discriminate|discriminate|contradiction]. Qed.
Lemma wx_ended_act : forall ok o, wx ok ended (act o).
Proof. intros ok o x _. discriminate. Qed.

Lemma modified_end : forall q, wx any ended (get_last_modified q).
Proof. intros q x _. destruct x; discriminate. Qed.
Lemma store_end : forall R q fp, wx any ended (parse_and_store R q fp).
Proof.
  intros R q fp. unfold parse_and_store. apply wx_ended_try.
  2:{ intros a x _. discriminate. }
  unfold parse_description_file. apply wx_ended_bind.
  { unfold dbg_check. destruct (rv_debug R); [|discriminate]. intros [|] _; [discriminate|]. apply wx_ended_act. }
  intros _. apply wx_ended_bind.
  { unfold read_to_string. intros [s|] _; [|discriminate]. apply wx_ended_try; [apply modified_end|]. intros t x _. discriminate. }
  intros [s|e]; [|discriminate]. destruct (rv_json R s) as [j|]; [|discriminate].
  apply wx_ended_bind; [apply wx_ended_lift, alias_fields_end|]. intros af. apply wx_ended_bind; [apply wx_ended_act|]. intros seed.
  apply wx_ended_try.
  { unfold load_exports. destruct (jget j (lit "exports")) as [v|]; [|discriminate]. intros [t|] _; [discriminate|].
    apply wx_ended_try; [apply wx_ended_lift, build_exports_end|]. intros t x _. discriminate. }
  intros ex. apply wx_ended_try.
  { unfold load_imports. destruct (jget j (lit "imports")) as [v|]; [|discriminate]. intros [t|] _; [discriminate|].
    apply wx_ended_try; [apply wx_ended_lift, build_imports_end|]. intros t x _. discriminate. }
  intros im. destruct (side_effects_of fp j); discriminate.
Qed.
Lemma update_end : forall R q, wx any ended (need_update R q).
Proof.
  intros R q. unfold need_update. intros [|] _; [|discriminate]. intros [[s t]|] _; [|discriminate].
  apply wx_ended_try; [apply modified_end|]. intros n. destruct (N.ltb n t); discriminate.
Qed.
Lemma check_end : forall R d q, wx any ended (check_entry R d q).
Proof.
  intros R d q. unfold check_entry. apply wx_ended_bind; [apply update_end|]. intros u.
  apply wx_ended_bind; [destruct u as [[|]|]; try discriminate; destruct (rv_debug R); [apply wx_ended_act|discriminate]|]. intros _ x _. discriminate.
Qed.

Section Total.
Variable fs : fsys.
Hypothesis Hfs : sane_fs fs.
Variable js : str -> option json.
Variable nm : nat -> str.
Variable ex : Prop.
Notation ok := (okx fs js nm ex).

Lemma find_up_end : forall c f q, length (components q) < f -> wx ok (fun r => r = Done (search fs (nm c) q)) (find_up f q (nm c)).
Proof.
  intros c. induction f as [|f IH]; intros q Hf; [lia|]. cbn [find_up]. intros x Hx. cbn [okx] in Hx. rewrite (Hx (watched_name nm ex c q)). clear x Hx. set (name := nm c) in *.
  destruct (f_file fs (join q name)) eqn:E.
  - unfold search, lineage. cbn [find bind wx]. rewrite E. reflexivity.
  - destruct (parent q) as [r|] eqn:Ep.
    + eapply wx_mono; [|apply IH; pose proof (parent_shorter _ _ Ep); lia]. intros x ->. unfold search. rewrite (lineage_some _ _ Ep).
      cbn [find]. rewrite E. reflexivity.
    + unfold search. rewrite (lineage_none _ Ep). cbn [find bind wx]. rewrite E. reflexivity.
Qed.
Lemma lineage_shorter : forall p d, In d (lineage p) -> length (components d) <= length (components p) /\ (is_abs p = true -> is_abs d = true).
Proof.
  intros p. induction p as [p Hp|p q Hp IH] using lineage_ind; intros d Hd.
  - rewrite (lineage_none _ Hp) in Hd. destruct Hd as [<-|[]]. auto.
  - rewrite (lineage_some _ _ Hp) in Hd. destruct Hd as [<-|Hd]; [auto|]. destruct (IH d Hd) as [H1 H2].
    pose proof (parent_shorter _ _ Hp). split; [lia|]. intros Ha. apply H2. eapply parent_abs; eassumption.
Qed.
Lemma none_loop_end : forall R f q, length (components q) < f -> Forall (fun d => f_dir fs d = true) (lineage q) ->
  wx ok ended (none_loop R f q).
Proof.
  induction f as [|f IH]; intros q Hf Hd; [lia|]. cbn [none_loop]. intros x Hx. cbn [okx] in Hx. subst x.
  destruct (parent q) as [r|] eqn:Ep.
  - rewrite (lineage_some _ _ Ep) in Hd. inversion Hd as [|? ? H1 H2]; subst. rewrite H1. intros u _. cbn [bind].
    apply IH; [pose proof (parent_shorter _ _ Ep); lia|exact H2].
  - rewrite (lineage_none _ Ep) in Hd. inversion Hd as [|? ? H1 H2]; subst. rewrite H1. intros u _. cbn [bind]. discriminate.
Qed.
Lemma load_end : forall R, client js nm R -> forall f q, is_abs q = true -> length (components q) + 2 <= f -> wx ok ended (load_pkg_file R f q).
Proof.
  intros R HR. induction f as [|f IH]; intros q Ha Hf; [lia|]. cbn [load_pkg_file]. destruct HR as [[En|En] _]; rewrite En; [discriminate|].
  set (name := nm (rv_cache R)) in *.
  intros x Hx. cbn [okx] in Hx. subst x. destruct (f_dir fs q) eqn:Ed; cbn [negb].
  2:{ destruct (parent q) as [r|] eqn:Ep; [|discriminate]. apply IH; [eapply parent_abs; eassumption|]. pose proof (parent_shorter _ _ Ep). lia. }
  intros [v|] _.
  - apply wx_any. apply wx_ended_try; [apply check_end|]. intros [|]; cbn [negb]; [|discriminate]. apply store_end.
  - intros x Hx. cbn [okx] in Hx. rewrite (Hx (watched_name nm ex _ q)). clear x Hx. fold name. destruct (f_file fs (join q name)) eqn:Ef; [apply wx_any, store_end|].
    cbn [bind]. apply wx_bind. eapply wx_mono; [|apply find_up_end; lia]. intros r ->. fold name.
    destruct (search fs name q) as [d|] eqn:Es.
    + unfold search in Es. destruct (parent q) as [r|] eqn:Ep.
      * rewrite (lineage_some _ _ Ep) in Es. cbn [find] in Es. rewrite Ef in Es. apply find_some in Es. destruct Es as [Hin _].
        destruct (lineage_shorter _ _ Hin) as [H1 H2]. pose proof (parent_shorter _ _ Ep). apply IH; [apply H2; eapply parent_abs; eassumption|lia].
      * rewrite (lineage_none _ Ep) in Es. cbn [find] in Es. rewrite Ef in Es. discriminate.
    + apply none_loop_end; [lia|]. apply dirs_up; assumption.
Qed.
End Total.
