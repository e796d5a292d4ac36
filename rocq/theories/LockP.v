(** * Locks: proofs for PropLock.v *)
From Coq Require Import String.
From Coq Require Import List Arith NArith Bool Lia.
From Verif Require Import Str StrP Path Json Types Parse Map Prog Desc Resolve Top Run Posix Demo SpecRun GuarP Lock SpecLock.
Import ListNotations.

Lemma table_eqb_eq : forall a b, table_eqb a b = true <-> a = b.
Proof. intros [] []; cbn; try (split; discriminate); rewrite Nat.eqb_eq; split; congruence. Qed.
Lemma lock_eqb_eq : forall a b, lock_eqb a b = true <-> a = b.
Proof.
  intros [a n] [b m]. unfold lock_eqb. cbn [fst snd]. rewrite andb_true_iff, table_eqb_eq, Nat.eqb_eq. split; [intros []; congruence|intros E; injection E; auto].
Qed.

Section Guards.
Variable H : hashing.
(** Operations allowed while a guard is held. *)
Definition light (o : op) : Prop :=
  match needs H o with None => True | Some ((TFile _, _), _) | Some ((TDbg _, _), _) => True | _ => False end.
Definition pkg_lock (l : lock) : Prop := exists c n, l = (TPkg c, n).
(** From [h] to [e]: the guards before and after; none at a panic. *)
Fixpoint gd {A} (h e : list lock) (p : prog A) : Prop :=
  match p with
  | Ret _ => h = e
  | Panic _ | OutOfFuel => h = []
  | Do o k => (h <> [] -> light o) /\ forall x, gd (held_after H o x h) e (k x)
  end.
Lemma gd_bind {A B} : forall (p : prog A) (f : A -> prog B) h m e, gd h m p -> (forall a, gd m e (f a)) -> gd h e (bind p f).
Proof.
  intros p f. induction p as [a|m0| |o k IH]; intros h m e Hp Hf; cbn [bind gd] in *; try assumption.
  - subst m. apply Hf.
  - destruct Hp as [Hl Hk]. split; [exact Hl|]. intros x. eapply IH; [apply Hk|exact Hf].
Qed.
Notation N p := (gd [] [] p).
Lemma gd_act : forall o h, (h <> [] -> light o) -> (forall x, held_after H o x h = h) -> gd h h (act o).
Proof. intros o h Hl Hh. cbn [act gd]. split; [exact Hl|exact Hh]. Qed.
Lemma gd_try {A B} : forall (p : prog (result A)) (f : A -> prog (result B)), N p -> (forall a, N (f a)) -> N (try_ p f).
Proof. intros p f Hp Hf. eapply gd_bind; [exact Hp|]. intros [a|e]; [apply Hf|reflexivity]. Qed.
Lemma gd_op {B} : forall o (k : ans o -> prog B), (forall x, held_after H o x [] = []) -> (forall x, N (k x)) -> N (bind (act o) k).
Proof. intros o k Hh Hk. cbn [act bind gd]. split; [congruence|]. intros x. rewrite Hh. apply Hk. Qed.
Ltac op := apply gd_op; [reflexivity|].

Variable R : resolver.
Lemma gd_modified : forall p h, gd h h (get_last_modified p).
Proof. intros p h. cbn. split; [intros; exact I|]. intros []; reflexivity. Qed.
Lemma gd_update : forall p h, gd h h (need_update R p).
Proof.
  intros p h. unfold need_update. cbn [act bind gd]. split; [intros; exact I|]. intros [|]; cbn [negb held_after]; [|reflexivity].
  cbn [act bind gd]. split; [intros; exact I|]. intros [[s t]|]; cbn [held_after]; [|reflexivity].
  eapply gd_bind; [apply gd_modified|]. intros [n|e]; [|reflexivity]. destruct (N.ltb n t); reflexivity.
Qed.
Lemma gd_check : forall d p, gd [path_lock H (TPkg (rv_cache R)) d] [] (check_entry R d p).
Proof.
  intros d p. unfold check_entry. eapply gd_bind; [apply gd_update|]. intros u. eapply gd_bind.
  - assert (E : gd [path_lock H (TPkg (rv_cache R)) d] [path_lock H (TPkg (rv_cache R)) d]
      (match u with Ok true => if rv_debug R then act (ODbgDel (rv_id R) p) else Ret tt | _ => Ret tt end)).
    { destruct u as [[|]|]; try reflexivity. destruct (rv_debug R); [|reflexivity]. apply gd_act; [intros; exact I|reflexivity]. }
    exact E.
  - intros _. cbn [act bind gd]. split; [intros; exact I|]. intros x. cbn [held_after drop_one].
    replace (lock_eqb _ _) with true; [reflexivity|]. symmetry. apply lock_eqb_eq. reflexivity.
Qed.
Lemma gd_exports : forall j, N (load_exports R j).
Proof.
  intros j. unfold load_exports. destruct (jget j (lit "exports")) as [v|]; [|reflexivity]. op. intros [t|]; [reflexivity|].
  destruct (build_exports v) as [[t|e]|m|]; try reflexivity. cbn [lift try_ bind]. op. reflexivity.
Qed.
Lemma gd_imports : forall j, N (load_imports R j).
Proof.
  intros j. unfold load_imports. destruct (jget j (lit "imports")) as [v|]; [|reflexivity]. op. intros [t|]; [reflexivity|].
  destruct (build_imports v) as [[t|e]|m|]; try reflexivity. cbn [lift try_ bind]. op. reflexivity.
Qed.
Lemma gd_store : forall p fp, N (parse_and_store R p fp).
Proof.
  intros p fp. unfold parse_and_store, parse_description_file. apply gd_try.
  2:{ intros pk. op. reflexivity. }
  eapply gd_bind with (m := []).
  { unfold dbg_check. destruct (rv_debug R); [|reflexivity]. op. intros [|]; [reflexivity|]. apply gd_act; [congruence|reflexivity]. }
  intros _. eapply gd_bind with (m := []).
  { unfold read_to_string. op. intros [s|]; [|reflexivity]. apply gd_try; [apply gd_modified|]. intros t. op. reflexivity. }
  intros [s|e]; [|reflexivity]. destruct (rv_json R s) as [j|]; [|reflexivity].
  eapply gd_bind with (m := []); [destruct (alias_fields_of j); reflexivity|]. intros af. op. intros seed.
  apply gd_try; [apply gd_exports|]. intros ex. apply gd_try; [apply gd_imports|]. intros im. cbv zeta. destruct (side_effects_of fp j); reflexivity.
Qed.
Lemma gd_find : forall f p n, N (find_up f p n).
Proof. induction f as [|f IH]; intros p n; cbn [find_up]; [reflexivity|]. op. intros [|]; [reflexivity|]. destruct (parent p); [apply IH|reflexivity]. Qed.
Lemma gd_none : forall f p, N (none_loop R f p).
Proof. induction f as [|f IH]; intros p; cbn [none_loop]; [reflexivity|]. op. intros [|]; [|apply IH]. op. intros _. destruct (parent p); [apply IH|reflexivity]. Qed.
Lemma gd_load : forall f p, N (load_pkg_file R f p).
Proof.
  induction f as [|f IH]; intros p; cbn [load_pkg_file]; [reflexivity|]. destruct (o_desc (rv_opts R)) as [name|]; [|reflexivity].
  op. intros [|]; cbn [negb]; [|destruct (parent p); [apply IH|reflexivity]]. cbn [act bind gd]. split; [congruence|]. intros [v|]; cbn [held_after].
  - eapply gd_bind; [apply gd_check|]. intros [[|]|e]; try reflexivity. cbn [negb]. apply gd_store.
  - op. intros [|]; [apply gd_store|]. eapply gd_bind; [apply gd_find|]. intros [d|]; [apply IH|apply gd_none].
Qed.
End Guards.
Lemma gd_call : forall H c, gd H [] [] (call_prog c).
Proof.
  intros H [R f base req|R f p]; cbn [call_prog].
  - eapply gd_bind; [|intros; reflexivity]. apply (closed_resolve_with (fun A => @gd H A [] [])); try reflexivity.
    + intros A B p g Hp Hg. eapply gd_bind; eassumption.
    + intros o Ho. apply gd_act; [congruence|]. destruct o; try contradiction; reflexivity.
    + intros p. apply gd_load.
  - eapply gd_bind; [|intros; reflexivity]. apply gd_try; [apply gd_load|]. intros [pk|]; [|reflexivity]. destruct (o_desc _); reflexivity.
Qed.

(** ** Configurations *)
Section Runs.
Variable H : hashing.
Context {A : Type}.
Definition good (t : thread A) : Prop := Forall pkg_lock (t_held t) /\ gd H (t_held t) [] (t_prog t).
Lemma held_after_pkg : forall o x h, Forall pkg_lock h -> Forall pkg_lock (held_after H o x h).
Proof.
  intros o x h Hh. destruct o; try exact Hh; cbn [held_after].
  - destruct x; [|exact Hh]. constructor; [|exact Hh]. eexists _, _. reflexivity.
  - induction Hh as [|l h Hl Hh IH]; cbn [drop_one]; [constructor|]. destruct (lock_eqb _ _); [exact Hh|]. constructor; assumption.
Qed.
Lemma set_nth_all : forall (P : thread A -> Prop) i x l, P x -> Forall P l -> Forall P (set_nth i x l).
Proof. intros P i x l Hx Hl. revert i. induction Hl as [|y l Hy Hl IH]; intros [|i]; cbn [set_nth]; constructor; auto. Qed.
Lemma locked_good : forall fs i ts st, Forall good ts -> Forall good (fst (locked_step H fs i ts st)).
Proof.
  intros fs i ts st Hg. unfold locked_step. destruct (nth_error ts i) as [t|] eqn:Et; [|exact Hg].
  destruct (t_prog t) as [a|m| |o k] eqn:Ep; try exact Hg. destruct (granted _ _ o); [|exact Hg].
  destruct (step fs st o) as [x st']. cbn [fst]. apply set_nth_all; [|exact Hg].
  rewrite Forall_forall in Hg. destruct (Hg t (nth_error_In _ _ Et)) as [H1 H2]. rewrite Ep in H2. destruct H2 as [_ H2]. split; [apply held_after_pkg, H1|apply H2].
Qed.
Lemma run_good : forall sched ts st, Forall good ts -> Forall good (fst (locked_run H sched ts st)).
Proof.
  induction sched as [|[fs i] r IH]; intros ts st Hg; cbn [locked_run]; [exact Hg|].
  pose proof (locked_good fs i ts st Hg) as Hg'. destruct (locked_step H fs i ts st) as [ts' st']. apply IH, Hg'.
Qed.
Lemma holder_goes : forall ts t, Forall good ts -> In t ts -> t_held t <> [] -> can_go H ts t.
Proof.
  intros ts t Hg Hin Hh. rewrite Forall_forall in Hg. destruct (Hg t Hin) as [_ H2]. destruct (t_prog t) as [a|m| |o k] eqn:Ep; cbn [gd] in H2; try contradiction.
  exists o, k. split; [exact Ep|]. intros l m Hn t' Hin' Hl. destruct (Hg t' Hin') as [H3 _]. rewrite Forall_forall in H3. destruct (H3 l Hl) as (c & n & ->).
  destruct H2 as [H2 _]. specialize (H2 Hh). unfold light in H2. rewrite Hn in H2. exact H2.
Qed.
Lemma someone_goes : forall ts, Forall good ts -> Forall finished ts \/ exists t, In t ts /\ can_go H ts t.
Proof.
  intros ts Hg.
  assert (D : (forall t, In t ts -> t_held t = []) \/ exists t, In t ts /\ t_held t <> []).
  { clear Hg. induction ts as [|t ts IH]; [left; intros t []|]. destruct (t_held t) eqn:E; [|right; exists t; split; [left; reflexivity|congruence]].
    destruct IH as [IH|(t' & H1 & H2)]; [left; intros t' [<-|Hin]; auto|right; exists t'; split; [right; exact H1|exact H2]]. }
  destruct D as [D|(t & Hin & Hh)]; [|right; exists t; split; [exact Hin|apply holder_goes; assumption]].
  assert (F : Forall finished ts \/ exists t o k, In t ts /\ t_prog t = Do o k).
  { clear Hg D. induction ts as [|t ts IH]; [left; constructor|]. destruct (t_prog t) as [a|m| |o k] eqn:E.
    4:{ right. exists t, o, k. split; [left; reflexivity|exact E]. }
    all: destruct IH as [IH|(t' & o & k & H1 & H2)]; [left; constructor; [intros o k; congruence|exact IH]|right; exists t', o, k; split; [right; exact H1|exact H2]]. }
  destruct F as [F|(t & o & k & Hin & Ep)]; [left; exact F|]. right. exists t. split; [exact Hin|]. exists o, k. split; [exact Ep|].
  intros l m _ t' Hin' Hl. rewrite (D t' Hin') in Hl. exact Hl.
Qed.

(** Every step leads to a smaller configuration. *)
Definition child (t t' : thread A) : Prop := match t_prog t' with Do o k => exists x, t_prog t = k x | _ => False end.
Lemma child_acc : forall t, Acc child t.
Proof.
  intros [h p]. revert h. induction p as [a|m| |o k IH]; intros h; constructor; intros [h' p'] Ht; cbn in Ht; try contradiction.
  destruct Ht as [x ->]. apply IH.
Qed.
Definition children (ts ts' : list (thread A)) : Prop :=
  exists i t t', nth_error ts' i = Some t' /\ child t t' /\ ts = set_nth i t ts'.
Lemma children_cons : forall t, Acc child t -> forall ts, Acc children ts -> Acc children (t :: ts).
Proof.
  intros t Ht. induction Ht as [t _ IHt]. intros ts Hts. pose proof Hts as Hts'. induction Hts as [ts Hacc IHts]. constructor. intros l (i & u & u' & Hn & Hc & ->).
  destruct i as [|i]; cbn [nth_error set_nth] in *.
  - injection Hn as ->. apply IHt; assumption.
  - apply IHts; [exists i, u, u'; auto|]. apply Hacc. exists i, u, u'. auto.
Qed.
Lemma children_acc : forall ts, Acc children ts.
Proof.
  induction ts as [|t ts IH]; [|apply children_cons; [apply child_acc|exact IH]].
  constructor. intros l (i & t & t' & Hn & _). destruct i; discriminate Hn.
Qed.
Lemma go_granted : forall (ts : list (thread A)) o, (forall l m, needs H o = Some (l, m) -> forall t', In t' ts -> ~ In l (t_held t')) ->
  granted H (flat_map t_held ts) o = true.
Proof.
  intros ts o Hno. unfold granted. destruct (needs H o) as [[l []]|]; try reflexivity. apply negb_true_iff. destruct (existsb _ _) eqn:E; [|reflexivity].
  apply existsb_exists in E. destruct E as (l' & Hin & Heq). apply lock_eqb_eq in Heq. subst l'. apply in_flat_map in Hin. destruct Hin as (t & H1 & H2).
  contradiction (Hno l Writing eq_refl t H1 H2).
Qed.
Lemma run_app : forall s1 s2 (ts : list (thread A)) st,
  locked_run H (s1 ++ s2) ts st = locked_run H s2 (fst (locked_run H s1 ts st)) (snd (locked_run H s1 ts st)).
Proof.
  induction s1 as [|[fs i] s1 IH]; intros s2 ts st; cbn [app locked_run]; [reflexivity|]. destruct (locked_step H fs i ts st) as [ts' st']. apply IH.
Qed.
Lemma completes : forall fs (ts : list (thread A)), Forall good ts -> forall st, exists sched, Forall finished (fst (locked_run H (map (fun i => (fs, i)) sched) ts st)).
Proof.
  intros fs ts. induction (children_acc ts) as [ts _ IH]. intros Hg st. destruct (someone_goes ts Hg) as [Hf|(t & Hin & o & k & Ep & Hno)].
  - exists []. exact Hf.
  - apply In_nth_error in Hin. destruct Hin as [i Hi]. pose proof (locked_good fs i ts st Hg) as Hg'. unfold locked_step in Hg'. rewrite Hi, Ep, (go_granted ts o Hno) in Hg'.
    destruct (step fs st o) as [x st'] eqn:Es. cbn [fst] in Hg'. set (ts' := set_nth i _ ts) in *.
    assert (Hch : children ts' ts) by (exists i, (mkThread (held_after H o x (t_held t)) (k x)), t; split; [exact Hi|split; [unfold child; rewrite Ep; exists x; reflexivity|reflexivity]]).
    destruct (IH ts' Hch Hg' st') as [sched Hs]. exists (i :: sched). cbn [map locked_run]. unfold locked_step. rewrite Hi, Ep, (go_granted ts o Hno), Es. exact Hs.
Qed.

(** Without the locks. *)
Lemma step_nth_set : forall fs i (ts : list (thread A)) t o k st, nth_error ts i = Some t -> t_prog t = Do o k ->
  step_nth fs st i (map t_prog ts) = (map t_prog (set_nth i (mkThread (held_after H o (fst (step fs st o)) (t_held t)) (k (fst (step fs st o)))) ts), snd (step fs st o)).
Proof.
  intros fs i ts. revert i. induction ts as [|u ts IH]; intros [|i] t o k st Hn Ep; try discriminate; cbn [nth_error map step_nth set_nth] in *.
  - injection Hn as ->. rewrite Ep. cbn [thread_step]. destruct (step fs st o) as [x st']. reflexivity.
  - rewrite (IH i t o k st Hn Ep). reflexivity.
Qed.
Lemma refines : forall fs sched (ts : list (thread A)) st, Forall (fun x => fst x = fs) sched ->
  exists sched', run_sched fs sched' st (map t_prog ts) = (map t_prog (fst (locked_run H sched ts st)), snd (locked_run H sched ts st)).
Proof.
  intros fs sched. induction sched as [|[fs0 i] r IH]; intros ts st Hs; [exists []; reflexivity|]. inversion Hs as [|? ? E Hr]; subst. cbn [fst locked_run] in *.
  unfold locked_step. destruct (nth_error ts i) as [t|] eqn:Hn; [|apply IH, Hr]. destruct (t_prog t) as [a|m| |o k] eqn:Ep; try (apply IH, Hr).
  destruct (granted H _ o); [|apply IH, Hr]. pose proof (step_nth_set fs0 i ts t o k st Hn Ep) as E. destruct (step fs0 st o) as [x st']. cbn [fst snd] in E.
  destruct (IH (set_nth i (mkThread (held_after H o x (t_held t)) (k x)) ts) st' Hr) as [sched' Hs']. exists (i :: sched'). cbn [run_sched]. rewrite E. exact Hs'.
Qed.
End Runs.

Lemma start_good : forall H l, Forall (good H) (map (fun c => start (call_prog c)) l).
Proof. intros H l. apply Forall_forall. intros t Ht. apply in_map_iff in Ht. destruct Ht as (c & <- & _). split; [constructor|apply gd_call]. Qed.
Lemma fin_55_holder : forall H l sched st t, let ts := fst (locked_run H sched (map (fun c => start (call_prog c)) l) st) in
  In t ts -> t_held t <> [] -> can_go H ts t.
Proof. intros H l sched st t ts. apply holder_goes, run_good, start_good. Qed.
Lemma fin_55_alive : forall H l sched st, let ts := fst (locked_run H sched (map (fun c => start (call_prog c)) l) st) in
  Forall finished ts \/ exists t, In t ts /\ can_go H ts t.
Proof. intros H l sched st ts. apply someone_goes, run_good, start_good. Qed.
Lemma fin_55_ends : forall H l sched st fs, exists sched',
  Forall finished (fst (locked_run H (sched ++ map (fun i => (fs, i)) sched') (map (fun c => start (call_prog c)) l) st)).
Proof.
  intros H l sched st fs. destruct (completes H fs _ (run_good H sched _ st (start_good H l)) (snd (locked_run H sched (map (fun c => start (call_prog c)) l) st))) as [sched' Hs].
  exists sched'. rewrite run_app. exact Hs.
Qed.
Lemma fin_55_refines : forall H l fs sched st, exists sched', run_sched fs sched' st (map call_prog l) =
  (map t_prog (fst (locked_run H (map (fun i => (fs, i)) sched) (map (fun c => start (call_prog c)) l) st)),
   snd (locked_run H (map (fun i => (fs, i)) sched) (map (fun c => start (call_prog c)) l) st)).
Proof.
  intros H l fs sched st. destruct (refines H fs (map (fun i => (fs, i)) sched) (map (fun c => start (call_prog c)) l) st) as [s Hs].
  - apply Forall_forall. intros x Hx. apply in_map_iff in Hx. destruct Hx as (i & <- & _). reflexivity.
  - exists s. rewrite map_map in Hs. exact Hs.
Qed.

(** ** Two calls that re-read one description *)

Definition w55 : fsys := W (D [("r", D [("package.json", PJ "P")])])%string.
Definition R55 : resolver := default_resolver 0 0 false (js_of [("P", O [("sideEffects", JBool false)])])%string (jsc_of []).
Definition c55 : call := CSide R55 10 (lit "/r").
Definition H55 : hashing := mkHash (fun _ _ => 0) (fun _ _ => 0).
Definition st55 : state := snd (run w55 (call_prog c55) st0).
Definition s55 : list nat := repeat 1 10 ++ repeat 0 2.
Definition at55 (s : list nat) := fst (locked_run H55 (map (fun i => (w55, i)) s) (map (fun c => start (call_prog c)) [c55; c55]) st55).
Definition next {A} (t : thread A) : option op := match t_prog t with Do o _ => Some o | _ => None end.
Lemma next_do {A} : forall (t : thread A) o, next t = Some o -> exists k, t_prog t = Do o k.
Proof. intros t o. unfold next. destruct (t_prog t); intros E; try discriminate E. injection E as <-. eexists. reflexivity. Qed.
Lemma pair_of {A B} : forall (f : A -> B) l x y, map f l = [x; y] -> exists a b, l = [a; b] /\ f a = x /\ f b = y.
Proof. intros f [|a [|b [|c l]]] x y E; try discriminate E. injection E as <- <-. exists a, b. auto. Qed.
Definition view {A} (t : thread A) : list lock * option (option (lock * mode)) := (t_held t, option_map (needs H55) (next t)).
Lemma ex55 : (exists t0 t1, at55 s55 = [t0; t1] /\ t_held t0 = [(TPkg 0, 0)] /\ waits H55 [t0; t1] t1 /\ can_go H55 [t0; t1] t0) /\
  exists t0 t1, at55 (s55 ++ repeat 0 20 ++ repeat 1 20) = [t0; t1] /\ t_prog t0 = Ret (ASide (Ok (Some (lit "/r/package.json", Some (SEBool false))))) /\ t_prog t1 = t_prog t0.
Proof.
  split.
  - assert (E : map view (at55 s55) = [([(TPkg 0, 0)], Some None); ([], Some (Some ((TPkg 0, 0), Writing)))]) by (vm_compute; reflexivity).
    destruct (pair_of _ _ _ _ E) as (t0 & t1 & -> & E0 & E1). exists t0, t1. unfold view in E0, E1. injection E0 as H0 N0. injection E1 as H1 N1.
    destruct (next t0) as [o0|] eqn:D0; [|discriminate N0]. destruct (next t1) as [o1|] eqn:D1; [|discriminate N1].
    destruct (next_do _ _ D0) as [k0 P0], (next_do _ _ D1) as [k1 P1]. cbn [option_map] in N0, N1. injection N0 as N0. injection N1 as N1.
    split; [reflexivity|]. split; [exact H0|]. split.
    + exists o1, k1, (TPkg 0, 0), t0. split; [exact P1|]. split; [exact N1|]. split; [left; reflexivity|]. rewrite H0. left. reflexivity.
    + exists o0, k0. split; [exact P0|]. intros l m E'. rewrite N0 in E'. discriminate E'.
  - assert (E : map t_prog (at55 (s55 ++ repeat 0 20 ++ repeat 1 20)) = repeat (Ret (ASide (Ok (Some (lit "/r/package.json", Some (SEBool false)))))) 2)
      by (vm_compute; reflexivity).
    destruct (pair_of _ _ _ _ E) as (t0 & t1 & -> & E0 & E1). exists t0, t1. split; [reflexivity|]. split; [exact E0|rewrite E0, E1; reflexivity].
Qed.
