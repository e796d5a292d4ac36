(** * Resolutions come to an end, with the same bound under all admissible answers. *)
From Coq Require Import String.
From Coq Require Import List Arith NArith Bool Lia Permutation.
From Verif Require Import Str StrP Path PathP Json Types Parse Map Prog Desc Resolve Top Run Exec SpecMap TrieP SpecLoad PosixP SpellP SimP LoadP GuarP SpecCache CacheP ColdP NoFuelP TotalP SpecTerm AnswerP.
Import ListNotations.

Section Ends.
Variable M : modality.
Notation go := (md_go M _).
Hypothesis Hand : forall A (p : prog A) (Q Q' : outcome A -> Prop), go Q p -> go Q' p -> go (fun r => Q r /\ Q' r) p.
(** The programs [P m n x] for all [x] in [D] come to an end when [m] (the loader's bound) and [n]
    are large enough, and there are finitely many results up to [V], represented in [Q]. *)
Definition within {A} (V : A -> A -> Prop) (L : list A) (r : outcome A) : Prop :=
  match r with Done a => exists a0, In a0 L /\ V a0 a | Panicked _ => True | NoFuel => False end.
Definition ends {X A} (D : X -> Prop) (V : A -> A -> Prop) (Q : A -> Prop) (P : nat -> nat -> X -> prog A) : Prop :=
  exists N L, Forall Q L /\ forall m n x, N <= m -> N <= n -> D x -> go (within V L) (P m n x).

Lemma within_mono {A} : forall (V : A -> A -> Prop) (L L' : list A) r, incl L L' -> within V L r -> within V L' r.
Proof. intros V L L' [a|m|] H; cbn; auto. intros (a0 & Hi & Hv). eauto. Qed.
Lemma ends_ret {X A} : forall (D : X -> Prop) (V : A -> A -> Prop) (Q : A -> Prop) a0 (f : X -> A), Q a0 -> (forall x, D x -> V a0 (f x)) -> ends D V Q (fun _ _ x => Ret (f x)).
Proof. intros D V Q a0 f HQ HV. exists 0, [a0]. split; [auto|]. intros m n x _ _ Hx. apply md_done. exists a0. split; [left; reflexivity|auto]. Qed.
Lemma ends_panic {X A} : forall (D : X -> Prop) (V : A -> A -> Prop) (Q : A -> Prop) (f : X -> str), ends D V Q (fun _ _ x => Panic (f x)).
Proof. intros. exists 0, []. split; [auto|]. intros. apply md_panicked. exact I. Qed.
Lemma ends_ext {X A} : forall (D : X -> Prop) (V : A -> A -> Prop) (Q : A -> Prop) P P', (exists N, forall m n x, N <= m -> N <= n -> D x -> P m n x = P' m n x) ->
  ends D V Q P' -> ends D V Q P.
Proof.
  intros D V Q P P' [N0 HE] (N & L & HL & H). exists (Nat.max N0 N), L. split; [exact HL|]. intros m n x Hm Hn Hx.
  rewrite HE by (lia || exact Hx). apply H; (lia || exact Hx).
Qed.
Lemma ends_ext0 {X A} : forall (D : X -> Prop) (V : A -> A -> Prop) (Q : A -> Prop) P P', (forall m n x, D x -> P m n x = P' m n x) -> ends D V Q P' -> ends D V Q P.
Proof. intros. eapply ends_ext; [|eassumption]. exists 0. auto. Qed.
Lemma ends_succ {X A} : forall (D : X -> Prop) (V : A -> A -> Prop) (Q : A -> Prop) P, ends D V Q P -> ends D V Q (fun m n x => P m (pred n) x).
Proof. intros D V Q P (N & L & HL & H). exists (S N), L. split; [exact HL|]. intros. apply H; try lia. assumption. Qed.
Lemma ends_map {X Y A} : forall (D : X -> Prop) (D' : Y -> Prop) (V : A -> A -> Prop) (Q : A -> Prop) P (g : X -> Y), (forall x, D x -> D' (g x)) ->
  ends D' V Q P -> ends D V Q (fun m n x => P m n (g x)).
Proof. intros D D' V Q P g Hg (N & L & HL & H). exists N, L. split; [exact HL|]. intros. apply H; auto. Qed.
(** Other representatives. *)
Lemma ends_weaken {X A} : forall (D : X -> Prop) (V V' : A -> A -> Prop) (Q Q' : A -> Prop) P,
  (forall a, Q a -> exists a', Q' a' /\ forall b, V a b -> V' a' b) -> ends D V Q P -> ends D V' Q' P.
Proof.
  intros D V V' Q Q' P HQ (N & L & HL & H). exists N.
  assert (HL' : exists L', Forall Q' L' /\ forall a, In a L -> exists a', In a' L' /\ forall b, V a b -> V' a' b).
  { clear H. induction HL as [|a L Ha HL (L' & H1 & H2)]; [exists []; split; [constructor|intros a []]|].
    destruct (HQ a Ha) as (a' & Hq & Hv). exists (a' :: L'). split; [constructor; assumption|].
    intros b [<-|Hb]; [exists a'; split; [left; reflexivity|exact Hv]|]. destruct (H2 b Hb) as (b' & H3 & H4). exists b'. split; [right; exact H3|exact H4]. }
  destruct HL' as (L' & H1 & H2). exists L'. split; [exact H1|]. intros m n x Hm Hn Hx. eapply md_mono; [|apply (H m n x Hm Hn Hx)].
  intros [a|e|]; cbn; auto. intros (a0 & Hi & Hv). destruct (H2 a0 Hi) as (a' & H3 & H4). eauto.
Qed.
Lemma ends_post {X A} : forall (D : X -> Prop) (V : A -> A -> Prop) (Q Q' : A -> Prop) P, (forall a, Q a -> Q' a) -> ends D V Q P -> ends D V Q' P.
Proof. intros D V Q Q' P H. apply ends_weaken. intros a Ha. exists a. auto. Qed.
Lemma ends_bind {X A B} : forall (D : X -> Prop) (V : A -> A -> Prop) (W : B -> B -> Prop) (Q : A -> Prop) (Q' : B -> Prop) P F,
  ends D V Q P -> (forall a0, Q a0 -> ends (fun xa => D (fst xa) /\ V a0 (snd xa)) W Q' (fun m n xa => F m n (fst xa) (snd xa))) ->
  ends D W Q' (fun m n x => bind (P m n x) (F m n x)).
Proof.
  intros D V W Q Q' P F (N & L & HL & H) HF.
  assert (HA : exists N' L', Forall Q' L' /\ forall m n x a, N' <= m -> N' <= n -> D x -> (exists a0, In a0 L /\ V a0 a) -> go (within W L') (F m n x a)).
  { clear H. induction HL as [|a0 L Ha HL (N1 & L1 & H1 & H2)].
    - exists 0, []. split; [constructor|]. intros m n x a _ _ _ (a0 & [] & _).
    - destruct (HF a0 Ha) as (N2 & L2 & H3 & H4). exists (Nat.max N1 N2), (L1 ++ L2). split; [apply Forall_app; auto|].
      intros m n x a Hm Hn Hx (b & [<-|Hb] & Hv).
      + eapply md_mono; [|apply (H4 m n (x, a)); [lia|lia|split; assumption]]. intros r. apply within_mono. apply incl_appr, incl_refl.
      + eapply md_mono; [|apply (H2 m n x a); [lia|lia|exact Hx|eauto]]. intros r. apply within_mono. apply incl_appl, incl_refl. }
  destruct HA as (N' & L' & H1 & H2). exists (Nat.max N N'), L'. split; [exact H1|]. intros m n x Hm Hn Hx.
  apply md_bind. eapply md_mono; [|apply (H m n x); [lia|lia|exact Hx]]. intros [a|e|]; cbn [within]; auto. intros Ha. apply H2; (lia || assumption).
Qed.
(** The same, where more is known about the results. *)
Lemma ends_bind_with {X A B} : forall (G : X -> A -> Prop) (D : X -> Prop) (V : A -> A -> Prop) (W : B -> B -> Prop) (Q : A -> Prop) (Q' : B -> Prop) P F,
  ends D V Q P -> (forall m n x, D x -> go (fun r => match r with Done a => G x a | _ => True end) (P m n x)) ->
  (forall a0, Q a0 -> ends (fun xa => D (fst xa) /\ V a0 (snd xa) /\ G (fst xa) (snd xa)) W Q' (fun m n xa => F m n (fst xa) (snd xa))) ->
  ends D W Q' (fun m n x => bind (P m n x) (F m n x)).
Proof.
  intros G D V W Q Q' P F (N & L & HL & H) HG HF.
  assert (HA : exists N' L', Forall Q' L' /\ forall m n x a, N' <= m -> N' <= n -> D x -> G x a -> (exists a0, In a0 L /\ V a0 a) -> go (within W L') (F m n x a)).
  { clear H. induction HL as [|a0 L Ha HL (N1 & L1 & H1 & H2)].
    - exists 0, []. split; [constructor|]. intros m n x a _ _ _ _ (a0 & [] & _).
    - destruct (HF a0 Ha) as (N2 & L2 & H3 & H4). exists (Nat.max N1 N2), (L1 ++ L2). split; [apply Forall_app; auto|].
      intros m n x a Hm Hn Hx Hg (b & [<-|Hb] & Hv).
      + eapply md_mono; [|apply (H4 m n (x, a)); [lia|lia|repeat split; assumption]]. intros r. apply within_mono. apply incl_appr, incl_refl.
      + eapply md_mono; [|apply (H2 m n x a); [lia|lia|exact Hx|exact Hg|eauto]]. intros r. apply within_mono. apply incl_appl, incl_refl. }
  destruct HA as (N' & L' & H1 & H2). exists (Nat.max N N'), L'. split; [exact H1|]. intros m n x Hm Hn Hx.
  apply md_bind. eapply md_mono; [|apply Hand; [apply (H m n x); [lia|lia|exact Hx]|apply (HG m n x Hx)]].
  intros [a|e|]; cbn [within]; try (intros [H3 H4]; exact H3). intros [Ha Hg]. apply H2; (lia || assumption).
Qed.
Lemma ends_void {X A} : forall (D : X -> Prop) (V : A -> A -> Prop) (Q : A -> Prop) P, (forall x, ~ D x) -> ends D V Q P.
Proof. intros D V Q P H. exists 0, []. split; [constructor|]. intros m n x _ _ Hx. contradiction (H x Hx). Qed.
Lemma ends_lift {X A} : forall (D : X -> Prop) (c : pcomp A) (f : X -> pcomp A), c <> PFuel -> (forall x, D x -> f x = c) ->
  ends D eq (fun a => c = PRet a) (fun _ _ x => lift (f x)).
Proof.
  intros D c f Hc Hf. destruct c as [a|e|]; [| |contradiction].
  - exists 0, [a]. split; [auto|]. intros m n x _ _ Hx. rewrite (Hf x Hx). apply md_done. exists a. split; [left|]; reflexivity.
  - exists 0, []. split; [auto|]. intros m n x _ _ Hx. rewrite (Hf x Hx). apply md_panicked. exact I.
Qed.
(** A test of the file system: either answer. *)
Lemma ends_isfile {X A} : forall (D : X -> Prop) (V : A -> A -> Prop) (Q : A -> Prop) (f : X -> path) (F : nat -> nat -> X -> bool -> prog A),
  ends D V Q (fun m n x => F m n x true) -> ends D V Q (fun m n x => F m n x false) -> ends D V Q (fun m n x => Do (OIsFile (f x)) (F m n x)).
Proof.
  intros D V Q f F (N & L & HL & H) (N' & L' & HL' & H'). exists (Nat.max N N'), (L ++ L'). split; [apply Forall_app; auto|].
  intros m n x Hm Hn Hx. apply md_act; [exact I|]. intros [|] _.
  - eapply md_mono; [|apply H; (lia || exact Hx)]. intros r. apply within_mono, incl_appl, incl_refl.
  - eapply md_mono; [|apply H'; (lia || exact Hx)]. intros r. apply within_mono, incl_appr, incl_refl.
Qed.
Lemma ends_exists {X A} : forall (D : X -> Prop) (V : A -> A -> Prop) (Q : A -> Prop) (f : X -> path) (F : nat -> nat -> X -> bool -> prog A),
  ends D V Q (fun m n x => F m n x true) -> ends D V Q (fun m n x => F m n x false) -> ends D V Q (fun m n x => Do (OExists (f x)) (F m n x)).
Proof.
  intros D V Q f F (N & L & HL & H) (N' & L' & HL' & H'). exists (Nat.max N N'), (L ++ L'). split; [apply Forall_app; auto|].
  intros m n x Hm Hn Hx. apply md_act; [exact I|]. intros [|] _.
  - eapply md_mono; [|apply H; (lia || exact Hx)]. intros r. apply within_mono, incl_appl, incl_refl.
  - eapply md_mono; [|apply H'; (lia || exact Hx)]. intros r. apply within_mono, incl_appr, incl_refl.
Qed.
(** A computation that does not depend on [x]. *)
Lemma ends_const {X A B} : forall (D : X -> Prop) (V : B -> B -> Prop) (Q : B -> Prop) (c : pcomp A) (F : nat -> nat -> X -> A -> prog B), c <> PFuel ->
  (forall a, c = PRet a -> ends D V Q (fun m n x => F m n x a)) -> ends D V Q (fun m n x => bind (lift c) (F m n x)).
Proof.
  intros D V Q c F Hc H. destruct c as [a|e|]; [apply (H a eq_refl)| |contradiction]. apply (ends_panic D V Q (fun _ => e)).
Qed.
Lemma ends_if {X A} : forall (D : X -> Prop) (V : A -> A -> Prop) (Q : A -> Prop) (b : X -> bool) b0 P P', (forall x, D x -> b x = b0) ->
  (b0 = true -> ends D V Q P) -> (b0 = false -> ends D V Q P') -> ends D V Q (fun m n x => if b x then P m n x else P' m n x).
Proof.
  intros D V Q b b0 P P' Hb H1 H2. destruct b0.
  - eapply ends_ext0; [|apply H1; reflexivity]. intros m n x Hx. cbn beta. rewrite (Hb x Hx). reflexivity.
  - eapply ends_ext0; [|apply H2; reflexivity]. intros m n x Hx. cbn beta. rewrite (Hb x Hx). reflexivity.
Qed.
(** Either branch. *)
Lemma ends_either {X A} : forall (D : X -> Prop) (V : A -> A -> Prop) (Q : A -> Prop) (b : X -> bool) P P',
  ends D V Q P -> ends D V Q P' -> ends D V Q (fun m n x => if b x then P m n x else P' m n x).
Proof.
  intros D V Q b P P' (N & L & HL & H) (N' & L' & HL' & H'). exists (Nat.max N N'), (L ++ L'). split; [apply Forall_app; auto|].
  intros m n x Hm Hn Hx. destruct (b x).
  - eapply md_mono; [|apply H; (lia || exact Hx)]. intros r. apply within_mono, incl_appl, incl_refl.
  - eapply md_mono; [|apply H'; (lia || exact Hx)]. intros r. apply within_mono, incl_appr, incl_refl.
Qed.
End Ends.

Lemma join_abs : forall p t, is_abs p = true -> is_abs (join p t) = true.
Proof.
  intros p t H. unfold join. destruct (is_abs t) eqn:E; [exact E|]. destruct p as [|c p]; [discriminate|].
  unfold is_abs in *. destruct (ends_with_char (c :: p) c_slash); exact H.
Qed.
Lemma get_path_abs : forall i, is_abs (i_path i) = true -> is_abs (get_path i) = true.
Proof. intros i H. unfold get_path. destruct (_ || _); [exact H|apply join_abs, H]. Qed.
Lemma same_abs : forall p q, same_path p q -> is_abs p = true -> is_abs q = true.
Proof. intros p q H Ha. apply abs_comps. apply abs_comps in Ha. destruct Ha as [r Hr]. exists r. rewrite <- H. exact Hr. Qed.
Lemma iweak_refl : forall i, iweak i i. Proof. intros. split; reflexivity. Qed.
Lemma iweak_trans : forall a b c, iweak a b -> iweak b c -> iweak a c.
Proof. unfold iweak, same_path. intros a b c [H1 H2] [H3 H4]. split; congruence. Qed.

Definition found_same (r r' : rresult) : Prop :=
  match r, r' with
  | RInfo i, RInfo j => i_req i = i_req j /\ r_target (i_req i) = [] /\ same_tail (i_path i) (i_path j)
  | RIgnored, RIgnored => True
  | _, _ => False
  end.
Definition sr (s s' : stats) : Prop :=
  match s, s' with
  | Success r, Success r' => found_same r r'
  | Resolving i, Resolving j => iweak i j
  | SError _ i, SError _ j => iweak i j
  | _, _ => False
  end.
Definition sabs (s : stats) : Prop := match s with Success _ => True | Resolving i | SError _ i => is_abs (i_path i) = true end.

Section Resolution.
Variable fs : fsys.
Hypothesis Hfs : sane_fs fs.
Variable R : resolver.
Notation opts := (rv_opts R).
Notation conds := (o_conditions (rv_opts R)).
Notation load := (load_pkg_file R).
Variable M : modality.
Notation ok := M.
Notation go := (md_go M _).
Hypothesis Hand : forall A (p : prog A) (Q Q' : outcome A -> Prop), go Q p -> go Q' p -> go (fun r => Q r /\ Q' r) p.
(* the answers about directories are right, and the loader comes to an end and finds what is there *)
Hypothesis Hdirs : forall p x, md_ok M (OIsDir p) x -> x = f_dir fs p.
Hypothesis Hload : forall f p, is_abs p = true -> length (components p) + 2 <= f ->
  go (fun r => orel (leq eq) (oc (lookup_desc fs (rv_json R) (o_desc opts) p)) r /\ ended r) (load f p).
Notation "'Ends'" := (ends M).
Hypothesis Hnc : no_cycles fs R.

Lemma ends_and_then {X} : forall (D : X -> Prop) (Q Q' : stats -> Prop) P F, Ends D sr Q P ->
  (forall r, Q' (Success r)) -> (forall e i, Q (SError e i) -> Q' (SError e i)) ->
  (forall i0, Q (Resolving i0) -> Ends (fun xi => D (fst xi) /\ iweak i0 (snd xi)) sr Q' (fun m n xi => F m n (fst xi) (snd xi))) ->
  Ends D sr Q' (fun m n x => and_then (P m n x) (F m n x)).
Proof.
  intros D Q Q' P F HP Hs He HF. unfold and_then. eapply ends_bind; [exact HP|]. intros [r|i|e i] HQ.
  - eapply ends_ext0 with (P' := fun _ _ xa => Ret (snd xa)); [|apply ends_ret with (a0 := Success r); [apply Hs|intros x [_ H]; exact H]].
    intros m n [x s] [_ H]. cbn [fst snd] in *. destruct s; try contradiction. reflexivity.
  - pose proof (HF i HQ) as H. eapply ends_ext0 with (P' := fun m n xa => F m n (fst xa) (match snd xa with Resolving i => i | _ => i end)).
    + intros m n [x s] [_ Hv]. cbn [fst snd] in *. destruct s; try contradiction. reflexivity.
    + refine (ends_map ok _ _ _ _ (fun m n xi => F m n (fst xi) (snd xi)) (fun xa => (fst xa, match snd xa with Resolving i => i | _ => i end)) _ H).
      intros [x s] [Hx Hv]. cbn [fst snd] in *. destruct s; try contradiction. auto.
  - eapply ends_ext0 with (P' := fun _ _ xa => Ret (snd xa)); [|apply ends_ret with (a0 := SError e i); [apply He, HQ|intros x [_ H]; exact H]].
    intros m n [x s] [_ H]. cbn [fst snd] in *. destruct s; try contradiction. reflexivity.
Qed.

(** ** Files *)
Lemma ends_as_file : forall i0, Ends (iweak i0) sr (fun s => s = Resolving i0 \/ exists r, s = Success r) (fun _ _ i => resolve_as_file R i).
Proof.
  intros i0. destruct (spellings (get_path i0)) as [Ls HLs].
  set (fnd := fun p => Success (RInfo (with_target (with_path i0 p) []))).
  exists 0, (Resolving i0 :: flat_map (fun p => map (fun e => fnd (p ++ e)) ([] :: o_extensions opts)) Ls). split.
  { constructor; [left; reflexivity|]. apply Forall_forall. intros s Hs. apply in_flat_map in Hs. destruct Hs as (p & _ & Hs). apply in_map_iff in Hs. destruct Hs as (e & <- & _).
    right. unfold fnd. eauto. }
  intros m n i _ _ Hi. destruct (HLs (get_path i)) as (r & Hr & Ht).
  { apply get_path_same, Hi. }
  set (Q := within sr (Resolving i0 :: flat_map (fun p => map (fun e => fnd (p ++ e)) ([] :: o_extensions opts)) Ls)).
  assert (Hf : forall e, In e ([] :: o_extensions opts) -> Q (Done (Success (RInfo (with_target (with_path i (get_path i ++ e)) []))))).
  { intros e He. exists (fnd (r ++ e)). split.
    - right. apply in_flat_map. exists r. split; [exact Hr|]. apply (in_map (fun e => fnd (r ++ e))). exact He.
    - cbn. destruct Hi as [Er _]. split; [unfold req_with_target; rewrite Er; reflexivity|]. split; [reflexivity|]. apply same_tail_app, Ht. }
  assert (He : forall exts, incl exts (o_extensions opts) -> go Q (extensions_loop (get_path i) i exts)).
  { induction exts as [|e exts IH]; intros Hin; cbn [extensions_loop].
    - apply md_done. exists (Resolving i0). split; [left; reflexivity|exact Hi].
    - cbn [act bind]. apply md_act; [exact I|]. intros [|] _; [|apply IH; intros x Hx; apply Hin; right; exact Hx]. apply md_done, Hf. right. apply Hin. left. reflexivity. }
  unfold resolve_as_file. destruct (negb (enforce R)); [|apply He, incl_refl]. cbn [act bind]. apply md_act; [exact I|]. intros [|] _; [|apply He, incl_refl].
  pose proof (Hf [] (or_introl eq_refl)) as H0. rewrite app_nil_r in H0. apply md_done, H0.
Qed.

(** ** The browser field *)
Definition doi (o0 : option pkg) (i0 : info) (oi : option pkg * info) : Prop := okeq o0 (fst oi) /\ iweak i0 (snd oi).
Definition aliased (o0 : option pkg) (i0 : info) (s : stats) : Prop :=
  (exists r, s = Success r) \/ s = Resolving i0 \/
  exists pk0 k c, o0 = Some pk0 /\ o_browser opts = true /\ In (k, ATarget c) (p_alias pk0) /\ s = Resolving (with_target (with_path i0 (p_dir pk0)) c).
Lemma chase_end : forall af s, stops (chained af) s -> exists N e, forall n, N <= n -> chase n (ATarget s) af = PRet e.
Proof.
  intros af s H. induction H as [s _ IH]. destruct (imap_get af s) as [[s'|]|] eqn:E.
  - destruct (IH s' E) as (N & e & HN). exists (S N), e. intros [|n] Hn; [lia|]. cbn [chase]. rewrite E. apply HN. lia.
  - exists 2, AIgnored. intros [|[|n]] Hn; try lia. cbn [chase]. rewrite E. reflexivity.
  - exists 1, (ATarget s). intros [|n] Hn; [lia|]. cbn [chase]. rewrite E. reflexivity.
Qed.
Definition known (pk : pkg) : Prop := exists p, is_abs p = true /\ described_by fs R p pk.
Lemma known_facts : forall pk, known pk -> is_abs (p_dir pk) = true /\ f_dir fs (p_dir pk) = true /\ NoDup (map fst (p_alias pk)) /\
  (forall root, p_exports pk = Some root -> trie_ok distinct root) /\ (forall root, p_imports pk = Some root -> trie_ok distinct root).
Proof.
  intros pk (p & Ha & Hp). unfold described_by in Hp. pose proof (lookup_trees _ _ _ _ _ Hp) as [T1 T2].
  destruct (lookup_facts _ _ _ _ _ Hp) as (n & s & j & En & Hd & _ & _ & Hal & _).
  split; [|split; [exact Hd|split; [|split; [exact T1|exact T2]]]].
  - unfold lookup_desc in Hp. rewrite En in Hp. destruct (from_dir fs p) eqn:Ef; [discriminate|].
    destruct (nearest fs n p) as [d|] eqn:Enr; [|discriminate]. destruct (f_dir fs d); [|discriminate].
    assert (Hpd : p_dir pk = d).
    { unfold described in Hp. destruct (f_read fs (join d n)) as [s0|]; [|discriminate].
      destruct (f_mtime fs (join d n)); try discriminate. destruct (rv_json R s0) as [j0|]; [|discriminate].
      destruct (alias_fields_of j0); try discriminate. cbn [pbind] in Hp.
      match type of Hp with pbind (pbind ?X _) _ = _ => destruct X as [[ex|]| |]; try discriminate end. cbn [pbind] in Hp.
      match type of Hp with pbind (pbind ?X _) _ = _ => destruct X as [[im|]| |]; try discriminate end. cbn [pbind] in Hp.
      destruct (side_effects_of (join d n) j0); [|discriminate]. cbn [pbind] in Hp. injection Hp as <-. reflexivity. }
    rewrite Hpd. unfold nearest in Enr. apply find_some in Enr. destruct Enr as [Hin _]. unfold from_dir in Hin.
    assert (Hl : forall qs (q : path), In q (drop_while (fun q => negb (f_dir fs q)) qs) -> In q qs).
    { induction qs as [|y qs IH]; intros q Hq; [exact Hq|]. cbn [drop_while] in Hq. destruct (negb _); [right; auto|exact Hq]. }
    apply Hl in Hin. eapply lineage_shorter; [exact Hin|exact Ha].
  - eapply alias_nodup. exact Hal.
Qed.
Lemma ends_alias_field : forall o0 i0, (forall pk0, o0 = Some pk0 -> known pk0) ->
  Ends (doi o0 i0) sr (aliased o0 i0) (fun _ n oi => alias_field_apply R n (fst oi) (snd oi)).
Proof.
  intros o0 i0 Hk. unfold alias_field_apply.
  assert (Hsame : forall P, (forall (m n : nat) oi, doi o0 i0 oi -> P m n oi = Ret (Resolving (snd oi))) -> Ends (doi o0 i0) sr (aliased o0 i0) P).
  { intros P H. eapply ends_ext0; [exact H|]. apply ends_ret with (a0 := Resolving i0); [right; left; reflexivity|]. intros [o i] [_ Hi]. exact Hi. }
  destruct (o_browser opts) eqn:Eb; cbn [negb]; [|apply Hsame; reflexivity].
  destruct o0 as [pk0|].
  2:{ apply Hsame. intros m n [[pk|] i] [Ho _]; [contradiction|reflexivity]. }
  destruct (Hk pk0 eq_refl) as (p & Ha & Hp). destruct (known_facts pk0 (Hk pk0 eq_refl)) as (_ & _ & Hnd & _).
  pose (st := fun c => Resolving (with_target (with_path i0 (p_dir pk0)) c)).
  assert (HN : exists N, forall n k v, In (k, v) (p_alias pk0) -> N <= n -> exists e, chase n v (p_alias pk0) = PRet e).
  { induction (p_alias pk0) as [|[k v] l IH] at 1.
    - exists 0. intros n k v [].
    - destruct IH as [N IH].
      assert (Hv : exists N', forall n, N' <= n -> exists e, chase n v (p_alias pk0) = PRet e).
      { destruct v as [s|].
        - destruct (chase_end (p_alias pk0) s) as (N' & e & H); [eapply nc_browser; eassumption|]. exists N'. eauto.
        - exists 1. intros [|n] Hn; [lia|]. cbn. eauto. }
      destruct Hv as [N' Hv]. exists (Nat.max N N'). intros n k0 v0 [E|Hin] Hn; [injection E as <- <-; apply Hv; lia|].
      eapply IH; [exact Hin|lia]. }
  destruct HN as [N HN].
  exists N, (Success RIgnored :: Resolving i0 :: flat_map (fun kv => match snd kv with ATarget c => [st c] | AIgnored => [] end) (p_alias pk0)). split.
  - constructor; [left; eauto|]. constructor; [right; left; reflexivity|]. apply Forall_forall. intros s Hs. apply in_flat_map in Hs.
    destruct Hs as ([k v] & Hin & Hs). cbn [snd] in Hs. destruct v as [c|]; [|contradiction]. destruct Hs as [<-|[]].
    right; right. exists pk0, k, c. auto.
  - intros _ n [o i] _ Hn [Ho Hi]. cbn [fst snd] in *. destruct o as [pk|]; [|contradiction]. cbn [okeq] in Ho.
    pose proof Ho as (Hd & _ & _ & _ & _ & _ & _ & Hperm).
    assert (Hin : forall kv, In kv (p_alias pk) -> In kv (p_alias pk0)) by (intros kv; apply Permutation_in, Permutation_sym, Hperm).
    revert Hin. generalize (p_alias pk) at 1 2. induction l as [|[k v] l IH]; intros Hin; cbn [alias_field_loop].
    + apply md_done. exists (Resolving i0). split; [right; left; reflexivity|exact Hi].
    + destruct (should_deal_alias R pk i k); [|apply IH; intros kv H; apply Hin; right; exact H].
      rewrite <- (chase_perm n v _ _ Hperm Hnd). destruct (HN n k v (Hin _ (or_introl eq_refl)) Hn) as [e He]. rewrite He. cbn [lift bind].
      destruct e as [c|]; apply md_done; [|exists (Success RIgnored); split; [left; reflexivity|exact I]].
      exists (st c). split.
      * right; right. apply in_flat_map.
        assert (Hc : exists k', In (k', ATarget c) (p_alias pk0)).
        { destruct (chase_in _ _ _ _ He) as [->|H]; [|exact H]. exists k. apply Hin. left; reflexivity. }
        destruct Hc as [k' Hc]. exists (k', ATarget c). split; [exact Hc|left; reflexivity].
      * unfold st. cbn [sr]. split; [cbn; destruct Hi as [-> _]; reflexivity|exact Hd].
Qed.

(** ** The exports field *)
Definition exported (o0 : option pkg) (i0 : info) (s : stats) : Prop :=
  (exists r, s = Success r) \/ s = Resolving i0 \/ (exists e, s = SError e i0) \/
  exists pk0 root x l item, o0 = Some pk0 /\ p_exports pk0 = Some root /\ field_process FExports root x conds = PRet (Ok l) /\ In item l /\
    s = Resolving (mkInfo (p_dir pk0) (parse item)).
Lemma ends_exports_loop : forall pk0 i0 l (Q : stats -> Prop), Q (SError [] i0) -> (forall item, In item l -> Q (Resolving (mkInfo (p_dir pk0) (parse item)))) ->
  Ends (fun ki : pkg * info => pkgeq pk0 (fst ki) /\ iweak i0 (snd ki)) sr Q (fun _ _ ki => exports_loop (fst ki) (snd ki) l).
Proof.
  intros pk0 i0 l Q H0. induction l as [|item l IH]; intros H; cbn [exports_loop].
  - apply ends_ret with (a0 := SError [] i0); [exact H0|]. intros [pk i] [_ Hi]. exact Hi.
  - specialize (IH (fun x Hx => H x (or_intror Hx))).
    apply (ends_isfile ok _ _ _ (fun ki => get_path (mkInfo (p_dir (fst ki)) (parse item)))
      (fun _ _ ki (b : bool) => if b then c <- lift (check_target (r_target (parse item))) ;;
         if (c : bool) then Ret (Resolving (mkInfo (p_dir (fst ki)) (parse item))) else exports_loop (fst ki) (snd ki) l else exports_loop (fst ki) (snd ki) l)); [|exact IH].
    apply ends_const; [apply check_target_end|]. intros [|] _; [|exact IH].
    apply ends_ret with (a0 := Resolving (mkInfo (p_dir pk0) (parse item))); [apply H; left; reflexivity|].
    intros [pk i] [Hp _]. cbn [fst snd] in *. split; [reflexivity|]. cbn. apply Hp.
Qed.
Lemma ends_subpath : forall pk0 i0,
  Ends (fun ki : pkg * info => pkgeq pk0 (fst ki) /\ iweak i0 (snd ki)) eq (fun _ => True) (fun _ _ ki => exports_subpath (fst ki) (snd ki)).
Proof.
  intros pk0 i0. unfold exports_subpath. set (t := r_target (i_req i0)).
  set (c := if starts_with_char t c_at then match find_char t c_slash with Some (_, a) => Some a | None => None end else Some t).
  destruct c as [chars|] eqn:Ec.
  - destruct (find_char chars c_slash) as [[a b]|] eqn:Ef.
    + exists 0, [Some (c_dot :: c_slash :: b)]. split; [auto|]. intros m n [pk i] _ _ [_ [Hi _]]. cbn [fst snd] in *. rewrite <- Hi. fold t.
      unfold c in Ec. destruct (starts_with_char t c_at).
      * destruct (find_char t c_slash) as [[a' b']|]; [|discriminate]. injection Ec as ->. cbn [bind]. rewrite Ef. apply md_done. eexists. split; [left|]; reflexivity.
      * injection Ec as ->. cbn [bind]. rewrite Ef. apply md_done. eexists. split; [left|]; reflexivity.
    + exists 0, [Some s_dot; None]. split; [auto|]. intros m n [pk i] _ _ [_ [Hi _]]. cbn [fst snd] in *. rewrite <- Hi. fold t.
      assert (G : forall e : bool, go (within eq [Some s_dot; None]) (if e || opt_str_eqb (p_name pk) t then Ret (Some s_dot) else Ret None)).
      { intros e. destruct (_ || _); apply md_done; eexists; (split; [|reflexivity]); cbn; auto. }
      unfold c in Ec. destruct (starts_with_char t c_at).
      * destruct (find_char t c_slash) as [[a' b']|]; [|discriminate]. injection Ec as ->. cbn [bind]. rewrite Ef. cbn [act bind]. apply md_act; [exact I|]. intros e _. apply G.
      * injection Ec as ->. cbn [bind]. rewrite Ef. cbn [act bind]. apply md_act; [exact I|]. intros e _. apply G.
  - exists 0, []. split; [auto|]. intros m n [pk i] _ _ [_ [Hi _]]. cbn [fst snd] in *. rewrite <- Hi. fold t.
    unfold c in Ec. destruct (starts_with_char t c_at); [|discriminate]. destruct (find_char t c_slash) as [[a' b']|]; [discriminate|]. apply md_panicked. exact I.
Qed.
Lemma ends_exports : forall o0 i0, (forall pk0, o0 = Some pk0 -> known pk0) ->
  Ends (doi o0 i0) sr (exported o0 i0) (fun _ _ oi => exports_apply R (fst oi) (snd oi)).
Proof.
  intros o0 i0 Hk. unfold exports_apply.
  assert (Hsame : forall {X} (D : X -> Prop) (f : X -> info), (forall x, D x -> iweak i0 (f x)) -> Ends D sr (exported o0 i0) (fun _ _ x => Ret (Resolving (f x)))).
  { intros X D f H. apply ends_ret with (a0 := Resolving i0); [right; left; reflexivity|]. exact H. }
  destruct o0 as [pk0|].
  2:{ eapply ends_ext0; [|apply (Hsame _ _ (fun oi => snd oi)); intros x [_ Hx]; exact Hx]. intros m n [[pk|] i] [Ho _]; [contradiction|reflexivity]. }
  destruct (known_facts pk0 (Hk pk0 eq_refl)) as (_ & _ & _ & Ht & _).
  pose (dki := fun ki : pkg * info => pkgeq pk0 (fst ki) /\ iweak i0 (snd ki)).
  pose (body := fun (_ _ : nat) (ki : pkg * info) => let (pk, i) := ki in
      if negb (kind_eqb (r_kind (i_req i)) Normal) then Ret (Resolving i)
      else if negb (is_in_module pk) && negb (is_resolve_self pk i) then Ret (Resolving i)
      else match p_exports pk with
           | None => Ret (Resolving i)
           | Some root =>
               sp <- exports_subpath pk i ;;
               match sp with
               | None => Ret (SError TAG i)
               | Some t =>
                   l <- lift (field_process FExports root (exports_remaining i t) conds) ;;
                   match l with
                   | Err e => Ret (SError e i)
                   | Ok l => exports_loop pk i l
                   end
               end
           end).
  assert (Hb : Ends dki sr (exported (Some pk0) i0) body).
  2:{ eapply ends_ext0; [|refine (ends_map ok (doi (Some pk0) i0) dki _ _ body (fun oi => (match fst oi with Some pk => pk | None => pk0 end, snd oi)) _ Hb)].
      - intros m n [[pk|] i] [Ho _]; [reflexivity|contradiction].
      - intros [[pk|] i] [Ho Hi]; [|contradiction]. split; [exact Ho|exact Hi]. }
  eapply ends_ext0 with (P' := fun _ _ ki => if negb (kind_eqb (r_kind (i_req (snd ki))) Normal) then Ret (Resolving (snd ki)) else if negb (is_in_module (fst ki)) && negb (is_resolve_self (fst ki) (snd ki)) then Ret (Resolving (snd ki)) else match p_exports pk0 with
           | None => Ret (Resolving (snd ki))
           | Some root =>
               sp <- exports_subpath (fst ki) (snd ki) ;;
               match sp with
               | None => Ret (SError TAG (snd ki))
               | Some t =>
                   l <- lift (field_process FExports root (exports_remaining i0 t) conds) ;;
                   match l with
                   | Err e => Ret (SError e (snd ki))
                   | Ok l => exports_loop (fst ki) (snd ki) l
                   end
               end
           end).
  { intros m n [pk i] [Hp [Hi _]]. unfold body. cbn [fst snd] in *. destruct Hp as (_ & _ & _ & -> & _).
    replace (exports_remaining i) with (exports_remaining i0) by (unfold exports_remaining; rewrite Hi; reflexivity). reflexivity. }
  apply (ends_either ok _ _ _ (fun ki => negb (kind_eqb (r_kind (i_req (snd ki))) Normal))); [apply Hsame; intros x [_ Hx]; exact Hx|].
  apply (ends_either ok _ _ _ (fun ki => negb (is_in_module (fst ki)) && negb (is_resolve_self (fst ki) (snd ki)))); [apply Hsame; intros x [_ Hx]; exact Hx|].
  destruct (p_exports pk0) as [root|] eqn:Er; [|apply Hsame; intros x [_ Hx]; exact Hx].
  eapply ends_bind; [apply ends_subpath|]. intros sp _. cbn beta.
  destruct sp as [t|].
  - eapply ends_ext0 with (P' := fun _ _ xa => l <- lift (field_process FExports root (exports_remaining i0 t) conds) ;;
                   match l with
                   | Err e => Ret (SError e (snd (fst xa)))
                   | Ok l => exports_loop (fst (fst xa)) (snd (fst xa)) l
                   end); [intros m n [[pk i] sp] [_ E]; cbn [fst snd] in *; rewrite <- E; reflexivity|].
    eapply ends_bind; [eapply ends_lift; [apply field_process_end, Ht; reflexivity|reflexivity]|]. intros r Hr. cbn beta. destruct r as [l|e].
    + eapply ends_ext0 with (P' := fun _ _ xa => exports_loop (fst (fst (fst xa))) (snd (fst (fst xa))) l); [intros m n [x sp] [_ E]; cbn [fst snd] in *; rewrite <- E; reflexivity|].
      refine (ends_map ok _ dki _ _ (fun _ _ ki => exports_loop (fst ki) (snd ki) l) (fun xa => fst (fst xa)) _ _).
      * intros [[x ?] ?] [[Hx _] _]. exact Hx.
      * apply ends_exports_loop; [right; right; left; eauto|]. intros item Hin. right; right; right. exists pk0, root, (exports_remaining i0 t), l, item. auto.
    + eapply ends_ext0 with (P' := fun _ _ xa => Ret (SError e (snd (fst (fst xa))))); [intros m n [x sp] [_ E]; cbn [fst snd] in *; rewrite <- E; reflexivity|].
      apply ends_ret with (a0 := SError e i0); [right; right; left; eauto|]. intros [[[pk i] ?] ?] [[[_ Hi] _] _]. exact Hi.
  - eapply ends_ext0 with (P' := fun _ _ xa => Ret (SError TAG (snd (fst xa)))); [intros m n [[pk i] sp] [_ E]; cbn [fst snd] in *; rewrite <- E; reflexivity|].
    apply ends_ret with (a0 := SError TAG i0); [right; right; left; eauto|]. intros [[pk i] ?] [[_ Hi] _]. exact Hi.
Qed.

(** ** The loader *)
Definition lv (r r' : result (option pkg)) : Prop := match r, r' with Ok o, Ok o' => okeq o o' | Err _, Err _ => True | _, _ => False end.
Lemma ends_load {X} : forall (D : X -> Prop) (f : X -> path) p0, is_abs p0 = true -> (forall x, D x -> same_path p0 (f x)) ->
  Ends D lv (fun r => lookup_desc fs (rv_json R) (o_desc opts) p0 = PRet r) (fun m _ x => load m (f x)).
Proof.
  intros D f p0 Ha Hf.
  assert (Hend : forall m n x, length (components p0) + 2 <= m -> length (components p0) + 2 <= n -> D x ->
     go (fun r => orel (leq eq) (oc (lookup_desc fs (rv_json R) (o_desc opts) (f x))) r /\ ended r) (load m (f x))).
  { intros m n x Hm Hn Hx. pose proof (Hf x Hx) as Hs. apply Hload; [eapply same_abs; eassumption|]. rewrite <- Hs. exact Hm. }
  assert (Hrel : forall x, D x -> creq (leq erel) (lookup_desc fs (rv_json R) (o_desc opts) p0) (lookup_desc fs (rv_json R) (o_desc opts) (f x))).
  { intros x Hx. destruct (o_desc opts) as [name|]; [apply look_same; [exact Hfs|apply Hf, Hx]|exact I]. }
  destruct (lookup_desc fs (rv_json R) (o_desc opts) p0) as [r0|e|] eqn:E0.
  - exists (length (components p0) + 2), [r0]. split; [auto|]. intros m n x Hm Hn Hx. eapply md_mono; [|apply (Hend m n x Hm Hn Hx)].
    specialize (Hrel x Hx). intros [r|e|] [H1 H2]; [|exact I|contradiction H2; reflexivity].
    cbn [orel] in H1. destruct H1 as (r' & E & Hl). destruct (lookup_desc fs (rv_json R) (o_desc opts) (f x)) as [r1| |]; try discriminate. injection E as ->.
    cbn [creq] in Hrel. exists r0. split; [left; reflexivity|].
    destruct r0 as [o0|e0], r' as [o'|e'], r as [o|e]; cbn [leq lv] in *; try contradiction; auto. eapply okeq_trans; eassumption.
  - exists (length (components p0) + 2), []. split; [auto|]. intros m n x Hm Hn Hx. eapply md_mono; [|apply (Hend m n x Hm Hn Hx)].
    specialize (Hrel x Hx). intros [r|e'|] [H1 H2]; [|exact I|contradiction H2; reflexivity].
    cbn [orel] in H1. destruct H1 as (r' & E & Hl). destruct (lookup_desc fs (rv_json R) (o_desc opts) (f x)) as [r1| |]; try discriminate. contradiction.
  - contradiction (lookup_end _ _ _ _ E0).
Qed.
Lemma lookup_known : forall p o, is_abs p = true -> lookup_desc fs (rv_json R) (o_desc opts) p = PRet (Ok o) -> forall pk, o = Some pk -> known pk.
Proof. intros p o Ha H pk ->. exists p. split; [exact Ha|exact H]. Qed.

Definition dki (pk0 : pkg) (i0 : info) (ki : pkg * info) : Prop := pkgeq pk0 (fst ki) /\ iweak i0 (snd ki).
Lemma ends_some {A} : forall pk0 i0 (V : A -> A -> Prop) (Q : A -> Prop) P,
  Ends (dki pk0 i0) V Q (fun m n ki => P m n (Some (fst ki), snd ki)) -> Ends (doi (Some pk0) i0) V Q P.
Proof.
  intros pk0 i0 V Q P H. eapply ends_ext0; [|refine (ends_map ok (doi (Some pk0) i0) (dki pk0 i0) _ _ _ (fun oi => (match fst oi with Some pk => pk | None => pk0 end, snd oi)) _ H)].
  - intros m n [[pk|] i] [Ho _]; [reflexivity|contradiction].
  - intros [[pk|] i] [Ho Hi]; [|contradiction]. split; [exact Ho|exact Hi].
Qed.
Lemma ends_none {A} : forall i0 (V : A -> A -> Prop) (Q : A -> Prop) P,
  Ends (iweak i0) V Q (fun m n i => P m n (None, i)) -> Ends (doi None i0) V Q P.
Proof.
  intros i0 V Q P H. eapply ends_ext0; [|refine (ends_map ok (doi None i0) (iweak i0) _ _ _ (fun oi => snd oi) _ H)].
  - intros m n [[pk|] i] [Ho _]; [contradiction|reflexivity].
  - intros [[pk|] i] [Ho Hi]; [contradiction|]. exact Hi.
Qed.
Lemma ends_then : forall o0 i0 (Q Q' : stats -> Prop) (P F : nat -> nat -> option pkg -> info -> prog stats),
  Ends (doi o0 i0) sr Q (fun m n oi => P m n (fst oi) (snd oi)) ->
  (forall r, Q' (Success r)) -> (forall e i, Q (SError e i) -> Q' (SError e i)) ->
  (forall i1, Q (Resolving i1) -> Ends (doi o0 i1) sr Q' (fun m n oi => F m n (fst oi) (snd oi))) ->
  Ends (doi o0 i0) sr Q' (fun m n oi => and_then (P m n (fst oi) (snd oi)) (F m n (fst oi))).
Proof.
  intros o0 i0 Q Q' P F HP Hs He HF. apply ends_and_then with (Q := Q) (P := fun m n oi => P m n (fst oi) (snd oi)) (F := fun m n oi => F m n (fst oi)); auto.
  intros i1 H1. refine (ends_map ok _ (doi o0 i1) _ _ (fun m n oi => F m n (fst oi) (snd oi)) (fun xi => (fst (fst xi), snd xi)) _ (HF i1 H1)).
  intros [[o i] j] [[Ho _] Hj]. split; assumption.
Qed.
(** The same, where the continuation only uses the info. *)
Lemma ends_then_i : forall o0 i0 (Q Q' : stats -> Prop) (P : nat -> nat -> option pkg -> info -> prog stats) (F : nat -> nat -> info -> prog stats),
  Ends (doi o0 i0) sr Q (fun m n oi => P m n (fst oi) (snd oi)) ->
  (forall r, Q' (Success r)) -> (forall e i, Q (SError e i) -> Q' (SError e i)) ->
  (forall i1, Q (Resolving i1) -> Ends (iweak i1) sr Q' F) ->
  Ends (doi o0 i0) sr Q' (fun m n oi => and_then (P m n (fst oi) (snd oi)) (F m n)).
Proof.
  intros o0 i0 Q Q' P F HP Hs He HF. apply (ends_then o0 i0 Q Q' P (fun m n _ => F m n)); auto. intros i1 H1.
  refine (ends_map ok _ (iweak i1) _ _ F (fun oi => snd oi) _ (HF i1 H1)). intros [o i] [_ Hi]. exact Hi.
Qed.

(** ** The imports field *)
Lemma ends_imports_check : forall i0 t, Ends (iweak i0) sr (fun s => s = Resolving i0 \/ exists e, s = SError e i0) (fun _ _ i => imports_check i t).
Proof.
  intros i0 t. unfold imports_check.
  assert (He : Ends (iweak i0) sr (fun s => s = Resolving i0 \/ exists e, s = SError e i0) (fun _ _ i => Ret (SError (not_exported t) i))).
  { apply ends_ret with (a0 := SError [] i0); [right; eauto|]. intros i Hi. exact Hi. }
  apply (ends_isfile ok _ _ _ get_path (fun _ _ i (b : bool) => if b then c <- lift (check_target (r_target (i_req i))) ;; if (c : bool) then Ret (Resolving i) else Ret (SError (not_exported t) i) else Ret (SError (not_exported t) i))); [|exact He].
  eapply ends_ext0 with (P' := fun _ _ i => c <- lift (check_target (r_target (i_req i0))) ;; if (c : bool) then Ret (Resolving i) else Ret (SError (not_exported t) i)).
  { intros _ _ i [<- _]. reflexivity. }
  apply ends_const; [apply check_target_end|]. intros [|] _; [|exact He].
  apply ends_ret with (a0 := Resolving i0); [left; reflexivity|]. intros i Hi. exact Hi.
Qed.
Lemma normal_no_hash : forall s, r_kind (parse s) = Normal -> starts_with_char (r_target (parse s)) c_hash = false.
Proof.
  intros s. unfold parse. destruct (parse_identifier s) as [[t q] f]. cbn. unfold get_target_kind. destruct (starts_with_char t c_hash); [|reflexivity].
  intros H. repeat (match type of H with (if ?b then _ else _) = _ => destruct b; try discriminate | match ?b with _ => _ end = _ => destruct b; try discriminate end); discriminate.
Qed.
Lemma ends_imports_plain : forall o0 i0, o0 = None \/ starts_with_char (r_target (i_req i0)) c_hash = false ->
  Ends (doi o0 i0) sr (fun s => s = Resolving i0) (fun m n oi => imports_apply R (load m) n (fst oi) (snd oi)).
Proof.
  intros o0 i0 H. eapply ends_ext with (P' := fun _ _ oi => Ret (Resolving (snd oi))).
  - exists 1. intros m [|n] [o i] _ Hn [Ho Hi]; [lia|]. cbn [imports_apply fst snd]. cbn [fst snd] in *. destruct o as [pk|]; [|reflexivity].
    destruct H as [->|H]; [contradiction|]. destruct Hi as [E _]. rewrite <- E, H. reflexivity.
  - apply ends_ret with (a0 := Resolving i0); [reflexivity|]. intros [o i] [_ Hi]. exact Hi.
Qed.
Lemma ends_imports_acc : forall x, stops (redirected fs R) x -> known (fst x) -> forall i0, r_target (i_req i0) = snd x -> is_abs (i_path i0) = true ->
  Ends (doi (Some (fst x)) i0) sr sabs (fun m n oi => imports_apply R (load m) n (fst oi) (snd oi)).
Proof.
  intros x Hx. induction Hx as [[pk0 t] _ IH]. cbn [fst snd]. intros Hk i0 Ht Ha. apply ends_some. cbn [fst snd].
  destruct (starts_with_char t c_hash) eqn:Eh.
  2:{ refine (ends_map ok _ (doi (Some pk0) i0) _ _ (fun m n oi => imports_apply R (load m) n (fst oi) (snd oi)) (fun ki => (Some (fst ki), snd ki)) _ _).
      - intros [pk i] [Hp Hi]. split; assumption.
      - eapply ends_post; [|apply ends_imports_plain; right; rewrite Ht; exact Eh]. intros s ->. exact Ha. }
  destruct (known_facts pk0 Hk) as (Hda & _ & _ & _ & Htr).
  assert (Hret : forall e, Ends (dki pk0 i0) sr sabs (fun _ _ ki => Ret (SError e (snd ki)))).
  { intros e. apply ends_ret with (a0 := SError e i0); [exact Ha|]. intros [pk i] [_ Hi]. exact Hi. }
  destruct (p_imports pk0) as [root|] eqn:Er.
  2:{ eapply ends_ext with (P' := fun _ _ ki => Ret (Resolving (snd ki))).
      - exists 1. intros m [|n] [pk i] _ Hn [Hp Hi]; [lia|]. cbn [imports_apply fst snd] in *. destruct Hi as [E _]. rewrite <- E, Ht, Eh.
        destruct Hp as (_ & _ & _ & _ & <- & _). rewrite Er. reflexivity.
      - apply ends_ret with (a0 := Resolving i0); [exact Ha|]. intros [pk i] [_ Hi]. exact Hi. }
  eapply ends_ext with (P' := fun m n ki => l <- lift (field_process FImports root t conds) ;;
    match l with
    | Err e => Ret (SError e (snd ki))
    | Ok [] => Ret (SError (not_exported t) (snd ki))
    | Ok (item :: _) =>
        match r_kind (parse item) with
        | Normal =>
            lp <- load m (get_path (mkInfo (join (p_dir (fst ki)) MODULE) (parse item))) ;;
            match lp with
            | Err e => Ret (SError e (mkInfo (join (p_dir (fst ki)) MODULE) (parse item)))
            | Ok opk' =>
                let cont := and_then (and_then (and_then
                  (exports_apply R opk' (mkInfo (join (p_dir (fst ki)) MODULE) (parse item)))
                  (imports_apply R (load m) (pred n) opk'))
                  (alias_field_apply R n opk'))
                  (fun i2 => imports_check i2 t) in
                match opk' with
                | Some pk' => if negb (contains (p_dir pk') MODULE) then Ret (Resolving (mkInfo (join (p_dir (fst ki)) MODULE) (parse item))) else cont
                | None => cont
                end
            end
        | Internal => imports_apply R (load m) (pred n) (Some (fst ki)) (mkInfo (p_dir (fst ki)) (parse item))
        | _ => imports_check (mkInfo (p_dir (fst ki)) (parse item)) t
        end
    end).
  { exists 1. intros m [|n] [pk i] _ Hn [Hp Hi]; [lia|]. cbn [imports_apply fst snd pred] in *. destruct Hi as [E _]. rewrite <- E, Ht, Eh.
    destruct Hp as (_ & _ & _ & _ & <- & _). rewrite Er. reflexivity. }
  apply ends_const; [apply field_process_end, Htr; reflexivity|]. intros [[|item l]|e] Hl; [apply Hret| |apply Hret].
  assert (Hchk : Ends (dki pk0 i0) sr sabs (fun _ _ ki => imports_check (mkInfo (p_dir (fst ki)) (parse item)) t)).
  { refine (ends_map ok _ (iweak (mkInfo (p_dir pk0) (parse item))) _ _ (fun _ _ i => imports_check i t) (fun ki => mkInfo (p_dir (fst ki)) (parse item)) _ _).
    - intros [pk i] [Hp _]. split; [reflexivity|apply Hp].
    - eapply ends_post; [|apply ends_imports_check]. intros s [->|[e ->]]; exact Hda. }
  destruct (r_kind (parse item)) eqn:Ek; try exact Hchk.
  - (* Internal *)
    refine (ends_map ok _ (doi (Some pk0) (mkInfo (p_dir pk0) (parse item))) _ _ (fun m n oi => imports_apply R (load m) (pred n) (fst oi) (snd oi)) (fun ki => (Some (fst ki), mkInfo (p_dir (fst ki)) (parse item))) _ _).
    + intros [pk i] [Hp _]. split; [exact Hp|]. split; [reflexivity|apply Hp].
    + apply (ends_succ ok _ _ _ (fun m n oi => imports_apply R (load m) n (fst oi) (snd oi))).
      apply (IH (pk0, r_target (parse item))); auto. eapply RdInternal; eassumption.
  - (* Normal *)
    set (i1 := mkInfo (join (p_dir pk0) MODULE) (parse item)).
    assert (Ha1 : is_abs (i_path i1) = true) by (apply join_abs, Hda).
    assert (Hw : forall ki, dki pk0 i0 ki -> iweak i1 (mkInfo (join (p_dir (fst ki)) MODULE) (parse item))).
    { intros [pk i] [Hp _]. split; [reflexivity|]. apply same_path_join, Hp. }
    eapply ends_bind; [apply (ends_load (dki pk0 i0) (fun ki => get_path (mkInfo (join (p_dir (fst ki)) MODULE) (parse item))) (get_path i1))|].
    + apply get_path_abs, Ha1.
    + intros ki H. apply get_path_same, Hw, H.
    + intros [o1|e] Hlk.
      * assert (Hk1 : forall pk1, o1 = Some pk1 -> known pk1) by (eapply lookup_known; [|exact Hlk]; apply get_path_abs, Ha1).
        eapply ends_ext0 with (P' := fun m n xa =>
            if match match snd xa with Ok o => o | Err _ => None end with Some pk' => negb (contains (p_dir pk') MODULE) | None => false end then Ret (Resolving (mkInfo (join (p_dir (fst (fst xa))) MODULE) (parse item))) else
                and_then (and_then (and_then
                  (exports_apply R (match snd xa with Ok o => o | Err _ => None end) (mkInfo (join (p_dir (fst (fst xa))) MODULE) (parse item)))
                  (imports_apply R (load m) (pred n) (match snd xa with Ok o => o | Err _ => None end)))
                  (alias_field_apply R n (match snd xa with Ok o => o | Err _ => None end)))
                  (fun i2 => imports_check i2 t)).
        { intros m n [ki [[pk'|]|e]] [_ Hv]; [reflexivity|reflexivity|contradiction]. }
        apply (ends_either ok _ _ _ (fun xa => match match snd xa with Ok o => o | Err _ => None end with Some pk' => negb (contains (p_dir pk') MODULE) | None => false end)).
        { apply ends_ret with (a0 := Resolving i1); [exact Ha1|]. intros [ki r] [Hki _]. apply Hw, Hki. }
        refine (ends_map ok _ (doi o1 i1) _ _ (fun m n oi => and_then (and_then (and_then (exports_apply R (fst oi) (snd oi)) (imports_apply R (load m) (pred n) (fst oi))) (alias_field_apply R n (fst oi))) (fun i2 => imports_check i2 t))
          (fun xa => (match snd xa with Ok o => o | Err _ => None end, mkInfo (join (p_dir (fst (fst xa))) MODULE) (parse item))) _ _).
        { intros [ki [o|e]] [Hki Hv]; [|contradiction]. split; [exact Hv|apply Hw, Hki]. }
        apply (ends_then_i o1 i1 sabs sabs (fun m n o i => and_then (and_then (exports_apply R o i) (imports_apply R (load m) (pred n) o)) (alias_field_apply R n o)) (fun m n i => imports_check i t)); try exact (fun _ => I); auto.
        2:{ intros i2 H2. eapply ends_post; [|apply ends_imports_check]. intros s [->|[e ->]]; exact H2. }
        apply (ends_then o1 i1 sabs sabs (fun m n o i => and_then (exports_apply R o i) (imports_apply R (load m) (pred n) o)) (fun m n o i => alias_field_apply R n o i)); try exact (fun _ => I); auto.
        2:{ intros i2 H2. eapply ends_post; [|apply ends_alias_field, Hk1]. intros s [[r ->]|[->|(pk1 & k & c & E & _ & _ & ->)]]; [exact I|exact H2|]. apply (known_facts pk1), Hk1, E. }
        apply (ends_then o1 i1 (exported o1 i1) sabs (fun m n o i => exports_apply R o i) (fun m n o i => imports_apply R (load m) (pred n) o i)); try exact (fun _ => I).
        { apply ends_exports, Hk1. }
        { intros e i [[r E]|[E|[[e' E]|(pk1 & root' & x & l' & item' & _ & _ & _ & _ & E)]]]; try discriminate. injection E as _ ->. exact Ha1. }
        intros i2 Hex. apply (ends_succ ok _ _ _ (fun m n oi => imports_apply R (load m) n (fst oi) (snd oi))).
        destruct Hex as [[r E]|[E|[[e' E]|(pk1 & root' & x & l' & item' & E1 & E2 & E3 & E4 & E)]]]; try discriminate.
        { injection E as ->. eapply ends_post; [|apply ends_imports_plain; right; apply normal_no_hash, Ek]. intros s ->. exact Ha1. }
        injection E as ->. subst o1. apply (IH (pk1, r_target (parse item'))); auto.
        { eapply RdPackage; try eassumption. }
        { apply (known_facts pk1). apply Hk1. reflexivity. }
      * eapply ends_ext0 with (P' := fun _ _ xa => Ret (SError (match snd xa with Err e => e | _ => [] end) (mkInfo (join (p_dir (fst (fst xa))) MODULE) (parse item)))).
        { intros m n [ki [o|e']] [_ Hv]; [contradiction|reflexivity]. }
        apply ends_ret with (a0 := SError e i1); [exact Ha1|]. intros [ki r] [Hki _]. apply Hw, Hki.
Qed.
Lemma ends_imports : forall o0 i0, (forall pk0, o0 = Some pk0 -> known pk0) -> is_abs (i_path i0) = true ->
  Ends (doi o0 i0) sr sabs (fun m n oi => imports_apply R (load m) n (fst oi) (snd oi)).
Proof.
  intros [pk0|] i0 Hk Ha.
  - apply (ends_imports_acc (pk0, r_target (i_req i0))); auto. destruct (Hk pk0 eq_refl) as (p & _ & Hp). eapply nc_imports; eassumption.
  - eapply ends_post; [|apply ends_imports_plain; left; reflexivity]. intros s ->. exact Ha.
Qed.

Lemma ends_isdir {X A} : forall (D : X -> Prop) (V : A -> A -> Prop) (Q : A -> Prop) (f : X -> path) p0 (F : nat -> nat -> X -> bool -> prog A), (forall x, D x -> same_path p0 (f x)) ->
  (f_dir fs p0 = true -> Ends D V Q (fun m n x => F m n x true)) -> (f_dir fs p0 = false -> Ends D V Q (fun m n x => F m n x false)) -> Ends D V Q (fun m n x => Do (OIsDir (f x)) (F m n x)).
Proof.
  intros D V Q f p0 F Hf H1 H2. destruct (f_dir fs p0) eqn:E.
  - destruct (H1 eq_refl) as (N & L & HL & H). exists N, L. split; [exact HL|]. intros m n x Hm Hn Hx. apply md_act; [exact I|]. intros b Hb. apply Hdirs in Hb.
    rewrite <- (sf_dir _ Hfs p0 (f x) (Hf x Hx)), E in Hb. subst b. apply H; assumption.
  - destruct (H2 eq_refl) as (N & L & HL & H). exists N, L. split; [exact HL|]. intros m n x Hm Hn Hx. apply md_act; [exact I|]. intros b Hb. apply Hdirs in Hb.
    rewrite <- (sf_dir _ Hfs p0 (f x) (Hf x Hx)), E in Hb. subst b. apply H; assumption.
Qed.
Lemma iweak_target : forall i j t, iweak i j -> iweak (with_target i t) (with_target j t).
Proof. intros i j t [H1 H2]. split; [cbn; rewrite H1; reflexivity|exact H2]. Qed.
Lemma iweak_path : forall i j p q, iweak i j -> same_path p q -> iweak (with_path i p) (with_path j q).
Proof. intros i j p q [H1 H2] H. split; [exact H1|exact H]. Qed.

Lemma ends_alias_abs : forall o0 i0, (forall pk0, o0 = Some pk0 -> known pk0) -> is_abs (i_path i0) = true ->
  Ends (doi o0 i0) sr sabs (fun _ n oi => alias_field_apply R n (fst oi) (snd oi)).
Proof.
  intros o0 i0 Hk Ha. eapply ends_post; [|apply ends_alias_field, Hk]. intros s [[r ->]|[->|(pk1 & k & c & E & _ & _ & ->)]]; [exact I|exact Ha|].
  apply (known_facts pk1), Hk, E.
Qed.
Lemma ends_exports_abs : forall o0 i0, (forall pk0, o0 = Some pk0 -> known pk0) -> is_abs (i_path i0) = true ->
  Ends (doi o0 i0) sr sabs (fun _ n oi => exports_apply R (fst oi) (snd oi)).
Proof.
  intros o0 i0 Hk Ha. eapply ends_post; [|apply ends_exports, Hk].
  intros s [[r ->]|[->|[[e' ->]|(pk1 & root' & x & l' & item' & E & _ & _ & _ & ->)]]]; [exact I|exact Ha|exact Ha|]. apply (known_facts pk1), Hk, E.
Qed.
Lemma ends_export_import : forall o0 i0, (forall pk0, o0 = Some pk0 -> known pk0) -> is_abs (i_path i0) = true ->
  Ends (doi o0 i0) sr sabs (fun m n oi => and_then (exports_apply R (fst oi) (snd oi)) (imports_apply R (load m) n (fst oi))).
Proof.
  intros o0 i0 Hk Ha.
  apply (ends_then o0 i0 sabs sabs (fun m n o i => exports_apply R o i) (fun m n o i => imports_apply R (load m) n o i)); try exact (fun _ => I); auto.
  - apply ends_exports_abs; assumption.
  - intros i1 H1. apply ends_imports; assumption.
Qed.
Lemma ends_file_abs : forall i0, is_abs (i_path i0) = true -> Ends (iweak i0) sr sabs (fun _ _ i => resolve_as_file R i).
Proof. intros i0 Ha. eapply ends_post; [|apply ends_as_file]. intros s [->|[r ->]]; [exact Ha|exact I]. Qed.

(** ** The main files *)
Definition done_or (i0 : info) (s : stats) : Prop := s = Resolving i0 \/ exists r, s = Success r.
Definition dloop (o0 : option pkg) (i0 mi0 : info) (x : option pkg * info * info) : Prop :=
  okeq o0 (fst (fst x)) /\ iweak i0 (snd (fst x)) /\ iweak mi0 (snd x).
(** The end of an attempt in one of the two loops. *)
Lemma ends_next : forall o0 i0 mi0 (Q1 : stats -> Prop) (P : nat -> nat -> option pkg * info * info -> prog stats) (F : nat -> nat -> option pkg -> info -> info -> prog stats),
  Ends (dloop o0 i0 mi0) sr Q1 P ->
  (forall j0 e, Q1 (Resolving j0) \/ Q1 (SError e j0) -> Ends (dloop o0 i0 j0) sr (done_or i0) (fun m n x => F m n (fst (fst x)) (snd (fst x)) (snd x))) ->
  Ends (dloop o0 i0 mi0) sr (done_or i0) (fun m n x => s <- P m n x ;; if is_success s then Ret s else mi'' <- extract_info s ;; F m n (fst (fst x)) (snd (fst x)) mi'').
Proof.
  intros o0 i0 mi0 Q1 P F HP HF. eapply ends_bind; [exact HP|]. intros [r|j|e j] HQ.
  - eapply ends_ext0 with (P' := fun _ _ xa => Ret (snd xa)); [|apply ends_ret with (a0 := Success r); [right; eauto|intros x [_ H]; exact H]].
    intros m n [x s] [_ H]. cbn [fst snd] in *. destruct s; try contradiction. reflexivity.
  - eapply ends_ext0 with (P' := fun m n xa => F m n (fst (fst (fst xa))) (snd (fst (fst xa))) (match snd xa with Resolving i => i | _ => j end)).
    + intros m n [x s] [_ H]. cbn [fst snd] in *. destruct s; try contradiction. reflexivity.
    + refine (ends_map ok _ (dloop o0 i0 j) _ _ (fun m n x => F m n (fst (fst x)) (snd (fst x)) (snd x)) (fun xa => (fst (fst xa), match snd xa with Resolving i => i | _ => j end)) _ (HF j [] (or_introl HQ))).
      intros [[[o i] mi] s] [(Ho & Hi & _) Hv]. cbn [fst snd] in *. destruct s; try contradiction. repeat split; try assumption; apply Hv || apply Hi.
  - eapply ends_ext0 with (P' := fun m n xa => F m n (fst (fst (fst xa))) (snd (fst (fst xa))) (match snd xa with SError _ i => i | _ => j end)).
    + intros m n [x s] [_ H]. cbn [fst snd] in *. destruct s; try contradiction. reflexivity.
    + refine (ends_map ok _ (dloop o0 i0 j) _ _ (fun m n x => F m n (fst (fst x)) (snd (fst x)) (snd x)) (fun xa => (fst (fst xa), match snd xa with SError _ i => i | _ => j end)) _ (HF j e (or_intror HQ))).
      intros [[[o i] mi] s] [(Ho & Hi & _) Hv]. cbn [fst snd] in *. destruct s; try contradiction. repeat split; try assumption; apply Hv || apply Hi.
Qed.
Lemma ends_loop_end : forall o0 i0 mi0, Ends (dloop o0 i0 mi0) sr (done_or i0) (fun _ _ x => Ret (Resolving (snd (fst x)))).
Proof. intros. apply ends_ret with (a0 := Resolving i0); [left; reflexivity|]. intros x (_ & H & _). exact H. Qed.
Lemma ends_main_file_loop : forall o0 i0, (forall pk0, o0 = Some pk0 -> known pk0) -> forall files mi0, is_abs (i_path mi0) = true ->
  Ends (dloop o0 i0 mi0) sr (done_or i0) (fun m n x => main_file_loop R (load m) n (fst (fst x)) (snd (fst x)) files (snd x)).
Proof.
  intros o0 i0 Hk files. induction files as [|f files IH]; intros mi0 Ha; cbn [main_file_loop]; [apply ends_loop_end|].
  apply (ends_next o0 i0 mi0 sabs
    (fun m n x => and_then (and_then (and_then (exports_apply R (fst (fst x)) (with_target (snd x) (lit "./" ++ f))) (imports_apply R (load m) n (fst (fst x)))) (alias_field_apply R n (fst (fst x)))) (resolve_as_file R))
    (fun m n o i mi => main_file_loop R (load m) n o i files mi)).
  - refine (ends_map ok _ (doi o0 (with_target mi0 (lit "./" ++ f))) _ _
      (fun m n oi => and_then (and_then (and_then (exports_apply R (fst oi) (snd oi)) (imports_apply R (load m) n (fst oi))) (alias_field_apply R n (fst oi))) (resolve_as_file R))
      (fun x => (fst (fst x), with_target (snd x) (lit "./" ++ f))) _ _).
    + intros [[o i] mi] (Ho & _ & Hmi). split; [exact Ho|]. apply iweak_target, Hmi.
    + apply (ends_then_i o0 _ sabs sabs (fun m n o i => and_then (and_then (exports_apply R o i) (imports_apply R (load m) n o)) (alias_field_apply R n o)) (fun _ _ i => resolve_as_file R i)); try exact (fun _ => I); auto.
      2:{ intros i1 H1. apply ends_file_abs, H1. }
      apply (ends_then o0 _ sabs sabs (fun m n o i => and_then (exports_apply R o i) (imports_apply R (load m) n o)) (fun m n o i => alias_field_apply R n o i)); try exact (fun _ => I); auto.
      * apply ends_export_import; [exact Hk|exact Ha].
      * intros i1 H1. apply ends_alias_abs; [exact Hk|exact H1].
  - intros j0 e [H|H]; apply IH; exact H.
Qed.

(** ** The main fields *)
Definition as_dir_of (i0 : info) (s : stats) : Prop :=
  (exists r, s = Success r) \/ (exists e, s = SError e i0) \/
  (f_dir fs (get_path i0) = true /\ s = Resolving (with_target (with_path i0 (get_path i0)) [])).
Lemma dot_target : forall i m, starts_with m (lit "./") = true -> get_path (with_target i m) = join (i_path i) m.
Proof.
  intros i m H. unfold get_path, with_target. cbn. destruct m as [|a [|b m]]; try discriminate.
  - unfold starts_with in H. cbn in H. rewrite andb_false_r in H. discriminate.
  - destruct (str_eqb (a :: b :: m) []) eqn:E1; [apply str_eqb_eq in E1; discriminate|]. destruct (str_eqb (a :: b :: m) s_dot) eqn:E2; [apply str_eqb_eq in E2; discriminate|]. reflexivity.
Qed.
Lemma ends_main_field_loop : forall p pk0 i0 (P : nat -> nat -> info -> prog stats), is_abs p = true -> described_by fs R p pk0 -> same_path p (p_dir pk0) ->
  (forall j0, is_abs (i_path j0) = true -> f_dir fs (get_path j0) = false \/ main_dir fs R p (get_path j0) -> Ends (iweak j0) sr (as_dir_of j0) P) ->
  forall fields, incl fields (o_main_fields opts) -> forall mi0, is_abs (i_path mi0) = true -> i_path mi0 = p \/ main_dir fs R p (i_path mi0) ->
  Ends (dloop (Some pk0) i0 mi0) sr (done_or i0) (fun m n x => main_field_loop R (P m n) n (match fst (fst x) with Some pk => pk | None => pk0 end) (snd (fst x)) fields (snd x)).
Proof.
  intros p pk0 i0 P Hap Hp Hsame Hrad fields. induction fields as [|fld fields IH]; intros Hincl mi0 Ha Hmi; cbn [main_field_loop]; [apply ends_loop_end|].
  assert (Hk : known pk0) by (exists p; split; assumption).
  specialize (IH (fun x Hx => Hincl x (or_intror Hx))).
  destruct (opt_str (jget (p_raw pk0) fld)) as [main|] eqn:Em.
  2:{ eapply ends_ext0; [|apply (IH mi0 Ha Hmi)]. intros m n [[[pk|] i] mi] (Ho & _ & _); [|contradiction]. cbn [fst snd okeq] in *.
      destruct Ho as (_ & _ & _ & _ & _ & _ & <- & _). rewrite Em. reflexivity. }
  destruct (str_eqb main s_dot || str_eqb main (lit "./")) eqn:Ei.
  { eapply ends_ext0; [|apply ends_loop_end]. intros m n [[[pk|] i] mi] (Ho & _ & _); [|contradiction]. cbn [fst snd okeq] in *.
    destruct Ho as (_ & _ & _ & _ & _ & _ & <- & _). rewrite Em, Ei. reflexivity. }
  set (mt := if starts_with main (lit "./") then main else lit "./" ++ main).
  assert (Hdot : starts_with mt (lit "./") = true).
  { unfold mt. destruct (starts_with main (lit "./")) eqn:E; [exact E|apply starts_with_app]. }
  assert (Hmain : main_at fs R p mt).
  { exists pk0, fld, main. repeat split; auto; try (apply Hincl; left; reflexivity); intros ->; vm_compute in Ei; discriminate Ei. }
  pose (good := fun s => match s with Success _ => True | Resolving j | SError _ j => is_abs (i_path j) = true /\ (i_path j = p \/ main_dir fs R p (i_path j)) end).
  eapply ends_ext0 with (P' := fun m n x => s <- and_then (and_then (alias_field_apply R n (Some (match fst (fst x) with Some pk => pk | None => pk0 end)) (with_target (snd x) mt)) (resolve_as_file R)) (P m n) ;;
     if is_success s then Ret s else mi'' <- extract_info s ;; main_field_loop R (P m n) n (match fst (fst x) with Some pk => pk | None => pk0 end) (snd (fst x)) fields mi'').
  { intros m n [[[pk|] i] mi] (Ho & _ & _); [|contradiction]. cbn [fst snd okeq] in *.
    destruct Ho as (_ & _ & _ & _ & _ & _ & <- & _). rewrite Em, Ei. unfold mt. destruct (starts_with main (lit "./")); reflexivity. }
  apply (ends_next (Some pk0) i0 mi0 good
    (fun m n x => and_then (and_then (alias_field_apply R n (Some (match fst (fst x) with Some pk => pk | None => pk0 end)) (with_target (snd x) mt)) (resolve_as_file R)) (P m n))
    (fun m n o i mi => main_field_loop R (P m n) n (match o with Some pk => pk | None => pk0 end) i fields mi)).
  2:{ intros j0 e [[H1 H2]|[H1 H2]]; apply IH; assumption. }
  refine (ends_map ok _ (doi (Some pk0) (with_target mi0 mt)) _ _
      (fun m n oi => and_then (and_then (alias_field_apply R n (fst oi) (snd oi)) (resolve_as_file R)) (P m n))
      (fun x => (Some (match fst (fst x) with Some pk => pk | None => pk0 end), with_target (snd x) mt)) _ _).
  { intros [[[pk|] i] mi] (Ho & _ & Hm); [|contradiction]. split; [exact Ho|]. apply iweak_target, Hm. }
  set (mi1 := with_target mi0 mt).
  pose (cand := fun j0 => j0 = mi1 \/ exists c, browser_at fs R p c /\ j0 = with_target (with_path mi1 p) c).
  assert (Hcand : forall j0, cand j0 -> is_abs (i_path j0) = true /\ (i_path j0 = p \/ main_dir fs R p (i_path j0)) /\ (f_dir fs (get_path j0) = false \/ main_dir fs R p (get_path j0))).
  { intros j0 [->|(c & Hc & ->)].
    - split; [exact Ha|]. split; [exact Hmi|]. unfold mi1. rewrite dot_target by exact Hdot. destruct (f_dir fs (join (i_path mi0) mt)) eqn:Ed; [right|left; reflexivity].
      destruct Hmi as [E|Hd]; [rewrite E in *; apply MdMain; assumption|apply MdDrift; assumption].
    - split; [exact Hap|]. split; [left; reflexivity|]. destruct (f_dir fs (get_path (with_target (with_path mi1 p) c))) eqn:Ed; [right|left; reflexivity].
      eapply MdBrowser; [exact Hmain|exact Hc|reflexivity|exact Ed]. }
  apply (ends_then_i (Some pk0) mi1 (fun s => (exists r, s = Success r) \/ exists j0, cand j0 /\ s = Resolving j0) good (fun m n o i => and_then (alias_field_apply R n o i) (resolve_as_file R)) P).
  - apply (ends_then_i (Some pk0) mi1 (fun s => (exists r, s = Success r) \/ exists j0, cand j0 /\ s = Resolving j0) (fun s => (exists r, s = Success r) \/ exists j0, cand j0 /\ s = Resolving j0) (fun m n o i => alias_field_apply R n o i) (fun _ _ i => resolve_as_file R i)).
    + eapply ends_weaken; [|apply ends_alias_field; intros pk1 E; injection E as <-; exact Hk].
      intros s [[r ->]|[->|(pk1 & k & c & E & Eb & Hin & ->)]].
      * exists (Success r). split; [left; eauto|auto].
      * exists (Resolving mi1). split; [right; exists mi1; split; [left|]; reflexivity|auto].
      * injection E as <-. exists (Resolving (with_target (with_path mi1 p) c)). split.
        -- right. exists (with_target (with_path mi1 p) c). split; [|reflexivity]. right. exists c. split; [|reflexivity]. split; [exact Eb|]. exists pk0, k. auto.
        -- intros b Hb. destruct b as [r|j|e j]; try contradiction. cbn [sr] in *. destruct Hb as [H1 H2]. split; [exact H1|].
           cbn in H2 |- *. unfold same_path in *. congruence.
    + intros r. left. eauto.
    + intros e i [[r E]|(j0 & _ & E)]; discriminate.
    + intros i1 [[r E]|(j0 & Hj & E)]; [discriminate|]. injection E as ->. eapply ends_post; [|apply ends_as_file]. intros s [->|[r ->]]; [right; eauto|left; eauto].
  - intros r. exact I.
  - intros e i [[r E]|(j0 & _ & E)]; discriminate.
  - intros i1 [[r E]|(j0 & Hj & E)]; [discriminate|]. injection E as ->. destruct (Hcand j0 Hj) as (H1 & H2 & H3).
    eapply ends_post; [|apply Hrad; assumption]. intros s [[r ->]|[[e ->]|[Hd ->]]]; [exact I|split; assumption|].
    cbn. split; [apply get_path_abs, H1|]. right. destruct H3 as [H3|H3]; [congruence|exact H3].
Qed.

(** ** Directories *)
Lemma ends_no_dir : forall i0, f_dir fs (get_path i0) = false -> Ends (iweak i0) sr (as_dir_of i0) (fun m n i => resolve_as_dir R (load m) n i).
Proof.
  intros i0 Hd. exists 1, [SError TAG i0]. split; [constructor; [right; left; eauto|constructor]|]. intros m [|n] i _ Hn Hi; [lia|]. cbn [resolve_as_dir].
  cbn [act bind]. apply md_act; [exact I|]. intros b Hb. apply Hdirs in Hb. rewrite <- (sf_dir _ Hfs _ _ (get_path_same _ _ Hi)), Hd in Hb. subst b. cbn [negb]. apply md_done. exists (SError TAG i0). split; [left; reflexivity|exact Hi].
Qed.
Lemma ends_as_dir_acc : forall p, stops (main_dir fs R) p -> forall i0, get_path i0 = p -> is_abs (i_path i0) = true ->
  Ends (iweak i0) sr (as_dir_of i0) (fun m n i => resolve_as_dir R (load m) n i).
Proof.
  intros p Hp. induction Hp as [p _ IH]. intros i0 E Ha.
  destruct (f_dir fs p) eqn:Ed; [|apply ends_no_dir; rewrite E; exact Ed].
  assert (Hap : is_abs p = true) by (rewrite <- E; apply get_path_abs, Ha).
  set (i1 := with_target (with_path i0 p) []).
  eapply ends_ext with (P' := fun m n i => Do (OIsDir (get_path i)) (fun d => if negb d then Ret (SError TAG i) else
        lp <- load m (get_path i) ;;
        match lp with
        | Err e => Ret (SError e i)
        | Ok opk =>
            and_then (main_field_apply R (resolve_as_dir R (load m) (pred n)) n opk (with_target (with_path i (get_path i)) []))
                     (main_file_apply R (load m) n opk)
        end)).
  { exists 1. intros m [|n] i _ Hn _; [lia|]. reflexivity. }
  apply (ends_isdir _ _ _ get_path p); [intros i Hi; rewrite <- E; apply get_path_same, Hi| |intros; congruence]. intros _. cbn [negb].
  eapply ends_bind; [apply (ends_load (iweak i0) get_path p Hap)|].
  { intros i Hi. rewrite <- E. apply get_path_same, Hi. }
  intros [o0|e] Hlk.
  2:{ eapply ends_ext0 with (P' := fun _ _ xa => Ret (SError (match snd xa with Err e => e | _ => [] end) (fst xa))).
      - intros m n [i [o|e']] [_ Hv]; [contradiction|reflexivity].
      - apply ends_ret with (a0 := SError e i0); [right; left; eauto|]. intros [i r] [Hi _]. exact Hi. }
  assert (Hk : forall pk0, o0 = Some pk0 -> known pk0) by (eapply lookup_known; eassumption).
  eapply ends_ext0 with (P' := fun m n xa => and_then (main_field_apply R (resolve_as_dir R (load m) (pred n)) n (match snd xa with Ok o => o | Err _ => None end) (with_target (with_path (fst xa) (get_path (fst xa))) []))
                     (main_file_apply R (load m) n (match snd xa with Ok o => o | Err _ => None end))).
  { intros m n [i [o|e]] [_ Hv]; [reflexivity|contradiction]. }
  refine (ends_map ok _ (doi o0 i1) _ _ (fun m n oi => and_then (main_field_apply R (resolve_as_dir R (load m) (pred n)) n (fst oi) (snd oi)) (main_file_apply R (load m) n (fst oi)))
     (fun xa => (match snd xa with Ok o => o | Err _ => None end, with_target (with_path (fst xa) (get_path (fst xa))) [])) _ _).
  { intros [i [o|e]] [Hi Hv]; [|contradiction]. split; [exact Hv|]. apply iweak_target, iweak_path; [exact Hi|]. rewrite <- E. apply get_path_same, Hi. }
  assert (Hpost : forall s, done_or i1 s -> as_dir_of i0 s).
  { intros s [->|[r ->]]; [right; right; rewrite E; auto|left; eauto]. }
  apply (ends_then o0 i1 (done_or i1) (as_dir_of i0) (fun m n o i => main_field_apply R (resolve_as_dir R (load m) (pred n)) n o i) (fun m n o i => main_file_apply R (load m) n o i)).
  - destruct o0 as [pk0|].
    + apply ends_some. cbn [fst snd main_field_apply].
      apply (ends_if ok _ _ _ (fun ki => negb (path_eqb (i_path (snd ki)) (p_dir (fst ki)))) (negb (path_eqb p (p_dir pk0)))).
      * intros [pk i] [Hpk Hi]. cbn [fst snd] in *. f_equal. apply path_eqb_congr; [symmetry; apply Hi|symmetry; apply Hpk].
      * intros _. apply ends_ret with (a0 := Resolving i1); [left; reflexivity|]. intros [pk i] [_ Hi]. exact Hi.
      * intros He. apply negb_false_iff, path_eqb_comps in He.
        refine (ends_map ok _ (dloop (Some pk0) i1 i1) _ _ (fun m n x => main_field_loop R (resolve_as_dir R (load m) (pred n)) n (match fst (fst x) with Some pk => pk | None => pk0 end) (snd (fst x)) (o_main_fields opts) (snd x))
          (fun ki => (Some (fst ki), snd ki, mkInfo (i_path (snd ki)) (i_req (snd ki)))) _ _).
        { intros [pk i] [Hpk Hi]. repeat split; try assumption; apply Hpk || apply Hi. }
        apply (ends_main_field_loop p pk0 i1 (fun m n i => resolve_as_dir R (load m) (pred n) i)); auto.
        { intros j0 Hj [Hf|Hf]; apply (ends_succ ok _ _ _ (fun m n i => resolve_as_dir R (load m) n i)); [apply ends_no_dir, Hf|]. apply (IH (get_path j0)); auto. }
        { apply incl_refl. }
    + apply ends_none. cbn [fst snd main_field_apply]. apply ends_ret with (a0 := Resolving i1); [left; reflexivity|]. intros i Hi. exact Hi.
  - intros r. left. eauto.
  - intros e i H. apply Hpost, H.
  - intros i2 [H|[r H]]; [|discriminate]. injection H as ->. unfold main_file_apply.
    refine (ends_map ok _ (dloop o0 i1 i1) _ _ (fun m n x => main_file_loop R (load m) n (fst (fst x)) (snd (fst x)) (o_main_files opts) (snd x))
          (fun oi => (fst oi, snd oi, mkInfo (i_path (snd oi)) (i_req (snd oi)))) _ _).
    { intros [o i] [Ho Hi]. repeat split; try assumption; apply Hi. }
    eapply ends_post; [exact Hpost|]. apply ends_main_file_loop; [exact Hk|exact Hap].
Qed.
Lemma ends_as_dir : forall i0, is_abs (i_path i0) = true -> Ends (iweak i0) sr sabs (fun m n i => resolve_as_dir R (load m) n i).
Proof.
  intros i0 Ha. eapply ends_post; [|apply (ends_as_dir_acc (get_path i0)); auto; apply (nc_main _ _ Hnc)].
  intros s [[r ->]|[[e ->]|[Hd ->]]]; [exact I|exact Ha|apply get_path_abs, Ha].
Qed.

(** ** node_modules *)
Definition sumr (x y : stats + stats) : Prop := match x, y with inl s, inl s' => sr s s' | inr s, inr s' => sr s s' | _, _ => False end.
Definition res_abs (s : stats) : Prop := match s with Success _ => True | SError _ i => is_abs (i_path i) = true | Resolving _ => False end.
Definition sum_abs (x : stats + stats) : Prop := match x with inl s => res_abs s | inr s => sabs s end.
Lemma ends_modules_level : forall i0, is_abs (i_path i0) = true -> Ends (iweak i0) sumr sum_abs (fun m n i => modules_level R (load m) n i).
Proof.
  intros i0 Ha. unfold modules_level. set (root0 := join (i_path i0) MODULE). set (t := r_target (i_req i0)).
  assert (Hroot : is_abs root0 = true) by (apply join_abs, Ha).
  assert (Hrs : forall i, iweak i0 i -> same_path root0 (join (i_path i) MODULE)) by (intros i Hi; apply same_path_join, Hi).
  assert (Hsame : forall (X : Type) (D : X -> Prop) (f : X -> info), (forall x, D x -> iweak i0 (f x)) -> Ends D sumr sum_abs (fun _ _ x => Ret (inr (Resolving (f x))))).
  { intros X D f Hf. apply ends_ret with (a0 := inr (Resolving i0)); [exact Ha|]. exact Hf. }
  cbn [act bind]. apply (ends_isdir _ _ _ (fun i => join (i_path i) MODULE) root0); [exact Hrs| |].
  2:{ intros _. cbn [negb]. apply Hsame. auto. }
  intros _. cbn [negb]. destruct (module_name t) as [mname|] eqn:Em.
  2:{ eapply ends_ext0; [|apply (ends_panic ok (iweak i0) sumr sum_abs (fun _ => lit "byte index is not a char boundary"))]. intros m n i [E _]. rewrite <- E. fold t. rewrite Em. reflexivity. }
  set (mi0 := mkInfo root0 (i_req i0)).
  eapply ends_ext0 with (P' := fun m n i => lp <- load m (join (join (i_path i) MODULE) t) ;;
        match lp with
        | Err e => Ret (inl (SError e i))
        | Ok opk =>
            Do (OIsDir (join (join (i_path i) MODULE) mname)) (fun md =>
            if negb md && negb (match opk with Some pk => is_resolve_self pk (mkInfo (join (i_path i) MODULE) (i_req i)) | None => false end) then
              s <- resolve_as_file R (mkInfo (join (i_path i) MODULE) (i_req i)) ;;
              if is_success s then Ret (inr s) else Ret (inr (Resolving i))
            else
              s <- and_then (and_then (and_then (and_then
                     (exports_apply R opk (mkInfo (join (i_path i) MODULE) (i_req i)))
                     (imports_apply R (load m) n opk))
                     (fun i1 =>
                        let i2 := match r_kind (i_req i1) with
                                  | Normal => with_target i1 (lit "./" ++ r_target (i_req i1))
                                  | _ => i1
                                  end in
                        alias_field_apply R n opk i2))
                     (resolve_as_file R))
                     (resolve_as_dir R (load m) n) ;;
              match s with
              | SError e ei => if str_eqb e TAG then Ret (inr (Resolving i)) else Ret (inr (SError e ei))
              | _ => Ret (inr s)
              end)
        end).
  { intros m n i [E _]. rewrite <- E. fold t. rewrite Em. reflexivity. }
  eapply ends_bind; [apply (ends_load (iweak i0) (fun i => join (join (i_path i) MODULE) t) (join root0 t))|].
  { apply join_abs, Hroot. }
  { intros i Hi. apply same_path_join, Hrs, Hi. }
  intros [o0|e] Hlk.
  2:{ eapply ends_ext0 with (P' := fun _ _ xa => Ret (inl (SError (match snd xa with Err e => e | _ => [] end) (fst xa)) : stats + stats)).
      - intros m n [i [o|e']] [_ Hv]; [contradiction|reflexivity].
      - apply ends_ret with (a0 := inl (SError e i0)); [exact Ha|]. intros [i r] [Hi _]. exact Hi. }
  assert (Hk : forall pk0, o0 = Some pk0 -> known pk0) by (eapply lookup_known; [|exact Hlk]; apply join_abs, Hroot).
  pose (D := fun oi : option pkg * info => okeq o0 (fst oi) /\ iweak i0 (snd oi)).
  pose (mi := fun i => mkInfo (join (i_path i) MODULE) (i_req i)).
  assert (Hmi : forall i, iweak i0 i -> iweak mi0 (mi i)) by (intros i Hi; split; [apply Hi|apply Hrs, Hi]).
  pose (A1 := fun (m n : nat) (oi : option pkg * info) => s <- resolve_as_file R (mi (snd oi)) ;; if is_success s then Ret (inr s) else Ret (inr (Resolving (snd oi))) : prog (stats + stats)).
  pose (A2 := fun (m n : nat) (oi : option pkg * info) => s <- and_then (and_then (and_then (and_then
                     (exports_apply R (fst oi) (mi (snd oi)))
                     (imports_apply R (load m) n (fst oi)))
                     (fun i1 =>
                        let i2 := match r_kind (i_req i1) with
                                  | Normal => with_target i1 (lit "./" ++ r_target (i_req i1))
                                  | _ => i1
                                  end in
                        alias_field_apply R n (fst oi) i2))
                     (resolve_as_file R))
                     (resolve_as_dir R (load m) n) ;;
              match s with
              | SError e ei => if str_eqb e TAG then Ret (inr (Resolving (snd oi))) else Ret (inr (SError e ei))
              | _ => Ret (inr s)
              end : prog (stats + stats)).
  assert (H1 : Ends D sumr sum_abs A1).
  { unfold A1. eapply ends_bind.
    - refine (ends_map ok D (iweak mi0) _ _ (fun _ _ i => resolve_as_file R i) (fun oi => mi (snd oi)) _ (ends_as_file mi0)). intros [o i] [_ Hi]. apply Hmi, Hi.
    - intros s [->|[r ->]].
      + eapply ends_ext0; [|apply (Hsame _ _ (fun xa => snd (fst xa))); intros [[o i] s] [[_ Hi] _]; exact Hi]. intros m n [[o i] s] [_ Hv]. cbn [fst snd] in *. destruct s; try contradiction. reflexivity.
      + eapply ends_ext0 with (P' := fun _ _ xa => Ret (inr (snd xa) : stats + stats)); [intros m n [[o i] s] [_ Hv]; cbn [fst snd] in *; destruct s; try contradiction; reflexivity|].
        apply ends_ret with (a0 := inr (Success r)); [exact I|]. intros [x s] [_ Hv]. exact Hv. }
  assert (H2 : Ends D sumr sum_abs A2).
  { unfold A2. eapply ends_bind.
    - refine (ends_map ok D (doi o0 mi0) _ _ (fun m n oi => and_then (and_then (and_then (and_then
                     (exports_apply R (fst oi) (snd oi)) (imports_apply R (load m) n (fst oi)))
                     (fun i1 => let i2 := match r_kind (i_req i1) with
                                  | Normal => with_target i1 (lit "./" ++ r_target (i_req i1))
                                  | _ => i1
                                  end in
                        alias_field_apply R n (fst oi) i2))
                     (resolve_as_file R))
                     (resolve_as_dir R (load m) n)) (fun oi => (fst oi, mi (snd oi))) _ _).
      { intros [o i] [Ho Hi]. split; [exact Ho|apply Hmi, Hi]. }
      apply (ends_then_i o0 mi0 sabs sabs (fun m n o i => and_then (and_then (and_then (exports_apply R o i) (imports_apply R (load m) n o))
                     (fun i1 => let i2 := match r_kind (i_req i1) with
                                  | Normal => with_target i1 (lit "./" ++ r_target (i_req i1))
                                  | _ => i1
                                  end in
                        alias_field_apply R n o i2)) (resolve_as_file R)) (fun m n i => resolve_as_dir R (load m) n i)); try exact (fun _ => I); auto.
      2:{ intros i1 Hi1. apply ends_as_dir, Hi1. }
      apply (ends_then_i o0 mi0 sabs sabs (fun m n o i => and_then (and_then (exports_apply R o i) (imports_apply R (load m) n o))
                     (fun i1 => let i2 := match r_kind (i_req i1) with
                                  | Normal => with_target i1 (lit "./" ++ r_target (i_req i1))
                                  | _ => i1
                                  end in
                        alias_field_apply R n o i2)) (fun m n i => resolve_as_file R i)); try exact (fun _ => I); auto.
      2:{ intros i1 Hi1. apply ends_file_abs, Hi1. }
      apply (ends_then o0 mi0 sabs sabs (fun m n o i => and_then (exports_apply R o i) (imports_apply R (load m) n o))
                     (fun m n o i1 => let i2 := match r_kind (i_req i1) with
                                  | Normal => with_target i1 (lit "./" ++ r_target (i_req i1))
                                  | _ => i1
                                  end in
                        alias_field_apply R n o i2)); try exact (fun _ => I); auto.
      { apply ends_export_import; assumption. }
      intros i1 Hi1. cbn zeta.
      pose (nrm := fun i => match r_kind (i_req i) with Normal => with_target i (lit "./" ++ r_target (i_req i)) | _ => i end).
      refine (ends_map ok _ (doi o0 (nrm i1)) _ _ (fun m n oi => alias_field_apply R n (fst oi) (snd oi)) (fun oi => (fst oi, nrm (snd oi))) _ _).
      { intros [o i] [Ho Hi]. split; [exact Ho|]. unfold nrm. cbn [fst snd] in *. destruct Hi as [E Hp]. rewrite <- E.
        destruct (r_kind (i_req i1)); try (split; assumption). apply iweak_target. split; assumption. }
      apply ends_alias_abs; [exact Hk|]. unfold nrm. destruct (r_kind (i_req i1)); exact Hi1.
    - intros [r|j|e j] Hq; cbn beta.
      + eapply ends_ext0 with (P' := fun _ _ xa => Ret (inr (snd xa) : stats + stats)); [intros m n [[o i] s] [_ Hv]; cbn [fst snd] in *; destruct s; try contradiction; reflexivity|].
        apply ends_ret with (a0 := inr (Success r)); [exact I|]. intros [x s] [_ Hv]. exact Hv.
      + eapply ends_ext0 with (P' := fun _ _ xa => Ret (inr (snd xa) : stats + stats)); [intros m n [[o i] s] [_ Hv]; cbn [fst snd] in *; destruct s; try contradiction; reflexivity|].
        apply ends_ret with (a0 := inr (Resolving j)); [exact Hq|]. intros [x s] [_ Hv]. exact Hv.
      + eapply ends_ext0 with (P' := fun _ _ xa => if match snd xa with SError e _ => str_eqb e TAG | _ => false end then Ret (inr (Resolving (snd (fst xa))) : stats + stats) else Ret (inr (snd xa) : stats + stats)).
        { intros m n [[o i] s] [_ Hv]; cbn [fst snd] in *; destruct s; try contradiction. destruct (str_eqb _ TAG); reflexivity. }
        apply (ends_either ok _ _ _ (fun xa => match snd xa with SError e _ => str_eqb e TAG | _ => false end)).
        * apply Hsame. intros [[o i] s] [[_ Hi] _]. exact Hi.
        * apply ends_ret with (a0 := inr (SError e j)); [exact Hq|]. intros [x s] [_ Hv]. exact Hv. }
  eapply ends_ext0 with (P' := fun m n xa => Do (OIsDir (join (join (i_path (fst xa)) MODULE) mname)) (fun md =>
     if negb md && negb (match (match snd xa with Ok o => o | Err _ => None end) with Some pk => is_resolve_self pk (mi (fst xa)) | None => false end)
     then A1 m n (match snd xa with Ok o => o | Err _ => None end, fst xa) else A2 m n (match snd xa with Ok o => o | Err _ => None end, fst xa))).
  { intros m n [i [o|e]] [_ Hv]; [reflexivity|contradiction]. }
  assert (Hmap : forall P, Ends D sumr sum_abs P -> Ends (fun xa : info * result (option pkg) => iweak i0 (fst xa) /\ lv (Ok o0) (snd xa)) sumr sum_abs (fun m n xa => P m n (match snd xa with Ok o => o | Err _ => None end, fst xa))).
  { intros P HP. refine (ends_map ok _ D _ _ P (fun xa => (match snd xa with Ok o => o | Err _ => None end, fst xa)) _ HP). intros [i [o|e]] [Hi Hv]; [|contradiction]. split; assumption. }
  apply (ends_isdir _ _ _ (fun xa => join (join (i_path (fst xa)) MODULE) mname) (join root0 mname)).
  { intros [i r] [Hi _]. apply same_path_join, Hrs, Hi. }
  - intros _. cbn [negb andb]. apply Hmap, H2.
  - intros _. cbn [negb andb].
    apply (ends_either ok _ _ _ (fun xa => negb (match (match snd xa with Ok o => o | Err _ => None end) with Some pk => is_resolve_self pk (mi (fst xa)) | None => false end))); apply Hmap; assumption.
Qed.
Lemma ends_modules : forall k i0, length (components (i_path i0)) <= k -> is_abs (i_path i0) = true ->
  Ends (iweak i0) sr res_abs (fun m n i => resolve_as_modules R (load m) n i).
Proof.
  induction k as [|k IH]; intros i0 Hlen Ha.
  { apply abs_comps in Ha. destruct Ha as [r Hr]. rewrite Hr in Hlen. cbn in Hlen. lia. }
  eapply ends_ext with (P' := fun m n i => x <- modules_level R (load m) n i ;;
      match x with
      | inl s => Ret s
      | inr s =>
          s' <- and_then (Ret s) (fun i1 =>
                  match parent (i_path i) with
                  | Some q => resolve_as_modules R (load m) (pred n) (with_path i1 q)
                  | None => Ret (Resolving i1)
                  end) ;;
          match s' with
          | Resolving i1 => Ret (SError TAG i1)
          | _ => Ret s'
          end
      end).
  { exists 1. intros m [|n] i _ Hn _; [lia|]. reflexivity. }
  eapply ends_bind; [apply ends_modules_level, Ha|]. intros [s0|s0] Hs0; cbn [sum_abs] in Hs0.
  - eapply ends_ext0 with (P' := fun _ _ xa => Ret (match snd xa with inl s => s | inr s => s end)).
    { intros m n [i [s|s]] [_ Hv]; [reflexivity|contradiction]. }
    apply ends_ret with (a0 := s0); [exact Hs0|]. intros [i [s|s]] [_ Hv]; [exact Hv|contradiction].
  - assert (Hfin : s0 = Success RIgnored \/ (exists e j, s0 = SError e j) \/ (exists r, s0 = Success r) -> Ends (fun xa : info * (stats + stats) => iweak i0 (fst xa) /\ sumr (inr s0) (snd xa)) sr res_abs (fun _ _ xa => Ret (match snd xa with inl s => s | inr s => s end))).
    { intros Hc. apply ends_ret with (a0 := s0); [destruct Hc as [->|[(e & j & ->)|[r ->]]]; exact Hs0|]. intros [i [s|s]] [_ Hv]; [contradiction|exact Hv]. }
    destruct s0 as [r|j0|e j0].
    + eapply ends_ext0; [|apply Hfin; right; right; eauto]. intros m n [i [s|s]] [_ Hv]; [contradiction|]. destruct s; try contradiction. reflexivity.
    + pose proof (fun i (Hi : iweak i0 i) => parent_same (i_path i0) (i_path i) (proj2 Hi)) as Hpar.
      destruct (parent (i_path i0)) as [q0|] eqn:Eq.
      * eapply ends_ext0 with (P' := fun m n xa => s' <- resolve_as_modules R (load m) (pred n) (with_path (match snd xa with inr (Resolving j) => j | _ => j0 end) (match parent (i_path (fst xa)) with Some q => q | None => q0 end)) ;;
            match s' with Resolving i1 => Ret (SError TAG i1) | _ => Ret s' end).
        { intros m n [i [s|s]] [Hi Hv]; [contradiction|]. destruct s as [r|j|e j]; try contradiction. cbn [fst snd] in *. unfold and_then. cbn [bind].
          specialize (Hpar i Hi). destruct (parent (i_path i)) as [q|]; [reflexivity|contradiction]. }
        eapply ends_bind.
        { refine (ends_map ok _ (iweak (with_path j0 q0)) _ _ (fun m n i => resolve_as_modules R (load m) (pred n) i) (fun xa => with_path (match snd xa with inr (Resolving j) => j | _ => j0 end) (match parent (i_path (fst xa)) with Some q => q | None => q0 end)) _ _).
          - intros [i [s|s]] [Hi Hv]; [contradiction|]. destruct s as [r|j|e j]; try contradiction. cbn [fst snd] in *. specialize (Hpar i Hi). destruct (parent (i_path i)) as [q|]; [|contradiction].
            apply iweak_path; assumption.
          - apply (ends_succ ok _ _ _ (fun m n i => resolve_as_modules R (load m) n i)). apply IH; cbn.
            + pose proof (parent_shorter _ _ Eq). lia.
            + eapply parent_abs; eassumption. }
        intros s1 Hs1. eapply ends_ext0 with (P' := fun _ _ xa => Ret (snd xa)).
        { intros m n [x s] [_ Hv]. cbn [fst snd] in *. destruct s1 as [r|j|e j]; [|contradiction|]; destruct s; try contradiction; reflexivity. }
        apply ends_ret with (a0 := s1); [exact Hs1|]. intros [x s] [_ Hv]. exact Hv.
      * eapply ends_ext0 with (P' := fun m n xa => Ret (SError TAG (match snd xa with inr (Resolving j) => j | _ => j0 end))).
        { intros m n [i [s|s]] [Hi Hv]; [contradiction|]. destruct s as [r|j|e j]; try contradiction. cbn [fst snd] in *. unfold and_then. cbn [bind].
          specialize (Hpar i Hi). destruct (parent (i_path i)) as [q|]; [contradiction|reflexivity]. }
        apply ends_ret with (a0 := SError TAG j0); [exact Hs0|]. intros [i [s|s]] [_ Hv]; [contradiction|]. destruct s as [r|j|e j]; try contradiction. exact Hv.
    + eapply ends_ext0; [|apply Hfin; right; left; eauto]. intros m n [i [s|s]] [_ Hv]; [contradiction|]. destruct s; try contradiction. reflexivity.
Qed.

(** ** [_resolve] *)
Lemma ends_pkg_step : forall i0, is_abs (i_path i0) = true -> Ends (iweak i0) sr sabs (fun m n i => pkg_step R (load m) n i).
Proof.
  intros i0 Ha. unfold pkg_step.
  pose (rq := fun i => match r_kind (i_req i) with Normal => join (join (i_path i) MODULE) (r_target (i_req i)) | _ => get_path i end).
  assert (Hrq : forall i, iweak i0 i -> same_path (rq i0) (rq i)).
  { intros i Hi. unfold rq. pose proof (get_path_same _ _ Hi) as Hg. destruct Hi as [E Hp]. rewrite <- E. destruct (r_kind (i_req i0)); try exact Hg. apply same_path_join, same_path_join, Hp. }
  assert (Hra : is_abs (rq i0) = true).
  { unfold rq. destruct (r_kind (i_req i0)); try (apply get_path_abs, Ha). apply join_abs, join_abs, Ha. }
  eapply ends_bind; [apply (ends_load (iweak i0) rq (rq i0) Hra Hrq)|]. intros [o0|e] Hlk.
  - eapply ends_ext0 with (P' := fun m n xa => and_then (imports_apply R (load m) n (match snd xa with Ok o => o | Err _ => None end) (fst xa)) (alias_field_apply R n (match snd xa with Ok o => o | Err _ => None end))).
    { intros m n [i [o|e]] [_ Hv]; [reflexivity|contradiction]. }
    assert (Hk : forall pk0, o0 = Some pk0 -> known pk0) by (eapply lookup_known; eassumption).
    refine (ends_map ok _ (doi o0 i0) _ _ (fun m n oi => and_then (imports_apply R (load m) n (fst oi) (snd oi)) (alias_field_apply R n (fst oi))) (fun xa => (match snd xa with Ok o => o | Err _ => None end, fst xa)) _ _).
    { intros [i [o|e]] [Hi Hv]; [|contradiction]. split; assumption. }
    apply (ends_then o0 i0 sabs sabs (fun m n o i => imports_apply R (load m) n o i) (fun m n o i => alias_field_apply R n o i)); try exact (fun _ => I); auto.
    + apply ends_imports; assumption.
    + intros i1 H1. apply ends_alias_abs; assumption.
  - eapply ends_ext0 with (P' := fun _ _ xa => Ret (SError (match snd xa with Err e => e | _ => [] end) (fst xa))).
    { intros m n [i [o|e']] [_ Hv]; [contradiction|reflexivity]. }
    apply ends_ret with (a0 := SError e i0); [exact Ha|]. intros [i r] [Hi _]. exact Hi.
Qed.
Lemma ends_final_step : forall i0, is_abs (i_path i0) = true -> Ends (iweak i0) sr sabs (fun m n i => final_step R (load m) n i).
Proof.
  intros i0 Ha. unfold final_step.
  assert (H1 : Ends (iweak i0) sr sabs (fun m n i => and_then (resolve_as_file R i) (resolve_as_dir R (load m) n))).
  { apply (ends_and_then (iweak i0) sabs sabs (fun m n i => resolve_as_file R i) (fun m n _ => resolve_as_dir R (load m) n)); try exact (fun _ => I); auto.
    - apply ends_file_abs, Ha.
    - intros i1 Hi1. refine (ends_map ok _ (iweak i1) _ _ (fun m n i => resolve_as_dir R (load m) n i) (fun xi => snd xi) _ (ends_as_dir i1 Hi1)). intros [x i] [_ Hi]. exact Hi. }
  assert (H2 : Ends (iweak i0) sr sabs (fun m n i => resolve_as_modules R (load m) n i)).
  { eapply ends_post; [|apply (ends_modules (length (components (i_path i0)))); auto]. intros [r|j|e j] H; [exact I|contradiction|exact H]. }
  destruct (r_kind (i_req i0)) eqn:Ek; (eapply ends_ext0; [intros m n i [E _]; rewrite <- E, Ek; reflexivity|]); assumption.
Qed.

Lemma ends_rec_try : forall i0 (j0 : info) (g : info -> info) (P : nat -> nat -> info -> prog stats) (Q : nat -> nat -> info -> prog stats),
  (forall i, iweak i0 i -> iweak j0 (g i)) -> Ends (iweak j0) sr res_abs P -> Ends (iweak i0) sr (done_or i0) Q ->
  Ends (iweak i0) sr (done_or i0) (fun m n i => s <- P m n (g i) ;; if is_success s then Ret s else Q m n i).
Proof.
  intros i0 j0 g P Q Hg HP HQ. eapply ends_bind; [refine (ends_map ok _ (iweak j0) _ _ P g Hg HP)|]. intros s0 _.
  eapply ends_ext0 with (P' := fun m n xa => if is_success (snd xa) then Ret (snd xa) else Q m n (fst xa)); [reflexivity|].
  apply (ends_if ok _ _ _ (fun xa => is_success (snd xa)) (is_success s0)).
  - intros [i s] [_ Hv]. cbn [snd] in *. destruct s0, s; try contradiction; reflexivity.
  - intros Es. destruct s0 as [r| |]; try discriminate. apply ends_ret with (a0 := Success r); [right; eauto|]. intros [i s] [_ Hv]. exact Hv.
  - intros _. refine (ends_map ok _ (iweak i0) _ _ Q (fun xa => fst xa) _ HQ). intros [i s] [Hi _]. exact Hi.
Qed.
Lemma ends_resolve : forall t, stops (rewritten opts) t -> forall i0, r_target (i_req i0) = t -> is_abs (i_path i0) = true ->
  Ends (iweak i0) sr res_abs (fun m n i => resolve_ R (load m) n i).
Proof.
  intros t Ht. induction Ht as [t _ IH]. intros i0 Et Ha.
  assert (Hsame : Ends (iweak i0) sr (done_or i0) (fun _ _ i => Ret (Resolving i))).
  { apply ends_ret with (a0 := Resolving i0); [left; reflexivity|]. intros i Hi. exact Hi. }
  assert (Hrec : forall t', rewritten opts t t' -> Ends (iweak (mkInfo (i_path i0) (req_with_target (i_req i0) t'))) sr res_abs (fun m n i => resolve_ R (load m) (pred n) i)).
  { intros t' Hr. apply (ends_succ ok _ _ _ (fun m n i => resolve_ R (load m) n i)). apply (IH t' Hr); [reflexivity|exact Ha]. }
  assert (Hg : forall t' i, iweak i0 i -> iweak (mkInfo (i_path i0) (req_with_target (i_req i0) t')) (mkInfo (i_path i) (req_with_target (i_req i) t'))).
  { intros t' i [E Hp]. split; [cbn; rewrite E; reflexivity|exact Hp]. }
  assert (Hal : Ends (iweak i0) sr (done_or i0) (fun m n i => alias_apply R (resolve_ R (load m) (pred n)) i)).
  { unfold alias_apply. apply (ends_either ok _ _ _ (fun i => contains (i_path i) MODULE)); [exact Hsame|].
    assert (Hl : incl (o_alias opts) (o_alias opts)) by apply incl_refl. revert Hl. generalize (o_alias opts) at 1 3. induction l as [|[from to] l IHl]; intros Hl; cbn [alias_loop]; [exact Hsame|].
    specialize (IHl (fun x Hx => Hl x (or_intror Hx))).
    destruct (starts_with t from) eqn:Ef.
    2:{ eapply ends_ext0; [|exact IHl]. intros m n i [E _]. rewrite <- E, Et, Ef. reflexivity. }
    destruct to as [t1|].
    2:{ eapply ends_ext0 with (P' := fun _ _ _ => Ret (Success RIgnored)); [intros m n i [E _]; rewrite <- E, Et, Ef; reflexivity|]. apply ends_ret with (a0 := Success RIgnored); [right; eauto|]. intros i _. exact I. }
    destruct (str_eqb t t1 || starts_with t t1) eqn:Es.
    { eapply ends_ext0; [|exact IHl]. intros m n i [E _]. rewrite <- E, Et, Ef, Es. reflexivity. }
    eapply ends_ext0 with (P' := fun m n i => s <- resolve_ R (load m) (pred n) (mkInfo (i_path i) (req_with_target (i_req i) (replacen1 t from t1))) ;;
       if is_success s then Ret s else alias_loop (resolve_ R (load m) (pred n)) i l).
    { intros m n i [E _]. rewrite <- E, Et, Ef, Es. reflexivity. }
    apply (ends_rec_try i0 _ (fun i => mkInfo (i_path i) (req_with_target (i_req i) (replacen1 t from t1))) (fun m n i => resolve_ R (load m) (pred n) i) (fun m n i => alias_loop (resolve_ R (load m) (pred n)) i l) (Hg _)).
    - apply Hrec. apply RwAlias; [apply Hl; left; reflexivity|exact Ef|]. apply orb_false_iff in Es. apply Es.
    - exact IHl. }
  assert (Hpr : Ends (iweak i0) sr (done_or i0) (fun m n i => prefer_relative_apply R (resolve_ R (load m) (pred n)) i)).
  { unfold prefer_relative_apply. destruct (starts_with t (lit "../") || starts_with t (lit "./")) eqn:Ed.
    { eapply ends_ext0; [|exact Hsame]. intros m n i [E _]. rewrite <- E, Et, Ed. reflexivity. }
    destruct (o_prefer_relative opts) eqn:Ep.
    2:{ eapply ends_ext0; [|exact Hsame]. intros m n i [E _]. rewrite <- E, Et, Ed. reflexivity. }
    eapply ends_ext0 with (P' := fun m n i => s <- resolve_ R (load m) (pred n) (mkInfo (i_path i) (req_with_target (i_req i) (lit "./" ++ t))) ;; if is_success s then Ret s else Ret (Resolving i)).
    { intros m n i [E _]. rewrite <- E, Et, Ed. reflexivity. }
    apply (ends_rec_try i0 _ (fun i => mkInfo (i_path i) (req_with_target (i_req i) (lit "./" ++ t))) (fun m n i => resolve_ R (load m) (pred n) i) (fun m n i => Ret (Resolving i)) (Hg _)); [|exact Hsame].
    apply Hrec. apply orb_false_iff in Ed. apply RwRelative; tauto. }
  eapply ends_ext with (P' := fun m n i => s <- and_then (and_then (and_then (alias_apply R (resolve_ R (load m) (pred n)) i)
      (prefer_relative_apply R (resolve_ R (load m) (pred n)))) (pkg_step R (load m) n)) (final_step R (load m) n) ;;
      match s with
      | Success r => Ret (Success r)
      | SError e ei => Ret (SError (if str_eqb e TAG then resolve_failed_message i else e) ei)
      | Resolving _ => Panic p_unreachable
      end).
  { exists 1. intros m [|n] i _ Hn _; [lia|]. reflexivity. }
  assert (Hch : Ends (iweak i0) sr sabs (fun m n i => and_then (and_then (and_then (alias_apply R (resolve_ R (load m) (pred n)) i)
      (prefer_relative_apply R (resolve_ R (load m) (pred n)))) (pkg_step R (load m) n)) (final_step R (load m) n))).
  { assert (Hthen : forall (Q Q' : stats -> Prop) (P F : nat -> nat -> info -> prog stats), Ends (iweak i0) sr Q P -> (forall r, Q' (Success r)) -> (forall e i, Q (SError e i) -> Q' (SError e i)) ->
       (forall i1, Q (Resolving i1) -> Ends (iweak i1) sr Q' F) -> Ends (iweak i0) sr Q' (fun m n i => and_then (P m n i) (F m n))).
    { intros Q Q' P F HP Hs He HF. apply (ends_and_then (iweak i0) Q Q' P (fun m n _ => F m n)); auto. intros i1 H1.
      refine (ends_map ok _ (iweak i1) _ _ F (fun xi => snd xi) _ (HF i1 H1)). intros [x i] [_ Hi]. exact Hi. }
    apply (Hthen sabs sabs (fun m n i => and_then (and_then (alias_apply R (resolve_ R (load m) (pred n)) i) (prefer_relative_apply R (resolve_ R (load m) (pred n)))) (pkg_step R (load m) n)) (fun m n i => final_step R (load m) n i)); try exact (fun _ => I); auto.
    2:{ intros i1 H1. apply ends_final_step, H1. }
    apply (Hthen (done_or i0) sabs (fun m n i => and_then (alias_apply R (resolve_ R (load m) (pred n)) i) (prefer_relative_apply R (resolve_ R (load m) (pred n)))) (fun m n i => pkg_step R (load m) n i)); try exact (fun _ => I).
    2:{ intros e i [E|[r E]]; discriminate. }
    2:{ intros i1 [E|[r E]]; [injection E as ->; apply ends_pkg_step, Ha|discriminate]. }
    apply (Hthen (done_or i0) (done_or i0) (fun m n i => alias_apply R (resolve_ R (load m) (pred n)) i) (fun m n i => prefer_relative_apply R (resolve_ R (load m) (pred n)) i)).
    - exact Hal.
    - intros r. right. eauto.
    - auto.
    - intros i1 [E|[r E]]; [injection E as ->; exact Hpr|discriminate]. }
  eapply ends_bind; [exact Hch|]. intros [r|j|e j] Hs; cbn beta.
  - eapply ends_ext0 with (P' := fun _ _ xa => Ret (snd xa)); [intros m n [i s] [_ Hv]; cbn [fst snd] in *; destruct s; try contradiction; reflexivity|].
    apply ends_ret with (a0 := Success r); [exact I|]. intros [i s] [_ Hv]. exact Hv.
  - eapply ends_ext0; [|apply (ends_panic ok _ sr res_abs (fun _ => p_unreachable))]. intros m n [i s] [_ Hv]; cbn [fst snd] in *; destruct s; try contradiction; reflexivity.
  - eapply ends_ext0 with (P' := fun _ _ xa => Ret (match snd xa with SError e ei => SError (if str_eqb e TAG then resolve_failed_message (fst xa) else e) ei | s => s end)).
    { intros m n [i s] [_ Hv]; cbn [fst snd] in *; destruct s; try contradiction; reflexivity. }
    apply ends_ret with (a0 := SError e j); [exact Hs|]. intros [i s] [_ Hv]. cbn [fst snd] in *. destruct s; try contradiction. exact Hv.
Qed.

(** ** tsconfig and the top *)
Lemma go_ended_bind {A B} : forall (p : prog A) (f : A -> prog B), go ended p -> (forall a, go ended (f a)) -> go ended (bind p f).
Proof. intros p f Hp Hf. apply md_bind. eapply md_mono; [|exact Hp]. intros [a|m|] H; [apply Hf|discriminate|contradiction H; reflexivity]. Qed.
Lemma go_ended_try {A B} : forall (p : prog (result A)) (f : A -> prog (result B)), go ended p -> (forall a, go ended (f a)) -> go ended (try_ p f).
Proof. intros p f Hp Hf. apply go_ended_bind; [exact Hp|]. intros [a|e]; [apply Hf|apply md_done; discriminate]. Qed.
Definition finite {X A} (D : X -> Prop) (P : nat -> nat -> X -> prog A) : Prop :=
  exists N, forall m n x, N <= m -> N <= n -> D x -> go ended (P m n x).
Lemma ends_finite {X A} : forall (D : X -> Prop) (V : A -> A -> Prop) Q P, Ends D V Q P -> finite D P.
Proof.
  intros D V Q P (N & L & _ & H). exists N. intros m n x Hm Hn Hx. eapply md_mono; [|apply (H m n x Hm Hn Hx)].
  intros [a|e|]; cbn; [discriminate|discriminate|contradiction].
Qed.
Lemma finite_list {X A} : forall (D : X -> Prop) (L : list (nat -> nat -> X -> prog A)), Forall (finite D) L ->
  exists N, forall P m n x, In P L -> N <= m -> N <= n -> D x -> go ended (P m n x).
Proof.
  intros D L H. induction H as [|P L [N HP] HL [N' IH]]; [exists 0; intros P m n x []|].
  exists (Nat.max N N'). intros P' m n x [<-|Hin] Hm Hn Hx; [apply HP; (lia || exact Hx)|apply IH; (lia || assumption)].
Qed.
Lemma match_star_end : forall p s, match_star p s <> PFuel.
Proof.
  intros p s. unfold match_star. repeat match goal with |- (if ?b then _ else _) <> _ => destruct b | |- match ?x with _ => _ end <> _ => destruct x end; discriminate.
Qed.
Lemma ts_json_end : forall j, ts_of_json j <> PFuel.
Proof.
  assert (H1 : forall l, all_strings l <> PFuel).
  { induction l as [|v l IH]; cbn [all_strings]; [discriminate|]. destruct (as_str v); [|discriminate]. apply pbind_end; [exact IH|discriminate]. }
  assert (H2 : forall l acc, paths_entries l acc <> PFuel).
  { induction l as [|[k v] l IH]; intros acc; cbn [paths_entries]; [discriminate|]. destruct (as_array v); [|discriminate]. apply pbind_end; [apply H1|]. intros. apply IH. }
  intros j. unfold ts_of_json. destruct (jget j _) as [o|]; [|discriminate]. apply pbind_end.
  - destruct (jget o _) as [v|]; [|discriminate]. destruct (as_str v); discriminate.
  - intros b _. apply pbind_end; [|discriminate]. destruct (jget o _) as [v|]; [|discriminate]. destruct (as_object v) as [l|]; [|discriminate].
    apply pbind_end; [apply H2|discriminate].
Qed.
Lemma replace_abs : forall p star, is_abs p = true -> is_abs (replace_char p c_star star) = true.
Proof.
  intros p star H. unfold is_abs in *. apply starts_with_char_spec in H. destruct H as [r ->]. unfold replace_char. cbn [flat_map].
  replace (c_slash =? c_star)%N with false by reflexivity. apply starts_with_char_spec. cbn [app]. eauto.
Qed.
Lemma ts_entry_end : forall star paths, stops (rewritten opts) [] -> Forall (fun p => is_abs p = true) paths ->
  exists N, forall m n, N <= m -> N <= n -> go ended (ts_paths_loop R (load m) n star paths).
Proof.
  intros star paths Hst Hp. induction Hp as [|p paths Ha Hp [N' IH]]; [exists 0; intros m n _ _; apply md_done; discriminate|].
  destruct (ends_finite _ _ _ _ (ends_resolve [] Hst (mkInfo (replace_char p c_star star) empty_request) eq_refl (replace_abs p star Ha))) as [N HN].
  exists (Nat.max N N'). intros m n Hm Hn. cbn [ts_paths_loop]. apply go_ended_bind; [apply HN; [lia|lia|apply iweak_refl]|].
  intros s. destruct (is_success s); [apply md_done; discriminate|]. apply IH; lia.
Qed.
Definition entry_end (i0 : info) (N : nat) (e : str * list path) : Prop :=
  forall star m n, (star = [] \/ match_star (fst e) (r_target (i_req i0)) = PRet (Some star)) -> N <= m -> N <= n -> go ended (ts_paths_loop R (load m) n star (snd e)).
Lemma ts_entries_end : forall i0 l, stops (rewritten opts) [] -> Forall (fun e => Forall (fun p => is_abs p = true) (snd e)) l -> exists N, Forall (entry_end i0 N) l.
Proof.
  intros i0 l Hst Hl. induction Hl as [|e l He Hl [N' IH]]; [exists 0; constructor|].
  destruct (ts_entry_end [] (snd e) Hst He) as [N1 H1].
  assert (H2 : exists N2, forall star m n, match_star (fst e) (r_target (i_req i0)) = PRet (Some star) -> N2 <= m -> N2 <= n -> go ended (ts_paths_loop R (load m) n star (snd e))).
  { destruct (match_star (fst e) (r_target (i_req i0))) as [[star|]| |]; try (exists 0; discriminate).
    destruct (ts_entry_end star (snd e) Hst He) as [N2 H2]. exists N2. intros star' m n E. injection E as <-. apply H2. }
  destruct H2 as [N2 H2]. exists (Nat.max N' (Nat.max N1 N2)). constructor.
  - intros star m n [->|E] Hm Hn; [apply H1; lia|apply H2; [exact E|lia|lia]].
  - eapply Forall_impl; [|exact IH]. intros e' H star m n Hs Hm Hn. apply H; [exact Hs|lia|lia].
Qed.
Lemma ts_loop_end : forall i0 m n l, (forall e, In e l -> entry_end i0 (Nat.min m n) e) -> go ended (resolve_ R (load m) n i0) -> go ended (ts_entries_loop R (load m) n i0 l).
Proof.
  intros i0 m n l Hl Hr. induction l as [|[pat paths] l IH]; cbn [ts_entries_loop]; [exact Hr|].
  specialize (IH (fun e He => Hl e (or_intror He))). pose proof (Hl (pat, paths) (or_introl eq_refl)) as He.
  assert (Hk : forall star, star = [] \/ match_star pat (r_target (i_req i0)) = PRet (Some star) -> go ended
     (x <- ts_paths_loop R (load m) n star paths ;; match x with Some s => Ret s | None => ts_entries_loop R (load m) n i0 l end)).
  { intros star Hs. apply go_ended_bind; [apply (He star m n Hs); lia|]. intros [s|]; [apply md_done; discriminate|exact IH]. }
  destruct (str_eqb pat (r_target (i_req i0))); cbn [bind].
  - apply Hk. left; reflexivity.
  - destruct (match_star pat (r_target (i_req i0))) as [[star|]|e|] eqn:E; cbn [lift bind].
    + apply Hk. right. reflexivity.
    + exact IH.
    + apply md_panicked. discriminate.
    + contradiction (match_star_end _ _ E).
Qed.
Lemma normalize_end : forall r, go ended (normalize_result R r).
Proof.
  intros [i|]; [|apply md_done; discriminate]. unfold normalize_result. destruct (rv_debug R && _); [apply md_panicked; discriminate|]. apply go_ended_try; [|intros a; apply md_done; discriminate].
  unfold normalize_path. destruct (o_symlinks opts); [|apply md_done; discriminate]. cbn [act bind]. apply md_act; [exact I|]. intros [q|] _; apply md_done; discriminate.
Qed.
(** ** What a tsconfig extends *)
Section Tsconfig.
(** The answers that results of resolutions come from. *)
Variable okr : resolver -> forall o, ans o -> Prop.
Hypothesis Hgive : forall m n i, go (fun r => match r with Done a => may_give (okr R) (resolve_ R (load m) n i) a | _ => True end) (resolve_ R (load m) n i).
Definition jsr (r r' : result json) : Prop := match r, r' with Ok j, Ok j' => j = j' | Err _, Err _ => True | _, _ => False end.
Lemma target_path : forall i, r_target (i_req i) = [] -> get_path i = i_path i.
Proof. intros i H. unfold get_path. rewrite H. reflexivity. Qed.
Lemma parse_end : forall location rank, ranked fs R okr location rank -> (forall p x, rank p <> None -> md_ok M (ORead p) x -> x = f_read fs p) -> forall k loc0, rank loc0 = Some k ->
  Ends (same_tail loc0) jsr (fun _ => True) (fun m n loc => parse_file_to_value R (load m) n loc).
Proof.
  intros location rank Hrk Hreads k. induction k as [k IH] using (well_founded_induction lt_wf). intros loc0 Ek.
  assert (Hab : is_abs loc0 = true) by (apply (rk_abs _ _ _ _ _ Hrk); congruence).
  assert (Hread : forall loc, same_tail loc0 loc -> f_read fs loc = f_read fs loc0) by (intros loc H; symmetry; apply (sf_read _ Hfs _ _ H)).
  pose (cont := fun (m n : nat) (loc : path) (c : option str) =>
    match c with
    | None => Ret (Err (lit "Open " ++ loc ++ lit " failed"))
    | Some s => match rv_jsonc R s with
      | JCErr e => Ret (Err (lit "Parse " ++ loc ++ lit " failed. Error: " ++ e))
      | JCNone => Panic (lit "Transfer " ++ loc ++ lit " to serde value failed")
      | JCVal j => match jget j (lit "extends") with
        | Some (JStr ext) => match parent loc with
          | None => Panic (lit "called `Option::unwrap()` on a `None` value")
          | Some dir => st <- resolve_ R (load m) n (mkInfo dir (parse ext)) ;;
              match st with
              | Success (RInfo i) => try_ (parse_file_to_value R (load m) (pred n) (get_path i)) (fun base => Ret (Ok (merge j base)))
              | Success RIgnored => Ret (Err (ext ++ lit " had been ignored in " ++ loc))
              | _ => Ret (Ok j)
              end
          end
        | _ => Ret (Ok j)
        end
      end
    end).
  assert (Hcont : Ends (same_tail loc0) jsr (fun _ => True) (fun m n loc => cont m n loc (f_read fs loc0))).
  2:{ destruct Hcont as (N & L & HL & H). exists (S N), L. split; [exact HL|]. intros m [|n] loc Hm Hn Hl; [lia|].
      cbn [parse_file_to_value act bind]. apply md_act; [exact I|]. intros c Hc. apply Hreads in Hc; [|rewrite <- (rk_spell _ _ _ _ _ Hrk _ _ Hl); congruence]. rewrite Hread in Hc by exact Hl. subst c. apply (H m (S n) loc); (lia || exact Hl). }
  unfold cont. destruct (f_read fs loc0) as [s|] eqn:Es.
  2:{ apply ends_ret with (a0 := Err []); cbn; auto. }
  destruct (rv_jsonc R s) as [e| |j] eqn:Ej.
  { apply ends_ret with (a0 := Err []); cbn; auto. }
  { apply ends_panic. }
  assert (Hsame : Ends (same_tail loc0) jsr (fun _ => True) (fun _ _ _ => Ret (Ok j))) by (apply ends_ret with (a0 := Ok j) (f := fun _ => Ok j); cbn; auto).
  destruct (jget j (lit "extends")) as [[| | |e| |]|] eqn:Ee; try exact Hsame.
  assert (Htext : forall loc, same_tail loc0 loc -> extends_text fs R loc e).
  { intros loc Hl. exists s, j. rewrite Hread by exact Hl. auto. }
  assert (Hstop : stops (rewritten opts) (r_target (parse e))).
  { eapply (rk_text _ _ _ _ _ Hrk loc0); [congruence|apply Htext, same_tail_refl]. }
  destruct (parent loc0) as [dir0|] eqn:Ep.
  2:{ eapply ends_ext0; [|apply (ends_panic ok _ _ _ (fun _ => lit "called `Option::unwrap()` on a `None` value"))]. intros m n loc Hl. cbn beta.
      pose proof (parent_same _ _ (same_tail_path _ _ Hl)) as Hp. rewrite Ep in Hp. destruct (parent loc); [contradiction|reflexivity]. }
  set (dir := fun loc => match parent loc with Some d => d | None => dir0 end).
  assert (Hdir : forall loc, same_tail loc0 loc -> parent loc = Some (dir loc) /\ same_path dir0 (dir loc)).
  { intros loc Hl. pose proof (parent_same _ _ (same_tail_path _ _ Hl)) as Hp. rewrite Ep in Hp. unfold dir. destruct (parent loc) as [d|]; [|contradiction]. auto. }
  pose (F := fun (m n : nat) (loc : path) (st : stats) =>
     match st with
     | Success (RInfo i) => try_ (parse_file_to_value R (load m) (pred n) (get_path i)) (fun base => Ret (Ok (merge j base)))
     | Success RIgnored => Ret (Err (e ++ lit " had been ignored in " ++ loc))
     | _ => Ret (Ok j)
     end).
  eapply ends_ext0 with (P' := fun m n loc => bind (resolve_ R (load m) n (mkInfo (dir loc) (parse e))) (F m n loc)).
  { intros m n loc Hl. cbn beta. destruct (Hdir loc Hl) as [-> _]. reflexivity. }
  apply (ends_bind_with ok Hand (fun loc st => forall i, st = Success (RInfo i) -> extends_by fs R okr loc (get_path i)) (same_tail loc0) sr jsr res_abs (fun _ => True)).
  { refine (ends_map ok _ _ _ _ (fun m n i => resolve_ R (load m) n i) (fun loc => mkInfo (dir loc) (parse e)) _
      (ends_resolve _ Hstop (mkInfo dir0 (parse e)) eq_refl (parent_abs _ _ Ep Hab))).
    intros loc Hl. split; [reflexivity|]. apply Hdir, Hl. }
  { intros m n loc Hl. eapply md_mono; [|apply Hgive]. intros [st|x|]; auto. intros Hm i ->.
    exists e, (dir loc), (rv_cache R), (rv_id R), m, n, i. split; [apply Htext, Hl|]. split; [apply Hdir, Hl|]. cbv zeta.
    rewrite moved_self. split; [exact Hm|reflexivity]. }
  intros s0 _.
  assert (Hj : forall (D : path * stats -> Prop), (forall x, D x -> exists i, snd x = Resolving i \/ exists t, snd x = SError t i) ->
     Ends D jsr (fun _ => True) (fun m n xa => F m n (fst xa) (snd xa))).
  { intros D HD. eapply ends_ext0 with (P' := fun _ _ _ => Ret (Ok j)); [|apply ends_ret with (a0 := Ok j) (f := fun _ => Ok j); cbn; auto].
    intros m n [loc st] Hx. destruct (HD _ Hx) as (i & [E|[t E]]); cbn [fst snd] in *; subst st; reflexivity. }
  destruct s0 as [[i0|]|i0|t0 i0].
  - destruct (rank (i_path i0)) as [k'|] eqn:Ek'.
    2:{ apply ends_void. intros [loc st] (Hl & Hs & Hx). cbn [fst snd] in *. destruct st as [[i|]|i|t i]; try contradiction. destruct Hs as (Hq & Ht & Hp).
        destruct (rk_next _ _ _ _ _ Hrk loc (get_path i) k) as (k1 & E1 & _); [rewrite <- (rk_spell _ _ _ _ _ Hrk _ _ Hl); exact Ek|apply Hx; reflexivity|].
        rewrite target_path in E1 by congruence. rewrite <- (rk_spell _ _ _ _ _ Hrk _ _ Hp) in E1. congruence. }
    destruct (lt_dec k' k) as [Hlt|Hge].
    2:{ apply ends_void. intros [loc st] (Hl & Hs & Hx). cbn [fst snd] in *. destruct st as [[i|]|i|t i]; try contradiction. destruct Hs as (Hq & Ht & Hp).
        destruct (rk_next _ _ _ _ _ Hrk loc (get_path i) k) as (k1 & E1 & Hk1); [rewrite <- (rk_spell _ _ _ _ _ Hrk _ _ Hl); exact Ek|apply Hx; reflexivity|].
        rewrite target_path in E1 by congruence. rewrite <- (rk_spell _ _ _ _ _ Hrk _ _ Hp) in E1. rewrite Ek' in E1. injection E1 as <-. contradiction. }
    set (at_ := fun x : path * stats => match snd x with Success (RInfo i) => i_path i | _ => i_path i0 end).
    eapply ends_ext0 with (P' := fun m n xa => try_ (parse_file_to_value R (load m) (pred n) (at_ xa)) (fun base => Ret (Ok (merge j base)))).
    { intros m n [loc st] (Hl & Hs & Hx). cbn [fst snd] in *. destruct st as [[i|]|i|t i]; try contradiction. destruct Hs as (Hq & Ht & Hp).
      unfold F, at_. cbn [snd]. rewrite target_path by congruence. reflexivity. }
    unfold try_. apply (ends_bind ok _ jsr jsr (fun _ => True) (fun _ => True) (fun m n xa => parse_file_to_value R (load m) (pred n) (at_ xa))
       (fun _ _ _ r => match r with Ok a => Ret (Ok (merge j a)) | Err e => Ret (Err e) end)).
    { refine (ends_map ok _ (same_tail (i_path i0)) _ _ (fun m n loc => parse_file_to_value R (load m) (pred n) loc) at_ _ _).
      - intros [loc st] (Hl & Hs & Hx). cbn [fst snd] in *. unfold at_. cbn [snd]. destruct st as [[i|]|i|t i]; try contradiction. apply Hs.
      - apply ends_succ. apply (IH k' Hlt). exact Ek'. }
    intros [b|e0] _.
    + eapply ends_ext0 with (P' := fun _ _ _ => Ret (Ok (merge j b))); [|apply ends_ret with (a0 := Ok (merge j b)) (f := fun _ => Ok (merge j b)); cbn; auto].
      intros m n [x r] [_ Hr]. cbn [fst snd] in *. destruct r; [cbn in Hr; subst; reflexivity|contradiction].
    + eapply ends_ext0 with (P' := fun _ _ xa => Ret (match snd xa with Err e => Err e | Ok _ => Err [] end)).
      * intros m n [x r] [_ Hr]. cbn [fst snd] in *. destruct r; [contradiction|reflexivity].
      * apply ends_ret with (a0 := Err []); [exact I|]. intros [x r] [_ Hr]. cbn [fst snd] in *. destruct r; [contradiction|exact I].
  - eapply ends_ext0 with (P' := fun _ _ xa => Ret (Err (e ++ lit " had been ignored in " ++ fst xa))); [|apply ends_ret with (a0 := Err []); cbn; auto].
    intros m n [loc st] (_ & Hs & _). cbn [fst snd] in *. destruct st as [[i|]|i|t i]; try contradiction. reflexivity.
  - apply Hj. intros [loc st] (_ & Hs & _). cbn [fst snd] in *. destruct st as [[i|]|i|t i]; try contradiction. eauto.
  - apply Hj. intros [loc st] (_ & Hs & _). cbn [fst snd] in *. destruct st as [[i|]|i|t i]; try contradiction. eauto.
Qed.

End Tsconfig.
Lemma top_end_by : forall okr base req,
  (o_tsconfig opts <> None ->
     forall m n i, go (fun r => match r with Done a => may_give (okr R) (resolve_ R (load m) n i) a | _ => True end) (resolve_ R (load m) n i)) ->
  is_abs base = true -> stops (rewritten opts) (r_target (parse req)) ->
  (forall loc, o_tsconfig opts = Some loc -> stops (rewritten opts) [] /\ exists rank, ranked fs R okr loc rank /\
     forall p x, rank p <> None -> md_ok M (ORead p) x -> x = f_read fs p) ->
  exists N, forall m n, N <= m -> N <= n -> go ended (resolve_with R (load m) n base req).
Proof.
  intros okr base req Hxa Ha Hst Hts. set (i0 := mkInfo base (parse req)).
  destruct (ends_finite _ _ _ _ (ends_resolve (r_target (parse req)) Hst i0 eq_refl Ha)) as [N0 H0].
  assert (H0' : forall m n, N0 <= m -> N0 <= n -> go ended (resolve_ R (load m) n i0)) by (intros; apply H0; auto; apply iweak_refl).
  assert (Hmain : exists N, forall m n, N <= m -> N <= n ->
     go ended (match o_tsconfig opts with Some location => resolve_with_tsconfig R (load m) n i0 location | None => resolve_ R (load m) n i0 end)).
  2:{ destruct Hmain as [N HN]. exists N. intros m n Hm Hn. unfold resolve_with. apply go_ended_bind; [apply HN; assumption|].
      intros [r|i|e i]; [apply normalize_end|apply md_panicked; discriminate|apply md_done; discriminate]. }
  destruct (o_tsconfig opts) as [loc|] eqn:Et; [|exists N0; exact H0'].
  destruct (Hts loc eq_refl) as (Hst' & rank & Hrk & Hrd).
  destruct (rank loc) as [k|] eqn:Ek; [|contradiction (rk_start _ _ _ _ _ Hrk Ek)].
  assert (Hla : is_abs loc = true) by (apply (rk_abs _ _ _ _ _ Hrk); congruence).
  assert (Hj : forall j, exists N, forall m n, N <= m -> N <= n ->
     go ended (t <- lift (ts_of_json j) ;; l <- create_match_list loc t ;; ts_entries_loop R (load m) n i0 l)).
  2:{ assert (HP : Ends (fun _ : unit => True) jsr (fun _ => True) (fun m n _ => parse_file_to_value R (load m) n loc)).
      { refine (ends_map ok _ (same_tail loc) _ _ (fun m n x => parse_file_to_value R (load m) n x) (fun _ => loc) _ (parse_end okr (Hxa ltac:(discriminate)) loc rank Hrk Hrd k loc Ek)).
        intros _ _. apply same_tail_refl. }
      destruct HP as (N1 & L & _ & HP).
      assert (HL : exists N2, forall j m n, In (Ok j) L -> N2 <= m -> N2 <= n ->
         go ended (t <- lift (ts_of_json j) ;; l <- create_match_list loc t ;; ts_entries_loop R (load m) n i0 l)).
      { clear HP. induction L as [|[j0|e0] L [N2 IH]]; [exists 0; intros j m n []| |].
        - destruct (Hj j0) as [N3 H3]. exists (Nat.max N2 N3). intros j m n [E|Hin] Hm Hn; [injection E as <-; apply H3; lia|apply IH; (lia || exact Hin)].
        - exists N2. intros j m n [E|Hin] Hm Hn; [discriminate|apply IH; (lia || exact Hin)]. }
      destruct HL as [N2 HL]. exists (Nat.max N1 N2). intros m n Hm Hn. unfold resolve_with_tsconfig. apply md_bind.
      eapply md_mono; [|apply (HP m n tt); (lia || exact I)]. intros [[j|e]|x|]; cbn [within].
      - intros ([j0|e0] & Hin & Hv); [|contradiction]. cbn in Hv. subst j0. apply HL; (lia || exact Hin).
      - intros _. apply md_done. discriminate.
      - intros _. discriminate.
      - intros []. }
  intros j. destruct (ts_of_json j) as [t|e|] eqn:Etj.
  3:{ contradiction (ts_json_end _ Etj). }
  2:{ exists 1. intros m n Hm Hn. apply md_panicked. discriminate. }
  cbn [lift bind]. unfold create_match_list.
  destruct (parent loc) as [dir|] eqn:Epar.
  2:{ exists 1. intros m n Hm Hn. apply md_panicked. discriminate. }
  pose proof (parent_abs _ _ Epar Hla) as Hdir.
  destruct (ts_base t) as [b|].
  2:{ exists N0. intros m n Hm Hn. cbn [bind ts_entries_loop]. apply H0'; lia. }
  destruct (ts_paths t) as [mp|].
  2:{ exists N0. intros m n Hm Hn. cbn [bind ts_entries_loop]. apply H0'; lia. }
  set (ents := map (fun kv : str * list str => (fst kv, map (join (join dir b)) (snd kv))) mp).
  destruct (ts_entries_end i0 ents Hst') as [N1 H1].
  { apply Forall_forall. intros e He. apply in_map_iff in He. destruct He as ([k0 v] & <- & _). cbn [snd]. apply Forall_forall. intros p Hp.
    apply in_map_iff in Hp. destruct Hp as (x & <- & _). apply join_abs, join_abs, Hdir. }
  exists (Nat.max N0 N1). intros m n Hm Hn.  cbn [act bind]. apply md_act; [exact I|]. intros seed _. cbn [bind]. apply ts_loop_end; [|apply H0'; lia].
  intros e He star m' n' Hs Hm' Hn'. rewrite Forall_forall in H1. apply (H1 e); [|exact Hs|lia|lia].
  apply in_map_iff in He. destruct He as (kv & <- & Hin). apply (in_map (fun kv : str * list str => (fst kv, map (join (join dir b)) (snd kv)))). eapply Permutation_in; [apply permute_perm|exact Hin].
Qed.
End Resolution.

(** ** Tables that hold what is on the disk *)
Section Tables.
Variable fs : fsys.
Hypothesis Hfs : sane_fs fs.
Variable js : str -> option json.
Variable nm : nat -> str.
Hypothesis Hinj : forall c v v', field_on fs js (nm c) (lit "exports") v -> field_on fs js (nm c) (lit "exports") v' -> to_string v = to_string v' -> v = v'.
Hypothesis Hclash : forall c v v', field_on fs js (nm c) (lit "exports") v -> field_on fs js (nm c) (lit "imports") v' -> hash_keys v' -> to_string v <> to_string v'.
Variable R : resolver.
Hypothesis HR : client js nm R.
(* the answers about files need only be exact where a tsconfig is read *)
Variable exa : Prop.
Notation ok := (okx fs js nm exa).
Lemma ok_true : exa -> forall o x, ok o x -> true_answer fs R o x.
Proof.
  intros Hex [] x Hx; cbn in *; auto; try (apply Hx; left; exact Hex).
  - intros -> Hd Hf. destruct HR as [[E|E] [Ej _]]; [contradiction (Hd E)|]. rewrite E, Ej.
    split.
    + intros ->. destruct (Hx None eq_refl p eq_refl Hf) as ([o|] & Ho & Heq); [contradiction|exact Ho].
    + intros pk ->. destruct (Hx (Some pk) eq_refl p eq_refl Hf) as ([o|] & Ho & Heq); [|contradiction]. exists o. split; [|exact Heq].
      unfold described_by. rewrite E, Ej. exact Ho.
  - intros -> t v name -> Ed. destruct HR as [[E|E] [Ej _]]; [congruence|]. rewrite E in Ed. injection Ed as <-. rewrite Ej. apply (Hx t eq_refl).
Qed.
Lemma top_end : no_cycles fs R -> forall base req, (o_tsconfig (rv_opts R) <> None -> exa) -> is_abs base = true -> stops (rewritten (rv_opts R)) (r_target (parse req)) -> tsconfig_plain fs R ->
  exists N, forall m n, N <= m -> N <= n -> wx ok ended (resolve_with R (load_pkg_file R m) n base req).
Proof.
  intros Hnc base req Hex Ha Hst Hts. apply (top_end_by fs Hfs R (wxm ok false)) with (okr := true_answer fs); auto.
  - intros A p Q Q'. apply wx_and.
  - intros f p Hp Hf. destruct HR as (Hname & Hj & Hd). rewrite Hj. apply wx_and; [apply load_leq; assumption|]. apply load_end; assumption.
  - intros Ht m n i. apply wx_may_give, ok_true, Hex, Ht.
  - intros loc Ht. destruct (Hts loc Ht) as (H1 & rank & Hrk). split; [exact H1|]. exists rank. split; [exact Hrk|].
    intros p x _ Hx. apply (ok_true (Hex ltac:(congruence)) _ _ Hx).
Qed.
End Tables.
