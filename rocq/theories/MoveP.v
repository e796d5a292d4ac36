(** * Calls during which the disk changes: proofs for PropStale.v and PropMove.v *)
From Coq Require Import String.
From Coq Require Import List Arith NArith Bool Lia Permutation.
From Verif Require Import Str StrP Path PathP Json Types Parse Map Prog Desc Resolve Top Run RunP SpecRun SpecLoad SpecCache SpecChange SpecDesc SpecWorld SpecFull SpecStale SpellP SimP LoadP GuarP CacheP ExecP FullP SoundP AllowP StaleP.
Import ListNotations.

Lemma within_trans : forall w w' w'', within w w' -> within w' w'' -> within w w''.
Proof. intros w w' w'' (A1 & A2 & A3 & A4 & A5 & A6) (B1 & B2 & B3 & B4 & B5 & B6). repeat split; intros p x H; auto. Qed.
Lemma standing_among : forall (seen : fsys -> Prop) fs, seen fs -> within (standing fs) (among seen).
Proof. intros seen fs H. repeat split; intros p x E; exists fs; auto. Qed.
Lemma among_mono : forall S S' : fsys -> Prop, (forall fs, S fs -> S' fs) -> within (among S) (among S').
Proof. intros S S' H. repeat split; intros p x (fs & H1 & H2); exists fs; auto. Qed.
Lemma among_one : forall fs, within (among (fun x => x = fs)) (standing fs).
Proof. intros fs. repeat split; intros p x (fs' & -> & H); exact H. Qed.

Lemma wx_imp {A} : forall ok (P : Prop) (Q : outcome A -> Prop) (p : prog A), (P -> wx ok Q p) -> wx ok (fun o => P -> Q o) p.
Proof. intros ok P Q p. induction p as [a|m| |o k IH]; cbn [wx]; auto. Qed.

(** ** Any calls, each with the file systems of its own steps *)
Section Run.
Variables (calls : list call) (sched : list (fsys * nat)) (crew : resolver -> Prop).
Hypothesis Hcrew : forall c, In c calls -> crew (call_resolver c).
Variable all : fsys -> Prop.
Hypothesis Hall : forall fs i, In (fs, i) sched -> all fs.
Definition whole (w : world) : Prop := w = among all.
Definition own (i : nat) : world := among (during sched i).
Definition aim (i : nat) (c : call) : task answer := (own i, fun o => keyed c -> allowed (consulted whole crew (own i)) (own i) c o).
Fixpoint aims (i : nat) (l : list call) : list (task answer) :=
  match l with [] => [] | c :: l => aim i c :: aims (S i) l end.
Lemma aims_at : forall l i j, nth_error (aims i l) j = match nth_error l j with Some c => Some (aim (i + j) c) | None => None end.
Proof.
  induction l as [|c l IH]; intros i [|j]; cbn [aims nth_error]; try reflexivity.
  - rewrite Nat.add_0_r. reflexivity.
  - rewrite IH. destruct (nth_error l j); [|reflexivity]. do 2 f_equal. lia.
Qed.
Lemma own_whole : forall i, within (own i) (among all).
Proof. intros i. apply among_mono. intros fs H. eapply Hall, H. Qed.
Lemma aims_meet : forall l i, (forall c, In c l -> In c calls) -> Forall2 (meets whole crew) (aims i l) (map call_prog l).
Proof.
  induction l as [|c l IH]; intros i Hl; cbn [aims map]; constructor; [|apply IH; intros; apply Hl; right; assumption].
  assert (Hc : crew (call_resolver c)) by (apply Hcrew, Hl; left; reflexivity).
  apply sg_and; [|eapply sg_call; [apply own_whole|reflexivity|exact Hc]]. apply wx_imp. intros Hk.
  apply sg_wx. eapply sg_allowed; [apply own_whole|reflexivity|exact Hc|exact Hk].
Qed.
Lemma moving_meets : forall seeds, Forall2 (meets whole crew) (aims 0 calls) (fst (run_moving sched (empty_state seeds) (map call_prog calls))) /\
  stale whole crew (snd (run_moving sched (empty_state seeds) (map call_prog calls))).
Proof.
  intros seeds. apply moving_stale; [|apply aims_meet; auto|apply stale_empty]. apply Forall_forall. intros [fs i] Hin x Hx. cbn [fst snd] in *. rewrite aims_at in Hx.
  destruct (nth_error calls i) as [c|]; [|discriminate]. injection Hx as <-. cbn [aim fst Nat.add]. apply standing_among, Hin.
Qed.
End Run.

(** ** More answers allow more *)
Section More.
Variables (S S' : world -> Prop) (crew crew' : resolver -> Prop).
Hypothesis HS : forall v, S v -> exists v', S' v' /\ within v v'.
Hypothesis HC : forall R, crew R -> crew' R.
Lemma holds_mono : forall w w' R name d j, within w w' -> holds w R name d j -> holds w' R name d j.
Proof. intros w w' R name d j (_ & _ & _ & W4 & W5 & _) (s & t & H1 & H2 & H3). exists s, t. split; [apply W4, H1|]. split; [apply W5, H2|exact H3]. Qed.
Lemma grown_mono : forall c k t, grown_from S crew c k t -> grown_from S' crew' c k t.
Proof.
  intros c k t (R & w & name & d & j & fld & v & H1 & H2 & H3 & H4 & H5 & H6 & H7 & H8 & H9). destruct (HS w H4) as (w' & Hw' & Hin). exists R, w', name, d, j, fld, v.
  repeat (split; auto). - apply Hin, H5. - eapply holds_mono; eassumption.
Qed.
Lemma exports_read_mono : forall R j x, exports_read S crew R j x -> exports_read S' crew' R j x.
Proof. intros R j x. unfold exports_read. destruct (jget j (lit "exports")); [|auto]. intros [H|(t & H1 & H2)]; [auto|right; exists t; auto using grown_mono]. Qed.
Lemma scanned_mono : forall w w' R name d x, within w w' -> scanned S crew w R name d x -> scanned S' crew' w' R name d x.
Proof.
  intros w w' R name d x Hw H. pose proof Hw as (_ & _ & _ & W4 & W5 & _).
  destruct H; [apply ScUnread|eapply ScGarbled|eapply ScBrowser|eapply ScExports|eapply ScExportsFell|eapply ScImports|eapply ScImportsFell|eapply ScSide|eapply ScDone|apply ScTwice]; eauto using holds_mono, exports_read_mono.
  destruct H as [H|(y & H & Hy)]; eauto.
Qed.
Lemma bare_mono : forall w w' name q, within w w' -> bare w name q -> bare w' name q.
Proof. intros w w' name q (W1 & _) H. eapply Forall_impl; [|exact H]. intros x. apply W1. Qed.
Lemma kept_mono : forall c p v, kept S crew c p v -> kept S' crew' c p v.
Proof.
  intros c p v H. destruct H as [R w name d pk H1 H2 H3 H4 H5 H6 H7 H8|R w name d H1 H2 H3 H4 H5 H6 H7]; destruct (HS w H4) as (w' & Hw' & Hin); pose proof Hin as (W1 & W2 & _).
  - eapply KpRead; eauto using scanned_mono.
  - eapply KpBare; eauto using bare_mono.
Qed.
Lemma noted_mono : forall i p t, noted S crew i p t -> noted S' crew' i p t.
Proof.
  intros i p t (R & w & q & H1 & H2 & H3 & H4 & (s & H5) & H6). destruct (HS w H3) as (w' & Hw' & Hin). pose proof Hin as (_ & _ & _ & W4 & W5 & _).
  exists R, w', q. repeat (split; eauto).
Qed.
Lemma consulted_mono : forall w w' R p x, within w w' -> consulted S crew w R p x -> consulted S' crew' w' R p x.
Proof.
  intros w w' R p x Hw H. pose proof Hw as (W1 & W2 & _ & _ & W5 & _).
  assert (WF : forall name l, Forall (fun q => w_file w (join q name) false) l -> Forall (fun q => w_file w' (join q name) false) l) by (intros name l Hl; eapply Forall_impl; [|exact Hl]; intros q; apply W1).
  induction H; [eapply CsOff|eapply CsUp|eapply CsTop|eapply CsGone|eapply CsKept|eapply CsClock|eapply CsMeta|eapply CsNoTime|eapply CsRead|eapply CsFound|eapply CsNone];
    eauto using kept_mono, noted_mono, scanned_mono, bare_mono.
  eapply Forall_impl; [|eassumption]. intros q. apply W2.
Qed.
End More.
Lemma returned_mono : forall w w' R a y, within w w' -> returned w R a y -> returned w' R a y.
Proof. intros w w' R a y (_ & _ & _ & _ & _ & W6) H. destruct H; [apply RtReal; [|apply W6]|apply RtUnreal; [|apply W6]|apply RtPlain|apply RtSkips|apply RtFails|apply RtCrashes]; assumption. Qed.
Lemma allowed_mono : forall (D D' : resolver -> path -> reading -> Prop) w w' c o, within w w' -> (forall R p x, D R p x -> D' R p x) -> allowed D w c o -> allowed D' w' c o.
Proof.
  intros D D' w w' [R f base req|R f p] o Hw HD; cbn [allowed].
  - intros [H|(a & Ha & y & Hy & Ho)]; [left; exact H|]. right. exists a. split; [eapply arrives_mono; [exact Hw|intros p x; apply HD|intros m m' Hm; exact Hm|exact Ha]|]. exists y. split; [eapply returned_mono; eassumption|exact Ho].
  - intros H. destruct H; [apply SaBound|apply SaNone|eapply SaSome|apply SaBroken|apply SaFallen]; eauto.
Qed.

(** ** What is found was a file *)
Section Found.
Variables (w : world) (R : resolver) (D : path -> reading -> Prop).
Definition filed (a : fate) : Prop := match a with Finds q _ _ => w_file w q true | _ => True end.
Definition filed_opt (x : option fate) : Prop := match x with Some a => filed a | None => True end.
Lemma for_filed : forall p q, file_for w R p q -> w_file w q true.
Proof. intros p q (l1 & l2 & _ & _ & H). exact H. Qed.
Lemma indexes_filed : forall opk pos r l x, indexes w R opk pos r l x -> filed_opt x.
Proof. intros opk pos r l x H. induction H; cbn [filed_opt filed]; eauto using for_filed. Qed.
Lemma stands_filed : forall r dir x, stands w R D r dir x -> filed_opt x.
Proof.
  apply (stands_mind w R D (fun _ _ x => filed_opt x) (fun _ _ _ _ x => filed_opt x)); intros; cbn [filed_opt filed] in *; eauto using for_filed, indexes_filed.
Qed.
Lemma halted_filed : forall z a, halted z a -> filed a.
Proof. intros z a H. destruct H; exact I. Qed.
Lemma place_filed : forall r p x, place w R D r p x -> match x with Sees a => filed a | _ => True end.
Proof. intros r p x H. destruct H; try exact I; [eapply for_filed; eassumption|]. exact (stands_filed _ _ _ H1). Qed.
Lemma rung_filed : forall d r v, rung w R D d r v -> match v with Settles a => filed a | Climbs _ => True end.
Proof.
  intros d r v H. destruct H; unfold stopped; repeat match goal with |- context [str_eqb ?x ?y] => destruct (str_eqb x y) end; try exact I; try solve [cbn [filed]; eauto using for_filed, halted_filed].
  match goal with H : place _ _ _ _ _ (Sees _) |- _ => exact (place_filed _ _ _ H) end.
Qed.
Lemma ascent_filed : forall l r a, ascent w R D l r a -> filed a.
Proof. intros l r a H. induction H; [exact I| |assumption]. exact (rung_filed _ _ _ H). Qed.
Lemma ends_filed : forall d r a, ends w R D d r a -> filed a.
Proof. intros d r a H. destruct H; try exact I; [|eauto using ascent_filed]. match goal with H : place _ _ _ _ _ _ |- _ => exact (place_filed _ _ _ H) end. Qed.
Lemma sought_filed : forall b r a, sought w R D b r a -> filed a.
Proof. intros b r a H. destruct H; try exact I; eauto using halted_filed, ends_filed. Qed.
Lemma seek_filed : forall b r a, seek w R D b r a -> filed a.
Proof.
  apply (seek_mind w R D (fun _ _ a => filed a) (fun _ _ _ x => filed_opt x)); intros; cbn [filed_opt filed] in *; auto.
  match goal with H : sought _ _ _ _ _ ?a |- _ => apply sought_filed in H; destruct a; exact H end.
Qed.
Lemma located_filed : forall l x, located w R D l x -> filed_opt x.
Proof. intros l x H. induction H; cbn [filed_opt]; eauto using seek_filed. Qed.
Lemma arrives_filed : forall order b r a, arrives w R D order b r a -> filed a.
Proof.
  intros order b r a H. destruct H; try exact I; eauto using seek_filed.
  match goal with H : located _ _ _ _ (Some _) |- _ => exact (located_filed _ _ H) end.
Qed.
End Found.

(** ** Final statements *)
Lemma forall2_nth {A B} : forall (P : A -> B -> Prop) l l', Forall2 P l l' -> forall i x y, nth_error l i = Some x -> nth_error l' i = Some y -> P x y.
Proof.
  intros P l l' H. induction H as [|a b l l' Hab H IH]; intros [|i] x y Hx Hy; cbn [nth_error] in *; try discriminate; [|eapply IH; eassumption].
  injection Hx as <-. injection Hy as <-. exact Hab.
Qed.
Lemma fin_62 : forall calls sched seeds i c p, nth_error calls i = Some c -> keyed c ->
  nth_error (fst (run_moving sched (empty_state seeds) (map call_prog calls))) i = Some p ->
  allowed (consulted (fun w => w = among (overall sched)) (fun R => In R (map call_resolver calls)) (among (during sched i))) (among (during sched i)) c (settled p).
Proof.
  intros calls sched seeds i c p Hc Hk Hp. set (crew := fun R => In R (map call_resolver calls)).
  destruct (moving_meets calls sched crew (fun c H => in_map call_resolver _ _ H) (overall sched) (fun fs i H => ex_intro _ i H) seeds) as [H _].
  assert (Hx : nth_error (aims sched crew (overall sched) 0 calls) i = Some (aim sched crew (overall sched) i c)) by (rewrite aims_at, Hc; reflexivity).
  pose proof (forall2_nth _ _ _ H i _ _ Hx Hp) as Hm. unfold meets, aim, own, whole in Hm. cbn [fst snd] in Hm.
  assert (Hn : allowed (consulted (fun w => w = among (overall sched)) crew (among (during sched i))) (among (during sched i)) c NoFuel) by (destruct c; [left; reflexivity|apply SaBound]).
  destruct p as [a|m| |o k]; cbn [settled]; [exact (Hm Hk)|exact (Hm Hk)|exact Hn|exact Hn].
Qed.
Lemma fin_62_found : forall calls sched seeds i R f base req x, nth_error calls i = Some (CResolve R f base req) -> values_nodup R ->
  nth_error (fst (run_moving sched (empty_state seeds) (map call_prog calls))) i = Some (Ret (AResolve (Ok (RInfo x)))) ->
  exists fs q, In (fs, i) sched /\ f_file fs q = true /\
    if o_symlinks (rv_opts R) then exists fs', In (fs', i) sched /\ f_canon fs' q = Some (i_path x) else i_path x = normalize_path_without_link q.
Proof.
  intros calls sched seeds i R f base req x Hc Hk Hp. pose proof (fin_62 calls sched seeds i _ _ Hc Hk Hp) as [H|(a & Ha & y & Hy & Ho)]; [discriminate|]. cbn [settled] in Ho.
  apply arrives_filed in Ha. destruct Hy; try discriminate; [| |destruct Ho; discriminate].
  - injection Ho as ->. destruct Ha as (fs & H1 & H2). exists fs, q. rewrite H. split; [exact H1|]. split; [exact H2|]. destruct H0 as (fs' & H3 & H4). exists fs'. auto.
  - injection Ho as ->. destruct Ha as (fs & H1 & H2). exists fs, q. rewrite H. auto.
Qed.
Lemma fin_62_still : forall (S : world -> Prop) crew fs c o,
  allowed (consulted S crew (among (fun x => x = fs))) (among (fun x => x = fs)) c o <-> allowed (consulted S crew (standing fs)) (standing fs) c o.
Proof.
  intros S crew fs c o. assert (HS : forall v, S v -> exists v', S v' /\ within v v') by (intros v H; exists v; auto using within_refl).
  split; apply allowed_mono.
  - apply among_one.
  - intros R p x. apply consulted_mono; auto using among_one.
  - apply standing_among. reflexivity.
  - intros R p x. apply consulted_mono; auto using standing_among.
Qed.
Lemma fin_61_moving : forall seen calls sched seeds, Forall (fun x => seen (fst x)) sched -> forall fs c, seen fs -> keyed c ->
  allowed (consulted (fun w => w = among seen) (fun R => In R (map call_resolver (c :: calls))) (standing fs)) (standing fs) c
    (out fs (snd (run_moving sched (empty_state seeds) (map call_prog calls))) (call_prog c)).
Proof.
  intros seen calls sched seeds Hs fs c Hfs Hk. set (crew := fun R => In R (map call_resolver (c :: calls))).
  eapply (run_stale (whole seen) crew (standing fs) fs (within_refl _)).
  - eapply sg_allowed; [apply standing_among, Hfs|reflexivity|left; reflexivity|exact Hk].
  - apply (moving_meets calls sched crew); [intros x Hx; right; apply in_map, Hx|]. intros x i Hx. eapply Forall_forall in Hs; [|exact Hx]. exact Hs.
Qed.
Lemma fin_61_moving_sched : forall seen calls sched seeds, Forall (fun x => seen (fst x)) sched -> forall fs l sched', seen fs -> Forall keyed l ->
  Forall2 (fun c p => allowed (consulted (fun w => w = among seen) (fun R => In R (map call_resolver (l ++ calls))) (standing fs)) (standing fs) c (settled p)) l
    (fst (run_sched fs sched' (snd (run_moving sched (empty_state seeds) (map call_prog calls))) (map call_prog l))).
Proof.
  intros seen calls sched seeds Hs fs l sched' Hfs Hk. set (crew := fun R => In R (map call_resolver (l ++ calls))).
  eapply (sched_allowed (whole seen) crew); [apply standing_among, Hfs|reflexivity|intros c Hc; apply in_map, in_or_app; left; exact Hc|exact Hk|].
  apply (moving_meets calls sched crew); [intros x Hx; apply in_map, in_or_app; right; exact Hx|]. intros x i Hx. eapply Forall_forall in Hs; [|exact Hx]. exact Hs.
Qed.
