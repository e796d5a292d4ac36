(** * More descriptions and more orders allow more *)
From Coq Require Import List Arith NArith Bool Permutation.
From Verif Require Import Str StrP Path PathP Json Types Parse Map Prog Desc Resolve Top Run SpecRun SpecLoad SpecExports SpecCache SpecJson SpecNode SpecWorld SpecFull SpellP FullP SoundP.
Import ListNotations.

Lemma within_refl : forall w, within w w.
Proof. intros w. repeat split; auto. Qed.
Section Mono.
Variables (w w' : world) (R : resolver) (D D' : path -> reading -> Prop).
Hypothesis Hw : within w w'.
Hypothesis HD : forall p o, D p o -> D' p o.
Let Wf : forall p x, w_file w p x -> w_file w' p x := proj1 Hw.
Let Wd : forall p x, w_dir w p x -> w_dir w' p x := proj1 (proj2 Hw).
Let We : forall p x, w_exists w p x -> w_exists w' p x := proj1 (proj2 (proj2 Hw)).
Let Wr : forall p x, w_read w p x -> w_read w' p x := proj1 (proj2 (proj2 (proj2 Hw))).
Lemma file_for_mono : forall p q, file_for w R p q -> file_for w' R p q.
Proof. intros p q (l1 & l2 & E & H1 & H2). exists l1, l2. split; [exact E|]. split; [eapply Forall_impl; [|exact H1]; intros x; apply Wf|apply Wf, H2]. Qed.
Lemma no_file_mono : forall p, no_file_for w R p -> no_file_for w' R p.
Proof. intros p H. eapply Forall_impl; [|exact H]. intros x. apply Wf. Qed.
Lemma inquires_mono : forall r d pk s, inquires w r d pk s -> inquires w' r d pk s.
Proof. intros r d pk s (n & H1 & H2). exists n. split; [exact H1|]. intros E. destruct (H2 E) as [H|H]; [left; apply We, H|right; exact H]. Qed.
Lemma fit_mono : forall pk c, fit w pk c -> fit w' pk c.
Proof. intros pk c [H1 H2]. split; [apply Wf, H1|exact H2]. Qed.
Lemma unfit_mono : forall pk l, Forall (unfit w pk) l -> Forall (unfit w' pk) l.
Proof. intros pk l H. eapply Forall_impl; [|exact H]. intros c [Hc|Hc]; [left; apply Wf, Hc|right; exact Hc]. Qed.
Lemma first_fit_mono : forall pk l c, first_fit w pk l c -> first_fit w' pk l c.
Proof. intros pk l c (l1 & l2 & E & H1 & H2). exists l1, l2. split; [exact E|]. split; [apply unfit_mono, H1|apply fit_mono, H2]. Qed.
Lemma checked_mono : forall t d r x, checked w t d r x -> checked w' t d r x.
Proof. intros t d r x H. destruct H as [H1 H2|[H|H]]; [apply CkGood; [apply Wf, H1|exact H2]|apply CkBad; left; apply Wf, H|apply CkBad; right; exact H]. Qed.
Lemma exported_mono : forall d r opk x, exported w R d r opk x -> exported w' R d r opk x.
Proof.
  intros d r opk x H. destruct H; [eapply XpFree|eapply XpFall|eapply XpUnknown|eapply XpErr|eapply XpNone|eapply XpHit]; eauto using inquires_mono, first_fit_mono, unfit_mono.
Qed.
Lemma after_mono : forall (Q Q' : path -> request -> move -> Prop) y z, (forall d r x, Q d r x -> Q' d r x) -> after Q y z -> after Q' y z.
Proof. intros Q Q' y z H Ha. destruct Ha; [apply AfMoves; auto|constructor..]. Qed.
Lemma imported_mono : forall opk d r x, imported w R D opk d r x -> imported w' R D' opk d r x.
Proof.
  intros opk d r x H. induction H.
  - eapply ImOther; eauto.
  - eapply ImNone; eauto.
  - eapply ImErr; eauto.
  - eapply ImEmpty; eauto.
  - eapply ImPath; eauto using checked_mono.
  - eapply ImHash; eauto.
  - eapply ImBroken; eauto.
  - eapply ImFallen; eauto.
  - eapply ImOutside; eauto.
  - eapply ImHalt; eauto using exported_mono.
  - eapply ImPackage; eauto using exported_mono. eapply after_mono; [|eassumption]. intros d0 r0 x0. apply checked_mono.
Qed.
Lemma indexes_mono : forall opk pos r l x, indexes w R opk pos r l x -> indexes w' R opk pos r l x.
Proof. intros opk pos r l x H. induction H; [eapply IxNone|eapply IxDrop|eapply IxFile|eapply IxMiss]; eauto using file_for_mono, no_file_mono. Qed.
Lemma stands_mono : forall r dir x, stands w R D r dir x -> stands w' R D' r dir x.
Proof.
  apply (stands_mind w R D (fun r dir x => stands w' R D' r dir x) (fun pk pos r ms x => leads w' R D' pk pos r ms x)); intros.
  - eapply StMain; eauto using indexes_mono.
  - eapply StOwn; eauto using indexes_mono.
  - eapply StOther; eauto using indexes_mono.
  - eapply StNone; eauto using indexes_mono.
  - apply LdNone.
  - eapply LdDrop; eauto using file_for_mono, no_file_mono.
  - eapply LdFile; eauto using file_for_mono, no_file_mono.
  - eapply LdFall; eauto using file_for_mono, no_file_mono.
  - eapply LdMiss; eauto. match goal with H : lost _ _ _ _ |- _ => destruct H as [Ha [Hb|(e & Hb)]]; split; eauto using no_file_mono end.
  - eapply LdDir; eauto using file_for_mono, no_file_mono.
  - eapply LdDrift; eauto using file_for_mono, no_file_mono.
Qed.
Lemma place_mono : forall r p x, place w R D r p x -> place w' R D' r p x.
Proof.
  intros r p x H. destruct H; [apply PlFile|apply PlDir|apply PlHollow|apply PlNothing|apply PlBroken|apply PlFallen]; eauto using stands_mono, file_for_mono, no_file_mono.
Qed.
Lemma enters_mono : forall d r o, enters w D d r o -> enters w' D' d r o.
Proof. intros d r o (H1 & H2 & H3). split; [apply Wd, H1|]. split; [apply HD, H2|destruct H3 as (n & H3 & [H4|H4]); exists n; (split; [exact H3|]); [left; apply Wd, H4|right; exact H4]]. Qed.
Lemma passed_mono : forall o d r z, passed w R D o d r z -> passed w' R D' o d r z.
Proof.
  intros o d r z H. destruct H as [y z Hk He Ha|z Hk Hi]; [eapply PsBare|apply PsOther]; eauto using imported_mono, after_mono, exported_mono.
Qed.
Lemma rung_mono : forall d r v, rung w R D d r v -> rung w' R D' d r v.
Proof.
  intros d r v H. destruct H.
  - eapply RgAbsent; eauto using file_for_mono, no_file_mono.
  - eapply RgTorn; eauto using file_for_mono, no_file_mono.
  - eapply RgBroken; eauto using file_for_mono, no_file_mono.
  - eapply RgFallen; eauto using file_for_mono, no_file_mono.
  - eapply RgFile; eauto using file_for_mono, no_file_mono.
  - eapply RgNoFile; eauto using file_for_mono, no_file_mono.
  - eapply RgStops; eauto using enters_mono, passed_mono.
  - eapply RgHalts; eauto using enters_mono, passed_mono.
  - eapply RgSees; eauto using enters_mono, passed_mono, place_mono.
  - eapply RgLacks; eauto using enters_mono, passed_mono, place_mono.
  - eapply RgHollow; eauto using enters_mono, passed_mono, place_mono.
Qed.
Lemma ascent_mono : forall l r a, ascent w R D l r a -> ascent w' R D' l r a.
Proof. intros l r a H. induction H; [apply AsTop|apply AsHere|eapply AsUp]; eauto using rung_mono. Qed.
Lemma ends_mono : forall d r a, ends w R D d r a -> ends w' R D' d r a.
Proof. intros d r a H. destruct H; [apply EnSees|apply EnLacks|apply EnHollow|eapply EnClimb]; eauto using place_mono, ascent_mono. Qed.
Lemma sought_mono : forall b r a, sought w R D b r a -> sought w' R D' b r a.
Proof. intros b r a H. destruct H; [apply SeBroken|apply SeFallen|eapply SeHalts|eapply SeEnds]; eauto using imported_mono, ends_mono. Qed.
Lemma seek_mono : forall b r a, seek w R D b r a -> seek w' R D' b r a.
Proof.
  apply (seek_mind w R D (fun b r a => seek w' R D' b r a) (fun b r cs x => tried w' R D' b r cs x)); intros.
  - eapply SkTrial; eauto.
  - eapply SkIgnored; eauto.
  - eapply SkSearch; eauto using sought_mono.
  - apply TdNone.
  - apply TdHit; auto.
  - eapply TdMiss; eauto.
Qed.
Lemma config_mono : forall loc x, config w R D loc x -> config w' R D' loc x.
Proof.
  intros loc x H. induction H.
  - eapply CfUnread; eauto.
  - eapply CfMalformed; eauto.
  - eapply CfVoid; eauto.
  - eapply CfAlone; eauto.
  - eapply CfRootless; eauto.
  - eapply CfExtends; eauto using seek_mono.
  - eapply CfPassed; eauto using seek_mono.
  - eapply CfBelow; eauto using seek_mono.
  - eapply CfSkipped; eauto using seek_mono.
  - eapply CfMissing; eauto using seek_mono.
  - eapply CfCrashes; eauto using seek_mono.
Qed.
Lemma located_mono : forall l x, located w R D l x -> located w' R D' l x.
Proof. intros l x H. induction H; [apply LcNone|apply LcHit|eapply LcMiss]; eauto using seek_mono. Qed.
Variables (O O' : list (str * list str) -> list (str * list str) -> Prop).
Hypothesis HO : forall m m', O m m' -> O' m m'.
Lemma mapped_mono : forall loc j t l b, mapped O loc j t l b -> mapped O' loc j t l b.
Proof. intros loc j t l b H. destruct H; [eapply MpSets|eapply MpNone]; eauto. Qed.
Lemma arrives_mono : forall b r a, arrives w R D O b r a -> arrives w' R D' O' b r a.
Proof.
  intros b r a H. destruct H.
  - apply CtPlain; eauto using seek_mono.
  - eapply CtBroken; eauto using config_mono.
  - eapply CtCrashes; eauto using config_mono.
  - eapply CtMalformed; eauto using config_mono.
  - eapply CtRootless; eauto using config_mono.
  - eapply CtMapped; eauto using config_mono, mapped_mono, located_mono.
  - eapply CtTorn; eauto using config_mono, mapped_mono, located_mono.
  - eapply CtRest; eauto using config_mono, mapped_mono, located_mono, seek_mono.
Qed.
End Mono.
Lemma read_refl : forall o, read_as o o.
Proof. intros [[d n v l e i s j]|]; [|constructor]. apply (RaSome (mkPkg d n v l e i s j)); [reflexivity|apply Permutation_refl]. Qed.
Lemma come_among : forall fs R base r a, comes_to fs R base r a -> may_come_to fs R base r a.
Proof.
  intros fs R base r a. apply arrives_mono.
  - apply within_refl.
  - intros p [o|e|] H; [exists o; split; [exact H|apply read_refl]|exact H|exact H].
  - intros m m' ->. apply Permutation_refl.
Qed.
