(** * Lemmas about [Map.v]. *)
From Coq Require Import String.
From Coq Require Import List Arith NArith ZArith Bool Lia Permutation.
From Verif Require Import Str StrP Json Types Map SpecMap.
Import ListNotations.

(** ** Conditions *)
Fixpoint msize (l : list (str * mv)) : nat :=
  match l with [] => 0 | (_, x) :: r => S (mv_size x + msize r) end.
Lemma mv_size_cond : forall m, mv_size (MCond m) = S (msize m).
Proof. intros m. reflexivity. Qed.
Lemma mv_size_pos : forall v, 1 <= mv_size v.
Proof. intros []; cbn [mv_size]; lia. Qed.

Lemma skipn_cons_next {A} : forall i (l : list A) x s, skipn i l = x :: s -> skipn (S i) l = s /\ i < length l.
Proof.
  induction i as [|i IH]; intros l x s H; destruct l as [|y l]; cbn in *; try discriminate.
  - inversion H; subst. split; [reflexivity|lia].
  - apply IH in H. destruct H as [H1 H2]. split; [exact H1|lia].
Qed.
Lemma skipn_in {A} : forall i (l : list A) x, In x (skipn i l) -> In x l.
Proof. intros i l x H. rewrite <- (firstn_skipn i l). apply in_app_iff. auto. Qed.

Definition scan_ok (names : list str) (m : cmap) (i : nat) (s : list (str * mv)) (x : scan) : Prop :=
  match x with
  | ScanErr => choose names s (Err (lit "Default condition should be last one"))
  | ScanRet v => choose names s (Ok (Some v)) /\ is_leaf v
  | ScanEnd => choose names s (Ok None)
  | ScanPush k inner => In (MCond inner) (map snd m) /\ k < length m /\
      S (mv_size (MCond inner) + msize (skipn (k + 1) m)) <= msize s /\
      (forall r, choose names inner r -> r <> Ok None -> choose names s r) /\
      (forall r, choose names inner (Ok None) -> choose names (skipn (k + 1) m) r -> choose names s r)
  end.
Lemma scan_ok_skip : forall names m i k v s x, ~ enabled names k -> scan_ok names m (S i) s x ->
  scan_ok names m i ((k, v) :: s) x.
Proof.
  intros names m i k v s x Hk H. destruct x as [|w|j inner|]; cbn [scan_ok msize] in *.
  - apply ChSkip; assumption.
  - destruct H. split; [apply ChSkip; assumption|assumption].
  - destruct H as [H1 [H2 [H3 [H4 H5]]]]. repeat split; auto; try lia.
    + intros r Ha Hb. apply ChSkip; auto.
    + intros r Ha Hb. apply ChSkip; auto.
  - apply ChSkip; assumption.
Qed.
Lemma scan_here : forall names m i k v s, skipn i m = (k, v) :: s -> enabled names k ->
  (k = lit "default" -> s = []) ->
  scan_ok names m i ((k, v) :: s) (match v with MCond inner => ScanPush i inner | _ => ScanRet v end).
Proof.
  intros names m i k v s Hs He Hd. destruct (skipn_cons_next _ _ _ _ Hs) as [Hn Hl].
  assert (Hin : In v (map snd m)).
  { apply in_map_iff. exists (k, v). split; [reflexivity|]. apply (skipn_in i). rewrite Hs. left. reflexivity. }
  destruct v as [t|inner|a]; cbn [scan_ok].
  - split; [|exact I]. apply ChLeaf; auto. exact I.
  - rewrite Nat.add_1_r, Hn. repeat split; auto.
    + intros r H1 H2. eapply ChNested; eassumption.
    + intros r H1 H2. eapply ChBacktrack; eassumption.
  - split; [|exact I]. apply ChLeaf; auto. exact I.
Qed.
Lemma cond_for_ok : forall names (m s : list (str * mv)) i, NoDup (map fst m) -> skipn i m = s ->
  scan_ok names m i s (cond_for names m (length (map fst m)) i (map fst s)).
Proof.
  intros names m. induction s as [|[k v] s IH]; intros i Hnd Hs; cbn [map fst cond_for].
  - cbn [scan_ok]. constructor.
  - destruct (skipn_cons_next _ _ _ _ Hs) as [Hn Hl].
    assert (Hget : imap_get m k = Some v).
    { apply imap_In_get; [exact Hnd|]. apply (skipn_in i). rewrite Hs. left. reflexivity. }
    assert (Hlast : i = length (map fst m) - 1 <-> s = []).
    { rewrite map_length. assert (length (skipn i m) = length m - i) by apply skipn_length. rewrite Hs in H.
      cbn [length] in H. clear - H Hl. change (str * mv)%type with (list N * mv)%type in *.
      split; intros E.
      - destruct s; [reflexivity|]. cbn [length] in H. lia.
      - subst s. cbn [length] in H. lia. }
    specialize (IH (S i) Hnd Hn). cbv zeta.
    destruct (str_eqb_spec k s_default) as [->|Hd].
    + rewrite andb_true_r. destruct (Nat.eqb_spec i (length (map fst m) - 1)) as [E|E]; cbn [negb].
      * pose proof (proj1 Hlast E) as ->. rewrite Hget.
        pose proof (scan_here names m i s_default v [] Hs (or_introl eq_refl) (fun _ => eq_refl)) as Hh.
        destruct v; exact Hh.
      * cbn [scan_ok]. apply ChDefaultNotLast. intros ->. apply E, Hlast. reflexivity.
    + rewrite andb_false_r. destruct (mem k names) eqn:Em.
      * rewrite Hget. apply mem_In in Em.
        pose proof (scan_here names m i k v s Hs (or_intror Em)) as Hh.
        assert (Hh' := Hh (fun E => match Hd E with end)). destruct v; exact Hh'.
      * apply scan_ok_skip; [|exact IH]. intros [H|H]; [exact (Hd H)|].
        apply mem_In in H. congruence.
Qed.

Inductive stack_choose (names : list str) : list (cmap * list str * nat) -> result (option mv) -> Prop :=
| SCNil : stack_choose names [] (Ok None)
| SCHit : forall m c j b r, choose names (skipn j m) r -> r <> Ok None -> stack_choose names ((m, c, j) :: b) r
| SCMiss : forall m c j b r, choose names (skipn j m) (Ok None) -> stack_choose names b r ->
    stack_choose names ((m, c, j) :: b) r.
Fixpoint stack_size (l : list (cmap * list str * nat)) : nat :=
  match l with [] => 0 | (m, _, j) :: b => S (msize (skipn j m)) + stack_size b end.
Definition frame_ok (x : cmap * list str * nat) : Prop :=
  let '(m, c, j) := x in distinct (MCond m) /\ c = map fst m.
Lemma distinct_cond : forall m, distinct (MCond m) -> NoDup (map fst m) /\ (forall k v, In (k, v) m -> distinct v).
Proof. intros m H. inversion H; subst. auto. Qed.
Lemma skipn_map_fst : forall {A B} i (l : list (A * B)), skipn i (map fst l) = map fst (skipn i l).
Proof. intros A B. induction i as [|i IH]; intros [|x l]; cbn; auto. Qed.
Lemma cond_loop_ok : forall names fuel lookup, Forall frame_ok lookup -> stack_size lookup < fuel ->
  exists r, cond_loop fuel names lookup = PRet r /\ stack_choose names lookup r.
Proof.
  intros names. induction fuel as [|f IH]; intros lookup Hf Hs; [lia|].
  destruct lookup as [|[[m c] j] b]; cbn [cond_loop].
  - exists (Ok None). split; [reflexivity|constructor].
  - inversion Hf as [|? ? Hfr Hb]; subst. cbn in Hfr. destruct Hfr as [Hd Hc]. subst c. destruct (distinct_cond m Hd) as [Hnd Hin].
    rewrite skipn_map_fst. pose proof (cond_for_ok names m (skipn j m) j Hnd eq_refl) as Hsc.
    destruct (cond_for _ _ _ _ _) as [|v|k inner|]; cbn [scan_ok] in Hsc.
    + eexists. split; [reflexivity|]. apply SCHit; [exact Hsc|discriminate].
    + eexists. split; [reflexivity|]. apply SCHit; [apply Hsc|discriminate].
    + destruct Hsc as [H1 [H2 [H3 [H4 H5]]]]. rewrite mv_size_cond in H3. cbn [stack_size] in Hs.
      destruct (IH ((inner, map fst inner, 0) :: (m, map fst m, k + 1) :: b)) as [r [Hr1 Hr2]].
      * constructor; [|constructor; [split; auto|exact Hb]]. split; [|reflexivity].
        apply in_map_iff in H1. destruct H1 as [[k0 v0] [E H1]]. cbn in E. subst v0. eapply Hin, H1.
      * cbn [stack_size skipn]. lia.
      * exists r. split; [exact Hr1|]. inversion Hr2 as [|? ? ? ? ? Ha Hb'|? ? ? ? ? Ha Hb']; subst; cbn [skipn] in *.
        -- apply SCHit; auto.
        -- inversion Hb' as [|? ? ? ? ? Hc Hd'|? ? ? ? ? Hc Hd']; subst.
           ++ apply SCHit; auto.
           ++ apply SCMiss; auto.
    + cbn [stack_size] in Hs. destruct (IH b Hb) as [r [Hr1 Hr2]]; [lia|].
      exists r. split; [exact Hr1|]. apply SCMiss; assumption.
Qed.
Lemma conditional_mapping_ok : forall m names, distinct (MCond m) ->
  exists r, conditional_mapping m names = PRet r /\ choose names m r.
Proof.
  intros m names Hd. unfold conditional_mapping.
  destruct (cond_loop_ok names (2 * cmap_size m + 2) [(m, map fst m, 0)]) as [r [H1 H2]].
  - constructor; [split; auto|constructor].
  - cbn [stack_size skipn]. unfold cmap_size. rewrite mv_size_cond. lia.
  - exists r. split; [exact H1|]. inversion H2 as [|? ? ? ? ? Ha Hb|? ? ? ? ? Ha Hb]; subst; cbn [skipn] in *; [exact Ha|].
    inversion Hb; subst. exact Ha.
Qed.
Ltac det_close := repeat match goal with
  | H : lit "default" = lit "default" -> _ |- _ => specialize (H eq_refl)
  | H : ~ enabled _ (lit "default") |- _ => exfalso; apply H; left; reflexivity
  | H : ~ enabled ?n ?k, H' : enabled ?n ?k |- _ => contradiction
  | H : is_leaf (MCond _) |- _ => destruct H
  | H : ?a <> ?a |- _ => contradiction
  end.
Lemma choose_det : forall names m r, choose names m r -> forall r', choose names m r' -> r = r'.
Proof.
  induction 1 as [|v rest Hr|k v rest r Hk H IH|k v rest He Hd Hl|k inner rest r He Hd H IH Hn|k inner rest r He Hd H1 IH1 H2 IH2];
    intros r' H'; inversion H'; subst; det_close; auto; try reflexivity; try contradiction.
  - exfalso. apply Hn. apply IH. assumption.
  - exfalso. match goal with [ H : _ <> Ok None |- _ ] => apply H end. symmetry. apply IH1. assumption.
Qed.
