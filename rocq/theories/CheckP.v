(** * [check_target] over segments (C33). *)
From Coq Require Import String.
From Coq Require Import List Arith NArith ZArith Bool Lia.
From Verif Require Import Str StrP Json Types Map SpecMap TrieP.
Import ListNotations.

Definition dotdot (s : str) : bool := starts_with s (lit "..").
Definition dot (s : str) : bool := starts_with_char s c_dot.
Fixpoint check_segs (segs : list str) (cd : Z) : bool :=
  match segs with
  | [] => true
  | [_] => true
  | s :: rest =>
      if dotdot s then if (cd - 1 <? 0)%Z then false else check_segs rest (cd - 1)
      else if dot s then check_segs rest cd else check_segs rest (cd + 1)
  end.
Lemma check_segs_cons : forall s x r cd, check_segs (s :: x :: r) cd =
  if dotdot s then if (cd - 1 <? 0)%Z then false else check_segs (x :: r) (cd - 1)
  else if dot s then check_segs (x :: r) cd else check_segs (x :: r) (cd + 1).
Proof. reflexivity. Qed.
Lemma nth_skipn {A} : forall (l : list A) a b, nth_error l (a + b) = nth_error (skipn a l) b.
Proof. induction l as [|x l IH]; intros [|a] b; cbn; auto. destruct b; reflexivity. Qed.
Lemma check_loop_segs : forall fuel p last cd, length (skipn last p) < fuel ->
  check_target_loop fuel p (get_next_list p c_slash) last cd = PRet (check_segs (split_on c_slash (skipn last p)) cd).
Proof.
  induction fuel as [|f IH]; intros p last cd Hf; [lia|]. cbn [check_target_loop]. rewrite next_slash_eq.
  destruct (find_char (skipn last p) c_slash) as [[a b]|] eqn:E.
  - apply find_char_some in E. destruct E as [E Hn].
    assert (Hsk : skipn (last + length a + 1) p = b).
    { replace (last + length a + 1) with (last + (length a + 1)) by lia. rewrite skipn_add, E.
      rewrite skipn_add, skipn_app_len. reflexivity. }
    assert (Hlen : length b < f) by (rewrite E in Hf; rewrite app_length in Hf; cbn in Hf; lia).
    assert (IH' : forall cd, check_target_loop f p (get_next_list p c_slash) (last + length a + 1) cd = PRet (check_segs (split_on c_slash b) cd)).
    { intros cd'. rewrite IH by (rewrite Hsk; exact Hlen). rewrite Hsk. reflexivity. }
    rewrite E, split_on_app by exact Hn. destruct (split_on_cons_ne c_slash b) as [h [t Es]].
    rewrite Es, check_segs_cons, <- Es.
    rewrite <- (Nat.add_0_r last) at 1. rewrite !nth_skipn, E. rewrite !IH'.
    destruct a as [|c0 a]; cbn [app nth_error]; [reflexivity|].
    unfold dotdot, dot. change (lit "..") with [c_dot; c_dot]. cbn [starts_with starts_with_char].
    destruct a as [|c1 a]; cbn [app starts_with].
    + destruct (N.eqb c0 c_dot); cbn [andb]; reflexivity.
    + destruct (N.eqb c0 c_dot); cbn [andb]; [|reflexivity].
      destruct (N.eqb c1 c_dot); cbn [andb]; [|reflexivity]. rewrite starts_with_nil. destruct (cd - 1 <? 0)%Z; reflexivity.
  - apply find_char_none in E. rewrite split_on_nosep by exact E. reflexivity.
Qed.
Lemma check_target_segs : forall p, check_target p = PRet (check_segs (split_on c_slash p) 0).
Proof. intros p. unfold check_target. rewrite check_loop_segs by (cbn; lia). reflexivity. Qed.

(** Exactly: the count of no prefix without the last segment is below zero. *)
Lemma counted_eq : forall s, counted s = if dotdot s then (-1)%Z else if dot s then 0%Z else 1%Z.
Proof.
  intros s. unfold dotdot, dot. change (lit "..") with [c_dot; c_dot]. destruct s as [|c s]; [reflexivity|]. cbn [starts_with starts_with_char].
  unfold c_dot. destruct (N.eqb_spec c 46) as [->|Hc].
  - cbn [andb]. destruct s as [|d s]; [reflexivity|]. cbn [starts_with]. destruct (N.eqb_spec d 46) as [->|Hd]; [cbn; rewrite starts_with_nil; reflexivity|].
    cbn. destruct d as [|q]; [reflexivity|]. repeat (destruct q as [q|q|]; try reflexivity). contradiction Hd; reflexivity.
  - cbn [andb counted]. destruct c as [|q]; [reflexivity|]. repeat (destruct q as [q|q|]; try reflexivity). contradiction Hc; reflexivity.
Qed.
Lemma check_segs_exact : forall segs cd, (0 <= cd)%Z ->
  check_segs segs cd = true <-> forall n, n < length segs -> (0 <= cd + count (firstn n segs))%Z.
Proof.
  induction segs as [|s segs IH]; intros cd Hcd; [split; [intros _ n Hn; cbn in Hn; lia|reflexivity]|].
  destruct segs as [|x r].
  - split; [|reflexivity]. intros _ [|n] Hn; cbn in *; lia.
  - rewrite check_segs_cons. pose proof (counted_eq s) as Hc.
    assert (G : (0 <= cd + counted s)%Z -> check_segs (x :: r) (cd + counted s) = true <-> forall n, n < length (s :: x :: r) -> (0 <= cd + count (firstn n (s :: x :: r)))%Z).
    { intros H0. rewrite (IH _ H0). split.
      - intros H [|n] Hn; [cbn; lia|]. cbn [firstn]. unfold count. cbn [map fold_right]. fold (count (firstn n (x :: r))).
        specialize (H n ltac:(cbn [length] in *; lia)). lia.
      - intros H n Hn. specialize (H (S n) ltac:(cbn [length] in *; lia)). cbn [firstn] in H. unfold count in H. cbn [map fold_right] in H. fold (count (firstn n (x :: r))) in H. lia. }
    destruct (dotdot s).
    + destruct (Z.ltb_spec (cd - 1) 0) as [Hl|Hl].
      * split; [discriminate|]. intros H. specialize (H 1 ltac:(cbn [length]; lia)). unfold count in H. cbn [firstn map fold_right] in H. lia.
      * replace (cd - 1)%Z with (cd + counted s)%Z by lia. apply G. lia.
    + destruct (dot s); [replace cd with (cd + counted s)%Z at 1 by lia|replace (cd + 1)%Z with (cd + counted s)%Z by lia]; apply G; lia.
Qed.
(** Nothing that stays inside is turned down, if no name begins with ".". *)
Lemma check_segs_accepts : forall segs cd d, (cd >= Z.of_nat d)%Z -> (forall s, In s (removelast segs) -> plain_segment s) ->
  fold_left seg_move segs (Some d) <> None -> check_segs segs cd = true.
Proof.
  induction segs as [|s segs IH]; intros cd d Hd Hp H; [reflexivity|]. destruct segs as [|x r]; [reflexivity|].
  rewrite check_segs_cons. cbn [fold_left] in H. change (fold_left seg_move r (seg_move (seg_move (Some d) s) x)) with (fold_left seg_move (x :: r) (seg_move (Some d) s)) in H.
  assert (Hp' : forall s0, In s0 (removelast (x :: r)) -> plain_segment s0) by (intros s0 H0; apply Hp; right; exact H0).
  destruct (Hp s (or_introl eq_refl)) as [->|[->|Hs]].
  - change (dotdot (lit ".")) with false. change (dot (lit ".")) with true. cbn [negb]. eapply IH; [exact Hd|exact Hp'|exact H].
  - change (dotdot (lit "..")) with true. cbv iota. change (seg_move (Some d) (lit "..")) with (match d with 0 => None | S e => Some e end) in H.
    destruct d as [|e]; [contradiction H; clear; generalize (x :: r); induction l as [|y l IHl]; [reflexivity|exact IHl]|].
    destruct (Z.ltb_spec (cd - 1) 0); [lia|]. apply (IH (cd - 1)%Z e); [lia|exact Hp'|exact H].
  - assert (E : dotdot s = false /\ dot s = false).
    { unfold dotdot, dot. change (lit "..") with [c_dot; c_dot]. destruct s as [|c s]; [split; reflexivity|]. cbn [starts_with starts_with_char].
      destruct (N.eqb_spec c c_dot) as [->|]; [contradiction (Hs s); reflexivity|split; reflexivity]. }
    destruct E as [-> ->]. assert (Hm : exists e, seg_move (Some d) s = Some e /\ e <= S d).
    { unfold seg_move. destruct s as [|c s]; [exists d; split; [reflexivity|lia]|]. destruct (str_eqb_spec (c :: s) (lit ".")) as [E|_]; [contradiction (Hs []); rewrite E; reflexivity|].
      destruct (str_eqb_spec (c :: s) (lit "..")) as [E|_]; [contradiction (Hs (lit ".")); rewrite E; reflexivity|]. exists (S d). split; [reflexivity|lia]. }
    destruct Hm as (e & Ee & He). rewrite Ee in H. apply (IH (cd + 1)%Z e); [lia|exact Hp'|exact H].
Qed.

(** Sound when no segment before the last is empty and the last one is not "..". *)
Lemma check_segs_inside : forall segs cd d, (Z.of_nat d >= cd)%Z -> segs <> [] ->
  (forall s, In s (removelast segs) -> s <> []) -> last segs [] <> lit ".." ->
  check_segs segs cd = true -> fold_left seg_move segs (Some d) <> None.
Proof.
  induction segs as [|s segs IH]; intros cd d Hd Hne Hem Hl H; [contradiction|].
  destruct segs as [|x r].
  - cbn [fold_left seg_move]. destruct s as [|c s]; [discriminate|]. cbn [last] in Hl.
    destruct (str_eqb_spec (c :: s) (lit ".")); [discriminate|]. destruct (str_eqb_spec (c :: s) (lit "..")); [contradiction|discriminate].
  - rewrite check_segs_cons in H. cbn [fold_left].
    assert (Hs : s <> []) by (apply Hem; left; reflexivity).
    assert (Hem' : forall s0, In s0 (removelast (x :: r)) -> s0 <> []) by (intros s0 H0; apply Hem; right; exact H0).
    assert (Hl' : last (x :: r) [] <> lit "..") by exact Hl.
    assert (Hmove : exists d', seg_move (Some d) s = Some d' /\
       exists cd', (Z.of_nat d' >= cd')%Z /\ check_segs (x :: r) cd' = true).
    { unfold seg_move. destruct s as [|c s]; [contradiction|]. destruct (str_eqb_spec (c :: s) (lit ".")) as [E|E1].
      - exists d. split; [reflexivity|]. rewrite E in H. exists cd. split; [exact Hd|exact H].
      - destruct (str_eqb_spec (c :: s) (lit "..")) as [E|E2].
        + rewrite E in H. change (dotdot (lit "..")) with true in H. destruct (Z.ltb_spec (cd - 1) 0); [discriminate|].
          destruct d as [|e]; [lia|]. exists e. split; [reflexivity|]. exists (cd - 1)%Z. split; [lia|exact H].
        + exists (S d). split; [reflexivity|]. destruct (dotdot (c :: s)).
          * destruct (cd - 1 <? 0)%Z; [discriminate|]. exists (cd - 1)%Z. split; [lia|exact H].
          * destruct (dot (c :: s)); [exists cd|exists (cd + 1)%Z]; (split; [lia|exact H]). }
    destruct Hmove as [d' [-> [cd' [H1 H2]]]]. eapply IH; [exact H1|discriminate|exact Hem'|exact Hl'|exact H2].
Qed.
