(** * Proofs for C66 *)
From Coq Require Import String.
From Coq Require Import List Arith NArith ZArith Bool Lia.
From Verif Require Import Str StrP Json Types Map Map32 SpecMap TrieP CheckP.
Import ListNotations.

Notation L := i32_limit.
Lemma L_eq : L = 2147483648%Z.
Proof. reflexivity. Qed.
Lemma wrap_id : forall x, (- L <= x < L)%Z -> wrap32 x = x.
Proof. intros x H. unfold wrap32. rewrite L_eq in *. rewrite Z.mod_small by lia. lia. Qed.
Lemma fits_spec : forall x, fits32 x = true <-> (- L <= x < L)%Z.
Proof. intros x. unfold fits32. rewrite andb_true_iff, Z.leb_le, Z.ltb_lt. tauto. Qed.
Lemma arith_id : forall d x, (- L <= x < L)%Z -> arith32 d x = PRet x.
Proof. intros d x H. unfold arith32. apply fits_spec in H. rewrite H. reflexivity. Qed.
Lemma usize_id : forall x, (0 <= x < L)%Z -> as_usize x = Z.to_nat x.
Proof. intros x H. unfold as_usize. rewrite L_eq in *. rewrite Z.mod_small; [reflexivity|]. change (2 ^ 64)%Z with 18446744073709551616%Z. lia. Qed.

(** ** [check_target] *)
Fixpoint check_segs32 (d : bool) (segs : list str) (cd : Z) : pcomp bool :=
  match segs with
  | [] => PRet true
  | [_] => PRet true
  | s :: rest =>
      if dotdot s then plet cd' := arith32 d (cd - 1)%Z in if (cd' <? 0)%Z then PRet false else check_segs32 d rest cd'
      else if dot s then check_segs32 d rest cd else plet cd' := arith32 d (cd + 1)%Z in check_segs32 d rest cd'
  end.
Lemma check_segs32_cons : forall d s x r cd, check_segs32 d (s :: x :: r) cd =
  if dotdot s then plet cd' := arith32 d (cd - 1)%Z in if (cd' <? 0)%Z then PRet false else check_segs32 d (x :: r) cd'
  else if dot s then check_segs32 d (x :: r) cd else plet cd' := arith32 d (cd + 1)%Z in check_segs32 d (x :: r) cd'.
Proof. reflexivity. Qed.
Lemma check_loop_segs32 : forall d fuel p last cd, length (skipn last p) < fuel ->
  check_target_loop32 d fuel p (get_next_list p c_slash) last cd = check_segs32 d (split_on c_slash (skipn last p)) cd.
Proof.
  intros d. induction fuel as [|f IH]; intros p last cd Hf; [lia|]. cbn [check_target_loop32]. rewrite next_slash_eq.
  destruct (find_char (skipn last p) c_slash) as [[a b]|] eqn:E.
  - apply find_char_some in E. destruct E as [E Hn].
    assert (Hsk : skipn (last + length a + 1) p = b).
    { replace (last + length a + 1) with (last + (length a + 1)) by lia. rewrite skipn_add, E.
      rewrite skipn_add, skipn_app_len. reflexivity. }
    assert (Hlen : length b < f) by (rewrite E in Hf; rewrite app_length in Hf; cbn in Hf; lia).
    assert (IH' : forall cd, check_target_loop32 d f p (get_next_list p c_slash) (last + length a + 1) cd = check_segs32 d (split_on c_slash b) cd).
    { intros cd'. rewrite IH by (rewrite Hsk; exact Hlen). rewrite Hsk. reflexivity. }
    rewrite E, split_on_app by exact Hn. destruct (split_on_cons_ne c_slash b) as [h [t Es]].
    rewrite Es, check_segs32_cons, <- Es.
    rewrite <- (Nat.add_0_r last) at 1. rewrite !nth_skipn, E.
    assert (Hup : (plet cd' := arith32 d (cd + 1)%Z in check_target_loop32 d f p (get_next_list p c_slash) (last + length a + 1) cd') =
                  (plet cd' := arith32 d (cd + 1)%Z in check_segs32 d (split_on c_slash b) cd')).
    { destruct (arith32 d (cd + 1)) as [x|m|]; cbn [pbind]; [apply IH'|reflexivity|reflexivity]. }
    assert (Hdn : (plet cd' := arith32 d (cd - 1)%Z in if (cd' <? 0)%Z then PRet false else check_target_loop32 d f p (get_next_list p c_slash) (last + length a + 1) cd') =
                  (plet cd' := arith32 d (cd - 1)%Z in if (cd' <? 0)%Z then PRet false else check_segs32 d (split_on c_slash b) cd')).
    { destruct (arith32 d (cd - 1)) as [x|m|]; cbn [pbind]; [rewrite IH'|..]; reflexivity. }
    destruct a as [|c0 a]; cbn [app nth_error]; [exact Hup|].
    unfold dotdot, dot. change (lit "..") with [c_dot; c_dot]. cbn [starts_with starts_with_char].
    destruct a as [|c1 a]; cbn [app starts_with].
    + destruct (N.eqb c0 c_dot); cbn [andb]; [|exact Hup]. rewrite IH'. reflexivity.
    + destruct (N.eqb c0 c_dot); cbn [andb]; [|exact Hup].
      destruct (N.eqb c1 c_dot); cbn [andb]; [|apply IH']. rewrite starts_with_nil. exact Hdn.
  - apply find_char_none in E. rewrite split_on_nosep by exact E. reflexivity.
Qed.
Lemma check_target_segs32 : forall d p, check_target32 d p = check_segs32 d (split_on c_slash p) 0.
Proof. intros d p. unfold check_target32. rewrite check_loop_segs32 by (cbn; lia). reflexivity. Qed.
Lemma check_segs_fit : forall d segs cd, (0 <= cd)%Z -> (cd + Z.of_nat (length segs) <= L)%Z -> check_segs32 d segs cd = PRet (check_segs segs cd).
Proof.
  intros d. induction segs as [|s segs IH]; intros cd H0 H1; [reflexivity|]. destruct segs as [|x r]; [reflexivity|].
  rewrite check_segs32_cons, check_segs_cons. cbn [length] in *. destruct (dotdot s).
  - rewrite arith_id by (rewrite L_eq in *; lia). cbn [pbind]. destruct (Z.ltb_spec (cd - 1) 0); [reflexivity|]. apply IH; lia.
  - destruct (dot s); [apply IH; lia|]. rewrite arith_id by (rewrite L_eq in *; lia). cbn [pbind]. apply IH; lia.
Qed.
Lemma split_length : forall c p, length (split_on c p) <= S (length p).
Proof.
  intros c. induction p as [|x p IH]; [cbn; lia|]. cbn [split_on]. destruct (N.eqb x c); [cbn [length] in *; lia|].
  destruct (split_on c p); cbn [length] in *; lia.
Qed.
Lemma check_fit_p : forall d p, (Z.of_nat (length p) < L)%Z -> check_target32 d p = check_target p.
Proof.
  intros d p H. rewrite check_target_segs32, check_target_segs. apply check_segs_fit; [lia|]. pose proof (split_length c_slash p). lia.
Qed.

(** ** [field_process] *)
Lemma fold_fit : forall d m node last, (Z.of_nat last < L)%Z -> apply_folder_mapping32 d m node last = PRet (apply_folder_mapping m node last).
Proof.
  intros d m node last H. unfold apply_folder_mapping32, apply_folder_mapping. destruct (t_folder node); [|reflexivity].
  rewrite L_eq in *. rewrite wrap_id by (rewrite L_eq; lia). rewrite arith_id by (rewrite L_eq; lia). cbn [pbind]. rewrite arith_id by (rewrite L_eq; lia). reflexivity.
Qed.
Lemma wild_fit : forall w m remaining last, (Z.of_nat (last + blen remaining) < L)%Z -> apply_wildcards32 m w remaining last = apply_wildcards m w remaining last.
Proof.
  induction w as [|[key target] w IH]; intros m remaining last H; [reflexivity|]. cbn [apply_wildcards32 apply_wildcards].
  destruct (starts_with remaining key) eqn:E; [|apply IH, H]. apply starts_with_spec in E. destruct E as [r ->].
  rewrite wrap_id; [apply IH, H|]. rewrite blen_app in H. rewrite L_eq in *. lia.
Qed.
Lemma wilds_fit : forall m node remaining last, (Z.of_nat (last + blen remaining) < L)%Z ->
  apply_wildcard_mappings32 m node remaining last = apply_wildcard_mappings m node remaining last.
Proof. intros m node remaining last H. unfold apply_wildcard_mappings32, apply_wildcard_mappings. destruct (t_wildcards node); [apply wild_fit, H|reflexivity]. Qed.
Lemma blen_split : forall n s, blen s = blen (firstn n s) + blen (skipn n s).
Proof. intros n s. rewrite <- blen_app, firstn_skipn. reflexivity. Qed.
Lemma find_loop_fit : forall d fuel request node last m, (Z.of_nat (blen request) + 1 < L)%Z -> last <= length request ->
  find_match_loop32 d fuel request (get_next_list request c_slash) node last m = find_match_loop fuel request (get_next_list request c_slash) node last m.
Proof.
  intros d. induction fuel as [|f IH]; intros request node last m H Hl; [reflexivity|]. cbn [find_match_loop32 find_match_loop]. rewrite next_slash_eq.
  pose proof (blen_length request) as Hb. pose proof (blen_split last request) as Hs.
  pose proof (blen_length (firstn last request)) as Hf. rewrite firstn_length_le in Hf by exact Hl.
  destruct (find_char (skipn last request) c_slash) as [[a b]|] eqn:E.
  - apply find_char_some in E. destruct E as [E Hn]. rewrite fold_fit by lia. cbn [pbind].
    destruct (_ && _); [reflexivity|].
    assert (Ec : char_slice request last (last + length a) = a).
    { unfold char_slice. rewrite E. replace (last + length a - last) with (length a) by lia. rewrite firstn_app, Nat.sub_diag, firstn_all, app_nil_r. reflexivity. }
    rewrite Ec. assert (Ha : (Z.of_nat (last + blen a) < L)%Z) by (rewrite E, blen_app in Hs; lia). rewrite wilds_fit by exact Ha.
    destruct (t_children node) as [ch|]; [|reflexivity]. destruct (imap_get ch a); [|reflexivity]. apply IH; [exact H|].
    assert (Hk : length (skipn last request) = length a + S (length b)) by (rewrite E, app_length; reflexivity). rewrite skipn_length in Hk. lia.
  - destruct (imap_get (t_files node) (skipn last request)); [rewrite wrap_id by (rewrite L_eq in *; lia); reflexivity|].
    rewrite fold_fit by lia. cbn [pbind]. rewrite wilds_fit by lia. reflexivity.
Qed.
Lemma find_fit : forall d root request, (Z.of_nat (blen request) + 1 < L)%Z -> find_match32 d root request = find_match root request.
Proof.
  intros d root request H. pose proof (blen_length request). destruct request as [|c r]; [reflexivity|]. unfold find_match32, find_match.
  destruct (_ && _); [rewrite wrap_id by (rewrite L_eq in *; lia); reflexivity|]. apply find_loop_fit; [exact H|lia].
Qed.
(** The indices found. *)
Definition index_ok (request : str) (m : fmatch) : Prop := forall v i, m = Some (v, i) -> (- Z.of_nat (length request) - 1 <= i <= Z.of_nat (blen request) + 1)%Z.
Lemma fold_ok : forall request m node last, last <= length request -> index_ok request m -> index_ok request (apply_folder_mapping m node last).
Proof. intros request m node last Hl Hm. unfold apply_folder_mapping. destruct (t_folder node); [intros v i [= <- <-]; lia|exact Hm]. Qed.
Lemma wilds_ok : forall request m node remaining last, last + blen remaining <= blen request -> index_ok request m -> index_ok request (apply_wildcard_mappings m node remaining last).
Proof.
  intros request m node remaining last Hl Hm. unfold apply_wildcard_mappings. destruct (t_wildcards node) as [w|]; [|exact Hm]. revert m Hm.
  induction w as [|[key target] w IH]; intros m Hm; [exact Hm|]. cbn [apply_wildcards]. apply IH.
  destruct (starts_with remaining key) eqn:E; [|exact Hm]. apply starts_with_spec in E. destruct E as [r ->]. rewrite blen_app in Hl.
  assert (H1 : index_ok request (Some (target, Z.of_nat (last + blen key)))) by (intros v i [= <- <-]; lia).
  destruct m as [[v i]|]; [|exact H1]. destruct (_ <? _)%Z; assumption.
Qed.
Lemma find_loop_ok : forall fuel request node last m x, last <= length request -> index_ok request m ->
  find_match_loop fuel request (get_next_list request c_slash) node last m = PRet x -> index_ok request x.
Proof.
  induction fuel as [|f IH]; intros request node last m x Hl Hm; [discriminate|]. cbn [find_match_loop]. rewrite next_slash_eq.
  pose proof (blen_length request) as Hb. pose proof (blen_split last request) as Hs.
  pose proof (blen_length (firstn last request)) as Hf. rewrite firstn_length_le in Hf by exact Hl.
  pose proof (fold_ok request m node last Hl Hm) as H1.
  destruct (find_char (skipn last request) c_slash) as [[a b]|] eqn:E.
  - apply find_char_some in E. destruct E as [E Hn].
    destruct (_ && _); [intros [= <-]; exact H1|].
    assert (Ec : char_slice request last (last + length a) = a).
    { unfold char_slice. rewrite E. replace (last + length a - last) with (length a) by lia. rewrite firstn_app, Nat.sub_diag, firstn_all, app_nil_r. reflexivity. }
    rewrite Ec. assert (Ha : last + blen a <= blen request) by (rewrite E, blen_app in Hs; lia).
    pose proof (wilds_ok request _ node a last Ha H1) as H2.
    destruct (t_children node) as [ch|]; [|intros [= <-]; exact H2]. destruct (imap_get ch a); [|intros [= <-]; exact H2].
    intros Hx. eapply IH; [|exact H2|exact Hx].
    assert (Hk : length (skipn last request) = length a + S (length b)) by (rewrite E, app_length; reflexivity). rewrite skipn_length in Hk. lia.
  - destruct (imap_get (t_files node) (skipn last request)); [intros [= <-] v i [= <- <-]; lia|].
    intros [= <-]. apply wilds_ok; [lia|exact H1].
Qed.
Lemma find_ok : forall root request x, find_match root request = PRet x -> index_ok request x.
Proof.
  intros root request x. pose proof (blen_length request). destruct request as [|c r]; unfold find_match.
  - intros [= <-] v i. destruct (imap_get _ _); intros [= <- <-]. cbn. lia.
  - cbn [length] in H. destruct (_ && _); [intros [= <-] v i; destruct (imap_get _ _); intros [= <- <-]; cbn [length]; lia|]. apply find_loop_ok; [lia|intros v i [=]].
Qed.
Lemma rest_fit : forall d request i, (Z.of_nat (blen request) + 1 < L)%Z -> (- Z.of_nat (length request) - 1 <= i <= Z.of_nat (blen request) + 1)%Z ->
  remaining_of32 d request i = PRet (remaining_of request i).
Proof.
  intros d request i H Hi. pose proof (blen_length request). unfold remaining_of32, remaining_of. rewrite L_eq in *.
  rewrite wrap_id by (rewrite L_eq; lia). rewrite arith_id by (rewrite L_eq; lia). cbn [pbind].
  destruct (i =? _)%Z; [reflexivity|]. destruct (Z.ltb_spec i 0).
  - rewrite arith_id by (rewrite L_eq; lia). cbn [pbind]. rewrite arith_id by (rewrite L_eq; lia). cbn [pbind]. rewrite usize_id by (rewrite L_eq; lia). reflexivity.
  - rewrite usize_id by (rewrite L_eq; lia). reflexivity.
Qed.
Lemma request_blen : forall fk target r, assert_request fk target = Ok r -> blen r <= blen target.
Proof.
  intros fk target r H.
  assert (Hs : forall n, blen (skipn n target) <= blen target) by (intros n; rewrite (blen_split n target); lia).
  assert (Hr : r = [] \/ exists n, r = skipn n target).
  { destruct fk; cbn [assert_request] in H; repeat match type of H with (if ?b then _ else _) = _ => destruct b; try discriminate end;
      first [left; congruence | right; exists 2; congruence | right; exists 1; congruence]. }
  destruct Hr as [->|[n ->]]; [cbn; lia|apply Hs].
Qed.
Lemma field_fit_p : forall d fk root target names, (Z.of_nat (blen target) + 1 < L)%Z ->
  field_process32 d fk root target names = field_process fk root target names.
Proof.
  intros d fk root target names H. unfold field_process32, field_process. destruct (assert_request fk target) as [r|e] eqn:E; [|reflexivity].
  apply request_blen in E. assert (Hr : (Z.of_nat (blen r) + 1 < L)%Z) by lia. rewrite find_fit by exact Hr.
  destruct (find_match root r) as [x|m|] eqn:Ef; [|reflexivity|reflexivity]. cbn [pbind]. destruct x as [[v i]|]; [|reflexivity].
  rewrite rest_fit; [reflexivity|exact Hr|]. eapply find_ok; [exact Ef|reflexivity].
Qed.

(** ** Longer texts *)
Definition deep (n : nat) : str := flat_map (fun _ => lit "a/") (repeat tt n).
Lemma split_deep : forall n s, split_on c_slash (deep n ++ s) = repeat (lit "a") n ++ split_on c_slash s.
Proof.
  induction n as [|n IH]; intros s; [reflexivity|]. unfold deep. cbn [repeat flat_map]. fold (deep n).
  change ((lit "a/" ++ deep n) ++ s) with (97%N :: 47%N :: deep n ++ s). cbn [split_on]. change (N.eqb 97 c_slash) with false. change (N.eqb 47 c_slash) with true. cbv iota.
  rewrite IH. reflexivity.
Qed.
Lemma deep_exact : forall n s x r cd, split_on c_slash s = x :: r -> check_segs (repeat (lit "a") n ++ split_on c_slash s) cd = check_segs (split_on c_slash s) (cd + Z.of_nat n).
Proof.
  induction n as [|n IH]; intros s x r cd Es; [cbn [repeat app]; f_equal; lia|]. cbn [repeat app].
  assert (Hne : exists y t, repeat (lit "a") n ++ split_on c_slash s = y :: t) by (destruct n; [rewrite Es; cbn; eauto|cbn [repeat app]; eauto]).
  destruct Hne as (y & t & Ey). rewrite Ey, check_segs_cons, <- Ey. change (dotdot (lit "a")) with false. change (dot (lit "a")) with false. cbv iota.
  rewrite (IH s x r _ Es). f_equal. lia.
Qed.
(** Counting up wraps around once. *)
Lemma deep_up : forall d n s x r cd, split_on c_slash s = x :: r -> (- L <= cd)%Z -> (cd + Z.of_nat n < L)%Z ->
  check_segs32 d (repeat (lit "a") n ++ split_on c_slash s) cd = check_segs32 d (split_on c_slash s) (cd + Z.of_nat n).
Proof.
  intros d. induction n as [|n IH]; intros s x r cd Es H0 H1; [cbn [repeat app]; f_equal; lia|]. cbn [repeat app].
  assert (Hne : exists y t, repeat (lit "a") n ++ split_on c_slash s = y :: t) by (destruct n; [rewrite Es; cbn; eauto|cbn [repeat app]; eauto]).
  destruct Hne as (y & t & Ey). rewrite Ey, check_segs32_cons, <- Ey. change (dotdot (lit "a")) with false. change (dot (lit "a")) with false. cbv iota.
  rewrite arith_id by lia. cbn [pbind]. rewrite (IH s x r) by (exact Es || lia). f_equal. lia.
Qed.
Lemma deep_wrap : forall d m n s x r, split_on c_slash s = x :: r -> (Z.of_nat n = L - 1)%Z -> (Z.of_nat m < L)%Z ->
  check_segs32 d (repeat (lit "a") (n + S m) ++ split_on c_slash s) 0 =
  if d then PPanic (lit "arithmetic operation overflowed") else check_segs32 d (split_on c_slash s) (- L + Z.of_nat m).
Proof.
  intros d m n s x r Es Hn Hm. rewrite repeat_app, <- app_assoc.
  assert (E1 : exists s1 x1 r1, repeat (lit "a") (S m) ++ split_on c_slash s = split_on c_slash s1 /\ split_on c_slash s1 = x1 :: r1).
  { exists (deep (S m) ++ s). rewrite split_deep. cbn [repeat app]. eauto. }
  destruct E1 as (s1 & x1 & r1 & E1 & Es1). rewrite E1, (deep_up d n s1 x1 r1 0%Z Es1) by (rewrite L_eq in *; lia). rewrite <- E1. cbn [repeat app].
  assert (Hne : exists y t, repeat (lit "a") m ++ split_on c_slash s = y :: t) by (destruct m; [rewrite Es; cbn; eauto|cbn [repeat app]; eauto]).
  destruct Hne as (y & t & Ey). rewrite Ey, check_segs32_cons, <- Ey. change (dotdot (lit "a")) with false. change (dot (lit "a")) with false. cbv iota.
  unfold arith32. replace (fits32 (0 + Z.of_nat n + 1)) with false.
  2:{ symmetry. apply not_true_iff_false. rewrite fits_spec. lia. }
  destruct d; [reflexivity|]. cbn [pbind]. replace (wrap32 (0 + Z.of_nat n + 1)) with (- L)%Z.
  2:{ replace (0 + Z.of_nat n + 1)%Z with L by lia. reflexivity. }
  rewrite (deep_up false m s x r) by (exact Es || rewrite L_eq in *; lia). reflexivity.
Qed.
Definition too_deep : str := deep (Z.to_nat (L - 1) + 2) ++ lit "../x".
Lemma too_deep_p : exists p, check_target p = PRet true /\ stays_inside p /\ check_target32 false p = PRet false /\
  exists msg, check_target32 true p = PPanic msg.
Proof.
  exists too_deep. unfold too_deep. assert (Hn : (Z.of_nat (Z.to_nat (L - 1)) = L - 1)%Z) by (rewrite Z2Nat.id; [reflexivity|rewrite L_eq; lia]).
  assert (Hm : (Z.of_nat 1 < L)%Z) by (rewrite L_eq; lia). revert Hn. generalize (Z.to_nat (L - 1)). intros n Hn.
  assert (Es : split_on c_slash (lit "../x") = lit ".." :: [lit "x"]) by reflexivity.
  assert (H1 : check_target (deep (n + 2) ++ lit "../x") = PRet true).
  { rewrite check_target_segs, split_deep, (deep_exact _ _ _ _ _ Es), Es, check_segs_cons. change (dotdot (lit "..")) with true. cbv iota.
    destruct (Z.ltb_spec (0 + Z.of_nat (n + 2) - 1) 0); [lia|reflexivity]. }
  split; [exact H1|]. split; [|split].
  - unfold stays_inside. change 47%N with c_slash. rewrite split_deep, Es, fold_left_app.
    assert (G : forall k a, fold_left seg_move (repeat (lit "a") k) (Some a) = Some (k + a)).
    { induction k as [|k IH]; intros a; [reflexivity|]. cbn [repeat fold_left]. change (seg_move (Some a) (lit "a")) with (Some (S a)). rewrite IH. f_equal. lia. }
    rewrite G. replace (n + 2 + 0) with (S (S n)) by lia. discriminate.
  - rewrite check_target_segs32, split_deep, (deep_wrap false 1 n _ _ _ Es Hn Hm), Es. reflexivity.
  - rewrite check_target_segs32, split_deep, (deep_wrap true 1 n _ _ _ Es Hn Hm). eauto.
Qed.

(** A request of the largest length an [i32] can hold. *)
Lemma field_debug_p : exists fk root target names, (forall c, In c target -> (c < 128)%N) /\ (Z.of_nat (blen target) = L + 1)%Z /\
  field_process fk root target names = PRet (Ok [lit "./x"]) /\ field_process32 false fk root target names = PRet (Ok [lit "./x"]) /\
  exists msg, field_process32 true fk root target names = PPanic msg.
Proof.
  assert (Hn : (Z.of_nat (Z.to_nat (L - 2)) = L - 2)%Z) by (rewrite Z2Nat.id; [reflexivity|rewrite L_eq; lia]).
  revert Hn. generalize (Z.to_nat (L - 2)). intros n Hn. set (req := 97%N :: repeat 97%N n).
  assert (Hl : (Z.of_nat (length req) = L - 1)%Z) by (unfold req; cbn [length]; rewrite repeat_length; rewrite L_eq in *; lia).
  assert (Hb : forall k, blen (repeat 97%N k) = k) by (induction k as [|k IH]; [reflexivity|cbn [repeat blen]; rewrite IH; reflexivity]).
  assert (Hbr : blen req = length req) by (unfold req; cbn [blen length]; rewrite Hb, repeat_length; reflexivity).
  assert (Hend : ends_with_char (lit "./" ++ req) c_slash = false).
  { apply not_true_iff_false. rewrite ends_with_char_spec. intros [q Hq].
    assert (E : req = repeat 97%N n ++ [97%N]) by (unfold req; rewrite <- (repeat_cons n 97%N); reflexivity).
    rewrite E, app_assoc in Hq. apply app_inj_tail in Hq. destruct Hq as [_ Hq]. discriminate. }
  assert (Har : assert_request FExports (lit "./" ++ req) = Ok req).
  { unfold assert_request. change (starts_with_char (lit "./" ++ req) c_dot) with true. cbn [negb].
    assert (H1 : Nat.eqb (blen (lit "./" ++ req)) 1 = false).
    { apply Nat.eqb_neq. rewrite blen_app. change (blen (lit "./")) with 2. lia. }
    rewrite H1. assert (H2 : starts_with (lit "./" ++ req) (lit "./") = true) by (apply starts_with_spec; eauto). rewrite H2. cbn [negb]. rewrite Hend. reflexivity. }
  assert (Hne : exists c r, req = c :: r) by (unfold req; eauto). destruct Hne as (c & r & Er).
  exists FExports, (set_files ptn_default [(req, MDirect (lit "./x"))]), (lit "./" ++ req), [].
  assert (Hg : imap_get [(req, MDirect (lit "./x"))] req = Some (MDirect (lit "./x"))) by (cbn [imap_get]; rewrite str_eqb_refl; reflexivity).
  assert (Hf : find_match (set_files ptn_default [(req, MDirect (lit "./x"))]) req = PRet (Some (MDirect (lit "./x"), (Z.of_nat (length req) + 1)%Z))).
  { unfold find_match. rewrite Er at 1. cbn [set_files ptn_default t_children t_folder t_wildcards t_files is_none andb]. rewrite Hg. reflexivity. }
  assert (Hf32 : forall d, find_match32 d (set_files ptn_default [(req, MDirect (lit "./x"))]) req = PRet (Some (MDirect (lit "./x"), (- L)%Z))).
  { intros d. unfold find_match32. rewrite Er at 1. cbn [set_files ptn_default t_children t_folder t_wildcards t_files is_none andb]. rewrite Hg.
    unfold str, char in *. rewrite Hl. reflexivity. }
  split; [|split; [|split; [|split]]].
  - intros x Hx. apply in_app_or in Hx. destruct Hx as [Hx|Hx]; [cbn in Hx; intuition (subst; reflexivity)|].
    unfold req in Hx. destruct Hx as [<-|Hx]; [reflexivity|]. apply repeat_spec in Hx. subst x. reflexivity.
  - rewrite blen_app, Hbr. change (blen (lit "./")) with 2. lia.
  - unfold field_process. rewrite Har, Hf. cbn [pbind]. unfold remaining_of. rewrite Z.eqb_refl.
    replace (Z.of_nat (length req) + 1 <? 0)%Z with false by (symmetry; apply Z.ltb_ge; lia). reflexivity.
  - unfold field_process32. rewrite Har, Hf32. cbn [pbind]. unfold remaining_of32. unfold str, char in *. rewrite Hl. reflexivity.
  - unfold field_process32. rewrite Har, Hf32. cbn [pbind]. unfold remaining_of32. unfold str, char in *. rewrite Hl. eexists. reflexivity.
Qed.

Lemma C66_field_p : forall debug fk root target names, (Z.of_nat (blen target) < 2147483647)%Z ->
  field_process32 debug fk root target names = field_process fk root target names.
Proof. intros debug fk root target names H. apply field_fit_p. rewrite L_eq. lia. Qed.
Lemma check_shallow_p : forall debug p, (Z.of_nat (length (split_on 47%N p)) <= 2147483648)%Z -> check_target32 debug p = check_target p.
Proof. intros d p H. rewrite check_target_segs32, check_target_segs. apply check_segs_fit; [lia|]. rewrite L_eq. exact H. Qed.
Definition c66_json : json :=
  JObj [(lit "./a/*", JStr (lit "./src/*")); (lit "./lib/", JObj [(lit "import", JStr (lit "./dist/"))]); (lit "./f", JStr (lit "./g.js"))].
Lemma C66_ex_p : forall debug,
  (match build_field FExports c66_json with
   | PRet (Ok root) =>
       map (fun t => field_process32 debug FExports root (lit t) [lit "import"]) ["./a/b.js"; "./lib/x.js"; "./f"; "./none"]%string
   | _ => []
   end) = [PRet (Ok [lit "./src/b.js"]); PRet (Ok [lit "./dist/x.js"]); PRet (Ok [lit "./g.js"]); PRet (Ok [])] /\
  check_target32 debug (lit "a/../b/./../x") = PRet true /\ check_target32 debug (lit "a/../../x") = PRet false.
Proof. intros []; (split; [vm_compute; reflexivity|split; vm_compute; reflexivity]). Qed.
Lemma C66_width_ex_p :
  arith32 true 2147483648 = PPanic (lit "arithmetic operation overflowed") /\ arith32 false 2147483648 = PRet (-2147483648)%Z /\
  arith32 true (-2147483648) = PRet (-2147483648)%Z /\ wrap32 (2147483647 + 2) = (-2147483647)%Z /\ as_usize 5 = 5.
Proof. repeat split. Qed.
