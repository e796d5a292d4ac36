(** * Proofs for PropAdjust.v *)
From Coq Require Import String.
From Coq Require Import List Arith NArith ZArith Bool Lia.
From Verif Require Import Str Adjust SpecAdjust.
Import ListNotations.
Open Scope list_scope.
Open Scope N_scope.
Ltac Zify.zify_post_hook ::= Z.to_euclidean_division_equations.

Lemma between_true a b x : a <= x -> x <= b -> between a b x = true.
Proof. intros H1 H2. unfold between. apply andb_true_iff. split; apply N.leb_le; assumption. Qed.
Lemma between_false_l a b x : x < a -> between a b x = false.
Proof. intros H. unfold between. apply andb_false_iff. left. apply N.leb_gt. assumption. Qed.
Lemma between_false_r a b x : b < x -> between a b x = false.
Proof. intros H. unfold between. apply andb_false_iff. right. apply N.leb_gt. assumption. Qed.
Lemma ltb_false a b : b <= a -> (a <? b) = false.
Proof. apply N.ltb_ge. Qed.
Lemma cont_mod n : cont (128 + n mod 64) = true.
Proof. apply between_true; lia. Qed.

Lemma display_char c r : scalar c -> display (utf8_char c ++ r) = c :: display r.
Proof.
  intros Hc. unfold utf8_char. destruct (N.ltb_spec c 128) as [H1|H1].
  { cbn [app display]. rewrite (proj2 (N.ltb_lt c 128) H1). reflexivity. }
  destruct (N.ltb_spec c 2048) as [H2|H2].
  { cbn [app display]. rewrite ltb_false by lia. rewrite (between_true 194 223) by lia. rewrite cont_mod. f_equal. lia. }
  destruct (N.ltb_spec c 65536) as [H3|H3].
  { cbn [app display]. rewrite ltb_false by lia. rewrite (between_false_r 194 223) by lia. rewrite (between_true 224 239) by lia.
    replace (if 224 + c / 4096 =? 224 then _ else _) with true.
    { rewrite cont_mod. f_equal. lia. }
    symmetry. destruct (N.eqb_spec (224 + c / 4096) 224) as [E|E]; [apply between_true; lia|].
    destruct (N.eqb_spec (224 + c / 4096) 237) as [E'|E']; [|apply cont_mod].
    unfold scalar in Hc. apply between_true; lia. }
  assert (H4 : c < 1114112) by (unfold scalar in Hc; lia).
  cbn [app display]. rewrite ltb_false by lia. rewrite (between_false_r 194 223) by lia. rewrite (between_false_r 224 239) by lia.
  rewrite (between_true 240 244) by lia.
  replace (if 240 + c / 262144 =? 240 then _ else _) with true.
  { rewrite cont_mod, cont_mod. f_equal. lia. }
  symmetry. destruct (N.eqb_spec (240 + c / 262144) 240) as [E|E]; [apply between_true; lia|].
  destruct (N.eqb_spec (240 + c / 262144) 244) as [E'|E']; [|apply cont_mod].
  apply between_true; lia.
Qed.
Lemma fin_72_prefix : forall s b, Forall scalar s -> adjust_unix (utf8 s ++ b) = s ++ adjust_unix b.
Proof.
  intros s b H. unfold adjust_unix, utf8. induction H as [|c s Hc _ IH]; [reflexivity|].
  cbn [flat_map app]. rewrite <- app_assoc, display_char by exact Hc. rewrite IH. reflexivity.
Qed.
Lemma fin_72_text : forall s, Forall scalar s -> adjust_unix (utf8 s) = s.
Proof. intros s H. rewrite <- (app_nil_r (utf8 s)), fin_72_prefix by exact H. apply app_nil_r. Qed.

Lemma between_iff a b x : between a b x = true <-> a <= x <= b.
Proof. unfold between. rewrite andb_true_iff, !N.leb_le. reflexivity. Qed.
Lemma scalar_replacement : scalar replacement.
Proof. right. unfold replacement. lia. Qed.
Ltac rep IH := constructor; [exact scalar_replacement|apply IH; cbn [length] in *; lia].
Lemma display_scalar : forall b, Forall scalar (display b).
Proof.
  intros b. remember (length b) as n eqn:E. assert (Hn : (length b <= n)%nat) by lia. clear E. revert b Hn.
  induction n as [|n IH]; intros b Hn.
  { destruct b; [constructor | cbn in Hn; lia]. }
  destruct b as [|x r]; [constructor|]. cbn [length] in Hn. cbn [display].
  destruct (N.ltb_spec x 128) as [Hx|Hx].
  { constructor; [left; lia | apply IH; lia]. }
  destruct (between 194 223 x) eqn:E2.
  { destruct r as [|y r1]; [constructor; [exact scalar_replacement | constructor]|]. destruct (cont y) eqn:Ey; [|rep IH].
    apply between_iff in E2. apply between_iff in Ey. constructor; [left; lia | apply IH; cbn [length] in Hn; lia]. }
  destruct (between 224 239 x) eqn:E3.
  { destruct r as [|y r1]; [constructor; [exact scalar_replacement | constructor]|].
    destruct (if x =? 224 then _ else _) eqn:Ey; [|rep IH].
    destruct r1 as [|z r2]; [constructor; [exact scalar_replacement | constructor]|]. cbn [length] in Hn.
    destruct (cont z) eqn:Ez; [|rep IH].
    apply between_iff in E3. apply between_iff in Ez. constructor; [|apply IH; lia].
    unfold scalar. destruct (N.eqb_spec x 224) as [E|E]; [apply between_iff in Ey; left; lia|].
    destruct (N.eqb_spec x 237) as [E'|E']; [apply between_iff in Ey; left; lia|]. apply between_iff in Ey. lia. }
  destruct (between 240 244 x) eqn:E4; [|rep IH].
  destruct r as [|y r1]; [constructor; [exact scalar_replacement | constructor]|].
  destruct (if x =? 240 then _ else _) eqn:Ey; [|rep IH].
  destruct r1 as [|z r2]; [constructor; [exact scalar_replacement | constructor]|]. cbn [length] in Hn.
  destruct (cont z) eqn:Ez; [|rep IH].
  destruct r2 as [|w r3]; [constructor; [exact scalar_replacement | constructor]|]. cbn [length] in Hn.
  destruct (cont w) eqn:Ew; [|rep IH].
  apply between_iff in E4. apply between_iff in Ez. apply between_iff in Ew. constructor; [|apply IH; lia].
  right. destruct (N.eqb_spec x 240) as [E|E]; [apply between_iff in Ey; lia|].
  destruct (N.eqb_spec x 244) as [E'|E']; apply between_iff in Ey; lia.
Qed.
Lemma fin_72_exact : forall b, utf8 (adjust_unix b) = b <-> is_utf8 b.
Proof.
  intros b. split.
  - intros H. exists (adjust_unix b). split; [apply display_scalar | symmetry; exact H].
  - intros (s & Hs & ->). rewrite fin_72_text by exact Hs. reflexivity.
Qed.
Definition second3 (x y : N) : bool := if x =? 224 then between 160 191 y else if x =? 237 then between 128 159 y else cont y.
Definition second4 (x y : N) : bool := if x =? 240 then between 144 191 y else if x =? 244 then between 128 143 y else cont y.
Lemma enc2 x y : between 194 223 x = true -> cont y = true -> exists c, scalar c /\ utf8_char c = [x; y].
Proof.
  intros Hx Hy. apply between_iff in Hx. apply between_iff in Hy. exists ((x - 192) * 64 + (y - 128)). split; [left; lia|].
  unfold utf8_char. rewrite ltb_false by lia. rewrite (proj2 (N.ltb_lt _ 2048)) by lia. f_equal; [lia|]. f_equal; lia.
Qed.
Lemma second3_range x y : second3 x y = true -> 128 <= y <= 191 /\ (x = 224 -> 160 <= y) /\ (x = 237 -> y <= 159).
Proof.
  unfold second3. destruct (N.eqb_spec x 224) as [->|]; [intros H; apply between_iff in H; lia|].
  destruct (N.eqb_spec x 237) as [->|]; intros H; apply between_iff in H; lia.
Qed.
Lemma second4_range x y : second4 x y = true -> 128 <= y <= 191 /\ (x = 240 -> 144 <= y) /\ (x = 244 -> y <= 143).
Proof.
  unfold second4. destruct (N.eqb_spec x 240) as [->|]; [intros H; apply between_iff in H; lia|].
  destruct (N.eqb_spec x 244) as [->|]; intros H; apply between_iff in H; lia.
Qed.
Lemma second3_of x y : 128 <= y <= 191 -> (x = 224 -> 160 <= y) -> (x = 237 -> y <= 159) -> second3 x y = true.
Proof.
  intros H1 H2 H3. unfold second3. destruct (N.eqb_spec x 224) as [->|]; [apply between_iff; lia|].
  destruct (N.eqb_spec x 237) as [->|]; apply between_iff; lia.
Qed.
Lemma second4_of x y : 128 <= y <= 191 -> (x = 240 -> 144 <= y) -> (x = 244 -> y <= 143) -> second4 x y = true.
Proof.
  intros H1 H2 H3. unfold second4. destruct (N.eqb_spec x 240) as [->|]; [apply between_iff; lia|].
  destruct (N.eqb_spec x 244) as [->|]; apply between_iff; lia.
Qed.
Lemma enc3 x y z : between 224 239 x = true -> second3 x y = true -> cont z = true -> exists c, scalar c /\ utf8_char c = [x; y; z].
Proof.
  intros Hx Hy Hz. apply between_iff in Hx. apply second3_range in Hy. apply between_iff in Hz.
  exists ((x - 224) * 4096 + (y - 128) * 64 + (z - 128)). split; [unfold scalar; lia|].
  unfold utf8_char. rewrite ltb_false by lia. rewrite ltb_false by lia. rewrite (proj2 (N.ltb_lt _ 65536)) by lia.
  f_equal; [lia|]. f_equal; [lia|]. f_equal; lia.
Qed.
Lemma enc4 x y z w : between 240 244 x = true -> second4 x y = true -> cont z = true -> cont w = true ->
  exists c, scalar c /\ utf8_char c = [x; y; z; w].
Proof.
  intros Hx Hy Hz Hw. apply between_iff in Hx. apply second4_range in Hy. apply between_iff in Hz. apply between_iff in Hw.
  exists ((x - 240) * 262144 + (y - 128) * 4096 + (z - 128) * 64 + (w - 128)). split; [right; lia|].
  unfold utf8_char. rewrite ltb_false by lia. rewrite ltb_false by lia. rewrite ltb_false by lia.
  f_equal; [lia|]. f_equal; [lia|]. f_equal; [lia|]. f_equal; lia.
Qed.
(** What an encoding looks like. *)
Lemma lead c x t : scalar c -> utf8_char c = x :: t ->
  (x < 128 /\ t = []) \/
  (between 194 223 x = true /\ exists y, t = [y] /\ cont y = true) \/
  (between 224 239 x = true /\ exists y z, t = [y; z] /\ second3 x y = true /\ cont z = true) \/
  (between 240 244 x = true /\ exists y z w, t = [y; z; w] /\ second4 x y = true /\ cont z = true /\ cont w = true).
Proof.
  intros Hc. unfold utf8_char. destruct (N.ltb_spec c 128) as [H1|H1].
  { intros H. pose proof (f_equal (hd 0) H) as Hx. pose proof (f_equal (@tl N) H) as Ht. cbn [hd tl] in Hx, Ht. clear H. rewrite <- Hx, <- Ht. clear Hx Ht. left. split; [exact H1 | reflexivity]. }
  destruct (N.ltb_spec c 2048) as [H2|H2].
  { intros H. pose proof (f_equal (hd 0) H) as Hx. pose proof (f_equal (@tl N) H) as Ht. cbn [hd tl] in Hx, Ht. clear H. rewrite <- Hx, <- Ht. clear Hx Ht. right. left. split; [apply between_iff; lia|]. eexists. split; [reflexivity | apply cont_mod]. }
  destruct (N.ltb_spec c 65536) as [H3|H3].
  { intros H. pose proof (f_equal (hd 0) H) as Hx. pose proof (f_equal (@tl N) H) as Ht. cbn [hd tl] in Hx, Ht. clear H. rewrite <- Hx, <- Ht. clear Hx Ht. right. right. left. split; [apply between_iff; lia|]. eexists _, _. split; [reflexivity|].
    split; [apply second3_of; [lia | lia | unfold scalar in Hc; lia] | apply cont_mod]. }
  intros H. pose proof (f_equal (hd 0) H) as Hx. pose proof (f_equal (@tl N) H) as Ht. cbn [hd tl] in Hx, Ht. clear H. rewrite <- Hx, <- Ht. clear Hx Ht. unfold scalar in Hc. right. right. right. split; [apply between_iff; lia|]. eexists _, _, _.
  split; [reflexivity|]. split; [apply second4_of; lia|]. split; apply cont_mod.
Qed.
Lemma no_begin k x r (P : Prop) : begins (firstn k (x :: r)) -> (1 < k)%nat ->
  (forall c t', scalar c -> utf8_char c = x :: firstn (k - 1) r ++ t' -> t' <> [] -> P) -> P.
Proof.
  intros (c & t' & Hc & Ht & He) Hk H. destruct k as [|k]; [lia|]. cbn [firstn app] in He. apply (H c t' Hc); [|exact Ht].
  replace (S k - 1)%nat with k by lia. exact He.
Qed.
Lemma fin_72_invalid : forall x r, ~ starts_char (x :: r) -> exists k, (1 <= k <= length (x :: r))%nat /\
  adjust_unix (x :: r) = replacement :: adjust_unix (skipn k (x :: r)) /\
  (k = 1%nat \/ begins (firstn k (x :: r))) /\
  forall k', (k < k' <= length (x :: r))%nat -> ~ begins (firstn k' (x :: r)).
Proof.
  intros x r Hn. unfold adjust_unix. cbn [display length].
  destruct (N.ltb_spec x 128) as [Hx|Hx].
  { exfalso. apply Hn. exists x, r. split; [left; lia|]. unfold utf8_char. rewrite (proj2 (N.ltb_lt x 128) Hx). reflexivity. }
  assert (L : forall c t, scalar c -> utf8_char c = x :: t ->
    (between 194 223 x = true /\ exists y, t = [y] /\ cont y = true) \/
    (between 224 239 x = true /\ exists y z, t = [y; z] /\ second3 x y = true /\ cont z = true) \/
    (between 240 244 x = true /\ exists y z w, t = [y; z; w] /\ second4 x y = true /\ cont z = true /\ cont w = true)).
  { intros c t Hc He. destruct (lead c x t Hc He) as [[H _]|H]; [lia | exact H]. }
  destruct (between 194 223 x) eqn:E2.
  { assert (E3 : between 224 239 x = false) by (apply between_iff in E2; apply between_false_l; lia).
    assert (E4 : between 240 244 x = false) by (apply between_iff in E2; apply between_false_l; lia).
    exists 1%nat. split; [lia|]. destruct r as [|y r1].
    { split; [reflexivity|]. split; [left; reflexivity|]. intros k' Hk. cbn [length] in Hk. lia. }
    destruct (cont y) eqn:Ey.
    { exfalso. apply Hn. destruct (enc2 x y E2 Ey) as (c & Hc & He). exists c, r1. split; [exact Hc|]. rewrite He. reflexivity. }
    split; [reflexivity|]. split; [left; reflexivity|]. intros k' Hk Hb. apply (no_begin k' x (y :: r1)); [exact Hb | lia|].
    intros c t' Hc He _. destruct (L _ _ Hc He) as [(_ & y' & Et & Hy)|[(E & _)|(E & _)]]; [|congruence|congruence].
    destruct k' as [|[|k']]; [lia|lia|]. cbn in Et. inversion Et; subst. congruence. }
  destruct (between 224 239 x) eqn:E3.
  { assert (E4 : between 240 244 x = false) by (apply between_iff in E3; apply between_false_l; lia).
    fold (second3 x). destruct r as [|y r1].
    { exists 1%nat. split; [cbn [length]; lia|]. split; [reflexivity|]. split; [left; reflexivity|]. intros k' Hk. cbn [length] in Hk. lia. }
    change (if x =? 224 then between 160 191 y else if x =? 237 then between 128 159 y else cont y) with (second3 x y).
    destruct (second3 x y) eqn:Ey.
    2:{ exists 1%nat. split; [cbn [length]; lia|]. split; [reflexivity|]. split; [left; reflexivity|].
      intros k' Hk Hb. apply (no_begin k' x (y :: r1)); [exact Hb | lia|].
      intros c t' Hc He _. destruct (L _ _ Hc He) as [(E & _)|[(_ & y' & z' & Et & Hy & _)|(E & _)]]; [congruence| |congruence].
      destruct k' as [|[|k']]; [lia|lia|]. cbn in Et. inversion Et; subst. congruence. }
    assert (B : begins [x; y]).
    { destruct (enc3 x y 128 E3 Ey eq_refl) as (c & Hc & He). exists c, [128]. split; [exact Hc|]. split; [discriminate | exact He]. }
    destruct r1 as [|z r2].
    { exists 2%nat. split; [cbn [length]; lia|]. split; [reflexivity|]. split; [right; exact B|]. intros k' Hk. cbn [length] in Hk. lia. }
    destruct (cont z) eqn:Ez.
    { exfalso. apply Hn. destruct (enc3 x y z E3 Ey Ez) as (c & Hc & He). exists c, r2. split; [exact Hc|]. rewrite He. reflexivity. }
    exists 2%nat. split; [cbn [length]; lia|]. split; [reflexivity|]. split; [right; exact B|].
    intros k' Hk Hb. apply (no_begin k' x (y :: z :: r2)); [exact Hb | lia|].
    intros c t' Hc He Ht. destruct (L _ _ Hc He) as [(E & _)|[(_ & y' & z' & Et & _ & Hz)|(E & _)]]; [congruence| |congruence].
    destruct k' as [|[|[|k']]]; [lia|lia|lia|]. cbn in Et. inversion Et; subst. congruence. }
  destruct (between 240 244 x) eqn:E4.
  2:{ exists 1%nat. split; [lia|]. split; [reflexivity|]. split; [left; reflexivity|].
    intros k' Hk Hb. apply (no_begin k' x r); [exact Hb | lia|].
    intros c t' Hc He _. destruct (L _ _ Hc He) as [(E & _)|[(E & _)|(E & _)]]; congruence. }
  destruct r as [|y r1].
  { exists 1%nat. split; [cbn [length]; lia|]. split; [reflexivity|]. split; [left; reflexivity|]. intros k' Hk. cbn [length] in Hk. lia. }
  change (if x =? 240 then between 144 191 y else if x =? 244 then between 128 143 y else cont y) with (second4 x y).
  destruct (second4 x y) eqn:Ey.
  2:{ exists 1%nat. split; [cbn [length]; lia|]. split; [reflexivity|]. split; [left; reflexivity|].
    intros k' Hk Hb. apply (no_begin k' x (y :: r1)); [exact Hb | lia|].
    intros c t' Hc He _. destruct (L _ _ Hc He) as [(E & _)|[(E & _)|(_ & y' & z' & w' & Et & Hy & _)]]; [congruence|congruence|].
    destruct k' as [|[|k']]; [lia|lia|]. cbn in Et. inversion Et; subst. congruence. }
  assert (B : begins [x; y]).
  { destruct (enc4 x y 128 128 E4 Ey eq_refl eq_refl) as (c & Hc & He). exists c, [128; 128]. split; [exact Hc|]. split; [discriminate | exact He]. }
  destruct r1 as [|z r2].
  { exists 2%nat. split; [cbn [length]; lia|]. split; [reflexivity|]. split; [right; exact B|]. intros k' Hk. cbn [length] in Hk. lia. }
  destruct (cont z) eqn:Ez.
  2:{ exists 2%nat. split; [cbn [length]; lia|]. split; [reflexivity|]. split; [right; exact B|].
    intros k' Hk Hb. apply (no_begin k' x (y :: z :: r2)); [exact Hb | lia|].
    intros c t' Hc He Ht. destruct (L _ _ Hc He) as [(E & _)|[(E & _)|(_ & y' & z' & w' & Et & _ & Hz & _)]]; [congruence|congruence|].
    destruct k' as [|[|[|k']]]; [lia|lia|lia|]. cbn in Et. inversion Et; subst. congruence. }
  assert (B3 : begins [x; y; z]).
  { destruct (enc4 x y z 128 E4 Ey Ez eq_refl) as (c & Hc & He). exists c, [128]. split; [exact Hc|]. split; [discriminate | exact He]. }
  destruct r2 as [|w r3].
  { exists 3%nat. split; [cbn [length]; lia|]. split; [reflexivity|]. split; [right; exact B3|]. intros k' Hk. cbn [length] in Hk. lia. }
  destruct (cont w) eqn:Ew.
  { exfalso. apply Hn. destruct (enc4 x y z w E4 Ey Ez Ew) as (c & Hc & He). exists c, r3. split; [exact Hc|]. rewrite He. reflexivity. }
  exists 3%nat. split; [cbn [length]; lia|]. split; [reflexivity|]. split; [right; exact B3|].
  intros k' Hk Hb. apply (no_begin k' x (y :: z :: w :: r3)); [exact Hb | lia|].
  intros c t' Hc He Ht. destruct (L _ _ Hc He) as [(E & _)|[(E & _)|(_ & y' & z' & w' & Et & _ & _ & Hw)]]; [congruence|congruence|].
  destruct k' as [|[|[|[|k']]]]; [lia|lia|lia|lia|]. cbn in Et. inversion Et; subst. congruence.
Qed.
Lemma fin_72_bytes : exists b b', Forall byte b /\ Forall byte b' /\ b <> b' /\ is_utf8 b' /\ adjust_unix b = adjust_unix b' /\
  b = utf8 (lit "/r/caf") ++ [233] ++ utf8 (lit "/x.js").
Proof.
  exists (utf8 (lit "/r/caf") ++ [233] ++ utf8 (lit "/x.js")), (utf8 (lit "/r/caf" ++ [replacement] ++ lit "/x.js")).
  split; [repeat constructor|]. split; [repeat constructor|]. split; [vm_compute; discriminate|].
  split; [|split; [vm_compute; reflexivity | reflexivity]].
  eexists. split; [|reflexivity]. apply Forall_forall. intros c Hc. vm_compute in Hc. unfold scalar.
  repeat (destruct Hc as [<-|Hc]; [lia|]). contradiction.
Qed.

Lemma utf8_app s t : utf8 (s ++ t) = utf8 s ++ utf8 t.
Proof. apply flat_map_app. Qed.
Lemma fin_72_ext : forall p ext, append_ext_unix p ext = p ++ utf8 ext <-> is_utf8 p.
Proof.
  intros p ext. unfold append_ext_unix. rewrite utf8_app, <- fin_72_exact. split.
  - intros H. apply app_inv_tail in H. exact H.
  - intros H. f_equal. exact H.
Qed.

Lemma fin_72_drive : forall p c rest, win_canonical p (Drive c) rest -> exists q, adjust_windows p = Some q /\ win_plain q (Drive c) rest.
Proof.
  intros p c rest H. inversion H; subst. eexists. split; [|apply PlainDrive; assumption]. reflexivity.
Qed.
Lemma fin_72_share : forall p a b rest, win_canonical p (Share a b) rest -> exists q, adjust_windows p = Some q /\
  q = lit "UNC\" ++ a ++ lit "\" ++ b ++ lit "\" ++ rest /\ forall r rest', ~ win_plain q r rest' /\ ~ win_canonical q r rest'.
Proof.
  intros p a b rest H. inversion H; subst. eexists. split; [reflexivity|]. split; [reflexivity|].
  intros r rest'. split; intros X; inversion X; discriminate.
Qed.
Lemma fin_72_other : forall p r rest, win_plain p r rest -> adjust_windows p = Some p.
Proof.
  intros p r rest H. inversion H as [c rest0 Hc|a b rest0 Ha Hb]; subst.
  - unfold adjust_windows. replace (starts_with _ _) with false; [reflexivity|]. symmetry. cbn.
    replace (c =? 92) with false; [reflexivity|]. symmetry. apply N.eqb_neq. unfold letter in Hc. lia.
  - unfold adjust_windows. replace (starts_with _ _) with false; [reflexivity|]. symmetry. cbn.
    destruct Ha as (H1 & H2 & _ & H3). destruct a as [|x a']; [congruence|]. cbn.
    destruct (N.eqb_spec x 63) as [->|]; [|reflexivity]. destruct a' as [|y a'']; [exfalso; apply H2; reflexivity|].
    cbn. destruct (N.eqb_spec y 92) as [->|]; [|reflexivity]. exfalso. apply H3. right. left. reflexivity.
Qed.
Lemma ex72w : adjust_windows (lit "\\?\C:\r\a.js") = Some (lit "C:\r\a.js") /\
  win_canonical (lit "\\?\UNC\nas\src\r\a.js") (Share (lit "nas") (lit "src")) (lit "r\a.js") /\
  adjust_windows (lit "\\?\UNC\nas\src\r\a.js") = Some (lit "UNC\nas\src\r\a.js").
Proof.
  split; [reflexivity|]. split; [|reflexivity].
  apply (CanonShare (lit "nas") (lit "src") (lit "r\a.js")); (split; [discriminate|split; [discriminate|split; [discriminate|]]]);
    intros Hc; vm_compute in Hc; repeat (destruct Hc as [Hc|Hc]; [discriminate|]); contradiction.
Qed.
